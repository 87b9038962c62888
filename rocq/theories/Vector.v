(** Model of src/vector/mod.rs and src/vector/into_iter.rs. *)
From Verif Require Import Base Heap Alloc.

(** The three pointers of [Vector], src/vector/mod.rs:25-27. *)
Record vec : Type := Vec { v_begin : ptr; v_end : ptr; v_cap : ptr }.

(** The world a vector method runs in: the vector (src/vector/mod.rs:21-30, its
    allocator in [st_a]), the heap, and the log of dropped elements. *)
Record vstate (A T : Type) : Type := VState {
  st_v : vec;
  st_a : A;
  st_h : heap T;
  st_drops : list T
}.
Arguments VState {A T}.
Arguments st_v {A T}.
Arguments st_a {A T}.
Arguments st_h {A T}.
Arguments st_drops {A T}.

Section vector.
Context {A T : Type}.
Variable AI : AllocImpl A T.
(** [size_of::<T>()], [align_of::<T>()]. *)
Variables sz al : Z.
(** Integer overflow checks on? *)
Variable chk : bool.
(** [mem::needs_drop::<T>()]: does dropping a [T] run code? *)
Variable needs_drop : bool.
(** [T::clone]; [None] means it panics. *)
Variable clone : T -> option T.

Notation st := (vstate A T).

Definition set_v (v : vec) : M st unit :=
  modify (fun s => VState v (st_a s) (st_h s) (st_drops s)).
Definition set_h (h : heap T) : M st unit :=
  modify (fun s => VState (st_v s) (st_a s) h (st_drops s)).
(** The destructor of [x] runs (if the type has one). *)
Definition log_drop (x : T) (s : st) : st :=
  VState (st_v s) (st_a s) (st_h s) (st_drops s ++ (if needs_drop then [x] else [])).

(** A heap operation that is undefined on [None]. *)
Definition on_heap (f : heap T -> option (heap T)) : M st unit :=
  do h <- gets st_h; do h' <- or_ub (f h); set_h h'.
Definition from_heap {B} (f : heap T -> option B) : M st B :=
  do h <- gets st_h; or_ub (f h).

Definition lift_alloc {B} (m : M (A * heap T) B) : M st B := fun s =>
  match m (st_a s, st_h s) with
  | Ok b (a, h) => Ok b (VState (st_v s) a h (st_drops s))
  | Panic (a, h) => Panic (VState (st_v s) a h (st_drops s))
  | UB => UB
  end.

(** src/allocator.rs:15-21, [Allocator::allocate]. *)
Definition allocate (n : nat) : M st ptr :=
  do bytes <- usize chk (Z.of_nat n * sz);
  lift_alloc (ai_alloc AI sz (Z.of_nat bytes) al).

(** src/allocator.rs:47-53, [Allocator::deallocate]. *)
Definition deallocate (p : ptr) (n : nat) : M st unit :=
  do bytes <- usize chk (Z.of_nat n * sz);
  lift_alloc (ai_free AI p (Z.of_nat bytes) al).

(** [p.offset_from(q) as usize]; panics for zero-sized types. *)
Definition offset_from (p q : ptr) : M st nat :=
  if (sz =? 0)%Z then panic else or_ub (pdiff p q).

(** src/vector/mod.rs:56-64, [Vector::new_in]. *)
Definition new_in : vec := Vec Null Null Null.

(** src/vector/mod.rs:117-119, [Vector::len]. *)
Definition len : M st nat :=
  do v <- gets st_v; offset_from (v_end v) (v_begin v).

(** src/vector/mod.rs:84-86, [Vector::capacity]. *)
Definition capacity : M st nat :=
  do v <- gets st_v; offset_from (v_cap v) (v_begin v).

(** src/vector/mod.rs:67-73, [Vector::as_slice]; also [as_slice_mut] (75-81)
    followed by reading every element. *)
Definition as_slice : M st (list T) :=
  do v <- gets st_v;
  if is_null (v_begin v) then ret []
  else do n <- len; from_heap (fun h => hslice h (v_begin v) n).

(** src/vector/mod.rs:107-109, [Vector::is_empty]. *)
Definition is_empty : M st bool := do n <- len; ret (n =? 0).

(** src/vector/mod.rs:112-114, [Vector::is_full]. *)
Definition is_full : M st bool := do n <- len; do c <- capacity; ret (n =? c).

(** [ptr::drop_in_place] of one place: if the type has a destructor it runs on
    the element there (undefined if the place is uninitialised) and leaves the
    place uninitialised; otherwise nothing happens. *)
Definition drop_place (p : ptr) : M st unit :=
  if needs_drop then
    do x <- from_heap (fun h => hload h p);
    run modify (log_drop x);
    on_heap (fun h => hput h p [None])
  else ret tt.

(** [ptr::drop_in_place] of a slice of [n] elements. *)
Fixpoint drop_places (p : ptr) (n : nat) : M st unit :=
  match n with
  | O => ret tt
  | S n' => run drop_place p;
            do q <- from_heap (fun h => hadd h p 1);
            drop_places q n'
  end.

(** src/vector/mod.rs:89-104, [Vector::clear]; also [Drop for Vector], 333-335. *)
Definition clear : M st unit :=
  do v <- gets st_v;
  if! negb (is_null (v_begin v)) then
    (do n <- len;
     run drop_places (v_begin v) n;
     do c <- capacity;
     deallocate (v_begin v) c);
  set_v (Vec Null Null Null).

(** src/vector/mod.rs:227-229, [decrement_size]. *)
Definition decrement_size : M st unit :=
  do v <- gets st_v;
  do e <- from_heap (fun h => hsub h (v_end v) 1);
  set_v (Vec (v_begin v) e (v_cap v)).

(** src/vector/mod.rs:232-234, [increment_size]. *)
Definition increment_size : M st unit :=
  do v <- gets st_v;
  do e <- from_heap (fun h => hadd h (v_end v) 1);
  set_v (Vec (v_begin v) e (v_cap v)).

(** src/vector/mod.rs:203-224, [Vector::reserve]. *)
Definition reserve (additional : nat) : M st unit :=
  if additional =? 0 then ret tt
  else
    do size <- len;
    do c <- capacity;
    do new_capacity <- usize chk (Z.of_nat c + Z.of_nat additional);
    do p <- allocate new_capacity;
    do v <- gets st_v;
    if! negb (is_null (v_begin v)) then
      (run on_heap (fun h => hcopy h (v_begin v) p size);
       do c <- capacity;
       deallocate (v_begin v) c);
    do e <- from_heap (fun h => hadd h p size);
    do k <- from_heap (fun h => hadd h p new_capacity);
    set_v (Vec p e k).

(** src/vector/mod.rs:241-247, [calculate_grow_capacity]. *)
Definition calculate_grow_capacity (old_capacity : nat) : M st nat :=
  if old_capacity =? 0 then ret 1 else usize chk (Z.of_nat old_capacity * 2).

(** src/vector/mod.rs:250-254, [Vector::grow]. *)
Definition grow : M st unit :=
  do c <- capacity;
  do new_capacity <- calculate_grow_capacity c;
  do c <- capacity;
  do d <- usize chk (Z.of_nat new_capacity - Z.of_nat c);
  reserve d.

(** src/vector/mod.rs:126-136, [Vector::push].  The argument is dropped by
    unwinding if growing panics. *)
Definition push (elem : T) : M st unit :=
  on_unwind (log_drop elem) (
    do f <- is_full;
    if! f then grow;
    do v <- gets st_v;
    run on_heap (fun h => hstore h (v_end v) elem);
    increment_size).

(** src/vector/mod.rs:139-149, [Vector::pop]. *)
Definition pop : M st (option T) :=
  do e <- is_empty;
  if e then ret None
  else
    run decrement_size;
    do v <- gets st_v;
    do x <- from_heap (fun h => hload h (v_end v));
    ret (Some x).

(** src/vector/mod.rs:159-174, [Vector::insert]. *)
Definition insert (index : nat) (elem : T) : M st unit :=
  on_unwind (log_drop elem) (
    do n <- len;
    if! negb (index <=? n) then panic;
    do f <- is_full;
    if! f then grow;
    do v <- gets st_v;
    do src <- from_heap (fun h => hadd h (v_begin v) index);
    do dst <- from_heap (fun h => hadd h (v_begin v) (index + 1));
    do n <- len;
    do k <- usize chk (Z.of_nat n - Z.of_nat index);
    run on_heap (fun h => hcopy h src dst k);
    run on_heap (fun h => hstore h src elem);
    increment_size).

(** src/vector/mod.rs:181-196, [Vector::remove]. *)
Definition remove (index : nat) : M st (option T) :=
  do n <- len;
  if n <=? index then ret None
  else
    do v <- gets st_v;
    do p <- from_heap (fun h => hadd h (v_begin v) index);
    do res <- from_heap (fun h => hload h p);
    run decrement_size;
    do src <- from_heap (fun h => hadd h (v_begin v) (index + 1));
    do n <- len;
    do k <- usize chk (Z.of_nat n - Z.of_nat index);
    run on_heap (fun h => hcopy h src p k);
    ret (Some res).

(** [slice::clone_from_slice] on the places starting at [p]: each place [x]
    runs [*x = src.clone()], i.e. clone, drop the old value, write. *)
Fixpoint clone_from_slice (p : ptr) (buf : list T) : M st unit :=
  match buf with
  | [] => ret tt
  | x :: buf' =>
    match clone x with
    | None => panic
    | Some y =>
      run drop_place p;
      run on_heap (fun h => hstore h p y);
      do q <- from_heap (fun h => hadd h p 1);
      clone_from_slice q buf'
    end
  end.

(** src/vector/mod.rs:280-292, [Vector::append].  [as_slice_mut()] of a null
    vector is the empty slice. *)
Definition append (buf : list T) : M st unit :=
  do old_len <- len;
  do new_len <- usize chk (Z.of_nat old_len + Z.of_nat (length buf));
  do c <- capacity;
  if! c <? new_len then
    (do c <- capacity;
     do d <- usize chk (Z.of_nat new_len - Z.of_nat c);
     reserve d);
  do v <- gets st_v;
  do e <- from_heap (fun h => hadd h (v_end v) (length buf));
  run set_v (Vec (v_begin v) e (v_cap v));
  if is_null (v_begin v) then clone_from_slice Null buf
  else
    do p <- from_heap (fun h => hadd h (v_begin v) old_len);
    clone_from_slice p buf.

(** src/vector/mod.rs:299-308, [Vector::assign]. *)
Definition assign (buf : list T) : M st unit :=
  do c <- capacity;
  if! c <? length buf then
    (do c <- capacity;
     do d <- usize chk (Z.of_nat (length buf) - Z.of_nat c);
     reserve d);
  do v <- gets st_v;
  do e <- from_heap (fun h => hadd h (v_begin v) (length buf));
  run set_v (Vec (v_begin v) e (v_cap v));
  clone_from_slice (v_begin v) buf.

(** [v[index] = elem] through [DerefMut] (src/vector/mod.rs:351-355): panics out
    of range (then unwinding drops [elem]), else drops the old element. *)
Definition index_set (index : nat) (elem : T) : M st unit :=
  on_unwind (log_drop elem) (
    do v <- gets st_v;
    do n <- (if is_null (v_begin v) then ret 0 else len);
    if! negb (index <? n) then panic;
    do p <- from_heap (fun h => hadd h (v_begin v) index);
    run drop_place p;
    on_heap (fun h => hstore h p elem)).

(** [v.swap(i, j)] through [DerefMut]. *)
Definition swap (i j : nat) : M st unit :=
  do v <- gets st_v;
  do n <- (if is_null (v_begin v) then ret 0 else len);
  if! negb ((i <? n) && (j <? n)) then panic;
  do p <- from_heap (fun h => hadd h (v_begin v) i);
  do q <- from_heap (fun h => hadd h (v_begin v) j);
  do x <- from_heap (fun h => hload h p);
  do y <- from_heap (fun h => hload h q);
  run on_heap (fun h => hstore h p y);
  on_heap (fun h => hstore h q x).

(** A constructor: [m] works on a fresh local vector, which is returned, or
    dropped by unwinding if [m] panics (a panic in that destructor would abort;
    reported as UB).  The state's own vector is left as it was. *)
Definition build (m : M st unit) : M st vec := fun s =>
  let back s' := VState (st_v s) (st_a s') (st_h s') (st_drops s') in
  match m (VState new_in (st_a s) (st_h s) (st_drops s)) with
  | Ok _ s' => Ok (st_v s') (back s')
  | Panic s' => match clear s' with Ok _ s'' => Panic (back s'') | _ => UB end
  | UB => UB
  end.

(** src/vector/mod.rs:43-47, [Vector::with_capacity]. *)
Definition with_capacity (n : nat) : M st vec := build (reserve n).

(** src/vector/mod.rs:269-273 [from_in], 357-371 and 384-390 [From<&[T]>]. *)
Definition from_in (buf : list T) : M st vec := build (assign buf).

(** The elements an iterator still owns are dropped when it is. *)
Definition log_drops (xs : list T) (s : st) : st := fold_left (fun s x => log_drop x s) xs s.

(** [for elem in iter { v.push(elem) }]; unwinding drops the iterator. *)
Fixpoint push_all (xs : list T) : M st unit :=
  match xs with
  | [] => ret tt
  | x :: xs' => run on_unwind (log_drops xs') (push x); push_all xs'
  end.

(** src/vector/mod.rs:373-382 [From<[T; N]>] ([hint] is the array length) and
    392-402 [FromIterator] ([hint] is the lower bound of [size_hint]).  The
    iterator is taken to own all elements from the start. *)
Definition from_iter (hint : nat) (xs : list T) : M st vec :=
  build (run on_unwind (log_drops xs) (reserve hint); push_all xs).

(** src/vector/mod.rs:317-321, [Vector::clone]. *)
Definition clone_vec : M st vec :=
  do xs <- as_slice; from_in xs.

(** ** The calls a user can make, and what they observe *)

Inductive call : Type :=
| CPush (x : T) | CPop | CInsert (i : nat) (x : T) | CRemove (i : nat)
| CReserve (n : nat) | CClear | CAppend (buf : list T) | CAssign (buf : list T)
| CSet (i : nat) (x : T) | CSwap (i j : nat)
| CLen | CCapacity | CIsEmpty | CIsFull | CAsSlice.

Inductive answer : Type :=
| AUnit | AOpt (o : option T) | ANat (n : nat) | ABool (b : bool)
| ASlice (xs : list T) | APanic.

Definition exec (c : call) : M st answer :=
  match c with
  | CPush x => run push x; ret AUnit
  | CPop => do o <- pop; ret (AOpt o)
  | CInsert i x => run insert i x; ret AUnit
  | CRemove i => do o <- remove i; ret (AOpt o)
  | CReserve n => run reserve n; ret AUnit
  | CClear => run clear; ret AUnit
  | CAppend buf => run append buf; ret AUnit
  | CAssign buf => run assign buf; ret AUnit
  | CSet i x => run index_set i x; ret AUnit
  | CSwap i j => run swap i j; ret AUnit
  | CLen => do n <- len; ret (ANat n)
  | CCapacity => do n <- capacity; ret (ANat n)
  | CIsEmpty => do b <- is_empty; ret (ABool b)
  | CIsFull => do b <- is_full; ret (ABool b)
  | CAsSlice => do xs <- as_slice; ret (ASlice xs)
  end.

(** One call whose panic, if any, is caught by the caller; [None] is UB. *)
Definition step (c : call) (s : st) : option (answer * st) :=
  match exec c s with
  | Ok a s' => Some (a, s')
  | Panic s' => Some (APanic, s')
  | UB => None
  end.

Fixpoint run_calls (cs : list call) (s : st) : option (list answer * st) :=
  match cs with
  | [] => Some ([], s)
  | c :: cs' =>
    match step c s with
    | None => None
    | Some (a, s') =>
      match run_calls cs' s' with
      | None => None
      | Some (l, s'') => Some (a :: l, s'')
      end
    end
  end.

(** ** Programs with any number of vectors over one heap *)

(** The live vectors, in order of creation. *)
Record world : Type := World {
  w_vecs : list vec; w_a : A; w_h : heap T; w_drops : list T
}.

(** Constructors append a vector (unless they panic); [WCall i c] calls [c] on
    the [i]-th vector.  Dropping a vector is [CClear] on it. *)
Inductive wop : Type :=
| WNew | WWithCapacity (n : nat) | WFrom (buf : list T) | WIter (hint : nat) (xs : list T)
| WClone (i : nat) | WCall (i : nat) (c : call).

Definition w_build (w : world) (r : outcome st vec) : option (answer * world) :=
  match r with
  | Ok v s' => Some (AUnit, World (w_vecs w ++ [v]) (st_a s') (st_h s') (st_drops s'))
  | Panic s' => Some (APanic, World (w_vecs w) (st_a s') (st_h s') (st_drops s'))
  | UB => None
  end.

Definition w_step (o : wop) (w : world) : option (answer * world) :=
  let at_ v := VState v (w_a w) (w_h w) (w_drops w) in
  match o with
  | WNew => w_build w (Ok new_in (at_ new_in))
  | WWithCapacity n => w_build w (with_capacity n (at_ new_in))
  | WFrom buf => w_build w (from_in buf (at_ new_in))
  | WIter hint xs => w_build w (from_iter hint xs (at_ new_in))
  | WClone i => match w_vecs w !! i with
                | Some v => w_build w (clone_vec (at_ v))
                | None => None
                end
  | WCall i c => match w_vecs w !! i with
                 | Some v => match step c (at_ v) with
                             | Some (a, s') => Some (a, World (<[i := st_v s']> (w_vecs w))
                                                 (st_a s') (st_h s') (st_drops s'))
                             | None => None
                             end
                 | None => None
                 end
  end.

Fixpoint w_run (os : list wop) (w : world) : option (list answer * world) :=
  match os with
  | [] => Some ([], w)
  | o :: os' =>
    match w_step o w with
    | None => None
    | Some (a, w') =>
      match w_run os' w' with
      | None => None
      | Some (l, w'') => Some (a :: l, w'')
      end
    end
  end.

End vector.

Arguments World {A T}.
Arguments w_vecs {A T}.
Arguments w_a {A T}.
Arguments w_h {A T}.
Arguments w_drops {A T}.
Arguments wop : clear implicits.

Arguments call : clear implicits.
Arguments answer : clear implicits.

(** ** Consuming iterator, src/vector/into_iter.rs *)

(** [IntoIter], src/vector/into_iter.rs:8-14.  The buffer pointer and the
    capacity pointer stay fixed; only the cursors move. *)
Record into_iter : Type := IntoIter {
  ii_begin : ptr; ii_cap : ptr; ii_front : ptr; ii_back : ptr
}.

Record istate (A T : Type) : Type := IState { is_it : into_iter; is_st : vstate A T }.
Arguments IState {A T}.
Arguments is_it {A T}.
Arguments is_st {A T}.

Section into_iter.
Context {A T : Type}.
Variable AI : AllocImpl A T.
Variables sz al : Z.
Variable chk needs_drop : bool.

Notation st := (vstate A T).
Notation ist := (istate A T).

(** src/vector/mod.rs:408-424, [into_iter]: takes over the buffer; the vector
    itself is forgotten, which the model shows by nulling its pointers. *)
Definition vec_into_iter : st -> ist := fun s =>
  IState (IntoIter (v_begin (st_v s)) (v_cap (st_v s)) (v_begin (st_v s)) (v_end (st_v s)))
         (VState (Vec Null Null Null) (st_a s) (st_h s) (st_drops s)).

Definition on_st {B} (m : M st B) : M ist B := fun s =>
  match m (is_st s) with
  | Ok b s' => Ok b (IState (is_it s) s')
  | Panic s' => Panic (IState (is_it s) s')
  | UB => UB
  end.
Definition set_it (it : into_iter) : M ist unit := modify (fun s => IState it (is_st s)).

(** src/vector/into_iter.rs:46-48. *)
Definition ii_len : M ist nat :=
  do it <- gets is_it; on_st (offset_from sz (ii_back it) (ii_front it)).

(** src/vector/into_iter.rs:36-38. *)
Definition ii_capacity : M ist nat :=
  do it <- gets is_it; on_st (offset_from sz (ii_cap it) (ii_begin it)).

(** src/vector/into_iter.rs:41-43. *)
Definition ii_is_empty : M ist bool := do n <- ii_len; ret (n =? 0).

(** src/vector/into_iter.rs:18-24 (and 27-33). *)
Definition ii_as_slice : M ist (list T) :=
  do it <- gets is_it;
  if is_null (ii_front it) then ret []
  else do n <- ii_len; on_st (from_heap (fun h => hslice h (ii_front it) n)).

(** src/vector/into_iter.rs:68-78. *)
Definition ii_next : M ist (option T) :=
  do e <- ii_is_empty;
  if e then ret None
  else
    do it <- gets is_it;
    do x <- on_st (from_heap (fun h => hload h (ii_front it)));
    do f <- on_st (from_heap (fun h => hadd h (ii_front it) 1));
    run set_it (IntoIter (ii_begin it) (ii_cap it) f (ii_back it));
    ret (Some x).

(** src/vector/into_iter.rs:82-92. *)
Definition ii_next_back : M ist (option T) :=
  do e <- ii_is_empty;
  if e then ret None
  else
    do it <- gets is_it;
    do k <- on_st (from_heap (fun h => hsub h (ii_back it) 1));
    run set_it (IntoIter (ii_begin it) (ii_cap it) (ii_front it) k);
    do x <- on_st (from_heap (fun h => hload h k));
    ret (Some x).

(** src/vector/into_iter.rs:52-62, [Drop for IntoIter]. *)
Definition ii_drop : M ist unit :=
  do it <- gets is_it;
  if is_null (ii_begin it) then ret tt
  else
    do n <- (if is_null (ii_front it) then ret 0 else ii_len);
    run on_st (drop_places needs_drop (ii_front it) n);
    do c <- ii_capacity;
    on_st (deallocate AI sz al chk (ii_begin it) c).

(** One observation of the iterator. *)
Inductive icall : Type := INext | INextBack | ILen | IIsEmpty | IAsSlice | ICapacity.
Inductive ianswer : Type := IAOpt (o : option T) | IANat (n : nat) | IABool (b : bool) | IASlice (l : list T).

Definition iexec (c : icall) : M ist ianswer :=
  match c with
  | INext => do o <- ii_next; ret (IAOpt o)
  | INextBack => do o <- ii_next_back; ret (IAOpt o)
  | ILen => do n <- ii_len; ret (IANat n)
  | IIsEmpty => do b <- ii_is_empty; ret (IABool b)
  | IAsSlice => do l <- ii_as_slice; ret (IASlice l)
  | ICapacity => do n <- ii_capacity; ret (IANat n)
  end.

Fixpoint irun (cs : list icall) : M ist (list ianswer) :=
  match cs with
  | [] => ret []
  | c :: cs' => do a <- iexec c; do l <- irun cs'; ret (a :: l)
  end.

End into_iter.
