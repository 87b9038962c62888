(** Model of src/deque/mod.rs, src/deque/iter.rs, src/queue.rs and
    src/util.rs.

    Simplifications: the allocator is [DefaultAllocator]; one heap holds both the
    arrays of elements and the array of pointers to them, with a cell for an
    element or a pointer; loops get fuel, running out counts as undefined behaviour
    (so the theorems exclude it); [isize] products in [len] are exact.  Creating a
    [&mut] slice over fresh memory is not by itself undefined here.  The two mutable
    iterators [remove] builds over the same elements are plain pointers here
    (Rust's aliasing rules are not modelled). *)
From Verif Require Import Base Heap Alloc.

(** Contents of memory: a slot of the pointer array, or an element. *)
Inductive dcell (T : Type) : Type := DPtr (p : ptr) | DElem (x : T).
Arguments DPtr {T}.
Arguments DElem {T}.

(** src/deque/iter.rs:9-16 and 45-52, [CompatIter] and [CompatIterMut]. *)
Record dit : Type := DIt { di_cur : ptr; di_begin : ptr; di_end : ptr; di_arr : ptr }.

(** src/deque/iter.rs:101-108, [RawIter]. *)
Record raw_iter : Type := RawIter {
  ri_cur : ptr; ri_arr : ptr; ri_last : ptr; ri_last_arr : ptr; ri_n : nat
}.

(** src/deque/mod.rs:14-20 with the heap and the log of dropped elements. *)
Record dstate (T : Type) : Type := DState {
  d_arr : ptr;
  d_size : Z;
  d_b : dit;
  d_e : dit;
  d_h : heap (dcell T);
  d_drops : list T
}.
Arguments DState {T}.
Arguments d_arr {T}.
Arguments d_size {T}.
Arguments d_b {T}.
Arguments d_e {T}.
Arguments d_h {T}.
Arguments d_drops {T}.

(** src/deque/mod.rs:294-307, [calculate_subarray_size]. *)
Definition subarray_size (elem_size : Z) : nat :=
  if (elem_size <=? 4)%Z then 64
  else if (elem_size <=? 8)%Z then 32
  else if (elem_size <=? 16)%Z then 16
  else if (elem_size <=? 32)%Z then 8
  else 4.

(** src/deque/mod.rs:33. *)
Definition INITIAL_PTR_ARRAY_SIZE : Z := 8.

Section deque.
Context {T : Type}.
(** [size_of::<T>()] and [align_of::<T>()]. *)
Variables sz al : Z.
Variable chk : bool.

Local Notation dstate := (dstate T).
Local Notation SUB := (subarray_size sz).

Definition set_h (h : heap (dcell T)) : M dstate unit :=
  modify (fun s => DState (d_arr s) (d_size s) (d_b s) (d_e s) h (d_drops s)).
Definition set_arr (p : ptr) (n : Z) : M dstate unit :=
  modify (fun s => DState p n (d_b s) (d_e s) (d_h s) (d_drops s)).
Definition set_b (i : dit) : M dstate unit :=
  modify (fun s => DState (d_arr s) (d_size s) i (d_e s) (d_h s) (d_drops s)).
Definition set_e (i : dit) : M dstate unit :=
  modify (fun s => DState (d_arr s) (d_size s) (d_b s) i (d_h s) (d_drops s)).
Definition logged (l : list T) (s : dstate) : dstate :=
  DState (d_arr s) (d_size s) (d_b s) (d_e s) (d_h s) (d_drops s ++ l).

(** Memory access. *)
Definition store (p : ptr) (c : dcell T) : M dstate unit :=
  do h <- gets d_h; do h' <- or_ub (hstore h p c); set_h h'.
Definition read_ptr (p : ptr) : M dstate ptr :=
  do h <- gets d_h;
  match hload h p with Some (DPtr q) => ret q | _ => ub end.
Definition read_elem (p : ptr) : M dstate T :=
  do h <- gets d_h;
  match hload h p with Some (DElem x) => ret x | _ => ub end.
Definition add (p : ptr) (n : nat) : M dstate ptr := do h <- gets d_h; or_ub (hadd h p n).
Definition sub (p : ptr) (n : nat) : M dstate ptr := do h <- gets d_h; or_ub (hsub h p n).

(** src/allocator.rs:15-21 and 47-53 with the default allocator. *)
Definition allocate (csz cal : Z) (n : Z) : M dstate ptr := fun s =>
  match default_alloc csz (n * csz) cal (tt, d_h s) with
  | Ok p (_, h) => Ok p (DState (d_arr s) (d_size s) (d_b s) (d_e s) h (d_drops s))
  | Panic _ => Panic s
  | UB => UB
  end.
Definition deallocate (p : ptr) (csz cal : Z) (n : Z) : M dstate unit := fun s =>
  match default_free p (n * csz) cal (tt, d_h s) with
  | Ok _ (_, h) => Ok tt (DState (d_arr s) (d_size s) (d_b s) (d_e s) h (d_drops s))
  | Panic _ => Panic s
  | UB => UB
  end.

(** src/deque/mod.rs:262-269, [allocate_ptr_array]. *)
Definition allocate_ptr_array (n : Z) : M dstate ptr := allocate 8 8 n.
(** src/deque/mod.rs:272-274, [allocate_subarray]. *)
Definition allocate_subarray : M dstate ptr := allocate sz al (Z.of_nat SUB).
(** src/deque/mod.rs:277-282, [free_ptr_array]. *)
Definition free_ptr_array : M dstate unit :=
  do s <- gets id; deallocate (d_arr s) 8 8 (d_size s).
(** src/deque/mod.rs:289-291, [free_subarray]. *)
Definition free_subarray (p : ptr) : M dstate unit := deallocate p sz al (Z.of_nat SUB).

(** src/deque/iter.rs:81-85, [set_subarray]. *)
Definition set_subarray (i : dit) (subarray : ptr) : M dstate dit :=
  do p <- read_ptr subarray;
  do e <- add p SUB;
  ret (DIt (di_cur i) p e subarray).

(** ** Iterators (src/deque/iter.rs) *)

(** iter.rs:206-215 and 228-237, [from_compat], [from_compat_mut]; [Iter] and [IterMut]
    (257-261, 300-304) wrap the result, 19-28 makes a [CompatIter] of a [CompatIterMut]
    field by field. *)
Definition from_compat (b e : dit) : M dstate raw_iter :=
  do n <- or_ub (pdiff (di_end b) (di_begin b));
  ret (RawIter (di_cur b) (di_arr b) (di_cur e) (di_arr e) n).

(** iter.rs:150-167 and 174-191, [into_compat], [into_compat_mut]; 264-266 and 307-314
    forward to them. *)
Definition into_compat (it : raw_iter) : M dstate (dit * dit) :=
  do p <- read_ptr (ri_arr it);
  do pe <- add p (ri_n it);
  do q <- read_ptr (ri_last_arr it);
  do qe <- add q (ri_n it);
  ret (DIt (ri_cur it) p pe (ri_arr it), DIt (ri_last it) q qe (ri_last_arr it)).

(** iter.rs:113-127, [next]: the address of the element and the iterator after; 272-274
    and 320-322, [next] of [Iter] and [IterMut]. *)
Definition raw_next (it : raw_iter) : M dstate (option ptr * raw_iter) :=
  if decide (ri_cur it = ri_last it) then ret (None, it)
  else
    do a <- read_ptr (ri_arr it);
    do k <- usize chk (Z.of_nat (ri_n it) - 1);
    do l <- add a k;
    if decide (ri_cur it = l) then
      do a' <- add (ri_arr it) 1;
      do c <- read_ptr a';
      ret (Some (ri_cur it), RawIter c a' (ri_last it) (ri_last_arr it) (ri_n it))
    else
      do c <- add (ri_cur it) 1;
      ret (Some (ri_cur it), RawIter c (ri_arr it) (ri_last it) (ri_last_arr it) (ri_n it)).

(** iter.rs:131-145, [next_back]; 278-280 and 326-328. *)
Definition raw_next_back (it : raw_iter) : M dstate (option ptr * raw_iter) :=
  if decide (ri_last it = ri_cur it) then ret (None, it)
  else
    do a <- read_ptr (ri_last_arr it);
    if decide (ri_last it = a) then
      do a' <- sub (ri_last_arr it) 1;
      do q <- read_ptr a';
      do k <- usize chk (Z.of_nat (ri_n it) - 1);
      do l <- add q k;
      ret (Some l, RawIter (ri_cur it) (ri_arr it) l a' (ri_n it))
    else
      do l <- sub (ri_last it) 1;
      ret (Some l, RawIter (ri_cur it) (ri_arr it) l (ri_last_arr it) (ri_n it)).

(** mod.rs:62-69 and 337-339, [iter], [iter_mut], [iter_mut_unchecked]. *)
Definition iter : M dstate raw_iter := do s <- gets id; from_compat (d_b s) (d_e s).

(** [Skip<I>]: [k] calls of [next], stopping at the end. *)
Fixpoint skip (nx : raw_iter -> M dstate (option ptr * raw_iter)) (k : nat) (it : raw_iter) : M dstate raw_iter :=
  match k with
  | O => ret it
  | S k' =>
    do r <- nx it;
    match fst r with
    | None => ret (snd r)
    | Some _ => skip nx k' (snd r)
    end
  end.

(** src/util.rs:4-11, [rotate] over two iterators of the same kind ([mem::swap] of
    the two elements). *)
Fixpoint rotate (nx : raw_iter -> M dstate (option ptr * raw_iter)) (f : nat) (current next : raw_iter) : M dstate unit :=
  match f with
  | O => ub
  | S f' =>
    do c <- nx current;
    do n <- nx next;
    match fst c, fst n with
    | Some p, Some q =>
      do x <- read_elem p;
      do y <- read_elem q;
      run store p (DElem y);
      run store q (DElem x);
      rotate nx f' (snd c) (snd n)
    | _, _ => ret tt
    end
  end.

(** A loop over an iterator, with [body] run on each address. *)
Fixpoint for_iter {A} (f : nat) (it : raw_iter) (body : ptr -> M dstate A) : M dstate (list A) :=
  match f with
  | O => ub
  | S f' =>
    do r <- raw_next it;
    match fst r with
    | None => ret []
    | Some p => do a <- body p; do l <- for_iter f' (snd r) body; ret (a :: l)
    end
  end.

(** ** The deque (src/deque/mod.rs) *)

(** mod.rs:57-59. *)
Definition is_empty : M dstate bool :=
  do s <- gets id; ret (bool_decide (di_cur (d_b s) = di_cur (d_e s))).

(** mod.rs:72-90. *)
Definition len : M dstate nat :=
  do s <- gets id;
  if decide (di_arr (d_b s) = di_arr (d_e s)) then or_ub (pdiff (di_cur (d_e s)) (di_cur (d_b s)))
  else
    do d <- or_ub (pdiff (di_arr (d_e s)) (di_arr (d_b s)));
    do bo <- or_ub (pdiff (di_cur (d_b s)) (di_begin (d_b s)));
    do eo <- or_ub (pdiff (di_cur (d_e s)) (di_begin (d_e s)));
    let r := (Z.of_nat d * Z.of_nat SUB + (Z.of_nat eo - Z.of_nat bo))%Z in
    ret (Z.to_nat (r mod usize_lim)).

(** A loop bound: more than the number of cells of the live arrays. *)
Definition fuel (s : dstate) : nat := S (h_next (d_h s) * SUB).

(** mod.rs:47-49 and 37-39, [front], [back]: the element referred to. *)
Definition read_opt (o : option ptr) : M dstate (option T) :=
  match o with
  | None => ret None
  | Some p => do x <- read_elem p; ret (Some x)
  end.
Definition front : M dstate (option T) := do it <- iter; do r <- raw_next it; read_opt (fst r).
Definition back : M dstate (option T) := do it <- iter; do r <- raw_next_back it; read_opt (fst r).

(** An assignment through a mutable reference: the old value is dropped.  Without a
    place the new value is dropped by the caller. *)
Definition assign_opt (o : option ptr) (y : T) : M dstate bool :=
  match o with
  | None => run modify (logged [y]); ret false
  | Some p => do x <- read_elem p; run modify (logged [x]); run store p (DElem y); ret true
  end.
(** mod.rs:52-54 and 42-44, [front_mut], [back_mut], with such an assignment. *)
Definition front_mut_set (y : T) : M dstate bool := do it <- iter; do r <- raw_next it; assign_opt (fst r) y.
Definition back_mut_set (y : T) : M dstate bool := do it <- iter; do r <- raw_next_back it; assign_opt (fst r) y.

(** mod.rs:310-331, [init]: the arrays hold null until set, and [fill_with] over the
    pointer array.  Indexing is in range for these constants. *)
Definition init : M dstate unit :=
  let n := INITIAL_PTR_ARRAY_SIZE in
  run set_arr Null n;
  do p <- allocate_ptr_array n;
  do h <- gets d_h;
  do h' <- or_ub (hput h p (replicate (Z.to_nat n) (Some (DPtr Null))));
  run set_h h';
  do a <- allocate_subarray;
  do slot <- add p (Z.to_nat ((n - 1) / 2));
  run store slot (DPtr a);
  do slot <- add p 3;
  do s <- gets id;
  do b <- set_subarray (d_b s) slot;
  run set_b (DIt (di_begin b) (di_begin b) (di_end b) (di_arr b));
  do e <- set_subarray (d_e s) slot;
  run set_e (DIt (di_begin e) (di_begin e) (di_end e) (di_arr e));
  set_arr p n.

(** mod.rs:101-111, [new_in] (and [new], [default]) in a given heap.  When [init]
    panics the half-built deque is dropped; see Refusal.v for that. *)
Definition empty_state (h : heap (dcell T)) (d : list T) : dstate :=
  let i := DIt Null Null Null Null in DState Null 0 i i h d.
Definition deque_new (h : heap (dcell T)) (d : list T) : outcome dstate unit := init (empty_state h d).

(** mod.rs:114-136. *)
Definition pop_back : M dstate (option T) :=
  do em <- is_empty;
  if (em : bool) then ret None
  else
    do s <- gets id;
    let e := d_e s in
    if decide (di_cur e <> di_begin e) then
      do c <- sub (di_cur e) 1;
      run set_e (DIt c (di_begin e) (di_end e) (di_arr e));
      do x <- read_elem c;
      ret (Some x)
    else
      run free_subarray (di_begin e);
      do a <- sub (di_arr e) 1;
      do e' <- set_subarray e a;
      do c <- sub (di_end e') 1;
      run set_e (DIt c (di_begin e') (di_end e') (di_arr e'));
      do x <- read_elem c;
      ret (Some x).

(** mod.rs:139-164. *)
Definition pop_front : M dstate (option T) :=
  do em <- is_empty;
  if (em : bool) then ret None
  else
    do s <- gets id;
    let b := d_b s in
    do l <- sub (di_end b) 1;
    if decide (di_cur b <> l) then
      do x <- read_elem (di_cur b);
      do c <- add (di_cur b) 1;
      run set_b (DIt c (di_begin b) (di_end b) (di_arr b));
      ret (Some x)
    else
      do x <- read_elem (di_cur b);
      run free_subarray (di_begin b);
      do a <- add (di_arr b) 1;
      do b' <- set_subarray b a;
      run set_b (DIt (di_begin b') (di_begin b') (di_end b') (di_arr b'));
      ret (Some x).

(** mod.rs:379 and 391, [copy_within] on the pointer array, a slice of [n] slots:
    panics when a range leaves the slice. *)
Definition copy_within (p : ptr) (n src_start src_end dst : nat) : M dstate unit :=
  if (src_start <=? src_end) && (src_end <=? n) && (dst + (src_end - src_start) <=? n) then
    do s <- add p src_start;
    do t <- add p dst;
    do h <- gets d_h;
    do h' <- or_ub (hcopy h s t (src_end - src_start));
    set_h h'
  else panic.

(** mod.rs:348-421. *)
Definition realloc_ptr_array (additional : nat) (front : bool) : M dstate unit :=
  do s <- gets id;
  do unused_front <- or_ub (pdiff (di_arr (d_b s)) (d_arr s));
  do d <- or_ub (pdiff (di_arr (d_e s)) (di_arr (d_b s)));
  let used := d + 1 in
  do r <- usize chk (d_size s - Z.of_nat unused_front);
  do unused_back <- usize chk (Z.of_nat r - Z.of_nat used);
  let start := unused_front in
  let end_ := start + used in
  let n := if is_null (d_arr s) then 0 else Z.to_nat (d_size s) in
  do new_start <-
    (if negb front && (additional <=? unused_front) then
       let additional := Nat.max additional ((unused_front + 1) / 2) in
       do new_start <- usize chk (Z.of_nat unused_front - Z.of_nat additional);
       run copy_within (d_arr s) n start end_ new_start;
       ret new_start
     else if front && (additional <=? unused_back) then
       let additional := Nat.max additional (unused_back / 2) in
       let new_start := start + additional in
       run copy_within (d_arr s) n start end_ new_start;
       ret new_start
     else
       do new_size <- u32 chk (d_size s + Z.max (d_size s) (Z.of_nat additional mod u32_lim));
       do new_size <- u32 chk (new_size + 2);
       do na <- allocate_ptr_array new_size;
       let new_start := unused_front + (if front then additional else 0) in
       let new_end := new_start + used in
       if! negb ((Z.of_nat new_end <=? new_size)%Z && (end_ <=? n)) then panic;
       do t <- add na new_start;
       do src <- add (d_arr s) start;
       do h <- gets d_h;
       do h' <- or_ub (hcopy h src t used);
       run set_h h';
       run free_ptr_array;
       run set_arr na new_size;
       ret new_start);
  do s <- gets id;
  do a <- add (d_arr s) new_start;
  do b <- set_subarray (d_b s) a;
  run set_b b;
  do k <- usize chk (Z.of_nat (new_start + used) - 1);
  do a <- add (d_arr s) k;
  do e <- set_subarray (d_e s) a;
  set_e e.

(** mod.rs:171-195. *)
Definition push_back (elem : T) : M dstate unit :=
  do s <- gets id;
  let e := d_e s in
  do l <- sub (di_end e) 1;
  if decide (di_cur e <> l) then
    run store (di_cur e) (DElem elem);
    do c <- add (di_cur e) 1;
    set_e (DIt c (di_begin e) (di_end e) (di_arr e))
  else
    run on_unwind (logged [elem]) (
      do k <- usize chk (d_size s - 1);
      do p <- add (d_arr s) k;
      if decide (di_arr e = p) then realloc_ptr_array 1 false else ret tt);
    do s <- gets id;
    let e := d_e s in
    run store (di_cur e) (DElem elem);
    do p <- allocate_subarray;
    do slot <- add (di_arr e) 1;
    run store slot (DPtr p);
    do a <- add (di_arr e) 1;
    do e' <- set_subarray e a;
    set_e (DIt (di_begin e') (di_begin e') (di_end e') (di_arr e')).

(** mod.rs:202-226. *)
Definition push_front (elem : T) : M dstate unit :=
  do s <- gets id;
  let b := d_b s in
  run on_unwind (logged [elem]) (
    if decide (di_cur b <> di_begin b) then
      do c <- sub (di_cur b) 1;
      set_b (DIt c (di_begin b) (di_end b) (di_arr b))
    else
      run (if decide (di_arr b = d_arr s) then realloc_ptr_array 1 true else ret tt);
      do s <- gets id;
      let b := d_b s in
      do p <- allocate_subarray;
      do slot <- sub (di_arr b) 1;
      run store slot (DPtr p);
      do a <- sub (di_arr b) 1;
      do b' <- set_subarray b a;
      do c <- sub (di_end b') 1;
      set_b (DIt c (di_begin b') (di_end b') (di_arr b')));
  do s <- gets id;
  store (di_cur (d_b s)) (DElem elem).

(** mod.rs:234-255. *)
Definition remove (index : nat) : M dstate (option T) :=
  do n <- len;
  if n <=? index then ret None
  else if index <? n / 2 then
    do it <- iter;
    do k <- usize chk (Z.of_nat n - Z.of_nat index);
    do k1 <- usize chk (Z.of_nat k - 1);
    do elem_it <- skip raw_next_back k1 it;
    do next_it <- skip raw_next_back k it;
    run rotate raw_next_back (S n) elem_it next_it;
    pop_front
  else
    do it <- iter;
    do elem_it <- skip raw_next index it;
    do next_it <- skip raw_next (index + 1) it;
    run rotate raw_next (S n) elem_it next_it;
    pop_back.

(** A loop of the caller over [iter], [iter_mut]: the elements; the elements, each
    replaced by what [g] makes of it. *)
Definition iter_all : M dstate (list T) :=
  do s <- gets id; do it <- iter; for_iter (fuel s) it read_elem.
Definition iter_mut_all (g : T -> T) : M dstate (list T) :=
  do s <- gets id; do it <- iter;
  for_iter (fuel s) it (fun p => do x <- read_elem p; run store p (DElem (g x)); ret x).

(** The addresses of the elements, in order. *)
Definition places : M dstate (list ptr) :=
  do s <- gets id; do it <- iter; for_iter (fuel s) it ret.

(** mod.rs:445-452, the loop over the slice of subarray pointers. *)
Fixpoint free_subarrays (ps : list (dcell T)) : M dstate unit :=
  match ps with
  | [] => ret tt
  | DPtr p :: ps' => run free_subarray p; free_subarrays ps'
  | _ => ub
  end.

(** mod.rs:437-456, [drop]. *)
Definition deque_drop : M dstate unit :=
  do s <- gets id;
  do it <- iter;
  run for_iter (fuel s) it (fun p => do x <- read_elem p; modify (logged [x]));
  run (if is_null (di_arr (d_b s)) then ret tt
       else
         do n <- or_ub (pdiff (di_arr (d_e s)) (di_arr (d_b s)));
         do h <- gets d_h;
         do ps <- or_ub (hslice h (di_arr (d_b s)) n);
         free_subarrays ps);
  free_ptr_array.

(** mod.rs:460-464, [from_iter]; for the elements dropped on a panic see Source.v. *)
Fixpoint push_all (xs : list T) : M dstate unit :=
  match xs with
  | [] => ret tt
  | x :: xs' => run push_back x; push_all xs'
  end.
Definition from_iter (xs : list T) (h : heap (dcell T)) (d : list T) : outcome dstate unit :=
  (run init; push_all xs) (empty_state h d).

(** ** Programs *)
Inductive dcall : Type :=
| DPushBack (x : T) | DPushFront (x : T) | DPopBack | DPopFront
| DFront | DBack | DFrontMut (x : T) | DBackMut (x : T)
| DLen | DIsEmpty | DRemove (i : nat) | DIter | DIterMut (g : T -> T).

Inductive danswer : Type :=
| DUnit | DOpt (o : option T) | DNat (n : nat) | DBool (b : bool) | DList (l : list T).

Definition d_call (c : dcall) : M dstate danswer :=
  match c with
  | DPushBack x => run push_back x; ret DUnit
  | DPushFront x => run push_front x; ret DUnit
  | DPopBack => do o <- pop_back; ret (DOpt o)
  | DPopFront => do o <- pop_front; ret (DOpt o)
  | DFront => do o <- front; ret (DOpt o)
  | DBack => do o <- back; ret (DOpt o)
  | DFrontMut x => do b <- front_mut_set x; ret (DBool b)
  | DBackMut x => do b <- back_mut_set x; ret (DBool b)
  | DLen => do n <- len; ret (DNat n)
  | DIsEmpty => do b <- is_empty; ret (DBool b)
  | DRemove i => do o <- remove i; ret (DOpt o)
  | DIter => do l <- iter_all; ret (DList l)
  | DIterMut g => do l <- iter_mut_all g; ret (DList l)
  end.

(** A program whose caller catches every panic ([None] among the answers); [None]
    if some call is undefined. *)
Fixpoint d_run (cs : list dcall) (s : dstate) : option (list (option danswer) * dstate) :=
  match cs with
  | [] => Some ([], s)
  | c :: cs' =>
    match d_call c s with
    | Ok a s' => option_map (fun r => (Some a :: fst r, snd r)) (d_run cs' s')
    | Panic s' => option_map (fun r => (None :: fst r, snd r)) (d_run cs' s')
    | UB => None
    end
  end.

(** ** The queue (src/queue.rs) *)
(** queue.rs:34-36, 49-51, 69-71, 74-76, 79-81, 39-41; a queue is its deque, so 20-24 and
    62-66, [new], [new_in], and 91-93, [default], are those of the deque, and so are 29-31,
    [into_inner], and 44-46, [iter_mut]. *)
Inductive qcall : Type := QPush (x : T) | QPop | QTop | QLen | QIsEmpty | QIter.
Definition q_call (c : qcall) : M dstate danswer :=
  match c with
  | QPush x => run push_back x; ret DUnit
  | QPop => do o <- pop_front; ret (DOpt o)
  | QTop => do o <- front; ret (DOpt o)
  | QLen => do n <- len; ret (DNat n)
  | QIsEmpty => do b <- is_empty; ret (DBool b)
  | QIter => do l <- iter_all; ret (DList l)
  end.
Fixpoint q_run (cs : list qcall) (s : dstate) : option (list (option danswer) * dstate) :=
  match cs with
  | [] => Some ([], s)
  | c :: cs' =>
    match q_call c s with
    | Ok a s' => option_map (fun r => (Some a :: fst r, snd r)) (q_run cs' s')
    | Panic s' => option_map (fun r => (None :: fst r, snd r)) (q_run cs' s')
    | UB => None
    end
  end.

(** ** Interleaved iteration: [true] is [next], [false] is [next_back]. *)
Fixpoint steps (ds : list bool) (it : raw_iter) : M dstate (list (option T) * raw_iter) :=
  match ds with
  | [] => ret ([], it)
  | d :: ds' =>
    do r <- (if (d : bool) then raw_next it else raw_next_back it);
    do o <- read_opt (fst r);
    do l <- steps ds' (snd r);
    ret (o :: fst l, snd l)
  end.

(** The same, keeping the references themselves (as [IterMut] hands them out). *)
Fixpoint step_places (ds : list bool) (it : raw_iter) : M dstate (list (option ptr)) :=
  match ds with
  | [] => ret []
  | d :: ds' =>
    do r <- (if (d : bool) then raw_next it else raw_next_back it);
    do l <- step_places ds' (snd r);
    ret (fst r :: l)
  end.

(** iter.rs:332-348, [IntoIter]: the deque itself, popped from either end; 354-356 and
    363-367 make it of a deque or queue. *)
Fixpoint into_steps (ds : list bool) : M dstate (list (option T)) :=
  match ds with
  | [] => ret []
  | d :: ds' =>
    do o <- (if (d : bool) then pop_front else pop_back);
    do l <- into_steps ds';
    ret (o :: l)
  end.

End deque.
Arguments dcall : clear implicits.
Arguments danswer : clear implicits.
Arguments qcall : clear implicits.
