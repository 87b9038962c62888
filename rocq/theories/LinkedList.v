(** Model of src/list/mod.rs, src/list/node.rs, src/list/iter.rs,
    src/fixed_list/mod.rs and src/fixed_list/conformant.rs.

    The sentinel node lives in memory at the address of the list object, which is not
    moved (the constructors are unsafe and demand it); the other fields of the object
    are fields of a record.  A reference to an element is the address of its node.
    Simplifications: element destructors do not panic; the loop of [clear] gets as
    fuel the number of words in memory, running out counts as undefined behaviour (so
    the theorems exclude it). *)
From Verif Require Import Base Alloc AddrMem FixedPool.
Local Open Scope Z_scope.

(** A size rounded up to a multiple of an alignment, for the [repr(C)] structs
    src/fixed_list/mod.rs:20-29 and src/fixed_list/conformant.rs:16-27. *)
Definition pad_to (a n : Z) : Z := (n + a - 1) / a * a.

(** src/list/mod.rs:17-24, [List], with the memory and the log of dropped elements. *)
Record lstate (A T : Type) : Type := LState {
  l_node : Z;  (** address of the sentinel *)
  l_size : Z;
  l_alloc : A;
  l_mem : mem T;
  l_drops : list T
}.
Arguments LState {A T}.
Arguments l_node {A T}.
Arguments l_size {A T}.
Arguments l_alloc {A T}.
Arguments l_mem {A T}.
Arguments l_drops {A T}.

(** src/list/iter.rs:5-10 and 43-48, [Iter] and [IterMut]. *)
Record liter : Type := LIter { it_sentinel : Z; it_current : Z; it_len : Z }.

(** Calls of a program, and answers.  [LFrontMut x] and [LBackMut x] assign [x]
    through the reference; [LIterMut g] replaces each element [x] by [g x]. *)
Inductive lcall (T : Type) : Type :=
| LPushBack (x : T) | LPushFront (x : T) | LPopBack | LPopFront
| LFront | LBack | LFrontMut (x : T) | LBackMut (x : T)
| LClear | LLen | LSize | LIsEmpty | LEmpty
| LExtend (xs : list T) | LIter_ | LIterMut_ (g : T -> T).
Arguments LPushBack {T}. Arguments LPushFront {T}. Arguments LPopBack {T}. Arguments LPopFront {T}.
Arguments LFront {T}. Arguments LBack {T}. Arguments LFrontMut {T}. Arguments LBackMut {T}.
Arguments LClear {T}. Arguments LLen {T}. Arguments LSize {T}. Arguments LIsEmpty {T}. Arguments LEmpty {T}.
Arguments LExtend {T}. Arguments LIter_ {T}. Arguments LIterMut_ {T}.
Inductive lanswer (T : Type) : Type :=
| AUnit | AOpt (o : option T) | ABool (b : bool) | ANum (z : Z) | AList (l : list T).
Arguments AUnit {T}. Arguments AOpt {T}. Arguments ABool {T}. Arguments ANum {T}. Arguments AList {T}.

Section list.
Context {A T : Type}.
Variable aa : AddrAlloc A T.
Variable chk : bool.
(** [size_of::<ListNode<T>>()] and [align_of::<ListNode<T>>()]. *)
Variables nsz nal : Z.

Local Notation lstate := (lstate A T).

Definition set_mem (m : mem T) : M lstate unit :=
  modify (fun s => LState (l_node s) (l_size s) (l_alloc s) m (l_drops s)).
Definition set_size (n : Z) : M lstate unit :=
  modify (fun s => LState (l_node s) n (l_alloc s) (l_mem s) (l_drops s)).
Definition logged (l : list T) (s : lstate) : lstate :=
  LState (l_node s) (l_size s) (l_alloc s) (l_mem s) (l_drops s ++ l).

(** Memory access: the fields [next] and [prev] of a node, and its value. *)
Definition get_word (a : Z) : M lstate Z := do m <- gets l_mem; or_ub (load_word m a).
Definition put_word (a w : Z) : M lstate unit := do m <- gets l_mem; do m' <- or_ub (store_word m a w); set_mem m'.
Definition get_next (a : Z) : M lstate Z := get_word a.
Definition get_prev (a : Z) : M lstate Z := get_word (a + 8).
Definition set_next (a w : Z) : M lstate unit := put_word a w.
Definition set_prev (a w : Z) : M lstate unit := put_word (a + 8) w.
Definition get_val (a : Z) : M lstate T := do m <- gets l_mem; or_ub (load_val m a nsz).
Definition put_val (a : Z) (x : T) : M lstate unit := do m <- gets l_mem; do m' <- or_ub (store_val m a nsz x); set_mem m'.
Definition move_val (a : Z) : M lstate T :=
  do m <- gets l_mem; do r <- or_ub (take_val m a nsz); run set_mem (snd r); ret (fst r).

(** Running a method of the allocator field. *)
Definition in_alloc {R} (f : M (A * mem T) R) : M lstate R := fun s =>
  match f (l_alloc s, l_mem s) with
  | Ok r (a, m) => Ok r (LState (l_node s) (l_size s) a m (l_drops s))
  | Panic (a, m) => Panic (LState (l_node s) (l_size s) a m (l_drops s))
  | UB => UB
  end.

(** src/list/node.rs:20-25, [ListNodeBase::insert]. *)
Definition node_insert (self next : Z) : M lstate unit :=
  run set_next self next;
  do p <- get_prev next;
  run set_prev self p;
  do p2 <- get_prev next;
  run set_next p2 self;
  set_prev next self.

(** src/list/node.rs:29-32, [ListNodeBase::remove]. *)
Definition node_remove (self : Z) : M lstate unit :=
  do n <- get_next self;
  do p <- get_prev self;
  run set_prev n p;
  do p2 <- get_prev self;
  do n2 <- get_next self;
  set_next p2 n2.

(** src/list/mod.rs:200-203, [init_sentinel_node]. *)
Definition init_sentinel_node : M lstate unit :=
  do s <- gets l_node;
  run set_prev s s;
  set_next s s.

(** src/list/mod.rs:193-197, [create_node]: the argument is dropped when the
    allocator panics or returns null (the [unwrap] panics). *)
Definition create_node (x : T) : M lstate Z :=
  do p <- on_unwind (logged [x]) (in_alloc (allocate aa chk nsz nal 1));
  if (p =? 0) then on_unwind (logged [x]) panic else
  run put_val p x;
  ret p.

(** src/list/mod.rs:206-213, [remove_node].  The node is freed as an array of
    [size_of::<ListNode<T>>()] values of type [ListNodeBase] (16 bytes, aligned to
    8). *)
Definition remove_node (p : Z) : M lstate T :=
  run node_remove p;
  do x <- move_val p;
  run on_unwind (logged [x]) (in_alloc (deallocate aa chk 16 8 p nsz));
  do n <- gets l_size;
  do n' <- on_unwind (logged [x]) (u32 chk (n - 1));
  run set_size n';
  ret x.

(** src/list/mod.rs:169-175, [push_back]. *)
Definition push_back (x : T) : M lstate unit :=
  do p <- create_node x;
  do s <- gets l_node;
  run node_insert p s;
  do n <- gets l_size;
  do n' <- u32 chk (n + 1);
  set_size n'.

(** src/list/mod.rs:178-185, [push_front]. *)
Definition push_front (x : T) : M lstate unit :=
  do p <- create_node x;
  do s <- gets l_node;
  do f <- get_next s;
  run node_insert p f;
  do n <- gets l_size;
  do n' <- u32 chk (n + 1);
  set_size n'.

(** src/list/mod.rs:146-153, [pop_back]. *)
Definition pop_back : M lstate (option T) :=
  do s <- gets l_node;
  do p <- get_prev s;
  if (p =? s) then ret None else
  do x <- remove_node p; ret (Some x).

(** src/list/mod.rs:159-166, [pop_front]. *)
Definition pop_front : M lstate (option T) :=
  do s <- gets l_node;
  do p <- get_next s;
  if (p =? s) then ret None else
  do x <- remove_node p; ret (Some x).

(** src/list/mod.rs:51-58 and 64-71, [back], [back_mut]; 100-107 and 113-120, [front],
    [front_mut]: the place of the element. *)
Definition back_place : M lstate (option Z) :=
  do s <- gets l_node;
  do p <- get_prev s;
  if (p =? s) then ret None else ret (Some p).
Definition front_place : M lstate (option Z) :=
  do s <- gets l_node;
  do p <- get_next s;
  if (p =? s) then ret None else ret (Some p).
Definition read_place (o : option Z) : M lstate (option T) :=
  match o with
  | None => ret None
  | Some p => do x <- get_val p; ret (Some x)
  end.
(** [*place = x]: the old value is dropped; without a place, [x] is. *)
Definition assign_place (o : option Z) (x : T) : M lstate bool :=
  match o with
  | None => run modify (logged [x]); ret false
  | Some p => do old <- move_val p; run put_val p x; run modify (logged [old]); ret true
  end.

(** src/list/mod.rs:77-86, the loop of [clear]. *)
Fixpoint clear_loop (fuel : nat) (next : Z) : M lstate unit :=
  do s <- gets l_node;
  if (next =? s) then ret tt else
  match fuel with
  | O => ub
  | S f =>
    do n <- get_next next;
    do x <- move_val next;
    run modify (logged [x]);
    run in_alloc (deallocate aa chk 16 8 next nsz);
    clear_loop f n
  end.
(** src/list/mod.rs:74-89, [clear]. *)
Definition clear : M lstate unit :=
  do s <- gets l_node;
  do f <- get_next s;
  do m <- gets l_mem;
  run clear_loop (size (m_word m)) f;
  run init_sentinel_node;
  set_size 0.

(** src/list/mod.rs:216-220, [Drop]. *)
Definition list_drop : M lstate unit := clear.

(** src/list/mod.rs:138-140, [len]; 188-190, [size] (to [usize]); 133-135,
    [is_empty]; 92-94, [empty]. *)
Definition len_ : M lstate Z := gets l_size.
Definition size_ : M lstate Z := gets l_size.
Definition is_empty : M lstate bool := do n <- len_; ret (n =? 0).
Definition empty_ : M lstate bool := do n <- size_; ret (n =? 0).

(** src/list/mod.rs:238-244, [extend]; when a push panics, the rest of the iterator is
    dropped.  [extend] from references (246-250) clones and calls this. *)
Fixpoint extend (xs : list T) : M lstate unit :=
  match xs with
  | [] => ret tt
  | x :: xs' => run on_unwind (logged xs') (push_back x); extend xs'
  end.

(** src/list/mod.rs:123-130 and src/list/iter.rs:13-20, 51-58: [iter], [iter_mut]. *)
Definition iter : M lstate liter :=
  do s <- gets l_node; do n <- size_; ret (LIter s s n).

(** src/list/iter.rs:26-35 and 64-73, [next]: the place of the element, and the
    iterator after. *)
Definition iter_next (i : liter) : M lstate (option Z * liter) :=
  do n <- get_next (it_current i);
  if (n =? it_sentinel i) then ret (None, i) else
  do l <- usizeZ chk (it_len i - 1);
  ret (Some n, LIter (it_sentinel i) n l).

(** src/list/iter.rs:37-39 and 75-77, [size_hint]: both bounds. *)
Definition size_hint (i : liter) : Z * option Z := (it_len i, Some (it_len i)).

(** [k] calls of [next]: the elements yielded, and the iterator after. *)
Fixpoint iter_take (k : nat) (i : liter) : M lstate (list (option T) * liter) :=
  match k with
  | O => ret ([], i)
  | S k' =>
    do r <- iter_next i;
    do v <- read_place (fst r);
    do r' <- iter_take k' (snd r);
    ret (v :: fst r', snd r')
  end.

(** Iterating to the end with [iter], and with [iter_mut] applying [g] to each
    element in place; fuel as in [clear]. *)
Fixpoint iter_loop (fuel : nat) (i : liter) : M lstate (list T) :=
  do r <- iter_next i;
  match fst r with
  | None => ret []
  | Some p =>
    match fuel with
    | O => ub
    | S f => do x <- get_val p; do l <- iter_loop f (snd r); ret (x :: l)
    end
  end.
Definition iter_all : M lstate (list T) :=
  do i <- iter; do m <- gets l_mem; iter_loop (size (m_word m)) i.
Fixpoint iter_mut_loop (fuel : nat) (g : T -> T) (i : liter) : M lstate (list T) :=
  do r <- iter_next i;
  match fst r with
  | None => ret []
  | Some p =>
    match fuel with
    | O => ub
    | S f => do x <- get_val p; run put_val p (g x); do l <- iter_mut_loop f g (snd r); ret (x :: l)
    end
  end.
Definition iter_mut_all (g : T -> T) : M lstate (list T) :=
  do i <- iter; do m <- gets l_mem; iter_mut_loop (size (m_word m)) g i.

(** ** Programs *)
Definition l_call (c : lcall T) : M lstate (lanswer T) :=
  match c with
  | LPushBack x => run push_back x; ret AUnit
  | LPushFront x => run push_front x; ret AUnit
  | LPopBack => do o <- pop_back; ret (AOpt o)
  | LPopFront => do o <- pop_front; ret (AOpt o)
  | LFront => do p <- front_place; do o <- read_place p; ret (AOpt o)
  | LBack => do p <- back_place; do o <- read_place p; ret (AOpt o)
  | LFrontMut x => do p <- front_place; do b <- assign_place p x; ret (ABool b)
  | LBackMut x => do p <- back_place; do b <- assign_place p x; ret (ABool b)
  | LClear => run clear; ret AUnit
  | LLen => do n <- len_; ret (ANum n)
  | LSize => do n <- size_; ret (ANum n)
  | LIsEmpty => do b <- is_empty; ret (ABool b)
  | LEmpty => do b <- empty_; ret (ABool b)
  | LExtend xs => run extend xs; ret AUnit
  | LIter_ => do l <- iter_all; ret (AList l)
  | LIterMut_ g => do l <- iter_mut_all g; ret (AList l)
  end.

(** A program goes on after a panic (the caller may catch it): the answer is then
    [None]. *)
Fixpoint l_run (cs : list (lcall T)) (s : lstate) : option (list (option (lanswer T)) * lstate) :=
  match cs with
  | [] => Some ([], s)
  | c :: cs' =>
    match l_call c s with
    | Ok a s' => match l_run cs' s' with Some (l, s'') => Some (Some a :: l, s'') | None => None end
    | Panic s' => match l_run cs' s' with Some (l, s'') => Some (None :: l, s'') | None => None end
    | UB => None
    end
  end.

(** src/list/mod.rs:34-45, [new_in], for an object at address [obj]. *)
Definition list_new (obj : Z) (a : A) (m : mem T) : outcome lstate unit :=
  init_sentinel_node (LState obj 0 a m []).

End list.

(** ** Fixed lists over [FixedPoolWithOverflow<ListNode<T>, DefaultAllocator>]

    A [FixedList] derefs to its list (src/fixed_list/mod.rs:92-94, 100-102); the conformant one has
    methods that forward to its list (src/fixed_list/conformant.rs:65-147).  Both
    [new_with_default_overflow_allocator] call [new_in] (src/fixed_list/mod.rs:74-76,
    src/fixed_list/conformant.rs:160-162). *)

(** Offset of the buffer in [FixedList]: the list is 64 bytes (sentinel 16, size 4 and
    padding, pool 24, overflow allocator 1 and padding, [pool_begin] 8), aligned to 8;
    the buffer follows at the alignment of the node (src/fixed_list/mod.rs:20-29) or,
    in the conformant version, of a byte (src/fixed_list/conformant.rs:16-26). *)
Definition base_list_size : Z := 64.
Definition fixed_buffer_off (nal : Z) : Z := pad_to nal base_list_size.

Section fixed.
Context {T : Type}.
Variable pick : mem T -> Z -> Z -> Z.
Variable strict chk : bool.
Variables nsz nal : Z.

Definition FixedListAlloc : AddrAlloc (opool unit) T := OPoolAlloc (DefaultAddrAlloc pick strict) chk nsz nal.

Definition fixed_new_at (obj base len : Z) (m : mem T) : outcome (lstate (opool unit) T) unit :=
  (run init_sentinel_node;
   in_alloc (opool_init chk nsz nal base len)) (LState obj 0 (opool_with tt) m []).

(** src/fixed_list/mod.rs:42-63, [FixedList::new_in] for [n] nodes, at address [obj]:
    the size of the object, and the list. *)
Definition fixed_list_bytes (n : Z) : Z := fixed_buffer_off nal + (n + 1) * nsz.
Definition fixed_list_new (n obj : Z) (m : mem T) : outcome (lstate (opool unit) T) unit :=
  fixed_new_at obj (obj + fixed_buffer_off nal) (n * nsz) m.

(** src/fixed_list/conformant.rs:41-59, the same for the conformant version; the
    object has trailing padding to its alignment, 8. *)
Definition conformant_bytes (n : Z) : Z := pad_to 8 (base_list_size + ((n + 1) * nsz - 1)).
Definition conformant_new (n obj : Z) (m : mem T) : outcome (lstate (opool unit) T) unit :=
  fixed_new_at obj (obj + base_list_size) ((n + 1) * nsz - 1) m.

End fixed.
