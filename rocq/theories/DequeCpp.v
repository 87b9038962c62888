(** The C++ side of deque iteration: EASTL's [DequeIterator], whose four fields
    src/deque/iter.rs:9-16 mirrors, on the memory of Deque.v.  EASTL is not in the
    repository; this is what its headers do for [kDequeSubarraySize = N]. *)
From Verif Require Import Base Heap Alloc Deque.

Section cpp.
Context {T : Type}.
Variable N : nat.
Local Notation dstate := (dstate T).

(** Pointer arithmetic with a signed distance. *)
Definition move (p : ptr) (z : Z) : M dstate ptr :=
  if (0 <=? z)%Z then add p (Z.to_nat z) else sub p (Z.to_nat (- z)).
Definition distance (p q : ptr) : M dstate Z :=
  match p, q with
  | Ptr b i, Ptr b' j => if b =? b' then ret (Z.of_nat i - Z.of_nat j)%Z else ub
  | _, _ => ub
  end.

(** [SetSubarray]. *)
Definition cpp_set_subarray (it : dit) (a : ptr) : M dstate dit :=
  do b <- read_ptr a;
  do e <- add b N;
  ret (DIt (di_cur it) b e a).

(** [operator++]. *)
Definition cpp_incr (it : dit) : M dstate dit :=
  do c <- add (di_cur it) 1;
  if decide (c = di_end it) then
    do a <- add (di_arr it) 1;
    do it' <- cpp_set_subarray it a;
    ret (DIt (di_begin it') (di_begin it') (di_end it') (di_arr it'))
  else ret (DIt c (di_begin it) (di_end it) (di_arr it)).

(** [operator--]. *)
Definition cpp_decr (it : dit) : M dstate dit :=
  if decide (di_cur it = di_begin it) then
    do a <- sub (di_arr it) 1;
    do it' <- cpp_set_subarray it a;
    do c <- sub (di_end it') 1;
    ret (DIt c (di_begin it') (di_end it') (di_arr it'))
  else
    do c <- sub (di_cur it) 1;
    ret (DIt c (di_begin it) (di_end it) (di_arr it)).

(** [operator+=]; C++ division rounds towards zero, hence the detour over 16777216. *)
Definition cpp_jump (it : dit) (k : Z) : M dstate dit :=
  do off <- distance (di_cur it) (di_begin it);
  let pos := (off + k)%Z in
  if (0 <=? pos)%Z && (pos <? Z.of_nat N)%Z then
    do c <- move (di_cur it) k;
    ret (DIt c (di_begin it) (di_end it) (di_arr it))
  else
    let idx := (Z.quot (16777216 + pos) (Z.of_nat N) - Z.quot 16777216 (Z.of_nat N))%Z in
    do a <- move (di_arr it) idx;
    do it' <- cpp_set_subarray it a;
    do c <- move (di_begin it') (pos - idx * Z.of_nat N);
    ret (DIt c (di_begin it') (di_end it') (di_arr it')).

(** [it - other], which is also [size()]. *)
Definition cpp_minus (it other : dit) : M dstate Z :=
  do d <- distance (di_arr it) (di_arr other);
  do x <- distance (di_cur it) (di_begin it);
  do y <- distance (di_end other) (di_cur other);
  ret (Z.of_nat N * (d - 1) + x + y)%Z.

(** [for (; it != e; ++it)] collecting [*it], and from [e] downwards; iterators are
    compared by [mpCurrent].  [None]: the fuel ran out. *)
Fixpoint cpp_collect (f : nat) (it e : dit) : M dstate (option (list T)) :=
  match f with
  | O => ret None
  | S f' =>
    if decide (di_cur it = di_cur e) then ret (Some []) else
    do x <- read_elem (di_cur it);
    do it' <- cpp_incr it;
    do l <- cpp_collect f' it' e;
    ret (option_map (cons x) l)
  end.
Fixpoint cpp_collect_back (f : nat) (b it : dit) : M dstate (option (list T)) :=
  match f with
  | O => ret None
  | S f' =>
    if decide (di_cur it = di_cur b) then ret (Some []) else
    do it' <- cpp_decr it;
    do x <- read_elem (di_cur it');
    do l <- cpp_collect_back f' b it';
    ret (option_map (cons x) l)
  end.
End cpp.

(** What EASTL's [DEQUE_DEFAULT_SUBARRAY_SIZE] chooses for elements of [sz] bytes: of 4,
    8, 16, 32 and 64 elements the most that fit into 256 bytes, or 4 if none does. *)
Definition eastl_block (sz : Z) (N : nat) : Prop :=
  N ∈ [4; 8; 16; 32; 64] /\
  (N = 4 \/ (Z.of_nat N * sz <= 256)%Z) /\ (N = 64 \/ (256 < Z.of_nat (2 * N) * sz)%Z).
