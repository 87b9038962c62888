(** Property theorems.  Each is closed by the lemma of the same content in
    GrowthVecDerived.v; examples show the hypotheses can be met. *)
From Verif Require Import Base Heap Alloc AllocContract Vector VectorSpec HandoverSpec GrowthSpec.
From Verif Require Import GrowthVecDerived.

(** C101, vectors.  Whatever a vector held to begin with, a program that adds elements one by
    one moves at most that many elements, plus two for every element added, to other
    buffers.  [pop], [remove] and [clear] may come in between as often as they like. *)
Theorem C101_vector_one_by_one_partial :
forall (T : Type) (sz al : Z) (chk nd : bool) (h : heap T) v xs cap (cs : list (call T)) l d ys cap',
  (0 < sz)%Z -> (0 < al)%Z -> heap_wf h -> vector_in_memory sz al v h xs cap -> forallb one_by_one cs = true ->
  spec_calls (default_fits sz al) id cs (SVec xs cap) = (l, d, SVec ys cap') -> chk = true \/ forallb (modest sz) cs = true ->
  (exists s, run_calls (DefaultAllocator T) sz al chk nd Some cs (VState v tt h []) = Some (l, s)) /\
  relocated (DefaultAllocator T) sz al chk nd Some cs (VState v tt h []) <= length xs + 2 * added cs.
Proof. exact L_C101_vector_one_by_one_partial. Qed.
Print Assumptions C101_vector_one_by_one_partial.

Example C101_vector_one_by_one_partial_case :
  let v := Vec Null Null Null in
  let cs := [CPush 1; CPush 2; CPush 3; CPop; CInsert 0 5; CInsert 1 6; CPush 7; CRemove 0; CPush 8; CClear; CPush 9; CPush 9; CPush 9] in
  vector_in_memory 8 8 v (Heap 3 ∅) ([] : list nat) 0 /\ forallb one_by_one cs = true /\
  added cs = 10 /\ relocated (DefaultAllocator nat) 8 8 true true Some cs (VState v tt (Heap 3 ∅) []) = 10.
Proof.
  split; [by left|]. by vm_compute.
Qed.

(** And the room taken stays in proportion: after such a program on a new vector the capacity
    is zero, or a power of two that is at most twice the number of elements added.  So the
    moves are at most logarithmic in number. *)
Theorem C101_vector_capacity_follows :
forall (T : Type) (sz al : Z) (chk nd : bool) (h : heap T) (cs : list (call T)) l d ys cap,
  (0 < sz)%Z -> (0 < al)%Z -> heap_wf h -> forallb one_by_one cs = true ->
  spec_calls (default_fits sz al) id cs (SVec [] 0) = (l, d, SVec ys cap) -> chk = true \/ forallb (modest sz) cs = true ->
  exists s, run_calls (DefaultAllocator T) sz al chk nd Some cs (VState (Vec Null Null Null) tt h []) = Some (l, s) /\
    capacity sz s = Ok cap s /\ (cap = 0 \/ exists k, cap = 2 ^ k /\ 2 ^ k <= 2 * added cs).
Proof. exact L_C101_vector_capacity_follows. Qed.
Print Assumptions C101_vector_capacity_follows.

Example C101_vector_capacity_follows_case :
  (spec_calls (default_fits 8 8) id (replicate 100 (CPush 1)) (SVec [] 0)).2 = SVec (replicate 100 1) 128 /\
  match run_calls (DefaultAllocator nat) 8 8 true true Some (replicate 100 (CPush 1)) (VState (Vec Null Null Null) tt (Heap 3 ∅) []) with
  | Some (_, s) => val (capacity 8 s) = Some 128
  | None => False
  end.
Proof. by vm_compute. Qed.

(** But not so when the room is asked for: appending [n] slices of one element, or reserving
    room for one element before each of [n] pushes, moves 0 + 1 + ... + (n - 1) elements, so
    no linear bound holds. *)
Theorem C101_vector_growth_refuted :
forall (T : Type) (sz al : Z) (chk nd : bool) (h : heap T) (x : T) (n : nat),
  (0 < sz)%Z -> (0 < al)%Z -> heap_wf h -> default_fits sz al n = true ->
  let s0 := VState (Vec Null Null Null) tt h [] in
  let appends := replicate n (CAppend [x]) in
  let reserves := concat (replicate n [CReserve 1; CPush x]) in
  (2 * relocated (DefaultAllocator T) sz al chk false Some appends s0 = n * (n - 1)) /\
  (2 * relocated (DefaultAllocator T) sz al chk nd Some reserves s0 = n * (n - 1)).
Proof. exact L_C101_vector_growth_refuted. Qed.
Print Assumptions C101_vector_growth_refuted.

Example C101_vector_growth_refuted_case :
  let s0 := VState (Vec Null Null Null) tt (Heap 3 ∅) [] in
  default_fits 8 8 40 = true /\
  relocated (DefaultAllocator nat) 8 8 true false Some (replicate 40 (CAppend [1])) s0 = 780 /\
  relocated (DefaultAllocator nat) 8 8 true false Some (concat (replicate 40 [CReserve 1; CPush 1])) s0 = 780 /\
  relocated (DefaultAllocator nat) 8 8 true false Some (replicate 40 (CPush 1)) s0 = 63.
Proof. by vm_compute. Qed.
