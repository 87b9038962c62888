(** Property theorems.  Each is closed by the lemma of the same content in
    GrowthDeqDerived.v; examples show the hypotheses can be met. *)
From Verif Require Import Base Heap Alloc Deque DequeSpec GrowthSpec.
From Verif Require Import GrowthDeqDerived.

(** C101, deques.  Filling a new deque with [push_back] moves at most three pointers for
    every array of elements filled. *)
Theorem C101_deque_push_back :
forall (T : Type) (sz al : Z) (chk : bool) (h : heap (dcell T)) d (xs : list T),
  (0 < sz)%Z -> layout_ok (Z.of_nat (subarray_size sz) * sz) al = true -> heap_wf h ->
  (Z.of_nat (length xs) <= max_len sz)%Z ->
  exists s l s', deque_new sz al h d = Ok tt s /\ d_run sz al chk (map DPushBack xs) s = Some (l, s') /\
    subarray_size sz * repointed sz al chk (map DPushBack xs) s <= 3 * length xs.
Proof. exact L_C101_deque_push_back. Qed.
Print Assumptions C101_deque_push_back.

Example C101_deque_push_back_case :
  layout_ok (Z.of_nat (subarray_size 64) * 64) 8 = true /\ subarray_size 64 = 4 /\
  match deque_new 64 8 (Heap 3 ∅) [] with
  | Ok _ s => repointed 64 8 true (map DPushBack (seq 0 200)) s = 5 + 7 + 8 + 18 + 38
  | _ => False
  end.
Proof. by vm_compute. Qed.

(** But not so for a deque used as a queue.  A deque filled up to the last array it has room
    for, from which one array's worth is then taken, holds [n * (S - 1) - 1] elements, where
    [n] is the number of elements in an array and [S] = 10 * 2^j - 2.  From then on every
    [n] pushes at the back followed by [n] pops at the front move [S - 1] pointers, and the
    length stays what it was: the cost of a round grows with the length, however often the
    round is repeated. *)
Theorem C101_deque_growth_refuted :
forall (T : Type) (sz al : Z) (chk : bool) (h : heap (dcell T)) d (x : T) (j : nat),
  (0 < sz)%Z -> layout_ok (Z.of_nat (subarray_size sz) * sz) al = true -> heap_wf h -> j <= 27 ->
  let n := subarray_size sz in
  let S := 10 * 2 ^ j - 2 in
  let fill := replicate (n * S - 1) (DPushBack x) ++ replicate n DPopFront in
  let round := replicate n (DPushBack x) ++ replicate n DPopFront in
  exists s l1 s1, deque_new sz al h d = Ok tt s /\ d_run sz al chk fill s = Some (l1, s1) /\
    forall r, repointed sz al chk (concat (replicate r round)) s1 = r * (S - 1) /\
      exists l2 s2, d_run sz al chk (concat (replicate r round)) s1 = Some (l2, s2) /\ len sz s2 = Ok (n * (S - 1) - 1) s2.
Proof. exact L_C101_deque_growth_refuted. Qed.
Print Assumptions C101_deque_growth_refuted.

Example C101_deque_growth_refuted_case :
  let round := replicate 4 (DPushBack 7) ++ replicate 4 DPopFront in
  match deque_new 64 8 (Heap 3 ∅) [] with
  | Ok _ s =>
    match d_run 64 8 true (replicate (4 * 18 - 1) (DPushBack 7) ++ replicate 4 DPopFront) s with
    | Some (_, s1) => val (len 64 s1) = Some 67 /\ repointed 64 8 true (concat (replicate 10 round)) s1 = 170
    | None => False
    end
  | _ => False
  end.
Proof. by vm_compute. Qed.
