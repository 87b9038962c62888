(** Proofs of the properties stated in GrowthDeqProps.v. *)
From Verif Require Import Base Heap Alloc Deque DequeSpec GrowthSpec.

From Verif Require Import HeapLemmas DequeProofs GrowthDeque.

Lemma L_C101_deque_push_back :
forall (T : Type) (sz al : Z) (chk : bool) (h : heap (dcell T)) d (xs : list T),
  (0 < sz)%Z -> layout_ok (Z.of_nat (subarray_size sz) * sz) al = true -> heap_wf h ->
  (Z.of_nat (length xs) <= max_len sz)%Z ->
  exists s l s', deque_new sz al h d = Ok tt s /\ d_run sz al chk (map DPushBack xs) s = Some (l, s') /\
    subarray_size sz * repointed sz al chk (map DPushBack xs) s <= 3 * length xs.
Proof.
  intros T sz al chk h d xs Hsz Hlay W L. destruct (At_new sz al Hsz Hlay h d W) as (s & E & A).
  pose proof (n_range sz al Hlay) as NR.
  destruct (pushes_pay sz al chk Hsz Hlay h xs s 0 0) as (s' & k & [[l R] C] & F).
  - left. split; [done|lia].
  - lia.
  - exists s, l, s'. split; [done|]. split; [done|]. rewrite C. apply (filling_pays sz al h) in F. lia.
Qed.

Lemma L_C101_deque_growth_refuted :
forall (T : Type) (sz al : Z) (chk : bool) (h : heap (dcell T)) d (x : T) (j : nat),
  (0 < sz)%Z -> layout_ok (Z.of_nat (subarray_size sz) * sz) al = true -> heap_wf h -> j <= 27 ->
  let n := subarray_size sz in
  let S := 10 * 2 ^ j - 2 in
  let fill := replicate (n * S - 1) (DPushBack x) ++ replicate n DPopFront in
  let round := replicate n (DPushBack x) ++ replicate n DPopFront in
  exists s l1 s1, deque_new sz al h d = Ok tt s /\ d_run sz al chk fill s = Some (l1, s1) /\
    forall r, repointed sz al chk (concat (replicate r round)) s1 = r * (S - 1) /\
      exists l2 s2, d_run sz al chk (concat (replicate r round)) s1 = Some (l2, s2) /\ len sz s2 = Ok (n * (S - 1) - 1) s2.
Proof.
  intros T sz al chk h d x j Hsz Hlay W J n S fill round. destruct (At_new sz al Hsz Hlay h d W) as (s & E & A).
  destruct (queue_cost sz al chk Hsz Hlay h x j s J A) as (s1 & k & [[l1 R1] _] & _ & Q).
  exists s, l1, s1. split; [done|]. split; [done|]. intros r. destruct (Q r) as (s2 & [[l2 R2] C2] & L2).
  split; [done|]. by exists l2, s2.
Qed.
