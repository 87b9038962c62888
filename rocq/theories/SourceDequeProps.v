(** Property theorems.  Each is closed by the lemma of the same content in
    SourceDequeDerived.v; examples show the hypotheses can be met. *)
(** C100, deques and queues: a panic of the iterator they are filled from. *)
From Verif Require Import Base Heap Alloc Source.
From Verif Require Import Deque DequeSpec.
From Verif Require Import SourceDequeDerived.

(** Collecting into a deque, and so into a queue.  If all goes well it holds what the iterator
    yielded.  Otherwise it is gone and each element yielded so far was dropped once.  Up to the
    largest length, that happens only if the iterator panics, and the elements are dropped front
    to back.  With overflow checks all memory but one array, which every dropped deque leaks
    (C36), is given back. *)
Theorem C100_deque_from_iter :
forall (T : Type) (sz al : Z) (chk : bool) (h0 : heap (dcell T)) (src : source T), Setup sz al h0 ->
  match deque_collect sz al chk src h0 with
  | (Ok _ s, n) => panics src = false /\ n = length (yields src) /\ contents sz chk s (yields src) /\ d_drops s = []
  | (Panic s, n) =>
    d_drops s ≡ₚ take n (yields src) /\
    ((Z.of_nat (length (yields src)) <= max_len sz)%Z -> panics src = true /\ d_drops s = yields src) /\
    (chk = true -> exists b cs, h_blk h0 !! b = None /\
       h_blk (d_h s) !! b = Some (Block (Z.of_nat (subarray_size sz) * sz) al cs) /\
       forall b', b' <> b -> h_blk (d_h s) !! b' = h_blk h0 !! b')
  | (UB, _) => False
  end.
Proof. exact L_C100_deque_from_iter. Qed.
Print Assumptions C100_deque_from_iter.

Example C100_deque_from_iter_case :
  Setup 40 8 dx_heap /\
  match deque_collect 40 8 true (Source [5; 7; 9; 11; 13; 15; 17; 19; 21]%Z true) dx_heap with
  | (Panic s, n) => n = 9 /\ d_drops s = [5; 7; 9; 11; 13; 15; 17; 19; 21]%Z /\ length (map_to_list (h_blk (d_h s))) = 1
  | _ => False
  end /\
  match deque_collect 40 8 true (Source [5; 7; 9; 11; 13; 15; 17; 19; 21]%Z false) dx_heap with
  | (Ok _ s, n) => val (iter_all 40 true s) = Some [5; 7; 9; 11; 13; 15; 17; 19; 21]%Z
  | _ => False
  end.
Proof.
  split; [split; [lia|done|]; intros b [bk H]; cbn in H; by rewrite lookup_empty in H|].
  vm_compute. repeat split.
Qed.
