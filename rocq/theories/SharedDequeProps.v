(** Property theorems.  Each is closed by the lemma of the same content in
    SharedDequeDerived.v; examples show the hypotheses can be met. *)
From Verif Require Import Base Heap Alloc Deque DequeSpec SharedRefs SharedRefsSpec.
Local Open Scope nat_scope.
From Verif Require Import SharedDequeDerived.

(** C120 for deques, exactly when it holds.  Any number of shared iterators over a deque, stepped
    in any order at either end: each reference handed out is to the element at its position, and it is
    still good if and only if no reference to that element has been handed out after it.  Missing: the
    case that another one has been handed out, in which it is false. *)
Theorem C120_deque_shared_references_partial :
forall (T : Type) (sz al : Z) (chk : bool) (h0 : heap (dcell T)) prog l s xs (m : nat) (sch : list (nat * bool)), Setup sz al h0 ->
  built sz al chk h0 prog l s -> contents sz chk s xs ->
  let hs := handed sch (replicate m (0, length xs)) in
  exists rs, d_shared chk m sch s = Ok rs s /\ length rs = length hs /\
    forall r i, hs !! r = Some i ->
    exists p good x, rs !! r = Some (p, good) /\ xs !! i = Some x /\ read_elem p s = Ok x s /\
      (good = true <-> i ∉ drop (S r) hs).
Proof. exact L_C120_deque_shared_references_partial. Qed.
Print Assumptions C120_deque_shared_references_partial.

Example C120_deque_case :
  match dx_run [DPushBack 1; DPushBack 2; DPushFront 3]%Z with
  | Some (_, s) =>
    handed [(0, true); (1, false); (0, true); (1, false)] (replicate 2 (0, 3)) = [0; 2; 1; 1] /\
    val (d_shared true 2 [(0, true); (1, false); (0, true); (1, false)] s) =
      Some [(Ptr 2 31, true); (Ptr 1 1, true); (Ptr 1 0, false); (Ptr 1 0, true)]
  | None => False
  end.
Proof. vm_compute. done. Qed.

(** C120 for one iterator: all references that it hands out stay good. *)
Theorem C120_deque_one_iterator :
forall (T : Type) (sz al : Z) (chk : bool) (h0 : heap (dcell T)) prog l s xs (ds : list bool), Setup sz al h0 ->
  built sz al chk h0 prog l s -> contents sz chk s xs ->
  exists rs, d_shared chk 1 (map (pair 0) ds) s = Ok rs s /\ Forall (fun r => snd r = true) rs /\
    length rs = length ds `min` length xs.
Proof. exact L_C120_deque_one_iterator. Qed.
Print Assumptions C120_deque_one_iterator.

Example C120_deque_one_case :
  match dx_run [DPushBack 1; DPushBack 2; DPushFront 3]%Z with
  | Some (_, s) => val (d_shared true 1 (map (pair 0) [true; false; true; true]) s) =
      Some [(Ptr 2 31, true); (Ptr 1 1, true); (Ptr 1 0, true)]
  | None => False
  end.
Proof. vm_compute. done. Qed.

(** C120 is false of deques: for every deque that is not empty, [front] called twice (each call steps an iterator
    of its own) gives a first reference that is no longer good.  The same for [back]. *)
Theorem C120_deque_shared_references_refuted :
forall (T : Type) (sz al : Z) (chk : bool) (h0 : heap (dcell T)) prog l s xs, Setup sz al h0 ->
  built sz al chk h0 prog l s -> contents sz chk s xs -> xs <> [] ->
  exists p q, d_shared chk 2 [(0, true); (1, true)] s = Ok [(p, false); (p, true)] s /\
    d_shared chk 2 [(0, false); (1, false)] s = Ok [(q, false); (q, true)] s.
Proof. exact L_C120_deque_shared_references_refuted. Qed.
Print Assumptions C120_deque_shared_references_refuted.

Example C120_deque_refuted_case :
  match dx_run [DPushBack 1; DPushBack 2]%Z with
  | Some (_, s) => val (d_shared true 2 [(0, true); (1, true)] s) = Some [(Ptr 1 0, false); (Ptr 1 0, true)]
  | None => False
  end.
Proof. vm_compute. done. Qed.
