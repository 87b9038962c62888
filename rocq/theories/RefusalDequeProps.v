(** Property theorems.  Each is closed by the lemma of the same content in
    RefusalDequeDerived.v; examples show the hypotheses can be met. *)
From Verif Require Import Base Heap Alloc Deque DequeSpec OutOfMemory Refusal RefusalSpec.
Local Open Scope nat_scope.
From Verif Require Import RefusalDequeDerived.

(** C104.  On a deque, whatever the allocator refuses during whichever calls: a push that is
    refused leaves the elements as they were, all later calls answer as usual, and the
    destructor drops just the elements that are in it. *)
Theorem C104_deque :
forall (T : Type) (sz al : Z) (chk : bool) (h0 : heap (dcell T)), Setup sz al h0 ->
  forall (prog : list (dcall T * (heap (dcell T) -> Z -> bool))) s0, deque_new sz al h0 [] = Ok tt s0 ->
  exists l s lost xs s', d_run_in sz al chk prog s0 = Some (l, s) /\ contents sz chk s xs /\
    bears (map fst prog) l (d_drops s) lost [] xs /\
    deque_drop sz al chk s = Ok tt s' /\ d_drops s' = d_drops s ++ xs.
Proof. exact L_C104_deque. Qed.
Print Assumptions C104_deque.

(** Elements of 8 bytes, 32 to an array.  The allocator has no more arrays to give while the
    32nd element is pushed at the back and one is pushed at the front. *)
Example C104_deque_case :
  let never := fun (_ : heap (dcell Z)) (_ : Z) => false in
  let always := fun (_ : heap (dcell Z)) (_ : Z) => true in
  Setup 8 8 dx_heap /\
  match deque_new 8 8 dx_heap [] with
  | Ok _ s0 =>
    match d_run_in 8 8 true (map (fun c => (c, never)) (push_many 31) ++
        [(DPushBack 31, always); (DLen, always); (DPushFront 77, always); (DPushFront 78, never); (DPushBack 79, never); (DLen, never); (DFront, never); (DBack, always)]%Z) s0 with
    | Some (l, s) => drop 31 l = [None; Some (DNat 31); None; Some DUnit; Some DUnit; Some (DNat 33); Some (DOpt (Some 78%Z)); Some (DOpt (Some 79%Z))] /\
        d_drops s = [77%Z]
    | None => False
    end
  | _ => False
  end.
Proof. cbn zeta. split; [split; [lia|done|]; intros b [bk H]; cbn in H; by rewrite lookup_empty in H|by vm_compute]. Qed.

(** An element pushed at the back when the allocator refuses can be lost: the push panics, and
    the element is neither in the deque nor ever dropped. *)
Theorem C104_push_back_loses_refuted :
exists (prog : list (dcall Z * (heap (dcell Z) -> Z -> bool))) s0 l s s',
  deque_new 8 8 dx_heap [] = Ok tt s0 /\ d_run_in 8 8 true prog s0 = Some (l, s) /\
  In (DPushBack 31%Z) (map fst prog) /\ last l = Some None /\ deque_drop 8 8 true s = Ok tt s' /\ ~ In 31%Z (d_drops s').
Proof. exact L_C104_push_back_loses_refuted. Qed.
Print Assumptions C104_push_back_loses_refuted.
