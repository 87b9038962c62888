(** Property theorems.  Each is closed by the lemma of the same content in
    DequeWorldDerived.v; examples show the hypotheses can be met. *)
From Verif Require Import Base Heap Alloc Deque DequeSpec DequeWorld DequeWorldSpec.
Local Open Scope nat_scope.
From Verif Require Import DequeWorldDerived.



From Verif Require Import DequeDerived.

(** C116 for deques: any number of deques in one memory, created, used in any order,
    exchanged with [mem::swap] and dropped, behave as so many separate lists.  No step is
    undefined; the answers and the destroyed elements, in order, are those of the specification, in
    which a call concerns only the list at its place and a swap exchanges two lists;
    at the end iterating each deque yields its list; no memory that was
    there before is touched; and with fewer pushes than the limit of one deque no
    call panics. *)
Theorem C116_deques_apart :
forall (T : Type) (sz al : Z) (chk : bool) (h0 : heap (dcell T)) (n : nat) (os : list (dop T)), Setup sz al h0 -> proper os (replicate n false) = true ->
  exists l w xss, dw_run sz al chk os (dw_start n h0) = Some (l, w) /\
    all_explained (max_len sz) os l (dw_drops w) (replicate n None) xss /\ dw_shows sz chk w xss /\
    (forall b, is_Some (h_blk h0 !! b) -> h_blk (dw_heap w) !! b = h_blk h0 !! b) /\
    ((Z.of_nat (all_pushes os) <= max_len sz)%Z -> None ∉ l).
Proof. exact L_C116_deques_apart. Qed.
Print Assumptions C116_deques_apart.

Example C116_deques_apart_case :
  let os := [QNew 0; QNew 1; QCall 0 (DPushBack 1); QCall 1 (DPushFront 7); QCall 0 (DPushFront 2); QCall 1 (DPushBack 8); QSwap 0 1;
      QCall 0 DIter; QCall 1 DPopBack; QDrop 0; QCall 1 (DPushBack 3); QNew 0; QCall 0 DLen; QCall 1 DIter]%Z in
  option_map (fun r => (fst r, dw_drops (snd r))) (dw_run 8 8 true os (dw_start 2 dx_heap)) =
    Some ([Some DUnit; Some DUnit; Some DUnit; Some DUnit; Some DUnit; Some DUnit; Some DUnit;
      Some (DList [7; 8]); Some (DOpt (Some 1)); Some DUnit; Some DUnit; Some DUnit; Some (DNat 0); Some (DList [2; 3])], [7; 8])%Z /\
  proper os [false; false] = true /\ Setup 8 8 dx_heap.
Proof. split; [vm_compute; reflexivity|]. split; [reflexivity|exact dx_setup]. Qed.
