(** Property theorems.  Each is closed by the lemma of the same content in
    FixedSwapDerived.v; examples show the hypotheses can be met. *)
From Verif Require Import Base Heap HeapLemmas Alloc AllocContract Vector VectorSpec.
From Verif Require Import FixedVector FixedVectorSpec FixedSwap.
From Verif Require Import FixedSwapDerived.

(** C107, while both vectors exist: in any state a program can reach, after the
    swap of two vectors each shows the elements and the capacity that the other
    showed; nothing is dropped and no memory changes. *)
Theorem C107_swap_exchanges :
  forall (T : Type) (sz al : Z) (N : nat) (chk nd : bool) clone (cl : T -> T) (h : heap T) (os : list (fop T)) l w i j f g xs c o ys d p,
  (0 < sz)%Z -> (0 < al)%Z -> 0 < N -> (Z.of_nat N * sz <= isize_max)%Z ->
  (forall x, clone x = Some (cl x)) -> heap_wf h ->
  nd = false \/ forallb f_is_move os = true -> chk = true \/ forallb (f_modest sz) os = true ->
  f_run sz al N chk nd clone os (FWorld [] h []) = Some (l, w) ->
  i <> j -> fw_objs w !! i = Some f -> f_moved f = false -> fw_objs w !! j = Some g -> f_moved g = false ->
  shows sz N w f xs c o -> shows sz N w g ys d p ->
  exists w' f' g', x_step sz al N chk nd clone (XSwap i j) w = Some (AUnit, w') /\
    fw_h w' = fw_h w /\ fw_drops w' = fw_drops w /\
    fw_objs w' !! i = Some f' /\ fw_objs w' !! j = Some g' /\
    (forall k, k <> i -> k <> j -> fw_objs w' !! k = fw_objs w !! k) /\
    as_slice sz (f_state w' f') = Ok ys (f_state w' f') /\ capacity sz (f_state w' f') = Ok d (f_state w' f') /\
    as_slice sz (f_state w' g') = Ok xs (f_state w' g') /\ capacity sz (f_state w' g') = Ok c (f_state w' g') /\
    (o = false -> has_overflowed N g' = Some true) /\ (p = false -> has_overflowed N f' = Some true).
Proof. exact L_C107_swap_exchanges. Qed.
Print Assumptions C107_swap_exchanges.

Definition ex_run (os : list (xop Z)) := x_run 4 4 2 true true Some os (FWorld [] (Heap 0 ∅) []).

Example C107_swap_case : option_map fst (ex_run [XOp FNew; XOp FNew; XOp (FCall 0 (CPush 1%Z)); XOp (FCall 0 (CPush 2%Z)); XOp (FCall 1 (CPush 7%Z));
    XSwap 0 1; XOp (FCall 0 CAsSlice); XOp (FCall 1 CAsSlice); XOp (FOverflowed 0); XOp (FCall 0 (CPush 8%Z)); XOp (FCall 0 CAsSlice)])
  = Some [AUnit; AUnit; AUnit; AUnit; AUnit; AUnit; ASlice [7]%Z; ASlice [1; 2]%Z; ABool true; AUnit; ASlice [7; 8]%Z].
Proof. vm_compute. reflexivity. Qed.

(** C107 fails, for every element type and [NODE_COUNT]: an element is pushed
    to one of two fixed vectors (neither has overflowed), they are swapped, and
    the one that had the element goes out of scope.  The other still exists and
    has the element's address, but taking the element out, like reading it, is
    undefined behaviour: it lies in the storage that is gone. *)
Theorem C107_swap_refuted :
  forall (T : Type) (sz al : Z) (N : nat) (chk nd : bool) clone (cl : T -> T) (x : T),
  (0 < sz)%Z -> (0 < al)%Z -> 0 < N -> (Z.of_nat N * sz <= isize_max)%Z ->
  (forall x, clone x = Some (cl x)) ->
  exists l w f, x_run sz al N chk nd clone
      [XOp FNew; XOp FNew; XOp (FCall 0 (CPush x)); XOp (FOverflowed 0); XOp (FOverflowed 1); XSwap 0 1; XDrop 0]
      (FWorld [] (Heap 0 ∅) []) = Some (l, w) /\
    l = [AUnit; AUnit; AUnit; ABool false; ABool false; AUnit; AUnit] /\
    fw_objs w !! 1 = Some f /\ f_moved f = false /\ len sz (f_state w f) = Ok 1 (f_state w f) /\
    exec (FixedAlloc T) sz al chk nd clone CPop (f_state w f) = UB /\
    as_slice sz (f_state w f) = UB.
Proof. exact L_C107_swap_refuted. Qed.
Print Assumptions C107_swap_refuted.

Example C107_refuted_case : ex_run [XOp FNew; XOp FNew; XOp (FCall 0 (CPush 1%Z)); XSwap 0 1; XDrop 0; XOp (FCall 1 CAsSlice)] = None /\
  option_map fst (ex_run [XOp FNew; XOp FNew; XOp (FCall 0 (CPush 1%Z)); XSwap 0 1; XOp (FCall 1 CPop); XDrop 0; XOp (FCall 1 CLen)])
  = Some [AUnit; AUnit; AUnit; AUnit; AOpt (Some 1%Z); AUnit; ANat 0].
Proof. vm_compute. split; reflexivity. Qed.
