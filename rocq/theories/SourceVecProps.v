(** Property theorems.  Each is closed by the lemma of the same content in
    SourceVecDerived.v; examples show the hypotheses can be met. *)
(** C100, vectors and ordered vector maps: a panic of the iterator they are filled from. *)
From Verif Require Import Base Heap Alloc Source.
From Verif Require Import Vector VectorSpec.
From Verif Require VectorMap VectorMapSpec.
From Verif Require Import SourceVecDerived.

(** Collecting into a vector, whatever the size hint: if all goes well the vector holds what
    the iterator yielded.  Otherwise the vector is gone, its memory is given back, and each
    element yielded so far was dropped once.  (Without overflow checks the hint
    must not exceed [isize::MAX] bytes.) *)
Theorem C100_vector_from_iter :
forall (T : Type) (sz al : Z) (chk nd : bool) (h : heap T) (hint : nat) (src : source T),
  (0 < sz)%Z -> (0 < al)%Z -> heap_wf h ->
  chk = true \/ (sz <= isize_max /\ Z.of_nat hint * sz <= isize_max)%Z ->
  match vector_collect (DefaultAllocator T) sz al chk nd hint src (VState new_in tt h []) with
  | (Ok _ s, n) => panics src = false /\ n = length (yields src) /\ as_slice sz s = Ok (yields src) s /\ st_drops s = []
  | (Panic s, n) => h_blk (st_h s) = h_blk h /\ st_drops s ≡ₚ (if nd then take n (yields src) else [])
  | (UB, _) => False
  end.
Proof. exact L_C100_vector_from_iter. Qed.
Print Assumptions C100_vector_from_iter.

Example C100_vector_from_iter_case :
  match vector_collect (DefaultAllocator nat) 8 8 true true 0 (Source [5; 6; 7] true) (VState new_in tt (Heap 0 ∅) []) with
  | (Panic s, n) => n = 3 /\ st_drops s = [5; 6; 7] /\ map_to_list (h_blk (st_h s)) = []
  | _ => False
  end /\
  match vector_collect (DefaultAllocator nat) 8 8 true true 0 (Source [5; 6; 7] false) (VState new_in tt (Heap 0 ∅) []) with
  | (Ok _ s, n) => val (as_slice 8 s) = Some [5; 6; 7]
  | _ => False
  end.
Proof. vm_compute. repeat split. Qed.
