(** Property theorems.  Each is closed by the lemma of the same content in
    SourceMapDerived.v; examples show the hypotheses can be met. *)
(** C100, ordered vector maps: a panic of the iterator they are filled from. *)
From Verif Require Import Base Heap Alloc Source.
From Verif Require Import Vector VectorSpec VectorMap VectorMapSpec.
From Verif Require Import SourceMapDerived.

(** Collecting pairs into an ordered vector map.  If all goes well, each key has the last value
    yielded for it.  Otherwise the map is gone, its memory is given back, and each key and each
    value yielded so far was dropped once. *)
Theorem C100_vector_map_from_iter :
forall (K V : Type) (sz al : Z) (chk nd : bool) (cmp eqb : K -> K -> bool) (h : heap (K * V)) (src : source (K * V)),
  (0 < sz)%Z -> (0 < al)%Z -> KeyOrder cmp eqb -> heap_wf h -> chk = true \/ (sz <= isize_max)%Z ->
  match map_collect (DefaultAllocator (K * V)) sz al chk nd cmp eqb src (new_map h) with
  | (Ok _ s, n) =>
    panics src = false /\ n = length (yields src) /\
    exists xs, as_slice sz (ms_v s) = Ok xs (ms_v s) /\
      (forall k, m_step (DefaultAllocator (K * V)) sz al chk nd cmp eqb (MGet k) s =
         Some (MRead (option_map snd (List.find (fun p => eqb (fst p) k) (rev (yields src)))), s)) /\
      (nd = true -> parts (yields src) ≡ₚ parts xs ++ parts (st_drops (ms_v s)) ++ ms_lone s)
  | (Panic s, n) =>
    h_blk (st_h (ms_v s)) = h_blk h /\
    (nd = true -> parts (st_drops (ms_v s)) ++ ms_lone s ≡ₚ parts (take n (yields src)))
  | (UB, _) => False
  end.
Proof. exact L_C100_vector_map_from_iter. Qed.
Print Assumptions C100_vector_map_from_iter.

Example C100_vector_map_from_iter_case :
  match map_collect (DefaultAllocator (nat * nat)) 16 8 true true Nat.ltb Nat.eqb
          (Source [(5, 50); (3, 30); (5, 51)] true) (new_map (Heap 0 ∅)) with
  | (Panic s, n) => n = 3 /\ st_drops (ms_v s) = [(3, 30); (5, 51)] /\ ms_lone s = [inl 5; inr 50] /\ map_to_list (h_blk (st_h (ms_v s))) = []
  | _ => False
  end /\
  match map_collect (DefaultAllocator (nat * nat)) 16 8 true true Nat.ltb Nat.eqb
          (Source [(5, 50); (3, 30); (5, 51)] false) (new_map (Heap 0 ∅)) with
  | (Ok _ s, n) => val (as_slice 16 (ms_v s)) = Some [(3, 30); (5, 51)]
  | _ => False
  end.
Proof. vm_compute. repeat split. Qed.
