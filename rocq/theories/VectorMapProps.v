(** Property theorems.  Each is closed by the lemma of the same content in
    VectorMapDerived.v; examples show the hypotheses can be met. *)
From Verif Require Import Base Heap HeapLemmas Alloc AllocContract Vector VectorSpec.
From Verif Require Import VectorMap VectorMapSpec.
From Verif Require Import VectorMapDerived.

(** C25. From a new map in any heap, with a comparator that is a strict weak
    order agreeing with key equality, every sequence of calls answers exactly
    what a finite map (an unordered list of pairs) answers. *)
Theorem C25_map_refinement :
forall (K V : Type) (sz al : Z) (chk nd : bool) (cmp eqb : K -> K -> bool) (h : heap (K * V))
  (cs : list (mcall K V)) l d e m,
  (0 < sz)%Z -> (0 < al)%Z -> KeyOrder cmp eqb -> heap_wf h ->
  spec_mcalls eqb (default_fits sz al) cs (SMap [] 0) = (l, d, e, m) ->
  chk = true \/ forallb (m_modest sz) cs = true ->
  exists s xs, m_run (DefaultAllocator (K * V)) sz al chk nd cmp eqb cs (new_map h) = Some (l, s) /\
    as_slice sz (ms_v s) = Ok xs (ms_v s) /\ xs ≡ₚ entries m /\
    capacity sz (ms_v s) = Ok (mroom m) (ms_v s).
Proof. exact L_C25_map_refinement. Qed.
Print Assumptions C25_map_refinement.

Lemma lt_order : KeyOrder Nat.ltb Nat.eqb.
Proof.
  constructor; intros *; rewrite ?Nat.ltb_lt, ?Nat.ltb_ge, ?Nat.eqb_eq; lia.
Qed.
Example C25_example :
  option_map fst (m_run (DefaultAllocator (nat * nat)) 16 8 true false Nat.ltb Nat.eqb
    [MInsert 5 50; MInsert 3 30; MInsert 9 90; MInsert 5 51; MGet 5; MGet 4; MRemove 3; MRemove 3;
     MContains 9; MEntryGet 9; MEntrySet 4 40; MLen; MRemoveEntry 5; MGetMutSet 4 41; MGet 4; MClear; MIsEmpty]
    (new_map (Heap 0 ∅))) =
  Some [MTaken None; MTaken None; MTaken None; MTaken (Some 50); MRead (Some 51); MRead None; MTaken (Some 30);
        MTaken None; MBool true; MEntry (inl (9, 90)); MSet false 40; MNat 3; MPair (Some (5, 51)); MBool true;
        MRead (Some 41); MUnit; MBool true].
Proof. vm_compute. reflexivity. Qed.

(** C25, as laws.  In every reachable state, after a call, [get k'] answers: the
    new value if the call stored under an equal key, nothing if the call removed
    an equal key, and what it answered before otherwise.  [insert] and [remove]
    answer what [get] answered before. *)
Theorem C25_lookup_laws :
forall (K V : Type) (sz al : Z) (chk nd : bool) (cmp eqb : K -> K -> bool) (h : heap (K * V))
  (cs : list (mcall K V)) l s k k' v o o',
  (0 < sz)%Z -> (0 < al)%Z -> KeyOrder cmp eqb -> heap_wf h ->
  chk = true \/ forallb (m_modest sz) (MInsert k v :: cs) = true ->
  m_run (DefaultAllocator (K * V)) sz al chk nd cmp eqb cs (new_map h) = Some (l, s) ->
  m_step (DefaultAllocator (K * V)) sz al chk nd cmp eqb (MGet k) s = Some (MRead o, s) ->
  m_step (DefaultAllocator (K * V)) sz al chk nd cmp eqb (MGet k') s = Some (MRead o', s) ->
  (forall a s1, m_step (DefaultAllocator (K * V)) sz al chk nd cmp eqb (MInsert k v) s = Some (a, s1) -> a <> MPanic ->
     a = MTaken o /\
     m_step (DefaultAllocator (K * V)) sz al chk nd cmp eqb (MGet k') s1
       = Some (MRead (if eqb k k' then Some v else o'), s1)) /\
  (exists s1, m_step (DefaultAllocator (K * V)) sz al chk nd cmp eqb (MRemove k) s = Some (MTaken o, s1) /\
     m_step (DefaultAllocator (K * V)) sz al chk nd cmp eqb (MGet k') s1
       = Some (MRead (if eqb k k' then None else o'), s1)) /\
  (exists s1, m_step (DefaultAllocator (K * V)) sz al chk nd cmp eqb (MGetMutSet k v) s
       = Some (MBool (if o then true else false), s1) /\
     m_step (DefaultAllocator (K * V)) sz al chk nd cmp eqb (MGet k') s1
       = Some (MRead (if eqb k k' then (if o then Some v else None) else o'), s1)).
Proof. exact L_C25_lookup_laws. Qed.
Print Assumptions C25_lookup_laws.

Example C25_laws_example :
  match m_run (DefaultAllocator (nat * nat)) 16 8 true false Nat.ltb Nat.eqb [MInsert 5 50; MInsert 3 30] (new_map (Heap 0 ∅)) with
  | Some (_, s) =>
    option_map fst (m_run (DefaultAllocator (nat * nat)) 16 8 true false Nat.ltb Nat.eqb [MGet 5; MInsert 5 7; MGet 5; MGet 3] s)
      = Some [MRead (Some 50); MTaken (Some 50); MRead (Some 7); MRead (Some 30)]
  | None => False
  end.
Proof. vm_compute. reflexivity. Qed.

(** C26. After every call the exposed slice is strictly increasing in the
    comparator, no two of its keys are equal, and looking a key up reads the
    pair of the slice that has it. *)
Theorem C26_always_sorted :
forall (K V : Type) (sz al : Z) (chk nd : bool) (cmp eqb : K -> K -> bool) (h : heap (K * V))
  (cs : list (mcall K V)) l s,
  (0 < sz)%Z -> (0 < al)%Z -> KeyOrder cmp eqb -> heap_wf h ->
  chk = true \/ forallb (m_modest sz) cs = true ->
  m_run (DefaultAllocator (K * V)) sz al chk nd cmp eqb cs (new_map h) = Some (l, s) ->
  exists xs, as_slice sz (ms_v s) = Ok xs (ms_v s) /\
    (forall i j p q, i < j -> xs !! i = Some p -> xs !! j = Some q ->
       cmp (fst p) (fst q) = true /\ eqb (fst p) (fst q) = false /\ eqb (fst q) (fst p) = false) /\
    (forall k v, m_step (DefaultAllocator (K * V)) sz al chk nd cmp eqb (MGet k) s = Some (MRead (Some v), s) <->
       exists k', In (k', v) xs /\ eqb k' k = true).
Proof. exact L_C26_always_sorted. Qed.
Print Assumptions C26_always_sorted.

Example C26_example :
  match m_run (DefaultAllocator (nat * nat)) 16 8 true false Nat.ltb Nat.eqb
    [MExtend [(5, 1); (2, 2); (9, 3); (2, 4)]; MRemove 9; MInsert 3 5] (new_map (Heap 0 ∅)) with
  | Some (_, s) => val (as_slice 16 (ms_v s)) = Some [(2, 4); (3, 5); (5, 1)]
  | None => False
  end.
Proof. vm_compute. reflexivity. Qed.

(** C27. On a slice sorted by a transitive comparator the search returns the
    number of leading elements that compare less than the key: those before the
    index do, those from it on do not.  It asks for at most
    [ceil(log2 n) + 1] comparisons. *)
Theorem C27_binary_search :
forall (K V : Type) (cmp : K -> K -> bool) (xs : list (K * V)) (k : K),
  (forall a b c, cmp a b = true -> cmp b c = true -> cmp a c = true) ->
  sorted_by cmp xs ->
  exists i c, lower_bound_by (fun p => cmp (fst p) k) xs = Some (i, c) /\ i <= length xs /\
    (forall j p, xs !! j = Some p -> cmp (fst p) k = (j <? i)) /\
    c <= Nat.log2_up (length xs) + 1.
Proof. exact L_C27_binary_search. Qed.
Print Assumptions C27_binary_search.

Example C27_example : lower_bound_by (fun p => fst p <? 6) [(1, 0); (3, 0); (5, 0); (7, 0); (9, 0)] = Some (3, 4)
  /\ Nat.log2_up 5 + 1 = 4.
Proof. by vm_compute. Qed.

(** C27, safety.  Whatever the comparator answers and whatever the order of the
    slice, the unchecked accesses of the search stay inside the slice and its
    result is at most the length. *)
Theorem C27_search_in_bounds :
forall (T : Type) (less : T -> bool) (xs : list T),
  exists i c, lower_bound_by less xs = Some (i, c) /\ i <= length xs.
Proof. exact L_C27_search_in_bounds. Qed.
Print Assumptions C27_search_in_bounds.

Example C27_unsorted_example : lower_bound_by (fun x => x <? 6) [9; 1; 8; 2; 7] = Some (2, 4).
Proof. by vm_compute. Qed.

(** C28 is false: with a strict weak order that is coarser than [==] (tens
    digit of a number) a key that was inserted is not found, inserting it again
    duplicates it, and the slice is not strictly increasing. *)
Theorem C28_coarse_comparator_refuted :
exists (cmp : nat -> nat -> bool),
  (forall a, cmp a a = false) /\
  (forall a b c, cmp a b = true -> cmp b c = true -> cmp a c = true) /\
  (forall a b c, cmp a b = false -> cmp b a = false -> cmp b c = false -> cmp c b = false ->
     cmp a c = false /\ cmp c a = false) /\
  exists s, m_run (DefaultAllocator (nat * nat)) 16 8 true false cmp Nat.eqb
    [MInsert 11 1; MInsert 12 2; MGet 11; MInsert 11 3; MInsert 12 4; MLen] (new_map (Heap 0 ∅))
    = Some ([MTaken None; MTaken None; MRead None; MTaken None; MTaken None; MNat 4], s) /\
    val (as_slice 16 (ms_v s)) = Some [(12, 4); (11, 3); (12, 2); (11, 1)].
Proof. exact L_C28_coarse_comparator_refuted. Qed.
Print Assumptions C28_coarse_comparator_refuted.

(** C29. In every reachable state: [entry(k)] is occupied, with the stored key
    and value, exactly when [get(k)] is [Some]; otherwise it is vacant and hands
    the key back.  Writing through the entry (get_mut or vacant insert) leaves
    the same slice and capacity as [insert(k, v)], tells whether the key was
    there, and the reference it returns reads [v]. *)
Theorem C29_entry_is_insert_get :
forall (K V : Type) (sz al : Z) (chk nd : bool) (cmp eqb : K -> K -> bool) (h : heap (K * V))
  (cs : list (mcall K V)) l s k v,
  (0 < sz)%Z -> (0 < al)%Z -> KeyOrder cmp eqb -> heap_wf h ->
  chk = true \/ forallb (m_modest sz) (MInsert k v :: cs) = true ->
  m_run (DefaultAllocator (K * V)) sz al chk nd cmp eqb cs (new_map h) = Some (l, s) ->
  exists o s1 a2 s2 a3 s3 xs,
    m_step (DefaultAllocator (K * V)) sz al chk nd cmp eqb (MGet k) s = Some (MRead o, s) /\
    m_step (DefaultAllocator (K * V)) sz al chk nd cmp eqb (MEntryGet k) s
      = Some (MEntry (match o with Some w => inl (match List.find (fun p => eqb (fst p) k) xs with
                                                  | Some p => p | None => (k, w) end)
                                 | None => inr k end), s1) /\
    as_slice sz (ms_v s) = Ok xs (ms_v s) /\ as_slice sz (ms_v s1) = Ok xs (ms_v s1) /\
    (forall w, o = Some w -> exists k', List.find (fun p => eqb (fst p) k) xs = Some (k', w)) /\
    m_step (DefaultAllocator (K * V)) sz al chk nd cmp eqb (MEntrySet k v) s = Some (a2, s2) /\
    m_step (DefaultAllocator (K * V)) sz al chk nd cmp eqb (MInsert k v) s = Some (a3, s3) /\
    (a2 = MPanic <-> a3 = MPanic) /\
    (a2 <> MPanic -> a2 = MSet (if o then true else false) v /\ a3 = MTaken o) /\
    exists ys cap, as_slice sz (ms_v s2) = Ok ys (ms_v s2) /\ as_slice sz (ms_v s3) = Ok ys (ms_v s3) /\
      capacity sz (ms_v s2) = Ok cap (ms_v s2) /\ capacity sz (ms_v s3) = Ok cap (ms_v s3).
Proof. exact L_C29_entry_is_insert_get. Qed.
Print Assumptions C29_entry_is_insert_get.

Example C29_example :
  match m_run (DefaultAllocator (nat * nat)) 16 8 true false Nat.ltb Nat.eqb [MInsert 5 50; MInsert 3 30] (new_map (Heap 0 ∅)) with
  | Some (_, s) =>
    option_map fst (m_run (DefaultAllocator (nat * nat)) 16 8 true false Nat.ltb Nat.eqb
      [MEntryGet 5; MEntryGet 4; MEntrySet 5 7; MEntrySet 4 8; MGet 5; MGet 4; MLen] s)
      = Some [MEntry (inl (5, 50)); MEntry (inr 4); MSet true 7; MSet false 8; MRead (Some 7); MRead (Some 8); MNat 3]
  | None => False
  end.
Proof. vm_compute. reflexivity. Qed.

(** C30. A map built from a list of pairs ([From] first asks for a capacity
    [n], [collect] does not: [n = 0]) gives for every key the value of its last
    occurrence in the list. *)
Theorem C30_build_keeps_last :
forall (K V : Type) (sz al : Z) (chk nd : bool) (cmp eqb : K -> K -> bool) (h : heap (K * V)) n kvs a s k,
  (0 < sz)%Z -> (0 < al)%Z -> KeyOrder cmp eqb -> heap_wf h ->
  chk = true \/ forallb (m_modest sz) [MWithCapacity n; MExtend kvs] = true ->
  m_run (DefaultAllocator (K * V)) sz al chk nd cmp eqb [MWithCapacity n; MExtend kvs] (new_map h) = Some ([a; MUnit], s) ->
  m_step (DefaultAllocator (K * V)) sz al chk nd cmp eqb (MGet k) s
    = Some (MRead (option_map snd (List.find (fun p => eqb (fst p) k) (rev kvs))), s).
Proof. exact L_C30_build_keeps_last. Qed.
Print Assumptions C30_build_keeps_last.

Example C30_example :
  option_map fst (m_run (DefaultAllocator (nat * nat)) 16 8 true false Nat.ltb Nat.eqb
    [MWithCapacity 4; MExtend [(5, 1); (2, 2); (5, 3); (2, 4)]; MGet 5; MGet 2; MLen; MCapacity] (new_map (Heap 0 ∅)))
  = Some [MUnit; MUnit; MRead (Some 3); MRead (Some 4); MNat 2; MNat 4].
Proof. vm_compute. reflexivity. Qed.

(** C78. Keys and values are conserved: after any history every key and every
    value handed in is held in the slice, was handed out, or was dropped - each
    exactly once. *)
Theorem C78_map_ownership :
forall (K V : Type) (sz al : Z) (chk : bool) (cmp eqb : K -> K -> bool) (h : heap (K * V)) (cs : list (mcall K V)) l s,
  (0 < sz)%Z -> (0 < al)%Z -> KeyOrder cmp eqb -> heap_wf h ->
  chk = true \/ forallb (m_modest sz) cs = true ->
  m_run (DefaultAllocator (K * V)) sz al chk true cmp eqb cs (new_map h) = Some (l, s) ->
  exists xs, as_slice sz (ms_v s) = Ok xs (ms_v s) /\
    concat (map m_given cs) ≡ₚ
      parts xs ++ concat (map m_returned l) ++ parts (st_drops (ms_v s)) ++ ms_lone s.
Proof. exact L_C78_map_ownership. Qed.
Print Assumptions C78_map_ownership.

Example C78_example :
  match m_run (DefaultAllocator (nat * nat)) 16 8 true true Nat.ltb Nat.eqb
    [MInsert 5 50; MInsert 3 30; MInsert 5 51; MRemove 3; MEntrySet 7 70; MClear] (new_map (Heap 0 ∅)) with
  | Some (l, s) => st_drops (ms_v s) = [(5, 51); (7, 70)] /\ ms_lone s = [inl 5; inl 3]
  | None => False
  end.
Proof. vm_compute. done. Qed.

(** C78, memory.  No call corrupts or leaks memory: blocks that existed before
    keep their contents, and after [clear] (which is also what dropping the map
    does) the heap is what it was before the map existed. *)
Theorem C78_map_memory :
forall (K V : Type) (sz al : Z) (chk nd : bool) (cmp eqb : K -> K -> bool) (h : heap (K * V)) (cs : list (mcall K V)) l s,
  (0 < sz)%Z -> (0 < al)%Z -> KeyOrder cmp eqb -> heap_wf h ->
  chk = true \/ forallb (m_modest sz) cs = true ->
  m_run (DefaultAllocator (K * V)) sz al chk nd cmp eqb cs (new_map h) = Some (l, s) ->
  (forall b bk, h_blk h !! b = Some bk -> h_blk (st_h (ms_v s)) !! b = Some bk) /\
  exists s', m_step (DefaultAllocator (K * V)) sz al chk nd cmp eqb MClear s = Some (MUnit, s') /\
    h_blk (st_h (ms_v s')) = h_blk h.
Proof. exact L_C78_map_memory. Qed.
Print Assumptions C78_map_memory.

Example C78_memory_example :
  match m_run (DefaultAllocator (nat * nat)) 16 8 true true Nat.ltb Nat.eqb
    [MInsert 5 50; MInsert 3 30; MInsert 5 51] (new_map (Heap 1 {[0 := Block 16 8 [Some (1, 1)]]})) with
  | Some (l, s) => h_blk (st_h (ms_v s)) !! 0 = Some (Block 16 8 [Some (1, 1)]) /\ size (h_blk (st_h (ms_v s))) = 2
  | None => False
  end.
Proof. vm_compute. done. Qed.
