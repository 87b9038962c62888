(** Property theorems.  Each is closed by the lemma of the same content in
    HandoverDerived.v; examples show the hypotheses can be met. *)
From Verif Require Import Base Heap HeapLemmas Alloc AllocContract AddrMem Vector VectorSpec VectorMap VectorMapSpec Deque DequeSpec DequeCpp
  RehashPolicy HashTable HashTableSpec FixedPool FixedPoolSpec LinkedList LinkedListSpec HandoverSpec.
From Verif Require Import HandoverDerived.

(** C97, vectors.  Take any vector lying in memory, of any capacity.  Rust calls on it
    answer as a list with that contents; what lies in memory afterwards is again such a
    vector, so it can be handed back; blocks of others are untouched.  Clearing it (which is
    what dropping does) frees its block and leaves the other blocks alone. *)
Theorem C97_vector_taken_over :
forall (T : Type) (sz al : Z) (chk nd : bool) (clone : T -> option T) (cl : T -> T) (h : heap T) v xs cap (cs : list (call T)) l d ys cap',
  (0 < sz)%Z -> (0 < al)%Z -> (forall x, clone x = Some (cl x)) -> heap_wf h -> vector_in_memory sz al v h xs cap ->
  nd = false \/ forallb is_move cs = true ->
  spec_calls (default_fits sz al) cl cs (SVec xs cap) = (l, d, SVec ys cap') -> chk = true \/ forallb (modest sz) cs = true ->
  exists s, run_calls (DefaultAllocator T) sz al chk nd clone cs (VState v tt h []) = Some (l, s) /\
    as_slice sz s = Ok ys s /\ vector_in_memory sz al (st_v s) (st_h s) ys cap' /\
    (forall b, is_Some (h_blk h !! b) -> b ∉ vector_blocks v -> h_blk (st_h s) !! b = h_blk h !! b) /\
    exists s', Vector.clear (DefaultAllocator T) sz al chk nd s = Ok tt s' /\ st_drops s' = (if nd then d ++ ys else []) /\
      agree_outside (vector_blocks v) h (st_h s') /\ all_free (vector_blocks v) (st_h s').
Proof. exact L_C97_vector_taken_over. Qed.
Print Assumptions C97_vector_taken_over.

Example C97_vector_taken_over_case :
  let h := Heap 3 {[ 2 := Block 56 8 [Some 4; Some 5; None; None; None; None; None]; 1 := Block 8 8 [Some 9] ]} in
  let v := Vec (Ptr 2 0) (Ptr 2 2) (Ptr 2 7) in
  vector_in_memory 8 8 v h [4; 5] 7 /\ heap_wf h /\
  match run_calls (DefaultAllocator nat) 8 8 true true Some [CPush 6; CInsert 0 3; CReserve 1; CPop; CAsSlice; CCapacity] (VState v tt h []) with
  | Some (l, s) => drop 3 l = [Vector.AOpt (Some 6); ASlice [3; 4; 5]; Vector.ANat 8] /\
      match Vector.clear (DefaultAllocator nat) 8 8 true true s with Ok _ s' => map fst (map_to_list (h_blk (st_h s'))) = [1] | _ => False end
  | None => False
  end.
Proof.
  split; [right; exists 2, [None; None; None; None; None]; repeat (split; [done||lia|]); done|]. split; [|by vm_compute].
  intros b [bk H]. cbn [h_blk] in H. apply lookup_insert_Some in H as [[<- _]|[_ H]]; [cbn; lia|]. apply lookup_singleton_Some in H as [<- _]. cbn. lia.
Qed.

(** C97, vector maps.  The same for a vector of pairs that is strictly increasing in
    the comparator: Rust calls answer as a finite map with these entries. *)
Theorem C97_vector_map_taken_over :
forall (K V : Type) (sz al : Z) (chk nd : bool) (cmp eqb : K -> K -> bool) (h : heap (K * V)) v xs cap (cs : list (mcall K V)) l d e m,
  (0 < sz)%Z -> (0 < al)%Z -> KeyOrder cmp eqb -> heap_wf h -> vector_in_memory sz al v h xs cap -> sorted_by cmp xs ->
  spec_mcalls eqb (default_fits sz al) cs (SMap xs cap) = (l, d, e, m) -> chk = true \/ forallb (m_modest sz) cs = true ->
  exists s ys, m_run (DefaultAllocator (K * V)) sz al chk nd cmp eqb cs (MState (VState v tt h []) []) = Some (l, s) /\
    as_slice sz (ms_v s) = Ok ys (ms_v s) /\ ys ≡ₚ entries m /\ sorted_by cmp ys /\
    vector_in_memory sz al (st_v (ms_v s)) (st_h (ms_v s)) ys (mroom m) /\
    (forall b, is_Some (h_blk h !! b) -> b ∉ vector_blocks v -> h_blk (st_h (ms_v s)) !! b = h_blk h !! b) /\
    exists s', Vector.clear (DefaultAllocator (K * V)) sz al chk nd (ms_v s) = Ok tt s' /\
      agree_outside (vector_blocks v) h (st_h s') /\ all_free (vector_blocks v) (st_h s').
Proof. exact L_C97_vector_map_taken_over. Qed.
Print Assumptions C97_vector_map_taken_over.

Example C97_vector_map_taken_over_case :
  let h := Heap 3 {[ 2 := Block 80 8 [Some (1, 10); Some (4, 40); Some (6, 60); None; None] ]} in
  let v := Vec (Ptr 2 0) (Ptr 2 3) (Ptr 2 5) in
  vector_in_memory 16 8 v h [(1, 10); (4, 40); (6, 60)] 5 /\
  option_map fst (m_run (DefaultAllocator (nat * nat)) 16 8 true true Nat.ltb Nat.eqb [MGet 4; MInsert 5 50; MRemove 1; MGet 5; MLen] (MState (VState v tt h []) [])) =
  Some [MRead (Some 40); MTaken None; MTaken (Some 10); MRead (Some 50); MNat 3].
Proof. split; [|by vm_compute]. right. exists 2, [None; None]. repeat (split; [done||lia|]). done. Qed.

(** C97, deques.  Rust calls on any deque lying in memory answer as a list with that
    contents, whichever array and offset it starts in.  Afterwards a deque lies in memory
    again, and blocks of others are untouched.  Dropping it drops the elements and frees
    every block but one array, as for deques built in Rust (C36). *)
Theorem C97_deque_taken_over :
forall (T : Type) (sz al : Z) (chk : bool) (N : nat) (s : dstate T) xs own (prog : list (dcall T)),
  (0 < sz)%Z -> layout_ok (Z.of_nat N * sz) al = true -> heap_wf (d_h s) -> deque_in_memory sz al N s xs own ->
  (Z.of_nat (length xs + DequeSpec.pushes prog) <= max_len sz)%Z ->
  let '(answers, dropped, ys) := DequeSpec.spec_run prog xs in
  exists s' own', d_run sz al chk prog s = Some (map Some answers, s') /\ d_drops s' = d_drops s ++ dropped /\
    deque_in_memory sz al N s' ys own' /\
    (forall b, is_Some (h_blk (d_h s) !! b) -> b ∉ own -> h_blk (d_h s') !! b = h_blk (d_h s) !! b) /\
    exists s'' left cells, deque_drop sz al chk s' = Ok tt s'' /\ d_drops s'' = d_drops s' ++ ys /\
      h_blk (d_h s'') !! left = Some (Block (Z.of_nat N * sz) al cells) /\ (left ∈ own \/ h_blk (d_h s) !! left = None) /\
      agree_outside (left :: own) (d_h s) (d_h s'') /\
      forall b, b <> left -> b ∈ own -> h_blk (d_h s'') !! b = None.
Proof. exact L_C97_deque_taken_over. Qed.
Print Assumptions C97_deque_taken_over.

(** A deque of the numbers 7, 8, 9 beginning at place 30 of its first array. *)
Definition hx_deque : dstate Z :=
  let cells := replicate 30 None ++ [Some (DElem 7%Z); Some (DElem 8%Z)] in
  let cells' := Some (DElem 9%Z) :: replicate 31 None in
  DState (Ptr 4 0) 8 (position 32 4 2 [6; 5] 30) (position 32 4 2 [6; 5] 33)
    (Heap 9 {[ 4 := Block 64 8 [None; None; Some (DPtr (Ptr 6 0)); Some (DPtr (Ptr 5 0)); None; None; None; None];
               6 := Block 256 8 cells; 5 := Block 256 8 cells'; 8 := Block 8 8 [None] ]}) [].
Example C97_deque_taken_over_case :
  deque_in_memory 8 8 32 hx_deque [7; 8; 9]%Z [4; 6; 5] /\ heap_wf (d_h hx_deque) /\
  match d_run 8 8 true [DLen; DPopFront; DPushFront 6%Z; DPushFront 5%Z; DPopBack; DIter] hx_deque with
  | Some (l, s') => l = map Some [DNat 3; DOpt (Some 7); DUnit; DUnit; DOpt (Some 9); DList [5; 6; 8]]%Z /\
      match deque_drop 8 8 true s' with Ok _ s'' => map fst (map_to_list (h_blk (d_h s''))) = [5; 8] | _ => False end
  | None => False
  end.
Proof.
  split; [|split; [|by vm_compute]].
  - split.
    + split; [set_solver|lia].
    + exists 4, 2, [6; 5], [None; None; Some (DPtr (Ptr 6 0)); Some (DPtr (Ptr 5 0)); None; None; None; None], 30.
      split; [done|]. split; [apply NoDup_ListNoDup; repeat constructor; cbn; lia|]. split; [done|]. split; [by vm_compute|]. split; [done|]. split.
      { intros [|[|i]] b H; cbn in H; [| |done]; injection H as <-; (split; [done|]); eexists; (split; [vm_compute; reflexivity|done]). }
      split; [lia|]. split; [done|]. split; [done|]. split; [done|].
      intros [|[|[|i]]] x H; cbn in H; first [done|injection H as <-; by vm_compute].
    + exists 0%Z. done.
    + done.
  - intros b H. cbn in H. cbn [h_next]. destruct H as [bk H].
    repeat (apply lookup_insert_Some in H as [[<- _]|[_ H]]; [cbn; lia|]). apply lookup_singleton_Some in H as [<- _]. cbn. lia.
Qed.

(** C97, lists.  Rust calls on any ring of nodes lying in memory answer as a list with
    that contents, as long as the allocator finds room.  Afterwards such a ring lies in memory
    again.  Dropping the list drops the elements and returns every node, and nothing else. *)
Theorem C97_list_taken_over :
forall (T : Type) (pick : mem T -> Z -> Z -> Z) (chk : bool) (nsz nal obj : Z) (m0 : mem T) (s : lstate unit T) ps xs (prog : list (lcall T)),
  ListSetup m0 obj 24 nsz nal -> honest pick -> list_in_memory nsz nal obj s m0 ps xs ->
  room pick (m_live m0) nsz nal (LinkedListSpec.peak prog (length xs)) -> (Z.of_nat (LinkedListSpec.peak prog (length xs)) < u32_lim)%Z ->
  let '(answers, dropped, ys) := LinkedListSpec.spec_run prog xs in
  exists s' ps', l_run (DefaultAddrAlloc pick false) chk nsz nal prog s = Some (map Some answers, s') /\ l_drops s' = l_drops s ++ dropped /\
    list_in_memory nsz nal obj s' m0 ps' ys /\ LinkedListSpec.contents chk nsz s' ys /\
    exists s'', list_drop (DefaultAddrAlloc pick false) chk nsz s' = Ok tt s'' /\ l_drops s'' = l_drops s' ++ ys /\
      m_live (l_mem s'') ≡ₚ m_live m0.
Proof. exact L_C97_list_taken_over. Qed.
Print Assumptions C97_list_taken_over.

(** A list of 8 and 9 in two nodes, the first at the higher address. *)
Definition hx_list : lstate unit Z :=
  LState 4096 2 tt (Mem (m_live (lx_mem 24) ++ [Region 70000 24 8 true; Region 66000 24 8 true])
    (list_to_map [(4096, 70000); (4104, 66000); (70000, 66000); (70008, 4096); (66000, 4096); (66008, 70000)]%Z)
    (list_to_map [(70000, 8); (66000, 9)]%Z) 0) [].
Example C97_list_taken_over_case :
  list_in_memory 24 8 4096 hx_list (lx_mem 24) [70000; 66000]%Z [8; 9]%Z /\ ListSetup (lx_mem 24) 4096 24 24 8 /\
  match l_run (DefaultAddrAlloc lx_pick false) true 24 8 [LPushFront 7%Z; LPopBack; LPushBack 10%Z; LIter_; LSize] hx_list with
  | Some (l, s') => l = map Some [LinkedList.AUnit; AOpt (Some 9); LinkedList.AUnit; AList [7; 8; 10]; ANum 3]%Z /\
      match list_drop (DefaultAddrAlloc lx_pick false) true 24 s' with Ok _ s'' => m_live (l_mem s'') = m_live (lx_mem 24) | _ => False end
  | None => False
  end.
Proof.
  split; [|split; [by apply LinkedListDerived.lx_setup|by vm_compute]]. split.
  - done.
  - done.
  - split; [by vm_compute|]. split; [by vm_compute|]. split; [apply NoDup_ListNoDup; repeat constructor; cbn; lia|]. split; [by repeat constructor|].
    intros a Ha. rewrite !elem_of_cons in Ha. destruct Ha as [->|[->|[->|Ha]]]; [exists 70000%Z|exists 66000%Z|exists 4096%Z|by apply elem_of_nil in Ha];
      (split; [rewrite !elem_of_cons; tauto|]); by vm_compute.
  - done.
  - intros q Hq. rewrite !elem_of_cons in Hq. destruct Hq as [->|[->|Hq]]; [| |by apply elem_of_nil in Hq];
      (split; [lia|]; split; [unfold usize_lim; lia|]; split; [by apply Z.mod_divide|]); intros r Hr; apply elem_of_list_singleton in Hr as ->; done.
  - intros q q'. rewrite !elem_of_cons, !elem_of_nil. lia.
Qed.

(** C97, hash maps and sets.  Rust calls on any table lying in memory whose bucket count
    the growth policy led to answer as a finite map with these entries.  Afterwards such a
    table lies in memory again, with the entries of the map, and blocks of others are untouched.
    Dropping it drops the keys and values and frees all nodes; what stays behind are bucket
    arrays, as for tables built in Rust (C49). *)
Theorem C97_hash_map_taken_over :
forall (K V : Type) nsz nal eb chk hash eqb (s : tstate K V) buckets own (prog : list (hcall K V)),
  (0 < nsz)%Z -> layout_ok nsz nal = true -> KeyHash eqb hash -> heap_wf (t_h s) ->
  table_in_memory nsz nal eb hash eqb s buckets own ->
  let '(answers, dropped, m) := HashTableSpec.spec_run eqb prog (map snd (concat buckets)) in
  exists l s' buckets' own', h_run nsz nal eb chk hash eqb prog s = Some (l, s') /\ Forall2 same_answer l answers /\
    (exists d, t_drops s' = t_drops s ++ d /\ d ≡ₚ dropped) /\
    table_in_memory nsz nal eb hash eqb s' buckets' own' /\ map snd (concat buckets') ≡ₚ m /\
    (forall b, is_Some (h_blk (t_h s) !! b) -> b ∉ own -> h_blk (t_h s') !! b = h_blk (t_h s) !! b) /\
    exists s'' left d, ht_drop nsz nal eb s' = Ok tt s'' /\ t_drops s'' = t_drops s' ++ d /\ d ≡ₚ parts m /\
      agree_outside (left ++ own) (t_h s) (t_h s'') /\
      (forall b, b ∉ left -> b ∈ own -> h_blk (t_h s'') !! b = None) /\
      forall b, b ∈ left -> (b ∈ own \/ h_blk (t_h s) !! b = None) /\ exists bk, h_blk (t_h s'') !! b = Some bk /\ last (bk_cells bk) = Some (Some TOnes).
Proof. exact L_C97_hash_map_taken_over. Qed.
Print Assumptions C97_hash_map_taken_over.

(** A map of 3 and 5 in two buckets; 3 and 5 share one. *)
Definition hx_table : tstate Z Z :=
  TState (Ptr 9 0) 2 2 2 (Heap 10 {[ 0 := Block (-1) 8 [Some (TSlot Null); Some TOnes];
    9 := Block 24 8 [Some (TSlot Null); Some (TSlot (Ptr 4 0)); Some TOnes];
    4 := Block 24 8 [Some (TNode 3%Z 30%Z (Ptr 7 0))]; 7 := Block 24 8 [Some (TNode 5%Z 50%Z Null)]; 2 := Block 8 8 [Some TOnes] ]}) [].
Example C97_hash_map_taken_over_case :
  table_in_memory 24 8 0 hx_hash Z.eqb hx_table [[]; [(4%nat, (3, 30)); (7%nat, (5, 50))]]%Z [4; 7; 9] /\ heap_wf (t_h hx_table) /\
  match h_run 24 8 0 true hx_hash Z.eqb [HGet 5; HInsert 3 31; HInsert 8 80; HLen; HIter]%Z hx_table with
  | Some (l, s') => l = map Some [HPair (Some (5, 50)); HVal (Some 30); HVal None; HNat 3; HPairs [(5, 50); (8, 80); (3, 31)]]%Z /\
      match ht_drop 24 8 0 s' with Ok _ s'' => map fst (map_to_list (h_blk (t_h s''))) = [0; 9; 2; 10] | _ => False end
  | None => False
  end.
Proof.
  split; [|split; [|by vm_compute]].
  - split.
    + exists 9, [Null; Ptr 4 0], 24%Z. split; [done|]. split; [done|]. split; [by vm_compute|]. split; [|done].
      constructor; [done|]. constructor; [|constructor]. cbn. split; [done|]. exists (Ptr 7 0). split; [by vm_compute|]. split; [done|]. exists Null. split; [by vm_compute|done].
    + split; [by vm_compute|]. set_solver.
    + done.
    + refine (grown_added 2 2 1 None 2 _ _); [|by vm_compute]. refine (grown_added 1 0 0 (Some 2%Z) 2 _ _); [apply grown_empty|by vm_compute].
    + intros [|[|i]] l e Hl He; cbn in Hl; [| |done]; injection Hl as <-; [by apply elem_of_nil in He|].
      rewrite !elem_of_cons in He. destruct He as [->|[->|He]]; [done|done|by apply elem_of_nil in He].
    + apply NoDup_ListNoDup; repeat constructor; cbn; lia.
    + intros [|[|i]] [|[|j]] x y Hx Hy E; cbn in Hx, Hy; try done; injection Hx as <-; injection Hy as <-; done.
  - intros b H. cbn in H. cbn [h_next]. destruct H as [bk H].
    repeat (apply lookup_insert_Some in H as [[<- _]|[_ H]]; [cbn; lia|]). apply lookup_singleton_Some in H as [<- _]. cbn. lia.
Qed.
