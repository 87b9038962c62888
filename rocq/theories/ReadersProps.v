(** Property theorems.  Each is closed by the lemma of the same content in
    ReadersDerived.v; examples show the hypotheses can be met. *)
From Verif Require Import Base Heap Alloc AddrMem Vector String VectorMap Deque HashTable LinkedList RBTree ReadersSpec.
From Verif Require AllocContract VectorSpec VectorMapSpec DequeSpec HashTableSpec FixedPoolSpec LinkedListSpec RBTreeSpec.
Local Open Scope nat_scope.
From Verif Require Import ReadersDerived.

(** C95.  Threads that share a container by reference do not disturb each other: in
    whatever order their calls happen, no call is undefined, nothing is changed, and each
    thread gets the answers it would get alone.  A vector, after any calls. *)
Theorem C95_vector_readers :
forall (T : Type) (sz al : Z) (chk nd : bool) (clone : T -> option T) (cl : T -> T) (h : heap T) (cs : list (call T)) l s threads,
  (0 < sz)%Z -> (0 < al)%Z -> (forall x, clone x = Some (cl x)) -> heap_wf h ->
  nd = false \/ forallb VectorSpec.is_move cs = true ->
  chk = true \/ forallb (VectorSpec.modest sz) cs = true ->
  run_calls (DefaultAllocator T) sz al chk nd clone cs (VState new_in tt h []) = Some (l, s) ->
  forallb (forallb shares_vector) threads = true ->
  undisturbed (step (DefaultAllocator T) sz al chk nd clone) threads s.
Proof. exact L_C95_vector_readers. Qed.
Print Assumptions C95_vector_readers.

Example C95_vector_readers_case :
  match run_calls (DefaultAllocator Z) 8 8 true false Some [CPush 5; CPush 6; CPush 7]%Z (VState new_in tt (Heap 0 ∅) []) with
  | Some (_, s) =>
    match in_turn (step (DefaultAllocator Z) 8 8 true false Some) (map snd [(1, CCapacity); (0, CLen); (1, CAsSlice); (0, CIsFull)]) s with
    | Some (l, s') => l = [ANat 4; ANat 3; ASlice [5; 6; 7]%Z; Vector.ABool false] /\ heard 0 [(1, @CCapacity Z); (0, CLen); (1, CAsSlice); (0, CIsFull)] l = [ANat 3; Vector.ABool false]
    | None => False
    end
  | None => False
  end /\ order [[@CLen Z; CIsFull]; [CCapacity; CAsSlice]] [(1, CCapacity); (0, CLen); (1, CAsSlice); (0, CIsFull)].
Proof. split; [vm_compute; by split|]. repeat (eapply order_turn; [reflexivity|cbn]). apply order_done. by repeat constructor. Qed.

(** Strings: any number of them over one heap, built by any operations, read and compared
    by any threads. *)
Theorem C95_string_readers :
forall (chk : bool) (h : heap Z) (os : list sop) l w threads, heap_wf h ->
  chk = true \/ forallb StringSpec.o_modest os = true ->
  s_wrun (DefaultAllocator Z) chk os (World [] tt h []) = Some (l, w) ->
  forallb (forallb (fun o => shares_string o && on_strings (length (w_vecs w)) o)) threads = true ->
  undisturbed (s_wstep (DefaultAllocator Z) chk) threads w.
Proof. exact L_C95_string_readers. Qed.
Print Assumptions C95_string_readers.

Example C95_string_readers_case :
  match s_wrun (DefaultAllocator Z) true [OFrom [104; 105]; OClone 0; OCall 1 (SPush 33)]%Z (World [] tt (Heap 0 ∅) []) with
  | Some (_, w) =>
    match in_turn (s_wstep (DefaultAllocator Z) true) (map snd [(0, OEq 0 1); (1, OCall 1 SBytes); (0, OCall 0 String.SLen)]) w with
    | Some (l, _) => length (w_vecs w) = 2 /\ l = [String.SBool false; String.SByteList [104; 105; 33]%Z; String.SNat 2]
    | None => False
    end
  | None => False
  end.
Proof. vm_compute. by split. Qed.

(** A vector map. *)
Theorem C95_vector_map_readers :
forall (K V : Type) (sz al : Z) (chk nd : bool) (cmp eqb : K -> K -> bool) (h : heap (K * V)) (cs : list (mcall K V)) l s threads,
  (0 < sz)%Z -> (0 < al)%Z -> VectorMapSpec.KeyOrder cmp eqb -> heap_wf h ->
  chk = true \/ forallb (VectorMapSpec.m_modest sz) cs = true ->
  m_run (DefaultAllocator (K * V)) sz al chk nd cmp eqb cs (new_map h) = Some (l, s) ->
  forallb (forallb shares_vector_map) threads = true ->
  undisturbed (m_step (DefaultAllocator (K * V)) sz al chk nd cmp eqb) threads s.
Proof. exact L_C95_vector_map_readers. Qed.
Print Assumptions C95_vector_map_readers.

Example C95_vector_map_readers_case :
  match m_run (DefaultAllocator (nat * nat)) 16 8 true false Nat.ltb Nat.eqb [MInsert 5 50; MInsert 3 30; MInsert 9 90] (new_map (Heap 0 ∅)) with
  | Some (_, s) => option_map fst (in_turn (m_step (DefaultAllocator (nat * nat)) 16 8 true false Nat.ltb Nat.eqb) (map snd [(0, MGet 5); (1, MGet 4); (2, MLen); (0, MContains 9)]) s) =
      Some [MRead (Some 50); MRead None; MNat 3; MBool true]
  | None => False
  end.
Proof. by vm_compute. Qed.

(** A deque. *)
Theorem C95_deque_readers :
forall (T : Type) (sz al : Z) (chk : bool) (h0 : heap (dcell T)) (prog : list (dcall T)) l s threads, DequeSpec.Setup sz al h0 ->
  DequeSpec.built sz al chk h0 prog l s ->
  forallb (forallb shares_deque) threads = true -> undisturbed (answers (d_call sz al chk)) threads s.
Proof. exact L_C95_deque_readers. Qed.
Print Assumptions C95_deque_readers.

Example C95_deque_readers_case :
  match DequeSpec.dx_run [DPushBack 1; DPushBack 2; DPushFront 3]%Z with
  | Some (_, s) => option_map fst (in_turn (answers (d_call 8 8 true)) (map snd [(0, DFront); (1, DIter); (0, DBack); (1, DLen)]) s) =
      Some [Some (DOpt (Some 3%Z)); Some (DList [3; 1; 2]%Z); Some (DOpt (Some 2%Z)); Some (DNat 3)]
  | None => False
  end.
Proof. by vm_compute. Qed.

(** A queue. *)
Theorem C95_queue_readers :
forall (T : Type) (sz al : Z) (chk : bool) (h0 : heap (dcell T)) (prog : list (qcall T)) s0 l s threads, DequeSpec.Setup sz al h0 ->
  (Z.of_nat (DequeSpec.q_pushes prog) <= DequeSpec.max_len sz)%Z ->
  deque_new sz al h0 [] = Ok tt s0 -> q_run sz al chk prog s0 = Some (l, s) ->
  forallb (forallb shares_queue) threads = true -> undisturbed (answers (q_call sz al chk)) threads s.
Proof. exact L_C95_queue_readers. Qed.
Print Assumptions C95_queue_readers.

Example C95_queue_readers_case :
  match deque_new 8 8 DequeSpec.dx_heap [] with
  | Ok _ s0 =>
    match q_run 8 8 true [QPush 1; QPush 2; QPop]%Z s0 with
    | Some (_, s) => option_map fst (in_turn (answers (q_call 8 8 true)) (map snd [(0, QTop); (1, QIter); (0, QLen)]) s) =
        Some [Some (DOpt (Some 2%Z)); Some (DList [2]%Z); Some (DNat 1)]
    | None => False
    end
  | _ => False
  end.
Proof. by vm_compute. Qed.

(** A hash map. *)
Theorem C95_hash_map_readers :
forall (K V : Type) nsz nal eb chk hash eqb (h0 : heap (tcell K V)) prog l s threads, HashTableSpec.Setup nsz nal eb hash eqb h0 ->
  HashTableSpec.built nsz nal eb chk hash eqb h0 prog l s ->
  forallb (forallb shares_hash) threads = true -> undisturbed (answers (h_call nsz nal eb chk hash eqb)) threads s.
Proof. exact L_C95_hash_map_readers. Qed.
Print Assumptions C95_hash_map_readers.

Example C95_hash_map_readers_case :
  match h_run 24 8 0 true HashTableSpec.hx_hash Z.eqb [HInsert 1 10; HInsert 3 30; HInsert 5 50]%Z (ht_new 0 HashTableSpec.hx_heap []) with
  | Some (_, s) => option_map fst (in_turn (answers (h_call 24 8 0 true HashTableSpec.hx_hash Z.eqb)) (map snd [(0, HGet 3%Z); (1, HContains 4%Z); (0, HLen); (1, HGet 5%Z)]) s) =
      Some [Some (HPair (Some (3, 30)%Z)); Some (HBool false); Some (HNat 3); Some (HPair (Some (5, 50)%Z))]
  | None => False
  end.
Proof. by vm_compute. Qed.

(** A hash set. *)
Theorem C95_hash_set_readers :
forall (K : Type) nsz nal eb chk hash eqb (h0 : heap (tcell K unit)) (prog : list (HashTable.scall K)) l s threads, HashTableSpec.Setup nsz nal eb hash eqb h0 ->
  set_run nsz nal eb chk hash eqb prog (ht_new eb h0 []) = Some (l, s) ->
  forallb (forallb shares_set) threads = true -> undisturbed (answers (set_call nsz nal eb chk hash eqb)) threads s.
Proof. exact L_C95_hash_set_readers. Qed.
Print Assumptions C95_hash_set_readers.

Example C95_hash_set_readers_case :
  match set_run 16 8 0 true HashTableSpec.hx_hash Z.eqb [SInsert 1; SInsert 3; SInsert 5]%Z (ht_new 0 HashTableSpec.hx_heap []) with
  | Some (_, s) => option_map fst (in_turn (answers (set_call 16 8 0 true HashTableSpec.hx_hash Z.eqb)) (map snd [(0, SContains 3%Z); (1, SContains 4%Z); (0, SLen)]) s) =
      Some [Some (HashTable.SBool true); Some (HashTable.SBool false); Some (HashTable.SNat 3)]
  | None => False
  end.
Proof. by vm_compute. Qed.

(** A list, whatever an honest allocator refused while it was built. *)
Theorem C95_list_readers :
forall (T : Type) (pick : mem T -> Z -> Z -> Z) (chk : bool) (nsz nal obj : Z) (m0 : mem T) (prog : list (lcall T)) l s threads,
  LinkedListSpec.ListSetup m0 obj 24 nsz nal -> FixedPoolSpec.honest pick -> LinkedListSpec.short prog ->
  LinkedListSpec.built pick false chk nsz nal obj m0 prog l s ->
  forallb (forallb shares_list) threads = true -> undisturbed (answers (l_call (DefaultAddrAlloc pick false) chk nsz nal)) threads s.
Proof. exact L_C95_list_readers. Qed.
Print Assumptions C95_list_readers.

Example C95_list_readers_case :
  match LinkedListSpec.lx_state false [LPushBack 1; LPushBack 2; LPushFront 3]%Z with
  | Some (_, s) => option_map fst (in_turn (answers (l_call (DefaultAddrAlloc LinkedListSpec.lx_pick false) true 24 8)) (map snd [(0, LFront); (1, LIter_); (0, LLen)]) s) =
      Some [Some (LinkedList.AOpt (Some 3%Z)); Some (AList [3; 1; 2]%Z); Some (ANum 3)]
  | None => False
  end.
Proof. by vm_compute. Qed.

(** A map whose tree is well formed, for a comparator that is an order. *)
Theorem C95_tree_readers :
forall (A K V : Type) (lt : K -> K -> bool) (nsz : Z) (s : tstate A K V) (t : RBTreeSpec.tree K V) threads,
  RBTreeSpec.strict_weak_order lt -> (24 <= nsz)%Z -> RBTreeSpec.holds nsz s t -> RBTreeSpec.sorted lt t ->
  forallb (forallb shares_tree) threads = true -> undisturbed (answers (t_call nsz lt)) threads s.
Proof. exact L_C95_tree_readers. Qed.
Print Assumptions C95_tree_readers.

Example C95_tree_readers_case :
  (RBTreeSpec.strict_weak_order Z.ltb /\ RBTreeSpec.holds 40 (RBTreeSpec.rx_state 2048 2176) RBTreeSpec.rx_tree /\ RBTreeSpec.sorted Z.ltb RBTreeSpec.rx_tree) /\
  option_map fst (in_turn (answers (t_call 40 Z.ltb)) (map snd [(0, TGet 30%Z); (1, TContains 21%Z); (0, TLen); (1, TIterAll)]) (RBTreeSpec.rx_state 2048 2176)) =
  Some [Some (TVal (Some 300%Z)); Some (TBool false); Some (TNum 3); Some (TList [(10, 100); (20, 200); (30, 300)]%Z)].
Proof. split; [|by vm_compute]. split; [apply RBTreeDerived.ltb_order|]. split; [apply RBTreeDerived.rx_holds|apply RBTreeDerived.rx_sorted]. Qed.
