(** Property theorems.  Each is closed by the lemma of the same content in
    PanicRestDerived.v; examples show the hypotheses can be met. *)
From Verif Require Import Base Heap HeapLemmas Alloc AllocContract AddrMem Vector VectorSpec IterSpec FixedPool FixedPoolSpec LinkedList LinkedListSpec HashTable HashTableSpec Deque DequeSpec PanicDrop PanicRest PanicRestSpec.
Local Open Scope nat_scope.
From Verif Require Import PanicRestDerived.

(** C105, what holds for deques: dropping one runs the destructors from the front up to
    the first that panics, that one included; none runs twice and no block of others is
    touched.  After such a panic no block of the deque has been given back either.
    When none panics it is the drop of C35 and C36.
    Missing: the elements behind the panicking one. *)
Theorem C105_deque_drop_partial :
forall (T : Type) (sz al : Z) (chk : bool) (bad : T -> bool) (h0 : heap (dcell T)) prog l s xs, DequeSpec.Setup sz al h0 ->
  DequeSpec.built sz al chk h0 prog l s -> DequeSpec.contents sz chk s xs ->
  exists s', deque_drop_pd sz al chk bad s = (if existsb bad xs then Panic s' else Ok tt s') /\
    d_drops s' = d_drops s ++ up_to_bad bad xs /\
    (forall b bk, h_blk h0 !! b = Some bk -> h_blk (d_h s') !! b = Some bk) /\
    (existsb bad xs = true -> d_h s' = d_h s) /\
    (existsb bad xs = false -> deque_drop sz al chk s = Ok tt s').
Proof. exact L_C105_deque_drop_partial. Qed.
Print Assumptions C105_deque_drop_partial.

Example C105_deque_drop_partial_case :
  match dx_run (push_many 40) with
  | Some (_, s) => match deque_drop_pd 8 8 true (Z.eqb 3) s with Panic s' => d_drops s' = [0; 1; 2; 3]%Z | _ => False end /\
      match deque_drop_pd 8 8 true (Z.eqb 50) s with Ok _ s' => length (d_drops s') = 40 | _ => False end
  | None => False
  end.
Proof. vm_compute. done. Qed.

(** C105, refuted for deques: whenever the destructor of an element that is not the last
    panics, the elements behind it are never destroyed and no block is given back. *)
Theorem C105_deque_drop_refuted :
forall (T : Type) (sz al : Z) (chk : bool) (bad : T -> bool) (h0 : heap (dcell T)) prog l s pre x y post, DequeSpec.Setup sz al h0 ->
  DequeSpec.built sz al chk h0 prog l s -> DequeSpec.contents sz chk s (pre ++ x :: y :: post) -> existsb bad pre = false -> bad x = true ->
  exists s', deque_drop_pd sz al chk bad s = Panic s' /\ d_drops s' = d_drops s ++ pre ++ [x] /\ d_h s' = d_h s.
Proof. exact L_C105_deque_drop_refuted. Qed.
Print Assumptions C105_deque_drop_refuted.

Example C105_deque_drop_refuted_case :
  match dx_run [DPushBack 1; DPushBack 2; DPushBack 3; DPushFront 0]%Z with
  | Some (_, s) => match deque_drop_pd 8 8 true (Z.eqb 1) s with Panic s' => d_drops s' = [0; 1]%Z /\ map fst (map_to_list (h_blk (d_h s'))) = [0; 1; 2] | _ => False end
  | None => False
  end.
Proof. vm_compute. done. Qed.

(** C105 for a vector's consuming iterator: after any use from both ends, dropping it
    destroys every element it has not handed out, each once, however many destructors
    panic, and touches no block of others.  Without a panic it is the drop of C10. *)
Theorem C105_into_iter :
forall (T : Type) (sz al : Z) (chk : bool) (clone : T -> option T) (cl : T -> T) (bad : T -> bool) (h : heap T)
  (cs : list (call T)) l s xs k (ics : list icall) la rest,
  (0 < sz)%Z -> (0 < al)%Z -> (forall x, clone x = Some (cl x)) -> heap_wf h -> forallb is_move cs = true ->
  chk = true \/ forallb (modest sz) cs = true ->
  run_calls (DefaultAllocator T) sz al chk true clone cs (VState Vector.new_in tt h []) = Some (l, s) ->
  as_slice sz s = Ok xs s -> Vector.capacity sz s = Ok k s -> ispec_calls k ics xs = (la, rest) ->
  exists s1 s2, irun sz ics (vec_into_iter s) = Ok la s1 /\
    ii_drop_pd (DefaultAllocator T) sz al chk bad s1 =
      match length (List.filter bad rest) with 0 => Ok Done s2 | 1 => Panic s2 | _ => Ok Aborted s2 end /\
    st_drops (is_st s2) = st_drops s ++ rest /\
    (forall b bk, h_blk h !! b = Some bk -> h_blk (st_h (is_st s2)) !! b = Some bk) /\
    (length (List.filter bad rest) = 0 -> ii_drop (DefaultAllocator T) sz al chk true s1 = Ok tt s2).
Proof. exact L_C105_into_iter. Qed.
Print Assumptions C105_into_iter.

Example C105_into_iter_case :
  match run_calls (DefaultAllocator nat) 8 8 true true Some [CPush 1; CPush 2; CPush 3; CPush 4] (VState Vector.new_in tt (Heap 0 ∅) []) with
  | Some (l, s) =>
    match irun 8 [INext] (vec_into_iter s) with
    | Ok la s1 => la = [IAOpt (Some 1)] /\
      match ii_drop_pd (DefaultAllocator nat) 8 8 true (Nat.eqb 2) s1 with Panic s2 => st_drops (is_st s2) = [2; 3; 4] | _ => False end /\
      match ii_drop_pd (DefaultAllocator nat) 8 8 true (Nat.leb 3) s1 with Ok Aborted s2 => st_drops (is_st s2) = [2; 3; 4] | _ => False end
    | _ => False
    end
  | None => False
  end.
Proof. vm_compute. done. Qed.

(** C105, refuted for lists: whenever the destructor of an element that is not the last
    panics while the list is dropped (or cleared), the elements behind it are not
    destroyed. *)
Theorem C105_list_drop_refuted :
forall (T : Type) (pick : mem T -> Z -> Z -> Z) (chk : bool) (bad : T -> bool) (nsz nal obj : Z) (m0 : mem T) (prog : list (lcall T)) l s pre x y post,
  ListSetup m0 obj 24 nsz nal -> honest pick -> short prog -> LinkedListSpec.built pick false chk nsz nal obj m0 prog l s ->
  LinkedListSpec.contents chk nsz s (pre ++ x :: y :: post) -> existsb bad pre = false -> bad x = true ->
  exists s', list_clear_pd (DefaultAddrAlloc pick false) chk nsz bad s = Panic s' /\ l_drops s' = l_drops s ++ pre ++ [x].
Proof. exact L_C105_list_drop_refuted. Qed.
Print Assumptions C105_list_drop_refuted.

Example C105_list_drop_refuted_case :
  match lx_state false [LPushBack 1; LPushBack 2; LPushBack 3]%Z with
  | Some (l, s) => match list_clear_pd (DefaultAddrAlloc lx_pick false) true 24 (Z.eqb 2) s with Panic s' => l_drops s' = [1; 2]%Z | _ => False end
  | None => False
  end.
Proof. vm_compute. done. Qed.

(** C105, refuted for hash tables: there is a table of three entries of which one value's
    destructor panics when the table is dropped, and an entry is then not destroyed. *)
Theorem C105_table_drop_refuted :
exists (h0 : heap (tcell Z Z)) prog l s s' s1 es, HashTableSpec.Setup 24 8 0 hx_hash Z.eqb h0 /\
  HashTableSpec.built 24 8 0 true hx_hash Z.eqb h0 prog l s /\ h_call 24 8 0 true hx_hash Z.eqb HIter s = Ok (HPairs es) s1 /\
  free_buckets_pd 24 8 0 (fun _ => false) (Z.eqb 20) s = Panic s' /\ In (3, 30)%Z es /\ ~ In (inl 3%Z) (t_drops s') /\ ~ In (inr 30%Z) (t_drops s').
Proof. exact L_C105_table_drop_refuted. Qed.
Print Assumptions C105_table_drop_refuted.

Example C105_table_drop_refuted_case :
  match hx_run [HInsert 1 10; HInsert 2 20; HInsert 3 30]%Z with
  | Some (l, s) => match free_buckets_pd 24 8 0 (fun _ => false) (Z.eqb 20) s with
      | Panic s' => t_drops s' = [inl 1; inr 10; inl 2; inr 20]%Z | _ => False end
  | None => False
  end.
Proof. vm_compute. done. Qed.
