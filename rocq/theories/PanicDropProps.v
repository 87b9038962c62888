(** Property theorems.  Each is closed by the lemma of the same content in
    PanicDropDerived.v; examples show the hypotheses can be met. *)
From Verif Require Import Base Heap HeapLemmas Alloc AllocContract AddrMem Vector VectorSpec FixedPool FixedPoolSpec LinkedList LinkedListSpec HashTable HashTableSpec PanicDrop PanicRestSpec.
Local Open Scope nat_scope.
From Verif Require Import PanicDropDerived.

(** C86, refuted for vectors: whenever exactly one destructor panics during [clear],
    all destructors have run and the panic leaves the vector as it was, so dropping it
    afterwards (as unwinding does) runs them again, which is undefined. *)
Theorem C86_vector_clear_refuted :
forall (T : Type) (sz al : Z) (chk : bool) (clone : T -> option T) (bad : T -> bool) (h : heap T) (cs : list (call T)) l s xs,
  (0 < sz)%Z -> (0 < al)%Z -> (forall x, clone x = Some x) -> heap_wf h -> forallb is_move cs = true ->
  chk = true \/ forallb (modest sz) cs = true ->
  run_calls (DefaultAllocator T) sz al chk true clone cs (VState new_in tt h []) = Some (l, s) ->
  as_slice sz s = Ok xs s -> length (List.filter bad xs) = 1 ->
  exists s', vec_clear_pd (DefaultAllocator T) sz al chk bad s = Panic s' /\ st_drops s' = st_drops s ++ xs /\
    vec_clear_pd (DefaultAllocator T) sz al chk bad s' = UB.
Proof. exact L_C86_vector_clear_refuted. Qed.
Print Assumptions C86_vector_clear_refuted.

Example C86_vector_case :
  match run_calls (DefaultAllocator nat) 8 8 true true Some [CPush 1; CPush 2; CPush 3] (VState new_in tt (Heap 0 ∅) []) with
  | Some (l, s) => match vec_clear_pd (DefaultAllocator nat) 8 8 true (Nat.eqb 2) s with
      | Panic s' => st_drops s' = [1; 2; 3] /\ is_ub (vec_clear_pd (DefaultAllocator nat) 8 8 true (Nat.eqb 2) s') = true
      | _ => False end
  | None => False
  end.
Proof. vm_compute. by split. Qed.

(** C86, what holds for vectors: dropping one runs each destructor exactly once, however
    many of them panic, and touches no other block; without a panic it is the drop
    of C04 and C05.  Missing: [clear] of a vector that is used or dropped afterwards. *)
Theorem C86_vector_drop_partial :
forall (T : Type) (sz al : Z) (chk : bool) (clone : T -> option T) (bad : T -> bool) (h : heap T) (cs : list (call T)) l s xs,
  (0 < sz)%Z -> (0 < al)%Z -> (forall x, clone x = Some x) -> heap_wf h -> forallb is_move cs = true ->
  chk = true \/ forallb (modest sz) cs = true ->
  run_calls (DefaultAllocator T) sz al chk true clone cs (VState new_in tt h []) = Some (l, s) ->
  as_slice sz s = Ok xs s ->
  exists s', vec_clear_pd (DefaultAllocator T) sz al chk bad s =
      match length (List.filter bad xs) with 0 => Ok Done s' | 1 => Panic s' | _ => Ok Aborted s' end /\
    st_drops s' = st_drops s ++ xs /\
    (forall b bk, h_blk h !! b = Some bk -> h_blk (st_h s') !! b = Some bk) /\
    (length (List.filter bad xs) = 0 -> Vector.clear (DefaultAllocator T) sz al chk true s = Ok tt s').
Proof. exact L_C86_vector_drop_partial. Qed.
Print Assumptions C86_vector_drop_partial.

Example C86_vector_drop_case :
  match run_calls (DefaultAllocator nat) 8 8 true true Some [CPush 1; CPush 2; CPush 3] (VState new_in tt (Heap 0 ∅) []) with
  | Some (l, s) => match vec_clear_pd (DefaultAllocator nat) 8 8 true (fun x => negb (Nat.eqb 2 x)) s with
      | Ok Aborted s' => st_drops s' = [1; 2; 3] | _ => False end
  | None => False
  end.
Proof. vm_compute. done. Qed.

(** C86, refuted for lists: when the destructor of an element panics during [clear],
    the elements up to it are dropped and freed but still linked, so dropping the list
    afterwards (as unwinding does) is undefined. *)
Theorem C86_list_clear_refuted :
forall (T : Type) (pick : mem T -> Z -> Z -> Z) (chk : bool) (bad : T -> bool) (nsz nal obj : Z) (m0 : mem T) (prog : list (lcall T)) l s pre x post,
  ListSetup m0 obj 24 nsz nal -> honest pick -> short prog -> LinkedListSpec.built pick false chk nsz nal obj m0 prog l s ->
  contents chk nsz s (pre ++ x :: post) -> existsb bad pre = false -> bad x = true ->
  exists s', list_clear_pd (DefaultAddrAlloc pick false) chk nsz bad s = Panic s' /\ l_drops s' = l_drops s ++ pre ++ [x] /\
    list_clear_pd (DefaultAddrAlloc pick false) chk nsz bad s' = UB.
Proof. exact L_C86_list_clear_refuted. Qed.
Print Assumptions C86_list_clear_refuted.

Example C86_list_clear_case :
  match lx_state false [LPushBack 1; LPushBack 2; LPushBack 3]%Z with
  | Some (l, s) => match list_clear_pd (DefaultAddrAlloc lx_pick false) true 24 (Z.eqb 2) s with
      | Panic s' => l_drops s' = [1; 2]%Z /\ is_ub (list_clear_pd (DefaultAddrAlloc lx_pick false) true 24 (Z.eqb 2) s') = true
      | _ => False end
  | None => False
  end.
Proof. vm_compute. by split. Qed.

(** C86, what holds for lists: [clear] or dropping never drops an element twice by
    itself; it destroys the elements from the front up to the first whose destructor
    panics, that one included, and when none
    panics it is the [clear] of C53.  Missing: the elements behind the panicking one are
    leaked, and the list cannot be used or dropped afterwards. *)
Theorem C86_list_clear_partial :
forall (T : Type) (pick : mem T -> Z -> Z -> Z) (chk : bool) (bad : T -> bool) (nsz nal obj : Z) (m0 : mem T) (prog : list (lcall T)) l s xs,
  ListSetup m0 obj 24 nsz nal -> honest pick -> short prog -> LinkedListSpec.built pick false chk nsz nal obj m0 prog l s ->
  contents chk nsz s xs ->
  exists s', list_clear_pd (DefaultAddrAlloc pick false) chk nsz bad s = (if existsb bad xs then Panic s' else Ok Done s') /\
    l_drops s' = l_drops s ++ up_to_bad bad xs /\
    (existsb bad xs = false -> up_to_bad bad xs = xs /\ LinkedList.clear (DefaultAddrAlloc pick false) chk nsz s = Ok tt s').
Proof. exact L_C86_list_clear_partial. Qed.
Print Assumptions C86_list_clear_partial.

Example C86_list_drop_case :
  match lx_state false [LPushBack 1; LPushBack 2; LPushBack 3]%Z with
  | Some (l, s) => match list_clear_pd (DefaultAddrAlloc lx_pick false) true 24 (Z.eqb 9) s with
      | Ok Done s' => l_drops s' = [1; 2; 3]%Z | _ => False end
  | None => False
  end.
Proof. vm_compute. done. Qed.

(** C86, refuted for hash tables: when exactly one destructor of some entry panics during
    [clear], the buckets still lead to entries already dropped, so dropping the table
    afterwards (as unwinding does) is undefined. *)
Theorem C86_table_clear_refuted :
forall (K V : Type) nsz nal eb chk hash eqb (h0 : heap (tcell K V)) (badk : K -> bool) (badv : V -> bool), Setup nsz nal eb hash eqb h0 ->
  forall prog l s es, HashTableSpec.built nsz nal eb chk hash eqb h0 prog l s -> h_call nsz nal eb chk hash eqb HIter s = Ok (HPairs es) s ->
  (exists k v, (k, v) ∈ es /\ (badk k || badv v) = true) -> (forall k v, (k, v) ∈ es -> (badk k && badv v) = false) ->
  exists s' ds rest, table_clear_pd nsz nal eb badk badv s = Panic s' /\
    t_drops s' = t_drops s ++ flat_map (fun e => [inl (fst e); inr (snd e)]) ds /\ ds ++ rest ≡ₚ es /\
    table_clear_pd nsz nal eb badk badv s' = UB.
Proof. exact L_C86_table_clear_refuted. Qed.
Print Assumptions C86_table_clear_refuted.

Example C86_table_clear_case :
  match hx_run [HInsert 1 10; HInsert 2 20; HInsert 3 30]%Z with
  | Some (l, s) => match table_clear_pd 24 8 0 (fun _ => false) (Z.eqb 20) s with
      | Panic s' => t_drops s' = [inl 1; inr 10; inl 2; inr 20]%Z /\ is_ub (table_clear_pd 24 8 0 (fun _ => false) (Z.eqb 20) s') = true
      | _ => False end
  | None => False
  end.
Proof. vm_compute. by split. Qed.

(** C86, what holds for hash tables: [clear] or drop destroys whole entries, each at most
    once and in some order, up to and including the first with a panicking destructor (two
    in one entry abort the process), and touches no block that the table does not own;
    when none panics it is the [clear] of the model without panics, which destroys all.
    Missing: the entries behind are leaked, and the table cannot be used or dropped after
    a panic. *)
Theorem C86_table_clear_partial :
forall (K V : Type) nsz nal eb chk hash eqb (h0 : heap (tcell K V)) (badk : K -> bool) (badv : V -> bool), Setup nsz nal eb hash eqb h0 ->
  forall prog l s es, HashTableSpec.built nsz nal eb chk hash eqb h0 prog l s -> h_call nsz nal eb chk hash eqb HIter s = Ok (HPairs es) s ->
  exists s' ds rest,
    t_drops s' = t_drops s ++ flat_map (fun e => [inl (fst e); inr (snd e)]) ds /\ ds ++ rest ≡ₚ es /\
    (forall b bk, h_blk h0 !! b = Some bk -> h_blk (t_h s') !! b = Some bk) /\
    (((forall k v, (k, v) ∈ es -> badk k = false /\ badv v = false) /\ rest = [] /\
      table_clear_pd nsz nal eb badk badv s = Ok Done s' /\ HashTable.clear nsz nal eb s = Ok tt s') \/
     (exists ds0 k v, ds = ds0 ++ [(k, v)] /\ (badk k || badv v) = true /\
      (forall k' v', (k', v') ∈ ds0 -> badk k' = false /\ badv v' = false) /\
      table_clear_pd nsz nal eb badk badv s = if badk k && badv v then Ok Aborted s' else Panic s')).
Proof. exact L_C86_table_clear_partial. Qed.
Print Assumptions C86_table_clear_partial.

Example C86_table_drop_case :
  match hx_run [HInsert 1 10; HInsert 2 20; HInsert 3 30]%Z with
  | Some (l, s) => match table_clear_pd 24 8 0 (Z.eqb 2) (Z.eqb 20) s with
      | Ok Aborted s' => t_drops s' = [inl 1; inr 10; inl 2; inr 20]%Z
      | _ => False end /\
      match table_clear_pd 24 8 0 (fun _ => false) (fun _ => false) s with
      | Ok Done s' => t_drops s' = [inl 1; inr 10; inl 2; inr 20; inl 3; inr 30]%Z
      | _ => False end
  | None => False
  end.
Proof. vm_compute. by split. Qed.
