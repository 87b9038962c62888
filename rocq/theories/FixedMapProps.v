(** Property theorems.  Each is closed by the lemma of the same content in
    FixedMapDerived.v; examples show the hypotheses can be met. *)
From Verif Require Import Base Alloc AddrMem FixedPool FixedPoolSpec RBTree RBTreeSpec Layout FixedMap FixedMapSpec.
Local Open Scope Z_scope.
From Verif Require Import FixedMapDerived.

(** A new fixed map of [n] nodes is an empty map: every program of calls gets the
    answers of the empty map.  Nothing is allocated outside the object, and its
    allocator hands out exactly the [n] nodes of the buffer, in order, and then no
    more. *)
Theorem C82_new_map_is_empty_with_room_for_n :
forall (K V : Type) (chk : bool) (lt : K -> K -> bool) (nsz nal : Z) (n : nat) (obj : Z) (m : mem (K * V)),
  strict_weak_order lt -> FixedMapSetup m plain_pool nsz nal n obj ->
  exists s, fixed_map_new chk nsz nal (Z.of_nat n) obj m = Ok tt s /\
    (forall cs, let '(answers, dropped, _) := tspec_run lt cs [] in
       exists s', t_run nsz lt cs s = Some (answers, s') /\ t_drops s' = dropped) /\
    m_live (t_mem s) = m_live m /\
    hands_out (FixedMapAlloc chk nsz nal) can_allocate chk nsz nal n s (buffer_nodes plain_pool nsz nal n obj) /\
    is_full (FixedMapAlloc chk nsz nal) can_allocate chk nsz nal n s.
Proof. exact L_C82_new_map_is_empty_with_room_for_n. Qed.
Print Assumptions C82_new_map_is_empty_with_room_for_n.

Example C82_new_map_is_empty_with_room_for_n_example :
  FixedMapSetup (fx_mem plain_pool) plain_pool 40 8 3 4096 /\
  match fixed_map_new true 40 8 3 4096 (fx_mem plain_pool) with
  | Ok _ s => option_map fst (t_run 40 Z.ltb [TLen; TGet 7; TIterAll] s) = Some [Some (TNum 0); Some (TVal None); Some (TList [])] /\
      val (p_run (FixedMapAlloc true 40 8) can_allocate true 40 8 [PAlloc; PAlloc; PCan; PAlloc; PCan; PAlloc] ((t_alloc s, t_mem s), [])) =
        Some [PGot 4160; PGot 4200; PBool true; PGot 4240; PBool false; PGot 0]
  | _ => False
  end.
Proof. split; [by apply FixedMapDerived.fx_setup; left|by vm_compute]. Qed.

(** When a fixed map that C++ has filled is dropped, every node goes back to the pool,
    once: after the drop the allocator again hands out each of the [n] nodes of the
    buffer, in some order, and then no more. *)
Theorem C82_drop_gives_back_every_node :
forall (K V : Type) (chk : bool) (nsz nal : Z) (n : nat) (obj : Z) (m : mem (K * V)) s0 (s : tstate pool K V) (t : tree K V),
  FixedMapSetup m plain_pool nsz nal n obj -> fixed_map_new chk nsz nal (Z.of_nat n) obj m = Ok tt s0 ->
  filled (FixedMapAlloc chk nsz nal) can_allocate chk nsz nal s0 s t ->
  (length (entries t) <= n)%nat /\
  exists s' ps, t_drop (FixedMapAlloc chk nsz nal) chk nsz nal s = Ok tt s' /\
    hands_out (FixedMapAlloc chk nsz nal) can_allocate chk nsz nal n s' ps /\ ps ≡ₚ buffer_nodes plain_pool nsz nal n obj /\
    is_full (FixedMapAlloc chk nsz nal) can_allocate chk nsz nal n s'.
Proof. exact L_C82_drop_gives_back_every_node. Qed.
Print Assumptions C82_drop_gives_back_every_node.

Example C82_drop_gives_back_every_node_example :
  match fixed_map_new true 40 8 3 4096 (fx_mem plain_pool) with
  | Ok _ s0 =>
    match p_run (FixedMapAlloc true 40 8) can_allocate true 40 8 [PAlloc; PAlloc; PAlloc; PFree 1] ((t_alloc s0, t_mem s0), []) with
    | Ok _ ((q, m), held) =>
      let s := fx_fill s0 q m 4160 4240 4160 2 [(4160, 4240, 0, 4105, (1, 10)); (4240, 0, 0, 4160, (2, 20))] in
      held = [4240; 4160] /\ option_map fst (t_run 40 Z.ltb [TIterAll] s) = Some [Some (TList [(1, 10); (2, 20)])] /\
      match t_drop (FixedMapAlloc true 40 8) true 40 8 s with
      | Ok _ s' => val (p_run (FixedMapAlloc true 40 8) can_allocate true 40 8 [PAlloc; PAlloc; PAlloc; PAlloc] ((t_alloc s', t_mem s'), [])) =
          Some [PGot 4160; PGot 4240; PGot 4200; PGot 0]
      | _ => False
      end
    | _ => False
    end
  | _ => False
  end.
Proof. by vm_compute. Qed.

(** The same with overflow: a new map is empty and hands out the nodes of the buffer
    first.  However many entries C++ put in, dropping the map gives the nodes of the
    buffer back to the pool and the others to the overflow allocator: the memory in use
    is again what it was before the map existed, and the pool again hands out each of
    the [n] nodes of the buffer. *)
Theorem C82_overflow_map_new_and_drop :
forall (K V : Type) (pick : mem (K * V) -> Z -> Z -> Z) (strict chk : bool) (nsz nal : Z) (n : nat) (obj : Z) (m : mem (K * V)),
  honest pick -> FixedMapSetup m overflow_pool nsz nal n obj ->
  exists s0, overflow_map_new chk nsz nal (Z.of_nat n) obj m = Ok tt s0 /\ holds nsz s0 (Leaf : tree K V) /\ m_live (t_mem s0) = m_live m /\
    hands_out (OverflowMapAlloc chk nsz nal pick strict) (fun q => can_allocate (o_pool q)) chk nsz nal n s0 (buffer_nodes overflow_pool nsz nal n obj) /\
    forall s t, filled (OverflowMapAlloc chk nsz nal pick strict) (fun q => can_allocate (o_pool q)) chk nsz nal s0 s t ->
      exists s' ps, t_drop (OverflowMapAlloc chk nsz nal pick strict) chk nsz nal s = Ok tt s' /\ m_live (t_mem s') ≡ₚ m_live m /\
        hands_out (OverflowMapAlloc chk nsz nal pick strict) (fun q => can_allocate (o_pool q)) chk nsz nal n s' ps /\
        ps ≡ₚ buffer_nodes overflow_pool nsz nal n obj.
Proof. exact L_C82_overflow_map_new_and_drop. Qed.
Print Assumptions C82_overflow_map_new_and_drop.

Example C82_overflow_map_new_and_drop_example :
  FixedMapSetup (fx_mem overflow_pool) overflow_pool 40 8 3 4096 /\
  match overflow_map_new true 40 8 3 4096 (fx_mem overflow_pool) with
  | Ok _ s0 =>
    match p_run (OverflowMapAlloc true 40 8 bump_pick true) (fun q => can_allocate (o_pool q)) true 40 8 (replicate 4 PAlloc ++ [PFree 1; PFree 1]) ((t_alloc s0, t_mem s0), []) with
    | Ok _ ((q, m), held) =>
      let s := fx_fill s0 q m 4176 4336 4176 2 [(4176, 4336, 0, 4105, (1, 10)); (4336, 0, 0, 4176, (2, 20))] in
      held = [4336; 4176] /\ length (m_live m) = 2%nat /\ option_map fst (t_run 40 Z.ltb [TIterAll] s) = Some [Some (TList [(1, 10); (2, 20)])] /\
      match t_drop (OverflowMapAlloc true 40 8 bump_pick true) true 40 8 s with
      | Ok _ s' => m_live (t_mem s') = m_live (fx_mem overflow_pool) /\
          val (p_run (OverflowMapAlloc true 40 8 bump_pick true) (fun q => can_allocate (o_pool q)) true 40 8 (replicate 3 PAlloc) ((t_alloc s', t_mem s'), [])) =
          Some [PGot 4176; PGot 4216; PGot 4256]
      | _ => False
      end
    | _ => False
    end
  | _ => False
  end.
Proof. split; [by apply FixedMapDerived.fx_setup; right|by vm_compute]. Qed.

(** [clear] does not reset the map.  There is a fixed map with one entry such that
    [clear] and then the drop both give the node back, without a panic or a visible
    error: afterwards the allocator hands out one node to two callers. *)
Theorem C69_fixed_map_clear_then_drop_refuted :
exists (K V : Type) (nsz nal : Z) (n : nat) (obj : Z) (m : mem (K * V)) s0 (s : tstate pool K V) (t : tree K V),
  FixedMapSetup m plain_pool nsz nal n obj /\ fixed_map_new true nsz nal (Z.of_nat n) obj m = Ok tt s0 /\
  filled (FixedMapAlloc true nsz nal) can_allocate true nsz nal s0 s t /\
  exists s1 s2 p, t_clear (FixedMapAlloc true nsz nal) true nsz nal s = Ok tt s1 /\ t_len s1 = Ok 1 s1 /\
    t_drop (FixedMapAlloc true nsz nal) true nsz nal s1 = Ok tt s2 /\
    hands_out (FixedMapAlloc true nsz nal) can_allocate true nsz nal 2 s2 [p; p].
Proof. exact L_C69_fixed_map_clear_then_drop_refuted. Qed.
Print Assumptions C69_fixed_map_clear_then_drop_refuted.
