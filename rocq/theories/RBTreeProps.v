(** Property theorems.  Each is closed by the lemma of the same content in
    RBTreeDerived.v; examples show the hypotheses can be met. *)
From Verif Require Import Base Alloc AddrMem FixedPool FixedPoolSpec LinkedList LinkedListSpec RBTree RBTreeSpec.
Local Open Scope Z_scope.
From Verif Require Import RBTreeDerived.

(** Any program of calls on a map over a well-formed tree - [get], [get_mut] and
    assignment, [contains_key], [len], [is_empty], iteration, mutable iteration, and the
    unimplemented [insert], [remove], [remove_entry], which panic - gets the answers
    that the sorted list of entries gives, drops what it says, and leaves a well-formed
    tree of the same nodes with the entries it says. *)
Theorem C66_programs_match_sorted_entries :
forall (A K V : Type) (lt : K -> K -> bool) (nsz : Z) (s : tstate A K V) (t : tree K V) (cs : list (tcall K V)),
  strict_weak_order lt -> 24 <= nsz -> holds nsz s t -> sorted lt t ->
  let '(answers, dropped, es) := tspec_run lt cs (entries t) in
  exists s' t', t_run nsz lt cs s = Some (answers, s') /\ t_drops s' = t_drops s ++ dropped /\
    holds nsz s' t' /\ sorted lt t' /\ entries t' = es /\ skeleton t' = skeleton t.
Proof. exact L_C66_programs_match_sorted_entries. Qed.
Print Assumptions C66_programs_match_sorted_entries.

Example C66_programs_match_sorted_entries_example :
  (strict_weak_order Z.ltb /\ holds 40 (rx_state 2048 2176) rx_tree /\ sorted Z.ltb rx_tree) /\
  option_map fst (t_run 40 Z.ltb [TGet 30; TGetMut 10 111; TGetMut 15 1; TInsert 5 6; TIterMut (Z.add 1); TRemove 10; TIterAll; TContains 21; TLen] (rx_state 2048 2176)) =
  Some [Some (TVal (Some 300)); Some (TBool true); Some (TBool false); None; Some (TList [(10, 111); (20, 200); (30, 300)]); None;
        Some (TList [(10, 112); (20, 201); (30, 301)]); Some (TBool false); Some (TNum 3)].
Proof. split; [|by vm_compute]. split; [apply RBTreeDerived.ltb_order|]. split; [apply RBTreeDerived.rx_holds|apply RBTreeDerived.rx_sorted]. Qed.

(** [get(k)] gives a value exactly when an entry with an equivalent key holds it,
    [contains_key(k)] is true exactly when there is such an entry, and neither changes
    anything. *)
Theorem C66_lookup_finds_exactly_the_keys :
forall (A K V : Type) (lt : K -> K -> bool) (nsz : Z) (s : tstate A K V) (t : tree K V) (k : K),
  strict_weak_order lt -> 24 <= nsz -> holds nsz s t -> sorted lt t ->
  exists o b, t_get nsz lt k s = Ok o s /\ t_contains_key nsz lt k s = Ok b s /\
    (forall v, o = Some v <-> exists k', (k', v) ∈ entries t /\ equivalent lt k k' = true) /\
    (b = true <-> exists k', k' ∈ keys t /\ equivalent lt k k' = true).
Proof. exact L_C66_lookup_finds_exactly_the_keys. Qed.
Print Assumptions C66_lookup_finds_exactly_the_keys.

Example C66_lookup_finds_exactly_the_keys_example :
  (holds 40 (rx_state 2048 2176) rx_tree /\ (20, 200) ∈ entries rx_tree /\ equivalent Z.ltb 20 20 = true) /\
  val (t_get 40 Z.ltb 20 (rx_state 2048 2176)) = Some (Some 200) /\ val (t_get 40 Z.ltb 25 (rx_state 2048 2176)) = Some None.
Proof. split; [|by vm_compute]. split; [apply RBTreeDerived.rx_holds|]. split; [cbn; constructor; constructor|done]. Qed.

(** A new map is a well-formed empty tree, whatever the allocator, and nothing is
    allocated. *)
Theorem C66_new_map_is_empty :
forall (A K V : Type) (nsz obj : Z) (a : A) (m : mem (K * V)),
  0 < obj -> obj + 32 < usize_lim -> (8 | obj) -> accessible m (obj + 8) 24 = true ->
  exists s, tree_new obj a m = Ok tt s /\ holds nsz s (Leaf : tree K V) /\ t_alloc s = a /\
    m_live (t_mem s) = m_live m /\ t_drops s = [].
Proof. exact L_C66_new_map_is_empty. Qed.
Print Assumptions C66_new_map_is_empty.

Example C66_new_map_is_empty_example :
  accessible (Mem [rx_object] ∅ ∅ 0 : mem (Z * Z)) (1024 + 8) 24 = true /\
  match tree_new 1024 tt (Mem [rx_object] ∅ ∅ 0 : mem (Z * Z)) with
  | Ok _ s => option_map fst (t_run 40 Z.ltb [TLen; TIsEmpty; TGet 1; TIterAll; TInsert 1 2] s) =
      Some [Some (TNum 0); Some (TBool true); Some (TVal None); Some (TList []); None]
  | _ => False
  end.
Proof. by vm_compute. Qed.

(** On every well-formed tree, whatever its shape and colours, [iter] yields the entries
    once each in ascending order, and then [None] for ever. *)
Theorem C67_iteration_ascending_and_complete :
forall (A K V : Type) (lt : K -> K -> bool) (nsz : Z) (s : tstate A K V) (t : tree K V),
  24 <= nsz -> holds nsz s t -> sorted lt t ->
  exists i, t_iter s = Ok i s /\ yields nsz s i (entries t) /\
    StronglySorted (fun e e' => lt (fst e) (fst e') = true) (entries t).
Proof. exact L_C67_iteration_ascending_and_complete. Qed.
Print Assumptions C67_iteration_ascending_and_complete.

Example C67_iteration_ascending_and_complete_example :
  (holds 40 (rx_state 2048 2176) rx_tree /\ sorted Z.ltb rx_tree) /\
  match t_iter (rx_state 2048 2176) with
  | Ok i s => option_map fst (val (titer_take 40 5 i s)) = Some [Some (10, 100); Some (20, 200); Some (30, 300); None; None]
  | _ => False
  end.
Proof. split; [|by vm_compute]. split; [apply RBTreeDerived.rx_holds|apply RBTreeDerived.rx_sorted]. Qed.

(** The iterator starts at the first pointer of the object, which it also reads as the
    right child of the anchor.  If the object is filled in the order of a node's fields,
    highest node first and lowest second, then iteration yields the highest entry only:
    every other entry is missed. *)
Theorem C67_highest_node_first_refuted :
forall (A K V : Type) (nsz : Z) (s : tstate A K V) (t : tree K V) (e : K * V),
  24 <= nsz -> holds_node_order nsz s t -> last (entries t) = Some e ->
  exists i, t_iter s = Ok i s /\ yields nsz s i [e].
Proof. exact L_C67_highest_node_first_refuted. Qed.
Print Assumptions C67_highest_node_first_refuted.

Example C67_highest_node_first_refuted_example :
  (holds_node_order 40 (rx_state 2176 2048) rx_tree /\ last (entries rx_tree) = Some (30, 300)) /\
  val (t_iter_all 40 (rx_state 2176 2048)) = Some [(30, 300)].
Proof. split; [|by vm_compute]. split; [apply RBTreeDerived.rx_node_order|done]. Qed.

(** For every word and every even address: setting the colour sets it and keeps the
    pointer; setting the pointer sets it and keeps the colour; both results are again
    words; packing a colour and a pointer gives both back. *)
Theorem C68_colour_packing_lossless :
forall (S : Type) (s : S) (raw p : Z) (c : color),
  0 <= raw < usize_lim -> 0 <= p < usize_lim -> (2 | p) ->
  pc_color (pc_set_color raw c) s = Ok c s /\ pc_ptr (pc_set_color raw c) = pc_ptr raw /\
  pc_ptr (pc_set_ptr raw p) = p /\ pc_color (pc_set_ptr raw p) s = pc_color raw s /\
  pc_color (pc_new c p) s = Ok c s /\ pc_ptr (pc_new c p) = p /\
  0 <= pc_set_color raw c < usize_lim /\ 0 <= pc_set_ptr raw p < usize_lim.
Proof. exact L_C68_colour_packing_lossless. Qed.
Print Assumptions C68_colour_packing_lossless.

Example C68_colour_packing_lossless_example :
  (2 | 18446744073709551614) /\ pc_set_ptr (pc_new Black 4096) 18446744073709551614 = 18446744073709551615 /\
  val (pc_color 18446744073709551615 tt) = Some Black /\ pc_ptr 18446744073709551615 = 18446744073709551614.
Proof. split; [by exists 9223372036854775807|by vm_compute]. Qed.

(** Linking a node as a left or right child sets the child pointer and the child's parent
    pointer, keeps the child's colour, returns the old child, and changes nothing else. *)
Theorem C68_linking_keeps_colours :
forall (A K V : Type) (s : tstate A K V) (a b wa wb : Z),
  0 <= a < usize_lim -> (2 | a) -> b <> 0 -> has_node s a wa -> has_node s b wb -> (a + 24 <= b \/ b + 24 <= a) ->
  (exists s' old c, set_left a b s = Ok old s' /\ get_left a s = Ok old s /\ get_left a s' = Ok b s' /\ get_parent b s' = Ok a s' /\
     node_color b s = Ok c s /\ node_color b s' = Ok c s' /\ changes_only s s' [a + 8; b + 16]) /\
  (exists s' old c, set_right a b s = Ok old s' /\ get_right a s = Ok old s /\ get_right a s' = Ok b s' /\ get_parent b s' = Ok a s' /\
     node_color b s = Ok c s /\ node_color b s' = Ok c s' /\ changes_only s s' [a; b + 16]).
Proof. exact L_C68_linking_keeps_colours. Qed.
Print Assumptions C68_linking_keeps_colours.

Example C68_linking_keeps_colours_example :
  (has_node (rx_state 2048 2176) 2176 2112 /\ has_node (rx_state 2048 2176) 2048 2112) /\
  match set_left 2176 2048 (rx_state 2048 2176) with
  | Ok old s => old = 0 /\ val (get_left 2176 s) = Some 2048 /\ val (get_parent 2048 s) = Some 2176 /\ val (node_color 2048 s) = Some Red
  | _ => False
  end.
Proof.
  split; [|by vm_compute]. split; (split; [by exists 0|split; [by exists 0|split; [by vm_compute|unfold usize_lim; lia]]]).
Qed.

(** Setting a node's colour changes only the colour; setting its parent returns the old
    parent and keeps the colour; taking a child away returns it and touches no other
    node. *)
Theorem C68_setters_keep_the_rest :
forall (A K V : Type) (s : tstate A K V) (a p wa : Z) (c : color),
  has_node s a wa -> 0 <= p < usize_lim -> (2 | p) ->
  (exists s' q, node_set_color a c s = Ok tt s' /\ node_color a s' = Ok c s' /\ get_parent a s = Ok q s /\ get_parent a s' = Ok q s' /\
     changes_only s s' [a + 16]) /\
  (exists s' q d, set_parent a p s = Ok q s' /\ get_parent a s = Ok q s /\ get_parent a s' = Ok p s' /\
     node_color a s = Ok d s /\ node_color a s' = Ok d s' /\ changes_only s s' [a + 16]) /\
  (exists s' old, set_left a 0 s = Ok old s' /\ get_left a s = Ok old s /\ get_left a s' = Ok 0 s' /\ changes_only s s' [a + 8]) /\
  (exists s' old, set_right a 0 s = Ok old s' /\ get_right a s = Ok old s /\ get_right a s' = Ok 0 s' /\ changes_only s s' [a]).
Proof. exact L_C68_setters_keep_the_rest. Qed.
Print Assumptions C68_setters_keep_the_rest.

Example C68_setters_keep_the_rest_example :
  has_node (rx_state 2048 2176) 2176 2112 /\
  match node_set_color 2176 Black (rx_state 2048 2176) with
  | Ok _ s => val (node_color 2176 s) = Some Black /\ val (get_parent 2176 s) = Some 2112
  | _ => False
  end.
Proof.
  split; [|by vm_compute]. split; [by exists 0|split; [by exists 0|split; [by vm_compute|unfold usize_lim; lia]]].
Qed.

(** [clear] on any map with entries: the nodes are freed, but the map still claims its
    old length, and every lookup, iteration, second [clear] and the map's own drop then
    use the freed nodes. *)
Theorem C69_clear_empties_refuted :
forall (K V : Type) (pick : mem (K * V) -> Z -> Z -> Z) (strict chk : bool) (nsz nal : Z) (rest : list region)
    (lt : K -> K -> bool) (s : tstate unit K V) (t : tree K V),
  tree_layout nsz nal -> holds nsz s t -> owns nsz nal (t_mem s) t rest -> t <> Leaf ->
  exists s', t_clear (DefaultAddrAlloc pick strict) chk nsz nal s = Ok tt s' /\ m_live (t_mem s') ≡ₚ rest /\
    t_len s' = Ok (Z.of_nat (length (entries t))) s' /\ t_is_empty s' = Ok false s' /\
    (forall k, t_get nsz lt k s' = UB) /\ t_iter_all nsz s' = UB /\
    t_clear (DefaultAddrAlloc pick strict) chk nsz nal s' = UB /\ t_drop (DefaultAddrAlloc pick strict) chk nsz nal s' = UB.
Proof. exact L_C69_clear_empties_refuted. Qed.
Print Assumptions C69_clear_empties_refuted.

Example C69_clear_empties_refuted_example :
  (tree_layout 40 8 /\ holds 40 (rx_state 2048 2176) rx_tree /\ owns 40 8 (t_mem (rx_state 2048 2176)) rx_tree [rx_object]) /\
  match t_clear (DefaultAddrAlloc rx_pick true) true 40 8 (rx_state 2048 2176) with
  | Ok _ s => m_live (t_mem s) = [rx_object] /\ val (t_len s) = Some 3 /\ is_ub (t_get 40 Z.ltb 20 s) = true /\ is_ub (t_drop (DefaultAddrAlloc rx_pick true) true 40 8 s) = true
  | _ => False
  end.
Proof. split; [|by vm_compute]. split; [apply RBTreeDerived.rx_layout|]. split; [apply RBTreeDerived.rx_holds|apply RBTreeDerived.rx_owns]. Qed.

(** Dropping a map frees every node exactly once, with the size and alignment it was
    allocated with, and nothing else: the other memory stays allocated.  What is
    missing: the entries are not dropped, see the next theorem. *)
Theorem C70_nodes_freed_once_partial :
forall (K V : Type) (pick : mem (K * V) -> Z -> Z -> Z) (strict chk : bool) (nsz nal : Z) (rest : list region)
    (s : tstate unit K V) (t : tree K V),
  tree_layout nsz nal -> holds nsz s t -> owns nsz nal (t_mem s) t rest ->
  exists s', t_drop (DefaultAddrAlloc pick strict) chk nsz nal s = Ok tt s' /\ m_live (t_mem s') ≡ₚ rest.
Proof. exact L_C70_nodes_freed_once_partial. Qed.
Print Assumptions C70_nodes_freed_once_partial.

Example C70_nodes_freed_once_partial_example :
  (tree_layout 40 8 /\ holds 40 (rx_state 2048 2176) rx_tree /\ owns 40 8 (t_mem (rx_state 2048 2176)) rx_tree [rx_object]) /\
  match t_drop (DefaultAddrAlloc rx_pick true) true 40 8 (rx_state 2048 2176) with
  | Ok _ s => m_live (t_mem s) = [rx_object]
  | _ => False
  end.
Proof. split; [|by vm_compute]. split; [apply RBTreeDerived.rx_layout|]. split; [apply RBTreeDerived.rx_holds|apply RBTreeDerived.rx_owns]. Qed.

(** Dropping or clearing a map drops none of its keys and values: whatever they own
    leaks. *)
Theorem C70_entries_dropped_refuted :
forall (K V : Type) (pick : mem (K * V) -> Z -> Z -> Z) (strict chk : bool) (nsz nal : Z) (rest : list region)
    (s : tstate unit K V) (t : tree K V),
  tree_layout nsz nal -> holds nsz s t -> owns nsz nal (t_mem s) t rest ->
  exists s', t_drop (DefaultAddrAlloc pick strict) chk nsz nal s = Ok tt s' /\
    t_clear (DefaultAddrAlloc pick strict) chk nsz nal s = Ok tt s' /\ t_drops s' = t_drops s.
Proof. exact L_C70_entries_dropped_refuted. Qed.
Print Assumptions C70_entries_dropped_refuted.

Example C70_entries_dropped_refuted_example :
  (holds 40 (rx_state 2048 2176) rx_tree /\ owns 40 8 (t_mem (rx_state 2048 2176)) rx_tree [rx_object]) /\
  match t_drop (DefaultAddrAlloc rx_pick true) true 40 8 (rx_state 2048 2176) with
  | Ok _ s => length (entries rx_tree) = 3%nat /\ t_drops s = []
  | _ => False
  end.
Proof. split; [|by vm_compute]. split; [apply RBTreeDerived.rx_holds|apply RBTreeDerived.rx_owns]. Qed.

(** On a tree with [n] entries that keeps the red-black rules, looking a key up visits at
    most [2 * log2 (n + 1)] nodes. *)
Theorem C71_lookup_is_logarithmic :
forall (A K V : Type) (lt : K -> K -> bool) (nsz : Z) (s : tstate A K V) (t : tree K V) (k : K),
  24 <= nsz -> holds nsz s t -> red_black t ->
  exists o visited, find_counting nsz lt k s = Ok (o, visited) s /\
    (visited <= 2 * Nat.log2 (length (entries t) + 1))%nat.
Proof. exact L_C71_lookup_is_logarithmic. Qed.
Print Assumptions C71_lookup_is_logarithmic.

Example C71_lookup_is_logarithmic_example :
  (holds 40 (rx_state 2048 2176) rx_tree /\ red_black rx_tree) /\
  val (find_counting 40 Z.ltb 30 (rx_state 2048 2176)) = Some (Some 2176, 2%nat) /\ (2 * Nat.log2 (3 + 1) = 4)%nat.
Proof. split; [|by vm_compute]. split; [apply RBTreeDerived.rx_holds|apply RBTreeDerived.rx_red_black]. Qed.
