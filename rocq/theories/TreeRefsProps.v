(** Property theorems.  Each is closed by the lemma of the same content in
    TreeRefsDerived.v; examples show the hypotheses can be met. *)
From Verif Require Import Base Alloc AddrMem FixedPool FixedPoolSpec LinkedList LinkedListSpec RBTree RBTreeSpec Layout LayoutSpec TreeRefs TreeRefsSpec.
Local Open Scope Z_scope.
From Verif Require Import TreeRefsDerived.

From Verif Require Import RBTreeDerived.

(** Every program of calls on a map that memory holds makes only references to nodes that are
    there, provided that the program does not go through the map, or the map is
    empty, or there happens to be live memory and the right alignment for a whole node from the first pointer of the map object on.
    In all other cases it breaks the rule.  What is missing is the last case. *)
Theorem C122_iterating_partial :
forall (A K V : Type) (nsz nal : Z) (lt : K -> K -> bool) (cs : list (tcall K V)) (s : tstate A K V) (t : tree K V),
  strict_weak_order lt -> 24 <= nsz -> 0 < nal ->
  holds nsz s t -> sorted lt t -> (forall a, a ∈ addrs t -> (nal | a)) ->
  (existsb goes_through cs = false \/ entries t = [] \/ anchor_like_node nsz nal s ->
     t_run_r nsz nal lt cs s = t_run nsz lt cs s) /\
  (existsb goes_through cs = true -> entries t <> [] -> ~ anchor_like_node nsz nal s ->
     t_run_r nsz nal lt cs s = None).
Proof. exact L_C122_iterating_partial. Qed.
Print Assumptions C122_iterating_partial.

(** Looking up, assigning and inserting in a map of three entries is fine; going through it is not. *)
Example C122_iterating_ex :
  t_run_r 40 8 Z.ltb [TGet 2; TGetMut 1 7; TLen; TInsert 9 9; TContains 3] (rx_state 2048 2176) =
    t_run 40 Z.ltb [TGet 2; TGetMut 1 7; TLen; TInsert 9 9; TContains 3] (rx_state 2048 2176) /\
  t_run_r 40 8 Z.ltb [TGet 2; TIterAll] (rx_state 2048 2176) = None /\
  is_Some (t_run 40 Z.ltb [TGet 2; TIterAll] (rx_state 2048 2176)).
Proof.
  assert (D : forall a, a ∈ addrs rx_tree -> (8 | a)).
  { intros a Ha. cbn in Ha. rewrite !elem_of_cons, elem_of_nil in Ha. destruct Ha as [-> |[-> |[-> |[]]]]; [by exists 256|by exists 264|by exists 272]. }
  assert (N : ~ anchor_like_node 40 8 (rx_state 2048 2176)).
  { intros (_ & r & Hr & E). cbn in Hr. rewrite !elem_of_cons, elem_of_nil in Hr. cbn in E. destruct Hr as [-> |[-> |[-> |[-> |[]]]]]; cbn in E; lia. }
  split; [|split].
  - apply (C122_iterating_partial unit Z Z 40 8 Z.ltb _ _ rx_tree ltb_order ltac:(lia) ltac:(lia) rx_holds rx_sorted D). by left.
  - apply (C122_iterating_partial unit Z Z 40 8 Z.ltb _ _ rx_tree ltb_order ltac:(lia) ltac:(lia) rx_holds rx_sorted D); done.
  - vm_compute. by eexists.
Qed.

(** An iterator may be advanced as often as one likes short of the last entry; taking
    the last entry is what breaks the rule, unless the map object has the room. *)
Theorem C122_next :
forall (A K V : Type) (nsz nal : Z) (k : nat) (i : titer) (s : tstate A K V) (t : tree K V),
  24 <= nsz -> 0 < nal -> holds nsz s t -> (forall a, a ∈ addrs t -> (nal | a)) -> t_iter s = Ok i s ->
  ((k < length (entries t))%nat \/ entries t = [] \/ anchor_like_node nsz nal s ->
     titer_take_r nsz nal k i s = titer_take nsz k i s) /\
  ((length (entries t) <= k)%nat -> entries t <> [] -> ~ anchor_like_node nsz nal s ->
     titer_take_r nsz nal k i s = UB).
Proof. exact L_C122_next. Qed.
Print Assumptions C122_next.

(** Two of three entries are taken without harm, the third is not. *)
Example C122_next_ex :
  is_ok (titer_take_r 40 8 2 (TIter 2048 1032) (rx_state 2048 2176)) = true /\
  is_ub (titer_take_r 40 8 3 (TIter 2048 1032) (rx_state 2048 2176)) = true /\
  is_ok (titer_take 40 3 (TIter 2048 1032) (rx_state 2048 2176)) = true.
Proof. repeat split; by vm_compute. Qed.

(** When the live memory is that of the nodes and of the map object of [osz] bytes, there is room
    exactly if a node is at least eight bytes smaller than the map object. *)
Theorem C122_room :
forall (A K V : Type) (nsz nal osz oal : Z) (heap : bool) (s : tstate A K V) (t : tree K V),
  holds nsz s t -> owns nsz nal (t_mem s) t [Region (t_obj s) osz oal heap] ->
  (anchor_like_node nsz nal s <-> nsz <= osz - 8 /\ (nal | t_obj s + 8)).
Proof. exact L_C122_room. Qed.
Print Assumptions C122_room.

(** A map object of 40 bytes and nodes of 40 bytes: no room. *)
Example C122_room_ex : holds 40 (rx_state 2048 2176) rx_tree /\ owns 40 8 (t_mem (rx_state 2048 2176)) rx_tree [Region 1024 40 8 false] /\
  ~ anchor_like_node 40 8 (rx_state 2048 2176).
Proof.
  split; [exact rx_holds|]. split; [apply rx_owns|]. intros L.
  apply (C122_room unit Z Z 40 8 40 8 false _ _ rx_holds (rx_owns _ _)) in L. lia.
Qed.

(** For every type of keys and of values whose entry has more than eight bytes, each
    program that goes through a nonempty map with the default allocator breaks the rule. *)
Theorem C122_large_entries :
forall (A K V : Type) (Kl Vl : lay) (swap : bool) (oal : Z) (heap : bool) (lt : K -> K -> bool) (cs : list (tcall K V)) (s : tstate A K V) (t : tree K V),
  valid Kl -> valid Vl -> 8 < ly_size (tuple swap Kl Vl) ->
  let node := struct (rb_node_fields swap Kl Vl) in
  let map := struct (rb_tree_fields node default_allocator comparator) in
  strict_weak_order lt -> holds (ly_size node) s t -> sorted lt t -> (forall a, a ∈ addrs t -> (ly_align node | a)) ->
  owns (ly_size node) (ly_align node) (t_mem s) t [Region (t_obj s) (ly_size map) oal heap] ->
  existsb goes_through cs = true -> entries t <> [] ->
  t_run_r (ly_size node) (ly_align node) lt cs s = None.
Proof. exact L_C122_large_entries. Qed.
Print Assumptions C122_large_entries.

(** Two [u64]s make an entry of sixteen bytes and the nodes of the example. *)
Example C122_large_entries_ex :
  struct (rb_node_fields false (Lay 8 8) (Lay 8 8)) = Lay 40 8 /\
  struct (rb_tree_fields (Lay 40 8) default_allocator comparator) = Lay 40 8 /\
  t_run_r 40 8 Z.ltb [TIterMut Z.succ] (rx_state 2048 2176) = None.
Proof. repeat split; by vm_compute. Qed.

(** Going through a map in memory that is as it should be makes a reference to more bytes than
    there are. *)
Theorem C122_iterating_refuted :
exists (s : tstate unit Z Z) (t : tree Z Z) (cs : list (tcall Z Z)),
  holds 40 s t /\ sorted Z.ltb t /\ red_black t /\ owns 40 8 (t_mem s) t [Region (t_obj s) 40 8 false] /\
  is_Some (t_run 40 Z.ltb cs s) /\ t_run_r 40 8 Z.ltb cs s = None.
Proof. exact L_C122_iterating_refuted. Qed.
Print Assumptions C122_iterating_refuted.

(** Dropping and clearing a map make references to nodes only while these are there. *)
Theorem C122_drop :
forall (K V : Type) (pick : mem (K * V) -> Z -> Z -> Z) (strict chk : bool) (nsz nal : Z) (rest : list region)
    (s : tstate unit K V) (t : tree K V),
  tree_layout nsz nal -> holds nsz s t -> owns nsz nal (t_mem s) t rest -> (forall a, a ∈ addrs t -> (nal | a)) ->
  t_drop_r nsz nal (DefaultAddrAlloc pick strict) chk false s = t_drop (DefaultAddrAlloc pick strict) chk nsz nal s /\
  t_clear_r nsz nal (DefaultAddrAlloc pick strict) chk false s = t_clear (DefaultAddrAlloc pick strict) chk nsz nal s.
Proof. exact L_C122_drop. Qed.
Print Assumptions C122_drop.

(** The map of three entries is dropped; a reference to a node that does not have the size of one would be noticed. *)
Example C122_drop_ex :
  is_ok (t_drop_r 40 8 (DefaultAddrAlloc rx_pick true) true false (rx_state 2048 2176)) = true /\
  is_ub (t_drop_r 48 8 (DefaultAddrAlloc rx_pick true) true false (rx_state 2048 2176)) = true.
Proof. split; by vm_compute. Qed.

(** Dropping or clearing a map with entries always frees a node while the function that frees it holds
    a reference to that node as its argument; dropping or clearing one without entries does not. *)
Theorem C123_nodes_freed_partial :
forall (K V : Type) (pick : mem (K * V) -> Z -> Z -> Z) (strict chk : bool) (nsz nal : Z) (rest : list region)
    (s : tstate unit K V) (t : tree K V),
  tree_layout nsz nal -> holds nsz s t -> owns nsz nal (t_mem s) t rest -> (forall a, a ∈ addrs t -> (nal | a)) ->
  (entries t = [] ->
     t_drop_r nsz nal (DefaultAddrAlloc pick strict) chk true s = t_drop (DefaultAddrAlloc pick strict) chk nsz nal s /\
     t_clear_r nsz nal (DefaultAddrAlloc pick strict) chk true s = t_clear (DefaultAddrAlloc pick strict) chk nsz nal s) /\
  (entries t <> [] ->
     t_drop_r nsz nal (DefaultAddrAlloc pick strict) chk true s = UB /\
     t_clear_r nsz nal (DefaultAddrAlloc pick strict) chk true s = UB).
Proof. exact L_C123_nodes_freed_partial. Qed.
Print Assumptions C123_nodes_freed_partial.

(** Both on a map of three entries. *)
Example C123_nodes_freed_ex :
  (tree_layout 40 8 /\ holds 40 (rx_state 2048 2176) rx_tree /\ owns 40 8 (t_mem (rx_state 2048 2176)) rx_tree [rx_object]) /\
  is_ub (t_drop_r 40 8 (DefaultAddrAlloc rx_pick true) true true (rx_state 2048 2176)) = true /\
  is_ok (t_drop (DefaultAddrAlloc rx_pick true) true 40 8 (rx_state 2048 2176)) = true.
Proof. split; [|split; by vm_compute]. split; [apply rx_layout|]. split; [apply rx_holds|apply rx_owns]. Qed.

(** Some map whose nodes are all in order frees a node behind a reference in force when dropped and when cleared. *)
Theorem C123_nodes_freed_refuted :
exists (s : tstate unit Z Z) (t : tree Z Z),
  holds 40 s t /\ sorted Z.ltb t /\ red_black t /\ owns 40 8 (t_mem s) t [Region 1024 40 8 false] /\
  (forall a, a ∈ addrs t -> (8 | a)) /\
  is_ok (t_drop (DefaultAddrAlloc rx_pick true) true 40 8 s) = true /\
  t_drop_r 40 8 (DefaultAddrAlloc rx_pick true) true true s = UB /\
  t_clear_r 40 8 (DefaultAddrAlloc rx_pick true) true true s = UB.
Proof. exact L_C123_nodes_freed_refuted. Qed.
Print Assumptions C123_nodes_freed_refuted.
