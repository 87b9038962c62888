(** Proofs of the properties stated in FixedMapRefsProps.v. *)
From Verif Require Import Base Alloc AddrMem FixedPool FixedPoolSpec RBTree RBTreeSpec Layout FixedMap FixedMapSpec TreeRefs TreeRefsSpec.
Local Open Scope Z_scope.

From Verif Require Import FixedPoolProofs RBTreeProofs RBTreeCalls RBTreeFree RBTreeDerived FixedMapDerived TreeRefsDerived.

Lemma accessible_in {T} (m : mem T) a n : accessible m a n = true -> exists r, r ∈ m_live m /\ r_base r <= a /\ a + n <= r_base r + r_bytes r.
Proof.
  unfold accessible. intros H. apply existsb_exists in H as (r & Hr & E). exists r. apply elem_of_list_In in Hr. split; [done|].
  unfold inside in E. lia.
Qed.

Lemma fixed_tree {K V} chk nsz nal n obj (m : mem (K * V)) s0 (s : tstate pool K V) t held :
  FixedMapSetup m plain_pool nsz nal n obj -> fixed_map_new chk nsz nal (Z.of_nat n) obj m = Ok tt s0 ->
  filled (FixedMapAlloc chk nsz nal) can_allocate chk nsz nal s0 s t ->
  free_nodes_r nsz nal (FixedMapAlloc chk nsz nal) chk held s =
  if held && match entries t with [] => false | _ => true end then UB else free_nodes (FixedMapAlloc chk nsz nal) chk nsz nal s.
Proof.
  intros FS E0 F. destruct (fm_new chk nsz nal n obj m FS) as (s00 & E & H & ED & EO & EL & I).
  rewrite E in E0. injection E0 as ->. pose proof FS as [[NL H24] _ _ _]. pose proof (node_layout_pos _ _ NL) as (? & ? & ? & ?). assert (HP : 0 < nal) by lia.
  pose proof (fm_setup m plain_pool nsz nal n obj (or_introl eq_refl) FS) as (PS & HO & HN & HB & _).
  pose proof (plain_filled chk nsz nal _ _ obj n m PS H24 HO HN s0 s t EO F I) as I'.
  apply (free_nodes_r_ok _ chk nsz nal _ H24 HP (pool_tfree chk nsz nal _ _ obj n m PS H24 HO HN) held s t (fl_tree _ _ _ _ _ _ _ _ F) I').
  intros a Ha. destruct I' as (av & I'). assert (Hx : a ∈ addrs t ++ av) by (apply elem_of_app; by left).
  apply (slot_bounds _ _ nsz nal m PS _ _ _ _ _ I' Hx).
Qed.

Lemma overflow_tree {K V} (pick : mem (K * V) -> Z -> Z -> Z) strict chk nsz nal n obj (m : mem (K * V)) s0 (s : tstate (opool unit) K V) t held :
  honest pick -> FixedMapSetup m overflow_pool nsz nal n obj -> overflow_map_new chk nsz nal (Z.of_nat n) obj m = Ok tt s0 ->
  filled (OverflowMapAlloc chk nsz nal pick strict) (fun q => can_allocate (o_pool q)) chk nsz nal s0 s t ->
  free_nodes_r nsz nal (OverflowMapAlloc chk nsz nal pick strict) chk held s =
  if held && match entries t with [] => false | _ => true end then UB else free_nodes (OverflowMapAlloc chk nsz nal pick strict) chk nsz nal s.
Proof.
  intros HP FS E0 F. destruct (ofm_new chk nsz nal n obj m FS) as (s00 & E & H & ED & EO & EL & I).
  rewrite E in E0. injection E0 as ->. pose proof FS as [[NL H24] (O1 & O2 & O3) AM WF]. pose proof (node_layout_pos _ _ NL) as (N8 & ? & ? & ?).
  assert (HZ : 0 < nal) by lia.
  pose proof (fm_setup m overflow_pool nsz nal n obj (or_intror eq_refl) FS) as (PS0 & HO & HN & HB & PAD & AC & _).
  assert (LV : forall x k, accessible m x k = true -> accessible (t_mem s0) x k = true) by (intros x k; apply accessible_live; by rewrite EL).
  assert (PS : PoolSetup (t_mem s0) (obj + map_buffer_off overflow_pool nsz nal (Z.of_nat n)) (Z.of_nat n * nsz) nsz nal) by (destruct PS0; split; auto).
  assert (WF0 : forall r, r ∈ m_live (t_mem s0) -> 0 < r_bytes r) by (by rewrite EL).
  pose proof (map_places overflow_pool nsz nal n ltac:(by split) (or_intror eq_refl)) as (_ & EB & L24).
  assert (AO : accessible (t_mem s0) obj 40 = true).
  { apply LV. eapply accessible_sub; [exact AM|lia|]. pose proof (round_up_spec (40 + ly_size overflow_pool) nal ltac:(lia)). nia. }
  assert (I' : TOI nsz nal (obj + map_buffer_off overflow_pool nsz nal (Z.of_nat n)) (Z.of_nat n * nsz) (t_mem s0) (t_alloc s) (t_mem s) (addrs t)).
  { eapply (over_filled pick strict chk nsz nal _ _ obj n); eauto. }
  apply (free_nodes_r_ok _ chk nsz nal _ H24 HZ (opool_tfree pick strict chk nsz nal _ _ obj n (t_mem s0) PS HP WF0 (LV _ _ PAD) H24 HO HN) held s t (fl_tree _ _ _ _ _ _ _ _ F) I').
  intros a Ha. destruct I' as (slots & av & over & I' & P). rewrite P in Ha. apply elem_of_app in Ha as [Ha|Ha].
  - assert (Hx : a ∈ slots ++ av) by (apply elem_of_app; by left).
    apply (slot_bounds _ _ nsz nal _ PS _ _ _ _ _ (oi_pool _ _ _ _ _ _ _ _ _ _ I') Hx).
  - apply (di_place _ _ _ _ _ (oi_over _ _ _ _ _ _ _ _ _ _ I') _ Ha).
Qed.

Lemma L_C122_fixed_iterating_partial :
forall (A K V : Type) (P : lay) (nsz nal : Z) (n : nat) (lt : K -> K -> bool) (cs : list (tcall K V)) (s : tstate A K V) (t : tree K V),
  P = plain_pool \/ P = overflow_pool -> tree_layout nsz nal -> strict_weak_order lt ->
  holds nsz s t -> sorted lt t -> (forall a, a ∈ addrs t -> (nal | a)) ->
  (nal | t_obj s) -> accessible (t_mem s) (t_obj s) (map_bytes P nsz nal (Z.of_nat n)) = true ->
  (nal <= 8 -> t_run_r nsz nal lt cs s = t_run nsz lt cs s) /\
  (8 < nal -> existsb goes_through cs = true -> entries t <> [] -> t_run_r nsz nal lt cs s = None).
Proof.
  intros A K V P nsz nal n lt cs s t HP TL SWO H HS D DO AM.
  pose proof TL as [NL H24]. pose proof (node_layout_pos _ _ NL) as (N8 & N1 & N2 & N3). assert (H0 : 0 < nal) by lia.
  pose proof (L_C122_iterating_partial A K V nsz nal lt cs s t SWO H24 H0 H HS D) as [G B]. split.
  - intros L8. apply G. right. right. pose proof (map_places P nsz nal n TL HP) as (EO & EB & L24).
    split.
    + assert (E8 : nal = 8). { destruct NL as ([k Ek] & _). assert (nal = 8) by lia. done. }
      rewrite E8 in *. apply Z.divide_add_r; [done|by exists 1].
    + destruct (accessible_in _ _ _ AM) as (r & Hr & R1 & R2). exists r. split; [done|].
      pose proof (round_up_spec (40 + ly_size P) nal ltac:(lia)). nia.
  - intros L8 GT NE. apply B; [done|done|]. intros [X _].
    assert (Y : (nal | 8)). { replace 8 with (t_obj s + 8 - t_obj s) by lia. by apply Z.divide_sub_r. }
    apply Z.divide_pos_le in Y; lia.
Qed.

Lemma L_C122_fixed_drop :
forall (K V : Type) (pick : mem (K * V) -> Z -> Z -> Z) (strict chk : bool) (nsz nal : Z) (n : nat) (obj : Z) (m : mem (K * V)),
  (forall s0 (s : tstate pool K V) (t : tree K V),
     FixedMapSetup m plain_pool nsz nal n obj -> fixed_map_new chk nsz nal (Z.of_nat n) obj m = Ok tt s0 ->
     filled (FixedMapAlloc chk nsz nal) can_allocate chk nsz nal s0 s t ->
     t_drop_r nsz nal (FixedMapAlloc chk nsz nal) chk false s = t_drop (FixedMapAlloc chk nsz nal) chk nsz nal s /\
     t_clear_r nsz nal (FixedMapAlloc chk nsz nal) chk false s = t_clear (FixedMapAlloc chk nsz nal) chk nsz nal s) /\
  (forall s0 (s : tstate (opool unit) K V) (t : tree K V),
     honest pick -> FixedMapSetup m overflow_pool nsz nal n obj -> overflow_map_new chk nsz nal (Z.of_nat n) obj m = Ok tt s0 ->
     filled (OverflowMapAlloc chk nsz nal pick strict) (fun q => can_allocate (o_pool q)) chk nsz nal s0 s t ->
     t_drop_r nsz nal (OverflowMapAlloc chk nsz nal pick strict) chk false s = t_drop (OverflowMapAlloc chk nsz nal pick strict) chk nsz nal s /\
     t_clear_r nsz nal (OverflowMapAlloc chk nsz nal pick strict) chk false s = t_clear (OverflowMapAlloc chk nsz nal pick strict) chk nsz nal s).
Proof.
  intros K V pick strict chk nsz nal n obj m. split.
  - intros s0 s t FS E F. unfold t_drop_r, t_clear_r. by rewrite (fixed_tree chk nsz nal n obj m s0 s t false FS E F).
  - intros s0 s t HP FS E F. unfold t_drop_r, t_clear_r. by rewrite (overflow_tree pick strict chk nsz nal n obj m s0 s t false HP FS E F).
Qed.

Lemma L_C123_fixed_partial :
forall (K V : Type) (pick : mem (K * V) -> Z -> Z -> Z) (strict chk : bool) (nsz nal : Z) (n : nat) (obj : Z) (m : mem (K * V)),
  (forall s0 (s : tstate pool K V) (t : tree K V),
     FixedMapSetup m plain_pool nsz nal n obj -> fixed_map_new chk nsz nal (Z.of_nat n) obj m = Ok tt s0 ->
     filled (FixedMapAlloc chk nsz nal) can_allocate chk nsz nal s0 s t ->
     (entries t = [] ->
        t_drop_r nsz nal (FixedMapAlloc chk nsz nal) chk true s = t_drop (FixedMapAlloc chk nsz nal) chk nsz nal s /\
        t_clear_r nsz nal (FixedMapAlloc chk nsz nal) chk true s = t_clear (FixedMapAlloc chk nsz nal) chk nsz nal s) /\
     (entries t <> [] ->
        t_drop_r nsz nal (FixedMapAlloc chk nsz nal) chk true s = UB /\ t_clear_r nsz nal (FixedMapAlloc chk nsz nal) chk true s = UB)) /\
  (forall s0 (s : tstate (opool unit) K V) (t : tree K V),
     honest pick -> FixedMapSetup m overflow_pool nsz nal n obj -> overflow_map_new chk nsz nal (Z.of_nat n) obj m = Ok tt s0 ->
     filled (OverflowMapAlloc chk nsz nal pick strict) (fun q => can_allocate (o_pool q)) chk nsz nal s0 s t ->
     (entries t = [] ->
        t_drop_r nsz nal (OverflowMapAlloc chk nsz nal pick strict) chk true s = t_drop (OverflowMapAlloc chk nsz nal pick strict) chk nsz nal s /\
        t_clear_r nsz nal (OverflowMapAlloc chk nsz nal pick strict) chk true s = t_clear (OverflowMapAlloc chk nsz nal pick strict) chk nsz nal s) /\
     (entries t <> [] ->
        t_drop_r nsz nal (OverflowMapAlloc chk nsz nal pick strict) chk true s = UB /\ t_clear_r nsz nal (OverflowMapAlloc chk nsz nal pick strict) chk true s = UB)).
Proof.
  intros K V pick strict chk nsz nal n obj m. split.
  - intros s0 s t FS E F. unfold t_drop_r, t_clear_r. rewrite (fixed_tree chk nsz nal n obj m s0 s t true FS E F).
    destruct (entries t); cbn [andb]; split; done.
  - intros s0 s t HP FS E F. unfold t_drop_r, t_clear_r. rewrite (overflow_tree pick strict chk nsz nal n obj m s0 s t true HP FS E F).
    destruct (entries t); cbn [andb]; split; done.
Qed.
