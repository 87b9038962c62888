(** Proofs of the properties stated in ListWorldProps.v. *)
From Verif Require Import Base Alloc AddrMem FixedPool FixedPoolSpec LinkedList LinkedListSpec ListWorld ListWorldSpec.
Local Open Scope Z_scope.

From Verif Require Import FixedPoolProofs LinkedListProofs LinkedListCalls LinkedListRuns LinkedListDerived.

Lemma lookup_map {A B} (f : A -> B) (l : list A) i : map f l !! i = option_map f (l !! i).
Proof. exact (list_lookup_fmap f l i). Qed.

(** ** One list among others

    The allocator as seen by the list at [obj], while the other lists, with sentinels
    [Os] and nodes [rest], stay as they are in [ms]. *)
Section among.
Context {T : Type}.
Variables (pick : mem T -> Z -> Z -> Z) (chk : bool) (nsz nal obj : Z) (m0 ms : mem T) (Os rest : list Z) (K : nat) (nul : bool).
Hypothesis LS : ListSetup m0 obj 24 nsz nal.
Hypothesis HO : forall o, o ∈ Os -> ListSetup m0 o 24 nsz nal /\ (o + 24 <= obj \/ obj + 24 <= o).
Hypothesis HP : honest pick.
Hypothesis HN : nul = false -> room pick (m_live m0) nsz nal K.

Definition same (m : mem T) : Prop :=
  (forall x, x ∈ Os ++ rest -> m_word m !! x = m_word ms !! x /\ m_word m !! (x + 8) = m_word ms !! (x + 8)) /\
  (forall x, x ∈ rest -> m_val m !! x = m_val ms !! x).
Definition J (u : unit) (m : mem T) (L : list Z) : Prop := DInv nsz nal (m_live m0) m (L ++ rest) /\ same m.

Lemma among_apart (m : mem T) L x y : DInv nsz nal (m_live m0) m (L ++ rest) -> x ∈ Os ++ rest -> y ∈ obj :: L -> x + 16 <= y \/ y + 16 <= x.
Proof.
  clear HN HP.
  intros D Hx Hy. pose proof (list_layout_facts _ _ (ls_node _ _ _ _ _ LS)) as (NL & Z16 & _).
  assert (AC : forall o, ListSetup m0 o 24 nsz nal -> forall p, p ∈ L ++ rest -> p + nsz <= o \/ o + 16 <= p).
  { intros o LO p Hp. eapply (dinv_apart nsz nal (m_live m0)); [apply LS|exact D|done|done|lia|]. eapply accessible_sub; [apply LO|lia|lia]. }
  apply elem_of_app in Hx as [Hx|Hx]; apply elem_of_cons in Hy as [-> |Hy].
  - destruct (HO _ Hx). lia.
  - destruct (HO _ Hx) as [LO _]. pose proof (AC _ LO y ltac:(apply elem_of_app; by left)). lia.
  - pose proof (AC _ LS x ltac:(apply elem_of_app; by right)). lia.
  - pose proof (di_nodup _ _ _ _ _ D) as ND. apply NoDup_app in ND as (_ & ND & _).
    assert (NE : x <> y) by (intros ->; by apply (ND y)).
    pose proof (di_pair _ _ _ _ _ D x y ltac:(apply elem_of_app; by right) ltac:(apply elem_of_app; by left) NE). lia.
Qed.

Lemma among_ok : AllocOK (DefaultAddrAlloc pick false) chk nsz nal obj (Z.of_nat (K - length rest)) nul J.
Proof.
  pose proof (list_layout_facts _ _ (ls_node _ _ _ _ _ LS)) as (NL & Z16 & _). pose proof (node_layout_pos _ _ NL) as (? & D8 & ? & ?).
  split; unfold J.
  - intros a m L p [D _] Hp. assert (Hp' : p ∈ L ++ rest) by (apply elem_of_app; by left).
    destruct (di_place _ _ _ _ _ D p Hp') as (? & ? & DV & ?). split; [done|]. split; [by etransitivity|].
    split; [by eapply dinv_block|]. eapply (dinv_apart nsz nal (m_live m0)); [apply LS|exact D|done|done|lia|]. eapply accessible_sub; [apply LS|lia|lia].
  - intros a m L [D _]. pose proof (di_nodup _ _ _ _ _ D) as ND. by apply NoDup_app in ND as (? & _).
  - intros a m L p q [D _] Hp Hq. apply (di_pair _ _ _ _ _ D); apply elem_of_app; by left.
  - intros a m L [D _]. by eapply (obj_accessible pick nsz nal obj 24 m0 nul K LS HN ltac:(lia)).
  - intros a m L L' [D S] P. split; [|done]. eapply (dinv_perm nsz nal); [exact D|by rewrite P].
  - intros a m m' L [D [SW SV]] (E & _ & RW & RV). split; [by eapply dinv_live|]. split.
    + intros x Hx. destruct (SW x Hx) as [<- <-].
      split; apply RW; intros y Hy; pose proof (among_apart _ _ _ _ D Hx Hy); lia.
    + intros x Hx. rewrite <- (SV x Hx). apply RV. intros Hy. pose proof (among_apart m L x x D ltac:(apply elem_of_app; by right) ltac:(by right)). lia.
  - intros a m L [D [SW SV]] LT. unfold allocate. unfold bind. rewrite Z.mul_1_l, usizeZ_ok by lia. cbn [aa_alloc DefaultAddrAlloc].
    destruct (default_alloc_ok pick nsz nal (m_live m0) NL HP a m (L ++ rest) D) as (p & m' & E & C & EP). exists p, a, m'. split; [done|].
    destruct C as [(-> & -> & D')|(NE & MP & -> & D')].
    + split; [by split|]. left. split; [done|]. split; [|split; [done|by split]]. destruct nul; [done|]. exfalso.
      apply (HN eq_refl m (L ++ rest)); [rewrite app_length; lia|apply D|done].
    + assert (KP : forall o, ListSetup m0 o 24 nsz nal -> keeps o (L ++ rest) m (mem_alloc m p nsz nal)).
      { intros o LO. apply (alloc_keeps pick nsz nal o 24 m0 nul K LO HN); [done| |done]. by eapply (obj_accessible pick nsz nal o 24 m0 nul K LO HN ltac:(lia)). }
      split; [|right; split; [done|split; [exact D'|split]]].
      * destruct (KP obj LS) as [KW KV]. split; [intros x Hx; apply KW; apply elem_of_cons in Hx as [-> |Hx]; [left|right; apply elem_of_app; by left]|].
        intros x Hx. apply KV, elem_of_app. by left.
      * intros x Hx. destruct (SW x Hx) as [<- <-]. apply elem_of_app in Hx as [Hx|Hx].
        -- apply (KP x (proj1 (HO _ Hx))). left.
        -- apply (KP obj LS). right. apply elem_of_app. by right.
      * intros x Hx. rewrite <- (SV x Hx). apply (KP obj LS). apply elem_of_app. by right.
Qed.
Lemma among_frees : FreeOK (DefaultAddrAlloc pick false) chk nsz obj J.
Proof.
  clear HN HO HP.
  intros a m p L [D S]. pose proof (ls_node _ _ _ _ _ LS) as (NL & _ & LK). pose proof (list_layout_facts _ _ (ls_node _ _ _ _ _ LS)) as (_ & _ & ?).
  unfold deallocate. unfold bind. rewrite usizeZ_ok by lia. cbn [aa_free DefaultAddrAlloc].
  destruct (default_free_ok false nsz nal (m_live m0) NL (ls_wf _ _ _ _ _ LS) a m ((p :: L) ++ rest) (L ++ rest) p (nsz * 16) 8 D) as (m' & E & D' & EW & EV); [done|done|by left|].
  exists a, m'. split; [done|]. split; [split; intros x _; [by rewrite EW|by rewrite EV]|]. split; [done|]. destruct S as [SW SV]. split; [intros x Hx; rewrite EW; by apply SW|intros x Hx; rewrite EV; by apply SV].
Qed.
End among.

Lemma insert_middle {A} (l1 : list A) x l2 y n : n = length l1 -> <[n := y]> (l1 ++ x :: l2) = l1 ++ y :: l2.
Proof. intros ->. rewrite <- (Nat.add_0_r (length l1)), insert_app_r. done. Qed.

(** ** The world *)
Section worlds.
Context {T : Type}.
Variables (pick : mem T -> Z -> Z -> Z) (chk : bool) (nsz nal : Z) (m0 : mem T) (addrs : list Z) (K : nat) (nul : bool).
Hypothesis WS : WorldSetup m0 addrs nsz nal.
Hypothesis HP : honest pick.
Hypothesis HK : Z.of_nat K < u32_lim.
Hypothesis HN : nul = false -> room pick (m_live m0) nsz nal K.

(** A place, what the list there holds, and its nodes. *)
Definition cell : Type := Z * option (list T) * list Z.
Definition c_at (c : cell) : Z := fst (fst c).
Definition c_spec (c : cell) : option (list T) := snd (fst c).
Definition c_slot (c : cell) : lslot := LSlot (c_at c) (option_map (fun xs => Z.of_nat (length xs)) (c_spec c)).
Definition c_alive (o : option (list T)) : bool := match o with Some _ => true | None => false end.
Definition nodes (cs : list cell) : list Z := flat_map snd cs.
Definition cell_ok (m : mem T) (c : cell) : Prop :=
  match c_spec c with
  | None => snd c = []
  | Some xs => ring (m_word m) (c_at c) (snd c) /\ Forall2 (fun p x => m_val m !! p = Some x) (snd c) xs
  end.
Record WInv (w : lworld T) (cs : list cell) : Prop := {
  wi_slots : lw_slots w = map c_slot cs;
  wi_addrs : map c_at cs = addrs;
  wi_dinv : DInv nsz nal (m_live m0) (lw_mem w) (nodes cs);
  wi_cells : Forall (cell_ok (lw_mem w)) cs
}.

Lemma nodes_app c1 c2 : nodes (c1 ++ c2) = nodes c1 ++ nodes c2.
Proof using. apply flat_map_app. Qed.
Lemma nodes_mid c1 c c2 : nodes (c1 ++ c :: c2) ≡ₚ snd c ++ nodes (c1 ++ c2).
Proof using. rewrite !nodes_app. cbn. fold (nodes c2). solve_Permutation. Qed.
Lemma cell_frame m m' c : cell_ok m c ->
  (forall x, x ∈ c_at c :: snd c -> m_word m' !! x = m_word m !! x /\ m_word m' !! (x + 8) = m_word m !! (x + 8)) ->
  (forall x, x ∈ snd c -> m_val m' !! x = m_val m !! x) -> cell_ok m' c.
Proof using.
  unfold cell_ok. destruct (c_spec c) as [xs|]; [|done]. intros [R V] KW KV. split; [by eapply ring_frame|]. by eapply vals_keep.
Qed.
Lemma cells_frame m m' cs : Forall (cell_ok m) cs -> same m (map c_at cs) (nodes cs) m' -> Forall (cell_ok m') cs.
Proof using.
  intros F [SW SV]. rewrite Forall_forall in F |- *. intros c Hc.
  assert (IN : forall x, x ∈ snd c -> x ∈ nodes cs). { intros x Hx. apply elem_of_list_In, in_flat_map. exists c. split; by apply elem_of_list_In. }
  apply (cell_frame m); [by apply F| |].
  - intros x Hx. apply SW, elem_of_app. apply elem_of_cons in Hx as [-> |Hx]; [left|right; by apply IN]. apply elem_of_list_fmap. by exists c.
  - intros x Hx. by apply SV, IN.
Qed.

Lemma place_setup cs c : map c_at cs = addrs -> c ∈ cs -> ListSetup m0 (c_at c) 24 nsz nal.
Proof using WS. intros E Hc. apply (ws_each _ _ _ _ WS). rewrite <- E. apply elem_of_list_fmap. by exists c. Qed.
Lemma others_setup c1 c c2 : map c_at (c1 ++ c :: c2) = addrs ->
  forall o, o ∈ map c_at (c1 ++ c2) -> ListSetup m0 o 24 nsz nal /\ (o + 24 <= c_at c \/ c_at c + 24 <= o).
Proof using WS.
  clear HP HK HN pick chk K nul.
  intros E o Ho. apply elem_of_list_fmap in Ho as (d & -> & Hd). split; [apply (place_setup _ _ E), elem_of_app; apply elem_of_app in Hd as [?|?]; [by left|right; by right]|].
  assert (EC : addrs !! length c1 = Some (c_at c)) by (rewrite <- E, map_app; cbn; apply list_lookup_middle; by rewrite map_length).
  assert (X : exists j, j <> length c1 /\ addrs !! j = Some (c_at d)).
  { apply elem_of_app in Hd as [Hd|Hd]; apply elem_of_list_lookup in Hd as [j Hj].
    - pose proof (lookup_lt_Some _ _ _ Hj). exists j. split; [lia|]. rewrite <- E, map_app. rewrite lookup_app_l by (rewrite map_length; lia).
      by rewrite lookup_map, Hj.
    - exists (length c1 + S j)%nat. split; [lia|]. rewrite <- E, map_app, lookup_app_r by (rewrite map_length; lia). rewrite map_length.
      replace (length c1 + S j - length c1)%nat with (S j) by lia. rewrite lookup_map. change ((c :: c2) !! S j) with (c2 !! j). by rewrite Hj. }
  destruct X as (j & NJ & EJ). pose proof (ws_apart _ _ _ _ WS _ _ _ _ NJ EJ EC). lia.
Qed.

Local Notation B rest := (Z.of_nat (K - length rest)).
Lemma b_small (rest : list Z) : B rest < u32_lim.
Proof using HK. clear -HK. lia. Qed.

Lemma cell_rep w (c1 : list cell) a xs ps (c2 : list cell) : WInv w (c1 ++ (a, Some xs, ps) :: c2) -> (length (nodes (c1 ++ (a, Some xs, ps) :: c2)) <= K)%nat ->
  LRep a (B (nodes (c1 ++ c2))) (J nsz nal m0 (lw_mem w) (map c_at (c1 ++ c2)) (nodes (c1 ++ c2))) (the_list w a (Z.of_nat (length xs))) xs ps.
Proof using.
  clear HP HK HN pick nul WS.
  intros [S A D C] LK. apply Forall_app in C as [_ C]. apply Forall_cons in C as [[R V] _]. cbn in R, V.
  rewrite nodes_mid in LK. cbn [snd] in LK. rewrite app_length, (Forall2_length _ _ _ V) in LK.
  split; [done|done| |done|done|lia]. split; [|done]. eapply (dinv_perm nsz nal); [exact D|]. apply nodes_mid.
Qed.

Lemma put_back w (c1 : list cell) a o ps (c2 : list cell) m' o' ps' dr sl : WInv w (c1 ++ (a, o, ps) :: c2) ->
  J nsz nal m0 (lw_mem w) (map c_at (c1 ++ c2)) (nodes (c1 ++ c2)) tt m' ps' -> cell_ok m' (a, o', ps') -> sl = c_slot (a, o', ps') ->
  WInv (LWorld (<[length c1 := sl]> (lw_slots w)) m' dr) (c1 ++ (a, o', ps') :: c2).
Proof using.
  clear HP HK HN pick nul WS.
  intros [S A D C] [D' SM] OK ->. split; cbn [lw_slots lw_mem].
  - rewrite S, !map_app. cbn [map]. apply insert_middle. by rewrite map_length.
  - rewrite <- A, !map_app. done.
  - eapply (dinv_perm nsz nal); [exact D'|]. symmetry. apply nodes_mid.
  - apply Forall_app in C as [C1 C2]. apply Forall_cons in C2 as [_ C2].
    pose proof (cells_frame _ m' (c1 ++ c2) ltac:(apply Forall_app; by split) SM) as F. apply Forall_app in F as [F1 F2].
    apply Forall_app. split; [done|]. by constructor.
Qed.

Lemma slot_split w cs i o : WInv w cs -> map c_spec cs !! i = Some o ->
  exists (c1 : list cell) a ps (c2 : list cell), cs = c1 ++ (a, o, ps) :: c2 /\ length c1 = i /\ lw_slots w !! i = Some (LSlot a (option_map (fun xs => Z.of_nat (length xs)) o)).
Proof using.
  clear HP HK HN pick nul WS.
  intros W E. rewrite lookup_map in E. destruct (cs !! i) as [[[a o'] ps]|] eqn:EC; [|done]. cbn in E. injection E as ->.
  pose proof (take_drop_middle _ _ _ EC) as TD. exists (take i cs), a, ps, (drop (S i) cs).
  split; [done|]. split; [apply take_length_le; pose proof (lookup_lt_Some _ _ _ EC); lia|]. rewrite (wi_slots _ _ W), lookup_map, EC. done.
Qed.
Lemma insert_spec (c1 : list cell) a o ps (c2 : list cell) o' ps' : <[length c1 := o']> (map c_spec (c1 ++ (a, o, ps) :: c2)) = map c_spec (c1 ++ (a, o', ps') :: c2).
Proof using. rewrite !map_app. cbn [map]. apply insert_middle. by rewrite map_length. Qed.

Definition explained (o : wop T) (a : option (lanswer T)) (d : list T) (cs cs' : list cell) : Prop :=
  forall os l d' ls', w_explains os l d' (map c_spec cs') ls' -> w_explains (o :: os) (a :: l) (d ++ d') (map c_spec cs) ls'.

Lemma alive_spec (cs : list cell) i b : map (fun c => c_alive (c_spec c)) cs !! i = Some b -> exists o, map c_spec cs !! i = Some o /\ c_alive o = b.
Proof using.
  rewrite !lookup_map. destruct (cs !! i) as [c|]; [|done]. cbn. intros [= <-]. by exists (c_spec c).
Qed.
Lemma insert_alive (c1 : list cell) a o ps (c2 : list cell) o' ps' : <[length c1 := c_alive o']> (map (fun c => c_alive (c_spec c)) (c1 ++ (a, o, ps) :: c2)) = map (fun c => c_alive (c_spec c)) (c1 ++ (a, o', ps') :: c2).
Proof using. rewrite !map_app. cbn [map]. apply insert_middle. by rewrite map_length. Qed.

Lemma step_ok o os w cs : WInv w cs -> legal (o :: os) (map (fun c => c_alive (c_spec c)) cs) = true -> (length (nodes cs) + added (o :: os) <= K)%nat ->
  exists a d w' cs', w_step pick false chk nsz nal o w = Some (a, w') /\ WInv w' cs' /\ lw_drops w' = lw_drops w ++ d /\
    (length (nodes cs') + added os <= K)%nat /\ legal os (map (fun c => c_alive (c_spec c)) cs') = true /\ explained o a d cs cs' /\ (nul = false -> a <> None).
Proof using WS HP HK HN.
  intros W LG LK. destruct o as [i|i c|i|i j]; cbn [legal added] in *; [| | |done].
  - (* new *)
    destruct (_ !! i) as [[]|] eqn:EA; [done| |done]. destruct (alive_spec _ _ _ EA) as (o & EO & AO). destruct o; [done|].
    destruct (slot_split _ _ _ _ W EO) as (c1 & a & ps & c2 & -> & <- & ES). cbn [option_map] in ES.
    pose proof (wi_cells _ _ W) as C. apply Forall_app in C as [_ C]. apply Forall_cons in C as [C _]. cbn in C. subst ps.
    pose proof (place_setup _ (a, None, []) (wi_addrs _ _ W) ltac:(apply elem_of_app; right; left)) as LS. cbn [c_at fst] in LS.
    pose proof (others_setup _ _ _ (wi_addrs _ _ W)) as HO. cbn [c_at fst] in HO.
    set (Os := map c_at (c1 ++ c2)) in *. set (rest := nodes (c1 ++ c2)).
    assert (AOK := among_ok pick chk nsz nal a m0 (lw_mem w) Os rest K nul LS HO HP HN).
    assert (I0 : J nsz nal m0 (lw_mem w) Os rest tt (lw_mem w) []).
    { split; [|done]. eapply (dinv_perm nsz nal); [apply (wi_dinv _ _ W)|]. apply nodes_mid. }
    cbn [w_step]. rewrite ES. unfold list_new.
    rewrite (init_sentinel_ok _ _ _ _ _ _ _ _ ltac:(apply (list_layout_facts _ _ (ls_node _ _ _ _ _ LS))) (ls_align _ _ _ _ _ LS) AOK (LState a 0 tt (lw_mem w) []) tt [] eq_refl I0).
    cbn [setw l_size l_mem l_node l_alloc l_drops].
    eexists _, [], _, (c1 ++ (a, Some [], []) :: c2). split; [reflexivity|]. split; [|split; [cbn; by rewrite app_nil_r|split; [|split; [|split]]]].
    + eapply put_back; [exact W| | |done].
      * eapply (ao_write _ _ _ _ _ _ _ _ AOK); [exact I0|]. apply (relinks_remove _ _ _ _ _ _ _ _ ltac:(apply (list_layout_facts _ _ (ls_node _ _ _ _ _ LS))) (ls_align _ _ _ _ _ LS) (b_small rest) AOK (LState a 0 tt (lw_mem w) [])).
        intros k Hk. exists a. split; [left|]. repeat (apply elem_of_cons in Hk as [-> |Hk]); [by left|by right|by apply elem_of_nil in Hk].
      * cbn. split; [|constructor]. unfold ring. cbn. constructor; [|constructor]. split; cbn; [apply lookup_insert|]. rewrite lookup_insert_ne by lia. apply lookup_insert.
    + rewrite nodes_mid in LK |- *. done.
    + rewrite <- (insert_alive c1 a None [] c2 (Some []) []). exact LG.
    + intros os' l d' ls' X. cbn [app]. econstructor; [exact EO|]. by rewrite (insert_spec _ _ _ _ _ _ []).
    + done.
  - (* a call *)
    destruct (_ !! i) as [[]|] eqn:EA; [|done|done]. destruct (alive_spec _ _ _ EA) as (o & EO & AO). destruct o as [xs|]; [|done].
    destruct (slot_split _ _ _ _ W EO) as (c1 & a & ps & c2 & -> & <- & ES). cbn [option_map] in ES.
    pose proof (place_setup _ (a, Some xs, ps) (wi_addrs _ _ W) ltac:(apply elem_of_app; right; left)) as LS. cbn [c_at fst] in LS.
    pose proof (others_setup _ _ _ (wi_addrs _ _ W)) as HO. cbn [c_at fst] in HO.
    pose proof (cell_rep _ _ _ _ _ _ W ltac:(lia)) as R.
    set (Os := map c_at (c1 ++ c2)) in *. set (rest := nodes (c1 ++ c2)) in *.
    assert (AOK := among_ok pick chk nsz nal a m0 (lw_mem w) Os rest K nul LS HO HP HN).
    assert (Hsz : 16 <= nsz) by apply (list_layout_facts _ _ (ls_node _ _ _ _ _ LS)).
    assert (LPS : length ps = length xs) by apply (Forall2_length _ _ _ (lr_vals _ _ _ _ _ _ R)).
    assert (LN : (length ps + length rest + length (pushed c) + added os <= K)%nat).
    { rewrite nodes_mid in LK. cbn [snd] in LK. rewrite app_length in LK. fold rest in LK. lia. }
    assert (FIN : forall st' xs' ps', LRep a (B rest) (J nsz nal m0 (lw_mem w) Os rest) st' xs' ps' ->
      WInv (back_to w (length c1) st' true) (c1 ++ (a, Some xs', ps') :: c2) /\
      legal os (map (fun c => c_alive (c_spec c)) (c1 ++ (a, Some xs', ps') :: c2)) = true /\
      ((length xs' <= length xs + length (pushed c))%nat -> (length (nodes (c1 ++ (a, Some xs', ps') :: c2)) + added os <= K)%nat)).
    { intros st' xs' ps' R'. destruct R' as [EN SZ HI RG V LB]. split; [|split].
      - eapply put_back; [exact W| | |].
        + by destruct (l_alloc st').
        + by split.
        + unfold c_slot. cbn. by rewrite EN, SZ.
      - rewrite <- (insert_alive c1 a (Some xs) ps c2 (Some xs') ps'). cbn [c_alive]. rewrite list_insert_id; done.
      - intros LX. rewrite nodes_mid. cbn [snd]. rewrite app_length. fold rest. rewrite (Forall2_length _ _ _ V). lia. }
    cbn [w_step]. unfold live_at. rewrite ES.
    destruct (call_ok (DefaultAddrAlloc pick false) chk nsz nal a (B rest) nul _ Hsz (ls_align _ _ _ _ _ LS) (b_small rest) AOK _ xs ps c R) as
      [(st' & ps' & r & d & xs' & EC & E & R' & DR)|(EN & k & st' & ps' & LKk & E & R' & DR)].
    { intros _. by apply among_frees. }
    { lia. }
    + rewrite E. destruct (FIN _ _ _ R') as (W' & LG' & LN').
      exists (Some r), d, (back_to w (length c1) st' true), (c1 ++ (a, Some xs', ps') :: c2). split; [done|]. split; [done|]. split; [exact DR|].
      split; [apply LN'|split; [done|split; [|done]]].
      * pose proof (spec_len _ _ _ _ _ EC). destruct (len_call_ge c (length xs)) as [[F P]|EQ]; [|lia].
        rewrite P. cbn. destruct c; cbn in *; try done; lia.
      * intros os' l d' ls' X. econstructor; [exact EO|exact EC|]. by rewrite (insert_spec _ _ _ _ _ _ ps').
    + rewrite E. destruct (FIN _ _ _ R') as (W' & LG' & LN').
      exists None, (drop k (pushed c)), (back_to w (length c1) st' true), (c1 ++ (a, Some (xs ++ take k (pushed c)), ps') :: c2). split; [done|]. split; [done|].
      split; [exact DR|]. split; [apply LN'; rewrite app_length, take_length; lia|]. split; [done|]. split; [|by rewrite EN].
      intros os' l d' ls' X. econstructor; [exact EO|exact LKk|]. by rewrite (insert_spec _ _ _ _ _ _ ps').
  - (* drop *)
    destruct (_ !! i) as [[]|] eqn:EA; [|done|done]. destruct (alive_spec _ _ _ EA) as (o & EO & AO). destruct o as [xs|]; [|done].
    destruct (slot_split _ _ _ _ W EO) as (c1 & a & ps & c2 & -> & <- & ES). cbn [option_map] in ES.
    pose proof (place_setup _ (a, Some xs, ps) (wi_addrs _ _ W) ltac:(apply elem_of_app; right; left)) as LS. cbn [c_at fst] in LS.
    pose proof (others_setup _ _ _ (wi_addrs _ _ W)) as HO. cbn [c_at fst] in HO.
    pose proof (cell_rep _ _ _ _ _ _ W ltac:(lia)) as R.
    set (Os := map c_at (c1 ++ c2)) in *. set (rest := nodes (c1 ++ c2)) in *.
    assert (AOK := among_ok pick chk nsz nal a m0 (lw_mem w) Os rest K nul LS HO HP HN).
    assert (Hsz : 16 <= nsz) by apply (list_layout_facts _ _ (ls_node _ _ _ _ _ LS)).
    cbn [w_step]. unfold live_at. rewrite ES. unfold list_drop.
    destruct (clear_ok (DefaultAddrAlloc pick false) chk nsz nal a (B rest) nul _ Hsz (ls_align _ _ _ _ _ LS) (b_small rest) AOK (the_list w a (Z.of_nat (length xs))) xs ps) as (st' & E & [EN SZ HI RG V LB] & DR);
      [by apply among_frees|exact R|].
    rewrite E. exists (Some AUnit), xs, (back_to w (length c1) st' false), (c1 ++ (a, None, []) :: c2). split; [done|]. split; [|split; [exact DR|split; [|split; [|split]]]].
    + eapply put_back; [exact W| | |].
      * by destruct (l_alloc st').
      * done.
      * unfold c_slot. cbn. by rewrite EN.
    + rewrite nodes_mid in LK |- *. cbn [snd app]. rewrite app_length in LK. fold rest in LK |- *. lia.
    + by rewrite <- (insert_alive c1 a (Some xs) ps c2 None []).
    + intros os' l d' ls' X. econstructor; [exact EO|]. by rewrite (insert_spec _ _ _ _ _ _ []).
    + done.
Qed.

Lemma run_world os : forall w cs, WInv w cs -> legal os (map (fun c => c_alive (c_spec c)) cs) = true -> (length (nodes cs) + added os <= K)%nat ->
  exists l d w' cs', w_run pick false chk nsz nal os w = Some (l, w') /\ WInv w' cs' /\ lw_drops w' = lw_drops w ++ d /\
    (length (nodes cs') <= K)%nat /\ w_explains os l d (map c_spec cs) (map c_spec cs') /\ (nul = false -> None ∉ l).
Proof using WS HP HK HN.
  induction os as [|o os IH]; intros w cs W LG LK.
  - exists [], [], w, cs. rewrite app_nil_r. split; [done|]. split; [done|]. split; [done|]. split; [cbn in LK; lia|]. split; [constructor|]. intros _ H. by apply elem_of_nil in H.
  - destruct (step_ok o os w cs W LG LK) as (a & d & w1 & cs1 & E & W1 & D1 & LK1 & LG1 & X & NN).
    destruct (IH w1 cs1 W1 LG1 LK1) as (l & d' & w2 & cs2 & E2 & W2 & D2 & LK2 & X2 & NN2).
    exists (a :: l), (d ++ d'), w2, cs2. cbn [w_run]. rewrite E, E2. split; [done|]. split; [done|]. split; [by rewrite D2, D1, app_assoc|].
    split; [done|]. split; [by apply X|]. intros Z H. apply elem_of_cons in H as [H|H]; [by apply (NN Z)|by apply (NN2 Z)].
Qed.

Lemma world_shows w cs : WInv w cs -> (length (nodes cs) <= K)%nat -> w_shows chk nsz w (map c_spec cs).
Proof using WS HP HK HN.
  intros W LK. split; [by rewrite (wi_slots _ _ W), !map_length|]. intros i o EO.
  destruct (slot_split _ _ _ _ W EO) as (c1 & a & ps & c2 & -> & <- & ES). unfold live_at. rewrite ES. destruct o as [xs|]; [|done].
  cbn [option_map]. exists a, (Z.of_nat (length xs)). split; [done|].
  pose proof (place_setup _ (a, Some xs, ps) (wi_addrs _ _ W) ltac:(apply elem_of_app; right; left)) as LS. cbn [c_at fst] in LS.
  pose proof (others_setup _ _ _ (wi_addrs _ _ W)) as HO. cbn [c_at fst] in HO.
  pose proof (cell_rep _ _ _ _ _ _ W LK) as R.
  eapply (iter_all_ok (DefaultAddrAlloc pick false) chk nsz nal a _ nul _ ltac:(apply (list_layout_facts _ _ (ls_node _ _ _ _ _ LS))) (ls_align _ _ _ _ _ LS) (b_small _)); [|exact R].
  apply (among_ok pick chk nsz nal a m0 (lw_mem w) _ _ K nul LS HO HP HN).
Qed.

Definition start_cells : list cell := map (fun a => (a, None, [])) addrs.
Lemma start_ok : WInv (w_start addrs m0) start_cells /\ nodes start_cells = [] /\ map c_spec start_cells = map (fun _ => None) addrs /\
  map (fun c => c_alive (c_spec c)) start_cells = map (fun _ => false) addrs.
Proof using.
  clear. assert (N : nodes start_cells = []). { unfold start_cells. induction addrs as [|a l IH]; [done|]. exact IH. }
  unfold start_cells in *. split; [split|split; [done|]].
  - cbn. by rewrite map_map.
  - rewrite map_map. cbn. apply map_id.
  - rewrite N. split; cbn; [by rewrite app_nil_r|intros p Hp; by apply elem_of_nil in Hp|constructor|intros p q Hp; by apply elem_of_nil in Hp].
  - rewrite Forall_forall. intros c Hc. apply elem_of_list_fmap in Hc as (a & -> & _). done.
  - rewrite !map_map. done.
Qed.
End worlds.
(** ** Exchanging two lists *)
Lemma no_block_after b p : forall l r l', remove_block p l = Some (r, l') -> remove_block b l = None -> remove_block b l' = None.
Proof.
  induction l as [|x l IH]; intros r l' E N; [done|]. cbn in E, N. destruct ((r_base x =? b)%Z && r_heap x) eqn:B; [done|].
  destruct (remove_block b l) as [[? ?]|] eqn:NB; [done|]. destruct ((r_base x =? p)%Z && r_heap x).
  - by injection E as <- <-.
  - destruct (remove_block p l) as [[r' l'']|] eqn:EP; [|done]. injection E as <- <-. cbn. by rewrite B, (IH _ _ eq_refl eq_refl).
Qed.
Lemma no_block b l : (forall r, r ∈ l -> r_base r = b -> r_heap r = false) -> remove_block b l = None.
Proof.
  induction l as [|x l IH]; intros H; [done|]. cbn. destruct (r_base x =? b)%Z eqn:B.
  - rewrite (H x) by (try (by left); lia). cbn. rewrite IH; [done|]. intros r Hr. apply H. by right.
  - cbn. rewrite IH; [done|]. intros r Hr. apply H. by right.
Qed.
Section wrong.
Context {T : Type}.
Variables (pick : mem T -> Z -> Z -> Z) (chk : bool) (nsz nal a b : Z).
Hypothesis LL : list_layout nsz nal.
Hypothesis AB : a <> b.
Local Notation AL := (DefaultAddrAlloc pick false).

(** Following the wrong list, the loop of [clear] meets the other sentinel. *)
Lemma clear_wrong : forall qs x fuel (st : lstate unit T), l_node st = a -> fwd (m_word (l_mem st)) x qs b -> a ∉ qs -> remove_block b (m_live (l_mem st)) = None ->
  clear_loop AL chk nsz fuel (first_of b qs) st = UB.
Proof using LL AB.
  destruct (list_layout_facts _ _ LL) as (_ & _ & U). destruct LL as (_ & _ & LK).
  induction qs as [|q qs IH]; intros x fuel st EN F NI NB.
  - unfold first_of. cbn [hd]. destruct fuel as [|f]; cbn [clear_loop]; unfold bind at 1, gets at 1; rewrite EN; replace (b =? a) with false by lia; [done|].
    unfold bind at 1, get_next, get_word, bind at 1, gets at 1, or_ub. destruct (load_word (l_mem st) b) as [n|]; [|done]. cbn [ret].
    unfold bind at 1, move_val, bind at 1, gets at 1, or_ub. destruct (take_val (l_mem st) b nsz) as [[v m']|] eqn:TV; [|done].
    unfold take_val in TV. destruct (load_val _ _ _); [|done]. injection TV as <- <-.
    unfold ret, bind at 1, set_mem, modify. cbn [snd fst]. unfold bind, in_alloc, deallocate, bind. cbn [l_alloc l_mem logged]. rewrite usizeZ_ok by lia.
    cbn [aa_free DefaultAddrAlloc]. unfold default_free_raw. rewrite LK. unfold mem_free. cbn [snd m_live]. by rewrite NB.
  - destruct F as [_ F]. unfold first_of. cbn [hd].
    assert (NQ : q <> a) by (intros ->; apply NI; left).
    destruct fuel as [|f]; cbn [clear_loop]; unfold bind at 1, gets at 1; rewrite EN; replace (q =? a) with false by lia; [done|].
    unfold bind at 1, get_next, get_word, bind at 1, gets at 1, or_ub. unfold load_word. destruct (word_at (l_mem st) q); [|done].
    assert (EQ : m_word (l_mem st) !! q = Some (first_of b qs)) by (destruct qs; [exact F|apply F]). rewrite EQ. cbn [ret].
    unfold bind at 1, move_val, bind at 1, gets at 1, or_ub. destruct (take_val (l_mem st) q nsz) as [[v m']|] eqn:TV; [|done].
    unfold take_val in TV. destruct (load_val _ _ _); [|done]. injection TV as <- <-.
    unfold ret, bind at 1, set_mem, modify. cbn [snd fst]. unfold bind, in_alloc, deallocate, bind. cbn [l_alloc l_mem logged]. rewrite usizeZ_ok by lia.
    cbn [aa_free DefaultAddrAlloc]. unfold default_free_raw. rewrite LK. unfold mem_free. cbn [snd m_live].
    destruct (remove_block q (m_live (l_mem st))) as [[r l']|] eqn:RB; [|done]. cbn [andb].
    apply (IH q f); [done|exact F|by intros H; apply NI; right|]. cbn. by eapply no_block_after.
Qed.
Lemma clear_ub qs (st : lstate unit T) : l_node st = a -> fwd (m_word (l_mem st)) a qs b -> a ∉ qs -> remove_block b (m_live (l_mem st)) = None ->
  clear AL chk nsz st = UB.
Proof using LL AB.
  intros EN F NI NB. unfold clear. unfold bind at 1, gets at 1. rewrite EN. unfold bind at 1, get_next, get_word, bind at 1, gets at 1, or_ub, load_word.
  destruct (word_at (l_mem st) a); [|done]. assert (EQ : m_word (l_mem st) !! a = Some (first_of b qs)) by (destruct qs; [exact F|apply F]). rewrite EQ.
  cbn [ret]. unfold bind at 1, gets at 1. unfold bind at 1. by rewrite (clear_wrong qs a).
Qed.
End wrong.

Lemma fwd_swapped (w w' : gmap Z Z) a b qs : fwd w b qs b -> w' !! a = w !! b -> (forall y, y ∈ qs -> w' !! y = w !! y) -> fwd w' a qs b.
Proof.
  destruct qs as [|q qs]; cbn [fwd]; intros F EA FR; [by rewrite EA|]. destruct F as [F1 F]. split; [by rewrite EA|]. eapply fwd_frame; [exact F|exact FR].
Qed.
Lemma swap_word_ok {T} (m : mem T) a b x y : a <> b -> word_at m a = true -> word_at m b = true -> m_word m !! a = Some x -> m_word m !! b = Some y ->
  swap_word m a b = Some (Mem (m_live m) (<[b := x]> (<[a := y]> (m_word m))) (m_val m) (m_time m)).
Proof.
  intros NE WA WB EA EB. unfold swap_word, load_word, store_word. rewrite WA, WB, EA, EB.
  change (word_at (Mem (m_live m) (<[a := y]> (m_word m)) (m_val m) (m_time m)) b) with (word_at m b). by rewrite WB.
Qed.
Lemma live_cell {T} (nsz nal : Z) (m0 : mem T) addrs w cs i a n : WInv nsz nal m0 addrs w cs -> live_at w i = Some (a, n) ->
  exists xs ps, cs !! i = Some (a, Some xs, ps) /\ lw_slots w !! i = Some (LSlot a (Some n)).
Proof.
  intros W L. unfold live_at in L. destruct (lw_slots w !! i) as [[a' [n'|]]|] eqn:E; [|done|done]. injection L as -> ->.
  pose proof E as E'. rewrite (wi_slots _ _ _ _ _ _ W), lookup_map in E'. destruct (cs !! i) as [[[a2 o] ps]|]; [|done].
  change (Some (LSlot a2 (option_map (fun xs : list T => Z.of_nat (length xs)) o)) = Some (LSlot a (Some n))) in E'. injection E' as -> E2. destruct o as [xs|]; [|done]. by exists xs, ps.
Qed.
Lemma nodes_in {T} (cs : list (cell (T := T))) i c x : cs !! i = Some c -> x ∈ snd c -> x ∈ nodes cs.
Proof. intros E Hx. apply elem_of_list_In, in_flat_map. exists c. split; apply elem_of_list_In; [by eapply elem_of_list_lookup_2|done]. Qed.

Lemma L_C108_lists_apart :
forall (T : Type) (pick : mem T -> Z -> Z -> Z) (chk : bool) (nsz nal : Z) (m0 : mem T) (addrs : list Z) (os : list (wop T)),
  WorldSetup m0 addrs nsz nal -> honest pick -> legal os (map (fun _ => false) addrs) = true -> Z.of_nat (added os) < u32_lim ->
  exists l w ls,
    w_run pick false chk nsz nal os (w_start addrs m0) = Some (l, w) /\
    w_explains os l (lw_drops w) (map (fun _ => None) addrs) ls /\
    w_shows chk nsz w ls /\
    (exists ps, m_live (lw_mem w) ≡ₚ m_live m0 ++ map (fun p => Region p nsz nal true) ps /\ NoDup ps /\
      length ps = length (flat_map (fun o : option (list T) => match o with Some xs => xs | None => [] end) ls)) /\
    (room pick (m_live m0) nsz nal (added os) -> None ∉ l).
Proof.
  intros T pick chk nsz nal m0 addrs os WS HP LG LK.
  destruct (start_ok (T := T) nsz nal m0 addrs) as (W0 & N0 & S0 & A0).
  assert (GO : forall nul, (nul = false -> room pick (m_live m0) nsz nal (added os)) -> exists l d w' cs',
    w_run pick false chk nsz nal os (w_start addrs m0) = Some (l, w') /\ WInv nsz nal m0 addrs w' cs' /\ lw_drops w' = d /\
    (length (nodes cs') <= added os)%nat /\ w_explains os l d (map (fun _ => None) addrs) (map c_spec cs') /\ (nul = false -> None ∉ l)).
  { intros nul HN. rewrite <- S0. destruct (run_world pick chk nsz nal m0 addrs (added os) nul WS HP LK HN os _ _ W0) as (l & d & w & cs & E & W & D & N & X & NN).
    - by rewrite A0.
    - rewrite N0. cbn. lia.
    - exists l, d, w, cs. done. }
  destruct (GO true ltac:(done)) as (l & d & w & cs & E & W & <- & N & X & _).
  exists l, w, (map c_spec cs). split; [done|]. split; [done|].
  split; [by apply (world_shows pick chk nsz nal m0 addrs (added os) true WS HP LK ltac:(done))|].
  split.
  - exists (nodes cs). destruct (wi_dinv _ _ _ _ _ _ W) as [L _ ND _]. split; [exact L|]. split; [done|].
    pose proof (wi_cells _ _ _ _ _ _ W) as C. clear -C. induction C as [|c cs OK C IH]; [done|]. cbn. rewrite !app_length. fold (nodes cs). rewrite IH. f_equal.
    unfold cell_ok in OK. destruct (c_spec c) as [xs|]; [by destruct OK as [_ V]; apply Forall2_length in V|by rewrite OK].
  - intros RM. destruct (GO false ltac:(done)) as (l' & ? & w' & ? & E' & _ & _ & _ & _ & NN). rewrite E in E'. injection E' as <- <-. by apply NN.
Qed.

Lemma L_C109_list_swap_refuted :
forall (T : Type) (pick : mem T -> Z -> Z -> Z) (chk : bool) (nsz nal : Z) (m0 : mem T) (addrs : list Z) (os : list (wop T)) l w i j a n b k,
  WorldSetup m0 addrs nsz nal -> honest pick -> legal os (map (fun _ => false) addrs) = true -> Z.of_nat (added os) < u32_lim ->
  w_run pick false chk nsz nal os (w_start addrs m0) = Some (l, w) ->
  i <> j -> live_at w i = Some (a, n) -> live_at w j = Some (b, k) ->
  (forall r, r ∈ m_live m0 -> r_base r = a \/ r_base r = b -> r_heap r = false) ->
  exists w', w_step pick false chk nsz nal (WSwap i j) w = Some (Some AUnit, w') /\
    forall o, o ∈ [WDrop i; WDrop j; WCall i LClear; WCall j LClear] -> w_step pick false chk nsz nal o w' = None.
Proof.
  intros T pick chk nsz nal m0 addrs os l w i j a n b k WS HP LG LK E NE LI LJ NB.
  destruct (start_ok (T := T) nsz nal m0 addrs) as (W0 & N0 & S0 & A0).
  destruct (run_world pick chk nsz nal m0 addrs (added os) true WS HP LK ltac:(done) os _ _ W0) as (l' & d & w' & cs & E' & W & D & N & X & _).
  { by rewrite A0. } { rewrite N0. cbn. lia. }
  rewrite E in E'. injection E' as <- <-.
  destruct (live_cell _ _ _ _ _ _ _ _ _ W LI) as (xs & ps & CI & SI). destruct (live_cell _ _ _ _ _ _ _ _ _ W LJ) as (ys & qs & CJ & SJ).
  assert (AI : addrs !! i = Some a) by (rewrite <- (wi_addrs _ _ _ _ _ _ W), lookup_map; exact (f_equal (option_map c_at) CI)).
  assert (AJ : addrs !! j = Some b) by (rewrite <- (wi_addrs _ _ _ _ _ _ W), lookup_map; exact (f_equal (option_map c_at) CJ)).
  pose proof (ws_apart _ _ _ _ WS _ _ _ _ NE AI AJ) as AB.
  pose proof (ws_each _ _ _ _ WS a ltac:(by eapply elem_of_list_lookup_2)) as SA. pose proof (ws_each _ _ _ _ WS b ltac:(by eapply elem_of_list_lookup_2)) as SB.
  pose proof (list_layout_facts _ _ (ls_node _ _ _ _ _ SA)) as (NL & Z16 & _).
  pose proof (wi_cells _ _ _ _ _ _ W) as C. rewrite Forall_lookup in C. pose proof (C _ _ CI) as [RA _]. pose proof (C _ _ CJ) as [RB _]. cbn [snd c_at fst] in RA, RB.
  pose proof (wi_dinv _ _ _ _ _ _ W) as DI.
  assert (AP : forall x o, x ∈ nodes cs -> ListSetup m0 o 24 nsz nal -> x + nsz <= o \/ o + 16 <= x).
  { intros x o Hx LO. eapply (dinv_apart nsz nal (m_live m0)); [apply SA|exact DI|done|done|lia|]. eapply accessible_sub; [apply LO|lia|lia]. }
  pose proof (fun x H => nodes_in cs i _ x CI H) as IA. pose proof (fun x H => nodes_in cs j _ x CJ H) as IB. cbn [snd] in IA, IB.
  assert (WA : forall o, ListSetup m0 o 24 nsz nal -> word_at (lw_mem w) o = true /\ word_at (lw_mem w) (o + 8) = true).
  { intros o LO. pose proof (obj_accessible pick nsz nal o 24 m0 true 0 LO ltac:(done) ltac:(lia) _ _ DI) as AC. pose proof (ls_align _ _ _ _ _ LO) as AL.
    split; eapply word_at_ok; try exact AC; try lia; [exact AL|]. by apply Z.divide_add_r. }
  destruct (WA a SA) as [WA1 WA2]. destruct (WA b SB) as [WB1 WB2].
  destruct (ring_ends _ _ _ RA) as [EA1 EA2]. destruct (ring_ends _ _ _ RB) as [EB1 EB2].
  assert (FREE : forall o, ListSetup m0 o 24 nsz nal -> (o = a \/ o = b) -> remove_block o (m_live (lw_mem w)) = None).
  { intros o LO HO. apply no_block. intros r Hr EO. rewrite (di_live _ _ _ _ _ DI) in Hr. apply elem_of_app in Hr as [Hr|Hr].
    - apply (NB r Hr). destruct HO as [<-|<-]; [by left|by right].
    - apply elem_of_list_fmap in Hr as (p & -> & Hp). cbn in EO. pose proof (AP p o Hp LO). lia. }
  cbn [w_step]. rewrite LI, LJ. rewrite (swap_word_ok _ a b _ _ ltac:(lia) WA1 WB1 EA1 EB1).
  erewrite (swap_word_ok _ (a + 8) (b + 8) (last_of a ps) (last_of b qs)); [|lia|exact WA2|exact WB2|cbn; rewrite !lookup_insert_ne by lia; done|cbn; rewrite !lookup_insert_ne by lia; done].
  cbn [m_word m_live m_val m_time].
  eexists. split; [reflexivity|].
  set (w' := LWorld _ _ _).
  assert (LI' : live_at w' i = Some (a, k)).
  { unfold live_at, w'. cbn [lw_slots]. rewrite list_lookup_insert_ne by done. rewrite list_lookup_insert; [done|]. by eapply lookup_lt_Some. }
  assert (LJ' : live_at w' j = Some (b, n)).
  { unfold live_at, w'. cbn [lw_slots]. rewrite list_lookup_insert; [done|]. rewrite insert_length. by eapply lookup_lt_Some. }
  assert (FR : forall y, y ∈ nodes cs -> m_word (lw_mem w') !! y = m_word (lw_mem w) !! y).
  { intros y Hy. pose proof (AP y a Hy SA). pose proof (AP y b Hy SB). unfold w'. cbn. rewrite !lookup_insert_ne by lia. done. }
  assert (UA : clear (DefaultAddrAlloc pick false) chk nsz (the_list w' a k) = UB).
  { apply (clear_ub pick chk nsz nal a b (ls_node _ _ _ _ _ SA) ltac:(lia) qs); [done| | |apply FREE; [done|by right]].
    - cbn [the_list l_mem]. eapply fwd_swapped; [apply seg_fwd; exact RB| |].
      + unfold w'. cbn. rewrite !lookup_insert_ne by lia. by rewrite lookup_insert.
      + intros y Hy. apply FR, IB, Hy.
    - intros H. pose proof (AP a a (IB _ H) SA). lia. }
  assert (UB' : clear (DefaultAddrAlloc pick false) chk nsz (the_list w' b n) = UB).
  { apply (clear_ub pick chk nsz nal b a (ls_node _ _ _ _ _ SA) ltac:(lia) ps); [done| | |apply FREE; [done|by left]].
    - cbn [the_list l_mem]. eapply fwd_swapped; [apply seg_fwd; exact RA| |].
      + unfold w'. cbn. rewrite !(lookup_insert_ne _ (_ + 8)) by lia. by rewrite lookup_insert.
      + intros y Hy. apply FR, IA, Hy.
    - intros H. pose proof (AP b b (IA _ H) SB). lia. }
  intros o Ho. repeat (apply elem_of_cons in Ho as [-> |Ho]); [| | | |by apply elem_of_nil in Ho]; cbn [w_step]; rewrite ?LI', ?LJ'; unfold list_drop; cbn [l_call]; unfold bind; by rewrite ?UA, ?UB'.
Qed.
