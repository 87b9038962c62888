(** Proofs about fixed lists: the pool with overflow as the allocator of a list. *)
From Verif Require Import Base Alloc AddrMem FixedPool FixedPoolSpec FixedPoolProofs LinkedList LinkedListSpec LinkedListProofs LinkedListCalls LinkedListRuns.
Local Open Scope Z_scope.

Lemma pinv_perm {T} base len sz al q (m : mem T) L L' avail : PInv base len sz al q m L avail -> L ≡ₚ L' -> PInv base len sz al q m L' avail.
Proof. intros [P1 P2 P3 P4] P. split; [done|done|by rewrite <- P|done]. Qed.

Section fixed.
Context {T : Type}.
Variables (pick : mem T -> Z -> Z -> Z) (strict chk : bool) (nsz nal obj bytes base len : Z) (m0 : mem T).
Hypothesis LS : ListSetup m0 obj bytes nsz nal.
Hypothesis PS : PoolSetup m0 base len nsz nal.
Hypothesis H16 : 16 <= bytes.
Hypothesis HO : obj + 16 <= base.

Local Notation aa := (FixedListAlloc pick strict chk nsz nal).
Local Notation PI := (PInv base len nsz nal).

Lemma fx_layout : node_layout nsz nal /\ 16 <= nsz < usize_lim /\ 0 <= nsz * 16 < usize_lim.
Proof using All. exact (list_layout_facts _ _ (ls_node _ _ _ _ _ LS)). Qed.

Lemma obj16 : accessible m0 obj 16 = true.
Proof using All. eapply accessible_sub; [apply LS|lia|lia]. Qed.

Lemma slot_node q (m : mem T) L avail p : PI q m L avail -> p ∈ L ++ avail ->
  0 < p /\ (8 | p) /\ accessible m p nsz = true /\ base <= p.
Proof using All.
  intros I Hp. destruct (slot_bounds base len nsz nal m0 PS q m L avail p I Hp) as (? & ? & ? & ? & _). pose proof (end_ok base len nsz nal m0 PS).
  split; [done|]. split; [done|]. split; [|done]. eapply accessible_sub; [apply I|done|lia].
Qed.

Lemma live_access (m : mem T) a n : m_live m = m_live m0 -> accessible m0 a n = true -> accessible m a n = true.
Proof using All. intros E. unfold accessible. by rewrite E. Qed.

(** ** While the buffer suffices *)
Definition BI (q : opool unit) (m : mem T) (L : list Z) : Prop :=
  exists avail, PI (o_pool q) m L avail /\ o_begin q = base /\ m_time m = m_time m0 /\ m_live m = m_live m0.

Lemma avail_length q (m : mem T) L avail : PI q m L avail -> (length L + length avail = pool_count base len nsz nal)%nat.
Proof using All.
  intros I. rewrite <- app_length, (Permutation_length (pi_perm _ _ _ _ _ _ _ _ I)). unfold slots_from. by rewrite map_length, seq_length.
Qed.

Lemma relinks_pinv q (m m' : mem T) L O avail : PI q m L avail -> relinks obj O m m' -> 
  (forall x y, x ∈ avail -> y ∈ O -> x + nsz <= y \/ y + nsz <= x) -> PI q m' L avail.
Proof using All.
  intros I (EL & _ & EW) AP. pose proof fx_layout as (NL & Z16 & _).
  eapply pinv_frame; [exact I| |].
  - intros x Hx. apply EW. intros y Hy. apply elem_of_cons in Hy as [-> |Hy].
    + destruct (slot_node _ _ _ _ x I ltac:(apply elem_of_app; by right)) as (_ & _ & _ & ?). lia.
    + specialize (AP _ _ Hx Hy). lia.
  - unfold accessible. rewrite EL. apply I.
Qed.

Lemma bounded_ok : AllocOK aa chk nsz nal obj (Z.of_nat (pool_count base len nsz nal)) false BI.
Proof using All.
  pose proof fx_layout as (NL & Z16 & _). pose proof PS as [_ PB PL PR PM].
  split.
  - intros q m L p (avail & I & _) Hp. destruct (slot_node _ _ _ _ p I ltac:(apply elem_of_app; by left)) as (? & ? & ? & ?).
    split; [done|]. split; [done|]. split; [done|]. lia.
  - intros q m L (avail & I & _). pose proof (pinv_nodup _ _ _ _ NL _ _ _ _ I) as ND. by apply NoDup_app in ND as [? _].
  - intros q m L p p' (avail & I & _) Hp Hp' NE. eapply (slots_apart base len nsz nal NL); [exact I|apply elem_of_app; by left|apply elem_of_app; by left|done].
  - intros q m L (avail & I & _ & _ & EL). eapply live_access; [done|]. apply obj16.
  - intros q m L L' (avail & I & ? & ? & ?) P. exists avail. split; [by eapply pinv_perm|done].
  - intros q m m' L (avail & I & EB & ET & EL) R. exists avail. pose proof (pinv_nodup _ _ _ _ NL _ _ _ _ I) as ND.
    split; [|destruct R as (R1 & R2 & _); split; [done|]; split; [by rewrite R2|by rewrite R1]].
    eapply relinks_pinv; [exact I|exact R|]. intros x y Hx Hy. eapply (slots_apart base len nsz nal NL); [exact I|apply elem_of_app; by right|apply elem_of_app; by left|].
    intros ->. apply NoDup_app in ND as (_ & ND & _). by apply (ND y).
  - intros q m L (avail & I & EB & ET & EL) LT. pose proof (avail_length _ _ _ _ I). destruct avail as [|x avail]; [cbn in *; lia|].
    destruct (pool_alloc_ok base len nsz nal NL PB PR chk _ _ _ _ I) as (q1 & E1 & I1 & _).
    destruct (slot_node _ _ _ _ x I ltac:(apply elem_of_app; right; constructor)) as (? & _ & _ & _).
    exists x, (OPool q1 (o_over q) (o_begin q)), m. split.
    + unfold allocate. unfold bind at 1. rewrite Z.mul_1_l, usizeZ_ok by lia. cbn [aa_alloc FixedListAlloc OPoolAlloc]. unfold opool_alloc.
      unfold bind at 1. rewrite debug_assert_ok by apply Z.eqb_refl. unfold bind at 1. rewrite debug_assert_ok by apply Z.eqb_refl.
      unfold bind at 1, in_pool at 1. rewrite E1. rewrite (proj2 (Z.eqb_neq x 0)) by lia. done.
    + split; [by split|]. right. split; [lia|]. exists avail. split; [exact I1|done].
Qed.

Lemma bounded_frees : FreeOK aa chk nsz obj BI.
Proof using All.
  pose proof fx_layout as (NL & Z16 & Z256). pose proof PS as [_ PB PL PR PM].
  intros q m p L (avail & I & EB & ET & EL).
  assert (Hp : p ∈ (p :: L) ++ avail) by constructor.
  destruct (slot_bounds base len nsz nal m0 PS _ m _ avail p I Hp) as (? & ? & ? & ? & _).
  destruct (pool_free_ok base len nsz nal NL PB PR chk _ _ _ L avail p (nsz * 16) 8 I) as (q1 & m1 & E1 & I1 & EM); [done|].
  exists (OPool q1 (o_over q) (o_begin q)), m1. split; [|split].
  - unfold deallocate. unfold bind at 1. rewrite usizeZ_ok by lia. cbn [aa_free FixedListAlloc OPoolAlloc]. unfold opool_free.
    unfold bind at 1, gets at 1. cbn [fst]. rewrite EB, (pi_cap _ _ _ _ _ _ _ _ I). fold (pool_end base len nsz nal).
    rewrite (proj2 (Z.leb_le base p)), (proj2 (Z.leb_le p _)) by lia. cbn [andb]. unfold in_pool. by rewrite E1, EB.
  - split; [|by rewrite EM]. intros x Hx. rewrite EM. cbn.
    assert (x + 16 <= p \/ p + 16 <= x).
    { apply elem_of_cons in Hx as [-> |Hx]; [lia|]. pose proof (pinv_nodup _ _ _ _ NL _ _ _ _ I) as ND. cbn in ND. apply NoDup_cons in ND as [NI _].
      destruct (slots_apart base len nsz nal NL _ _ _ _ x p I); [apply elem_of_app; left; by constructor|done| |lia..].
      intros ->. apply NI, elem_of_app. by left. }
    rewrite !lookup_insert_ne by lia. done.
  - exists (p :: avail). split; [exact I1|]. split; [done|]. rewrite EM. done.
Qed.

(** ** In general *)
Hypothesis HP : honest pick.
Hypothesis PAD : accessible m0 base (pool_end base len nsz nal + 1 - base) = true.
Variables (nul : bool) (B : nat).
Hypothesis HN : nul = false -> room pick (m_live m0) nsz nal B.

Local Notation OI := (OInv base len nsz nal m0).
Definition GI (q : opool unit) (m : mem T) (L : list Z) : Prop :=
  exists slots avail over, OI q m slots avail over /\ L ≡ₚ slots ++ over.

Let WF := ls_wf _ _ _ _ _ LS.

Lemma gi_node q m slots avail over p : OI q m slots avail over -> p ∈ slots ++ over ->
  0 < p /\ (8 | p) /\ accessible m p nsz = true /\ (p + nsz <= obj \/ obj + 16 <= p).
Proof using All.
  intros OI Hp. pose proof fx_layout as (NL & Z16 & _). pose proof (node_layout_pos _ _ NL) as (? & D8 & ? & ?). apply elem_of_app in Hp as [Hp|Hp].
  - destruct (slot_node _ _ _ _ p (oi_pool _ _ _ _ _ _ _ _ _ _ OI) ltac:(apply elem_of_app; by left)) as (? & ? & ? & ?).
    split; [done|]. split; [done|]. split; [done|]. lia.
  - pose proof (oi_over _ _ _ _ _ _ _ _ _ _ OI) as D. destruct (di_place _ _ _ _ _ D p Hp) as (? & ? & DV & ?). split; [done|]. split; [by etransitivity|].
    split; [by eapply dinv_block|]. eapply (dinv_apart nsz nal (m_live m0)); [apply LS|exact D|done|done|lia|apply obj16].
Qed.
Lemma gi_apart q m slots avail over x y : OI q m slots avail over -> x ∈ (slots ++ avail) ++ over -> y ∈ (slots ++ avail) ++ over -> x <> y ->
  x + nsz <= y \/ y + nsz <= x.
Proof using All.
  intros OI Hx Hy NE. pose proof fx_layout as (NL & Z16 & _). apply elem_of_app in Hx as [Hx|Hx]; apply elem_of_app in Hy as [Hy|Hy].
  - eapply (slots_apart base len nsz nal NL); [apply OI|done..].
  - destruct (over_apart base len nsz nal m0 PS WF PAD _ _ _ _ _ x y OI Hx Hy); lia.
  - destruct (over_apart base len nsz nal m0 PS WF PAD _ _ _ _ _ y x OI Hy Hx); lia.
  - by eapply (di_pair _ _ _ _ _ (oi_over _ _ _ _ _ _ _ _ _ _ OI)).
Qed.
Lemma gi_nodup q m slots avail over : OI q m slots avail over -> NoDup ((slots ++ avail) ++ over).
Proof using All.
  intros OI. pose proof fx_layout as (NL & Z16 & _). apply NoDup_app. split; [eapply (pinv_nodup base len nsz nal NL); apply OI|].
  split; [|apply OI]. intros x Hx Hy. destruct (over_apart base len nsz nal m0 PS WF PAD _ _ _ _ _ x x OI Hx Hy); lia.
Qed.

Lemma gi_write q m m' L slots avail over : OI q m slots avail over -> L ≡ₚ slots ++ over -> relinks obj L m m' -> OI q m' slots avail over.
Proof using All.
  intros OI P R. pose proof (gi_nodup _ _ _ _ _ OI) as ND. pose proof OI as [IP ID EB]. split; [|eapply dinv_live; [exact ID|apply R]|done].
  eapply relinks_pinv; [exact IP|exact R|]. intros x y Hx Hy. rewrite P in Hy. eapply gi_apart; [exact OI|set_solver|set_solver|].
  intros ->. rewrite <- app_assoc in ND. rewrite (Permutation_app_comm avail over), app_assoc in ND. apply NoDup_app in ND as (_ & ND & _). by apply (ND y).
Qed.

Lemma general_ok : AllocOK aa chk nsz nal obj (Z.of_nat B) nul GI.
Proof using All.
  pose proof fx_layout as (NL & Z16 & _). pose proof PS as [_ PB PL PR PM].
  split.
  - intros q m L p (slots & avail & over & OI & P) Hp. rewrite P in Hp. by eapply gi_node.
  - intros q m L (slots & avail & over & OI & P). rewrite P. pose proof (gi_nodup _ _ _ _ _ OI) as ND.
    rewrite <- app_assoc in ND. rewrite (Permutation_app_comm avail over), app_assoc in ND. by apply NoDup_app in ND as [? _].
  - intros q m L p p' (slots & avail & over & OI & P) Hp Hp' NE. rewrite P in Hp, Hp'. eapply gi_apart; [exact OI| | |done]; set_solver.
  - intros q m L (slots & avail & over & OI & P). eapply (base_live nsz nal m0); [apply OI|apply obj16].
  - intros q m L L' (slots & avail & over & OI & P) P'. exists slots, avail, over. split; [done|]. by rewrite <- P'.
  - intros q m m' L (slots & avail & over & OI & P) R. exists slots, avail, over. split; [|done]. by eapply gi_write.
  - intros q m L (slots & avail & over & OI & P) LT. unfold allocate. unfold bind. rewrite Z.mul_1_l, usizeZ_ok by lia. cbn [aa_alloc FixedListAlloc OPoolAlloc].
    destruct (opool_alloc_ok pick strict base len nsz nal m0 PS HP PAD chk q m slots avail over OI) as (p & q' & m' & E & C).
    exists p, q', m'. split; [done|]. destruct avail as [|x avail].
    + destruct C as (EP & [(-> & -> & OI')|(NE & MP & -> & OI')]).
      * split; [by split|]. left. split; [done|]. split; [|by exists slots, [], over]. destruct nul; [done|]. exfalso. apply (HN eq_refl m over); [rewrite P, app_length in LT; lia|apply OI|done].
      * split; [|right; split; [done|]; exists slots, [], (p :: over); split; [done|]; rewrite P; solve_Permutation].
        assert (AP : forall y, y ∈ obj :: L -> p + nsz <= y \/ y + 16 <= p).
        { intros y Hy. apply (may_place_apart m p nsz nal); [lia|done|]. apply elem_of_cons in Hy as [-> |Hy].
          - eapply (base_live nsz nal m0); [apply OI|apply obj16].
          - rewrite P in Hy. destruct (gi_node _ _ _ _ _ y OI Hy) as (_ & _ & AC & _). eapply accessible_sub; [exact AC|lia|lia]. }
        split.
        -- intros y Hy. specialize (AP _ Hy). split; apply alloc_word_other; unfold meets; cbn; lia.
        -- intros y Hy. specialize (AP y ltac:(by constructor)). apply alloc_val_other. unfold meets; cbn; lia.
    + destruct C as (-> & -> & OI'). split; [by split|]. right.
      destruct (slot_node _ _ _ _ x (oi_pool _ _ _ _ _ _ _ _ _ _ OI) ltac:(apply elem_of_app; right; constructor)) as (? & _).
      split; [lia|]. exists (x :: slots), avail, over. split; [done|]. rewrite P. done.
Qed.

Lemma general_frees : strict = false -> FreeOK aa chk nsz obj GI.
Proof using All.
  intros ST q m p L (slots & avail & over & OI & P). pose proof fx_layout as (NL & Z16 & Z256).
  unfold deallocate. unfold bind. rewrite usizeZ_ok by lia. cbn [aa_free FixedListAlloc OPoolAlloc].
  assert (Hp : p ∈ slots ++ over) by (rewrite <- P; constructor).
  assert (NI : p ∉ L).
  { pose proof (gi_nodup _ _ _ _ _ OI) as ND. rewrite <- app_assoc in ND. rewrite (Permutation_app_comm avail over), app_assoc in ND. apply NoDup_app in ND as (ND & _).
    rewrite <- P in ND. by apply NoDup_cons in ND as [? _]. }
  apply elem_of_app in Hp as [Hp|Hp].
  - apply elem_of_Permutation in Hp as (slots' & PS').
    destruct (opool_free_slot_ok pick strict base len nsz nal m0 PS PAD chk q m slots slots' avail over p (nsz * 16) 8 OI PS') as (q' & m' & w & E & OI' & EM).
    exists q', m'. split; [done|]. split.
    + split; [|by rewrite EM]. intros x Hx. rewrite EM. cbn.
      assert (x + 16 <= p \/ p + 16 <= x).
      { apply elem_of_cons in Hx as [-> |Hx].
        - destruct (slot_node _ _ _ _ p (oi_pool _ _ _ _ _ _ _ _ _ _ OI) ltac:(rewrite PS'; constructor)) as (_ & _ & _ & ?). lia.
        - assert (x ∈ slots ++ over) as Hx' by (rewrite <- P; by constructor). assert (p ∈ slots) as Hp by (rewrite PS'; constructor).
          assert (x <> p) as NE by (by intros ->). destruct (gi_apart _ _ _ _ _ x p OI) as [|]; [set_solver|set_solver|done|lia|lia]. }
      rewrite !lookup_insert_ne by lia. done.
    + exists slots', (p :: avail), over. split; [done|]. apply (Permutation_cons_inv (a := p)). rewrite P, PS'. done.
  - apply elem_of_Permutation in Hp as (over' & PO').
    destruct (opool_free_over_ok pick strict base len nsz nal m0 PS WF PAD chk q m slots avail over over' p (nsz * 16) 8 OI PO') as (q' & m' & E & OI' & EW & EV);
      [apply LS|by left|].
    exists q', m'. split; [done|]. split; [split; [intros x _; by rewrite EW|intros x _; by rewrite EV]|].
    exists slots, avail, over'. split; [done|]. apply (Permutation_cons_inv (a := p)). rewrite P, PO'. solve_Permutation.
Qed.

(** ** While no node is freed and slots are free *)
Variables (over0 : list Z) (t0 : nat).
Definition FI (q : opool unit) (m : mem T) (L : list Z) : Prop :=
  exists slots avail, OI q m slots avail over0 /\ L ≡ₚ slots ++ over0 /\ m_time m = t0.
Lemma fi_gi q m L : FI q m L -> GI q m L.
Proof using Type. intros (slots & avail & H & P & _). by exists slots, avail, over0. Qed.

Lemma slots_first_ok : AllocOK aa chk nsz nal obj (Z.of_nat (pool_count base len nsz nal + length over0)) false FI.
Proof using All.
  pose proof fx_layout as (NL & Z16 & _). pose proof PS as [_ PB PL PR PM].
  assert (G := general_ok).
  split.
  - intros q m L p H. apply fi_gi in H. by apply (ao_node _ _ _ _ _ _ _ _ G _ _ _ _ H).
  - intros q m L H. apply fi_gi in H. by apply (ao_nodup _ _ _ _ _ _ _ _ G _ _ _ H).
  - intros q m L p p' H. apply fi_gi in H. by apply (ao_apart _ _ _ _ _ _ _ _ G _ _ _ _ _ H).
  - intros q m L H. apply fi_gi in H. by apply (ao_sent _ _ _ _ _ _ _ _ G _ _ _ H).
  - intros q m L L' (slots & avail & OI & P & ET) P'. exists slots, avail. split; [done|]. by rewrite <- P'.
  - intros q m m' L (slots & avail & OI & P & ET) R. exists slots, avail. split; [by eapply gi_write|]. split; [done|].
    destruct R as (_ & R & _). by rewrite R.
  - intros q m L (slots & avail & OI & P & ET) LT. unfold allocate. unfold bind. rewrite Z.mul_1_l, usizeZ_ok by lia. cbn [aa_alloc FixedListAlloc OPoolAlloc].
    destruct (opool_alloc_ok pick strict base len nsz nal m0 PS HP PAD chk q m slots avail over0 OI) as (p & q' & m' & E & C).
    exists p, q', m'. split; [done|]. pose proof (avail_length _ _ _ _ (oi_pool _ _ _ _ _ _ _ _ _ _ OI)) as AL.
    assert (LL : length L = (length slots + length over0)%nat) by (by rewrite P, app_length).
    destruct avail as [|x avail]; [cbn in AL; lia|]. destruct C as (-> & -> & OI'). split; [by split|]. right.
    destruct (slot_node _ _ _ _ x (oi_pool _ _ _ _ _ _ _ _ _ _ OI) ltac:(apply elem_of_app; right; constructor)) as (? & _).
    split; [lia|]. exists (x :: slots), avail. split; [done|]. rewrite P. done.
Qed.

End fixed.

(** ** Creating a fixed list *)
Section create.
Context {T : Type}.
Variables (chk : bool) (nsz nal obj bytes base len : Z) (m0 : mem T).
Hypothesis LS : ListSetup m0 obj bytes nsz nal.
Hypothesis PS : PoolSetup m0 base len nsz nal.
Hypothesis H16 : 16 <= bytes.
Hypothesis HO : obj + 16 <= base.

Lemma setups (m1 : mem T) : m_live m1 = m_live m0 -> ListSetup m1 obj bytes nsz nal /\ PoolSetup m1 base len nsz nal.
Proof using LS PS.
  intros E. destruct LS, PS. split; split; try done; unfold accessible; by rewrite E.
Qed.

Lemma fixed_new_ok : exists s0, fixed_new_at chk nsz nal obj base len m0 = Ok tt s0 /\ l_drops s0 = [] /\
  m_live (l_mem s0) = m_live m0 /\ m_time (l_mem s0) = m_time m0 /\
  ListSetup (l_mem s0) obj bytes nsz nal /\ PoolSetup (l_mem s0) base len nsz nal /\
  LRep obj (Z.of_nat (pool_count base len nsz nal)) (BI nsz nal base len (l_mem s0)) s0 [] [] /\
  forall B, 0 <= B -> LRep obj B (GI nsz nal base len (l_mem s0)) s0 [] [].
Proof using LS PS H16 HO.
  assert (A16 : accessible m0 obj 16 = true) by (eapply accessible_sub; [apply LS|lia|lia]).
  assert (W : word_at m0 obj = true /\ word_at m0 (obj + 8) = true).
  { pose proof (ls_align _ _ _ _ _ LS). split; apply (word_at_ok _ obj 16); try done; try lia. by apply Z.divide_add_r; [|exists 1]. }
  destruct W as [W1 W2]. unfold fixed_new_at, init_sentinel_node. unfold bind, gets, set_prev, set_next. cbn [l_node].
  rewrite put_word_ok by done. rewrite put_word_ok by done. unfold in_alloc, setw. cbn [m_live m_word m_val m_time l_mem l_node l_size l_alloc l_drops].
  set (m1 := Mem (m_live m0) _ _ _). destruct (setups m1 eq_refl) as [LS1 PS1].
  destruct (opool_init_ok base len nsz nal m1 PS1 chk) as (q & E & OI). rewrite E. clear E.
  eexists. split; [reflexivity|]. cbn. split; [done|]. split; [done|]. split; [done|]. split; [done|]. split; [done|].
  assert (R : ring (m_word m1) obj []).
  { unfold ring. cbn. constructor; [|constructor]. split; cbn; [apply lookup_insert|]. rewrite lookup_insert_ne by lia. apply lookup_insert. }
  split.
  - split; [done|done| |exact R|constructor|cbn; lia]. cbn. exists (pool_slots base len nsz nal). split; [apply OI|]. split; [apply OI|done].
  - intros B HB. split; [done|done| |exact R|constructor|done]. cbn. exists [], (pool_slots base len nsz nal), []. done.
Qed.

End create.

(** ** The two layouts *)
Lemma count_is base len sz al (n : nat) : 0 < sz -> pool_first base al + Z.of_nat n * sz <= base + len < pool_first base al + Z.of_nat n * sz + sz ->
  pool_count base len sz al = n.
Proof.
  intros Hs H. unfold pool_count. assert ((base + len - pool_first base al) / sz = Z.of_nat n) as ->; [|lia].
  symmetry. apply (Z.div_unique_pos _ _ _ (base + len - pool_first base al - Z.of_nat n * sz)); lia.
Qed.
Lemma pad_round a n : pad_to a n = round_up n a.
Proof. unfold pad_to, round_up. f_equal. Qed.

Lemma fixed_setup {T} (m0 : mem T) nsz nal obj (n : nat) :
  ListSetup m0 obj (fixed_list_bytes nsz nal (Z.of_nat n)) nsz nal -> (nal | obj) ->
  let base := obj + fixed_buffer_off nal in let len := Z.of_nat n * nsz in
  PoolSetup m0 base len nsz nal /\ obj + 16 <= base /\ 16 <= fixed_list_bytes nsz nal (Z.of_nat n) /\
  pool_count base len nsz nal = n /\ accessible m0 base (pool_end base len nsz nal + 1 - base) = true.
Proof.
  intros LS D base len. pose proof (list_layout_facts _ _ (ls_node _ _ _ _ _ LS)) as (NL & Z16 & _). pose proof (node_layout_pos _ _ NL) as (N8 & _ & _ & _).
  pose proof (ls_obj _ _ _ _ _ LS) as (O1 & O2). pose proof (round_up_spec 64 nal ltac:(lia)) as (D1 & L1).
  assert (EO : fixed_buffer_off nal = round_up 64 nal) by apply pad_round. unfold fixed_list_bytes in *. rewrite EO in *.
  assert (EB : base = obj + round_up 64 nal) by (subst base; by rewrite EO). assert (EN : len = Z.of_nat n * nsz) by done. clearbody base len.
  assert (L0 : 0 <= Z.of_nat n * nsz) by nia.
  assert (PF : pool_first base nal = base) by (apply round_up_fix; [lia|subst base; by apply Z.divide_add_r]).
  assert (PC : pool_count base len nsz nal = n) by (apply count_is; [lia|]; rewrite PF; lia).
  split; [|split; [lia|split; [lia|split; [done|]]]].
  - split; [done|lia|lia|rewrite PF; lia|].
    eapply accessible_sub; [apply LS|lia|lia].
  - unfold pool_end. rewrite PC, PF. eapply accessible_sub; [apply LS|lia|lia].
Qed.

Lemma conformant_setup {T} (m0 : mem T) nsz nal obj (n : nat) :
  ListSetup m0 obj (conformant_bytes nsz (Z.of_nat n)) nsz nal ->
  let base := obj + base_list_size in let len := (Z.of_nat n + 1) * nsz - 1 in
  PoolSetup m0 base len nsz nal /\ obj + 16 <= base /\ 16 <= conformant_bytes nsz (Z.of_nat n) /\
  pool_count base len nsz nal = n /\ accessible m0 base (pool_end base len nsz nal + 1 - base) = true.
Proof.
  intros LS base len. pose proof (list_layout_facts _ _ (ls_node _ _ _ _ _ LS)) as (NL & Z16 & _). pose proof (node_layout_pos _ _ NL) as (N8 & D8 & NA & _).
  pose proof (ls_obj _ _ _ _ _ LS) as (O1 & O2). assert (L0 : 0 <= Z.of_nat n * nsz) by nia.
  assert (CB : conformant_bytes nsz (Z.of_nat n) = 64 + (Z.of_nat n + 1) * nsz).
  { unfold conformant_bytes, base_list_size. rewrite pad_round. assert (8 | 64 + (Z.of_nat n + 1) * nsz) as DD.
    { apply Z.divide_add_r; [by exists 8|]. apply Z.divide_mul_r. etransitivity; [exact D8|apply NL]. }
    pose proof (round_up_least (64 + ((Z.of_nat n + 1) * nsz - 1)) 8 _ ltac:(lia) DD ltac:(lia)).
    pose proof (round_up_spec (64 + ((Z.of_nat n + 1) * nsz - 1)) 8 ltac:(lia)) as (D1 & L1).
    destruct (Z.eq_dec (round_up (64 + ((Z.of_nat n + 1) * nsz - 1)) 8) (64 + (Z.of_nat n + 1) * nsz)) as [|NE]; [done|exfalso].
    destruct D1 as [a Ha], DD as [b Hb]. lia. }
  rewrite CB in *. unfold base_list_size in base.
  assert (DB : (8 | base)) by (apply Z.divide_add_r; [apply LS|by exists 8]).
  pose proof (round_up_spec base nal ltac:(lia)) as (D1 & L1). fold (pool_first base nal) in *.
  assert (LF : pool_first base nal <= base + nal - 8).
  { assert (8 | pool_first base nal) as D2 by (etransitivity; [exact D8|exact D1]). destruct D2 as [a Ha], DB as [b Hb], D8 as [c Hc]. lia. }
  assert (PC : pool_count base len nsz nal = n) by (apply count_is; [lia|]; subst len; lia).
  split; [|split; [subst base; lia|split; [lia|split; [done|]]]].
  - split; [done|subst base; lia|subst base len; lia|subst len; lia|].
    eapply accessible_sub; [apply LS|subst base; lia|subst base len; lia].
  - unfold pool_end. rewrite PC. eapply accessible_sub; [apply LS|subst base; lia|subst base; lia].
Qed.
