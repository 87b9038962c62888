(** Proofs of the properties stated in FixedPoolProps.v. *)
From Verif Require Import Base Alloc AddrMem FixedPool FixedPoolSpec.
Local Open Scope Z_scope.

From Verif Require Import FixedPoolProofs.

Lemma delete_perm (l : list Z) i p : l !! i = Some p -> l ≡ₚ p :: delete i l.
Proof. intros H. by apply delete_Permutation. Qed.

Lemma px_setup : PoolSetup px_mem 1000 110 32 16.
Proof.
  split; [|lia|unfold usize_lim; lia|done|done]. split; [by exists 4; lia|]. split; [lia|]. split; [by exists 2|done].
Qed.

Section pool.
Context {T : Type}.
Variables (base len sz al : Z) (chk : bool) (m0 : mem T).
Hypothesis PS : PoolSetup m0 base len sz al.
Let NL := ps_node _ _ _ _ _ PS.
Local Notation PI := (@PInv T base len sz al).

Lemma p_call_ok c q m held avail a held' avail' : PI q m held avail -> spec_pool c held avail = (a, held', avail') ->
  exists q' m', p_call (PoolAlloc chk sz al) can_allocate chk sz al c ((q, m), held) = Ok a ((q', m'), held') /\ PI q' m' held' avail'.
Proof.
  intros I E. pose proof (node_layout_pos _ _ NL) as (? & ? & ? & ?). destruct PS as [NL' B L R A]. destruct c as [|i|i k w|]; cbn [p_call spec_pool] in *.
  - destruct (pool_alloc_ok base len sz al NL' B R chk _ _ _ _ I) as (q1 & E1 & I1 & _).
    unfold allocate, bind. rewrite usizeZ_ok by lia. cbn [aa_alloc PoolAlloc]. rewrite Z.mul_1_l, E1.
    destruct avail as [|x avail]; injection E as <- <- <-.
    + eexists _, _. split; [reflexivity|exact I1].
    + assert (Hx : x ∈ held ++ x :: avail) by (apply elem_of_app; right; constructor).
      destruct (slot_bounds base len sz al m0 PS _ _ _ _ _ I Hx) as (? & ? & ? & ? & _). rewrite (proj2 (Z.eqb_neq x 0)) by lia.
      eexists _, _. split; [reflexivity|exact I1].
  - destruct (held !! i) as [p|] eqn:Hp; injection E as <- <- <-.
    + destruct (pool_free_ok base len sz al NL' B R chk q m held (delete i held) avail p sz al I (delete_perm _ _ _ Hp)) as (q1 & m1 & E1 & I1 & _).
      unfold deallocate, bind. rewrite usizeZ_ok by lia. cbn [aa_free PoolAlloc]. rewrite Z.mul_1_l, E1. by eexists _, _.
    + by eexists _, _.
  - injection E as <- <- <-. destruct (held !! i) as [p|] eqn:Hp; [|by eexists _, _].
    destruct ((0 <=? k) && (8 * (k + 1) <=? sz)) eqn:K; [|by eexists _, _]. cbn [fst snd].
    assert (Hx : p ∈ held) by (by eapply elem_of_list_lookup_2).
    rewrite store_word_ok.
    2: { eapply (pinv_word base len sz al NL' B R); [exact I|apply elem_of_app; by left|lia|lia]. }
    eexists _, _. split; [reflexivity|]. eapply pinv_frame; [exact I| |apply I].
    intros x Hxa. cbn. rewrite lookup_insert_ne; [done|]. intros <-.
    assert (NE : p <> p + 8 * k).
    { intros EQ. pose proof (pinv_nodup base len sz al NL' _ _ _ _ I) as ND. apply NoDup_app in ND as (_ & ND & _). apply (ND p Hx). by rewrite EQ. }
    destruct (slots_apart base len sz al NL' q m held avail p (p + 8 * k) I); [apply elem_of_app; by left|apply elem_of_app; by right|done|lia|lia].
  - injection E as <- <- <-. destruct (pool_alloc_ok base len sz al NL' B R chk _ _ _ _ I) as (_ & _ & _ & C). cbn [fst]. rewrite C. by eexists _, _.
Qed.

Lemma p_run_ok cs : forall q m held avail l held' avail', PI q m held avail -> spec_pool_run cs held avail = (l, held', avail') ->
  exists q' m', p_run (PoolAlloc chk sz al) can_allocate chk sz al cs ((q, m), held) = Ok l ((q', m'), held') /\ PI q' m' held' avail'.
Proof.
  induction cs as [|c cs IH]; intros q m held avail l held' avail' I E; cbn [spec_pool_run p_run] in *.
  - injection E as <- <- <-. by eexists _, _.
  - destruct (spec_pool c held avail) as [[a h1] a1] eqn:E1. destruct (spec_pool_run cs h1 a1) as [[l2 h2] a2] eqn:E2. injection E as <- <- <-.
    destruct (p_call_ok _ _ _ _ _ _ _ _ I E1) as (q1 & m1 & -> & I1). destruct (IH _ _ _ _ _ _ _ I1 E2) as (q2 & m2 & -> & I2).
    by eexists _, _.
Qed.

Lemma pinv_placed q m held avail : PI q m held avail -> well_placed base len sz al held.
Proof.
  intros I. destruct PS as [NL' B L R A]. split.
  - intros p Hp. assert (Hx : p ∈ held ++ avail) by (apply elem_of_app; by left).
    destruct (slot_bounds base len sz al m0 PS _ _ _ _ _ I Hx) as (? & ? & ? & ? & ?). pose proof (end_ok base len sz al m0 PS) as HE. split; [done|]. lia.
  - intros i j p r Hi Hj NE. apply (slots_apart base len sz al NL' q m held avail _ _ I).
    + apply elem_of_app. left. by eapply elem_of_list_lookup_2.
    + apply elem_of_app. left. by eapply elem_of_list_lookup_2.
    + intros ->. apply NE. pose proof (pinv_nodup base len sz al NL' _ _ _ _ I) as ND. apply NoDup_app in ND as (ND & _).
      by eapply NoDup_lookup.
Qed.

End pool.

Section opool.
Context {T : Type}.
Variables (pick : mem T -> Z -> Z -> Z) (strict : bool) (base len sz al : Z) (chk : bool) (m0 : mem T).
Hypothesis PS : PoolSetup m0 base len sz al.
Hypothesis HP : honest pick.
Hypothesis WF : forall r, r ∈ m_live m0 -> 0 < r_bytes r.
Hypothesis PAD : accessible m0 base (pool_end base len sz al + 1 - base) = true.
Let NL := ps_node _ _ _ _ _ PS.
Local Notation OI := (@OInv T base len sz al m0).
Local Notation aa := (OPoolAlloc (DefaultAddrAlloc pick strict) chk sz al).

Lemma held_apart q m slots avail over x y : OI q m slots avail over -> x ∈ slots ++ over -> y ∈ avail -> x + sz <= y \/ y + sz <= x.
Proof.
  intros I Hx Hy. apply elem_of_app in Hx as [Hx|Hx].
  - apply (slots_apart base len sz al NL (o_pool q) m slots avail).
    + by destruct I.
    + apply elem_of_app. by left.
    + apply elem_of_app. by right.
    + intros ->. destruct I as [I _ _]. pose proof (pinv_nodup base len sz al NL _ _ _ _ I) as ND.
      apply NoDup_app in ND as (_ & ND & _). by apply (ND y).
  - apply (over_apart base len sz al m0 PS WF PAD q m slots avail over y x I); [apply elem_of_app; by right|done].
Qed.

Lemma o_call_ok c q m held slots avail over : OI q m slots avail over -> held ≡ₚ slots ++ over ->
  exists a q' m' held' slots' avail' over', p_call aa (fun q => can_allocate (o_pool q)) chk sz al c ((q, m), held) = Ok a ((q', m'), held') /\
    OI q' m' slots' avail' over' /\ held' ≡ₚ slots' ++ over' /\ ostep c a (held, avail, over) (held', avail', over').
Proof.
  intros I HH. pose proof (node_layout_pos _ _ NL) as (? & ? & ? & ?). pose proof NL as NL'. destruct c as [|i|i k w|]; cbn [p_call].
  - destruct (opool_alloc_ok pick strict base len sz al m0 PS HP PAD chk _ _ _ _ _ I) as (p & q1 & m1 & E1 & C).
    unfold allocate, bind. rewrite usizeZ_ok by lia. cbn [aa_alloc OPoolAlloc]. rewrite Z.mul_1_l, E1.
    destruct avail as [|x avail].
    + destruct C as (_ & [(-> & _ & I1)|(NE & _ & _ & I1)]).
      * cbn [Z.eqb]. eexists _, _, _, _, _, _, _. split; [reflexivity|]. split; [exact I1|]. split; [done|]. constructor.
      * rewrite (proj2 (Z.eqb_neq p 0) NE). eexists _, _, _, _, _, _, _. split; [reflexivity|]. split; [exact I1|].
        split; [rewrite HH; solve_Permutation|]. by constructor.
    + destruct C as (-> & -> & I1).
      assert (Hx : x ∈ slots ++ x :: avail) by (apply elem_of_app; right; constructor).
      destruct (slot_bounds base len sz al m0 PS _ _ _ _ _ (oi_pool _ _ _ _ _ _ _ _ _ _ I) Hx) as (? & ? & ? & ? & _). rewrite (proj2 (Z.eqb_neq x 0)) by lia.
      eexists _, _, _, _, _, _, _. split; [reflexivity|]. split; [exact I1|]. split; [rewrite HH; solve_Permutation|]. constructor.
  - destruct (held !! i) as [p|] eqn:Hp.
    2: { eexists _, _, _, _, _, _, _. split; [reflexivity|]. split; [exact I|]. split; [done|]. by constructor. }
    pose proof (delete_perm _ _ _ Hp) as DP. assert (Hin : p ∈ slots ++ over) by (rewrite <- HH, DP; constructor).
    unfold deallocate, bind. rewrite usizeZ_ok by lia. cbn [aa_free OPoolAlloc]. rewrite Z.mul_1_l.
    destruct (decide (p ∈ over)) as [HO|HO].
    + apply elem_of_Permutation in HO as [over' HO].
      destruct (opool_free_over_ok pick strict base len sz al m0 PS WF PAD chk q m slots avail over over' p sz al I HO) as (q1 & m1 & E1 & I1 & _).
      { by destruct NL' as (_ & _ & _ & ?). } { by right. }
      rewrite E1. eexists _, _, _, _, _, _, _. split; [reflexivity|]. split; [exact I1|].
      split; [|by eapply os_free_over].
      apply (Permutation_cons_inv (a := p)). rewrite <- DP, HH, HO. solve_Permutation.
    + apply elem_of_app in Hin as [Hs|]; [|done]. apply elem_of_Permutation in Hs as [slots' Hs].
      destruct (opool_free_slot_ok pick strict base len sz al m0 PS PAD chk q m slots slots' avail over p sz al I Hs) as (q1 & m1 & w & E1 & I1 & _).
      rewrite E1. eexists _, _, _, _, _, _, _. split; [reflexivity|]. split; [exact I1|].
      split; [|by constructor].
      apply (Permutation_cons_inv (a := p)). rewrite <- DP, HH, Hs. solve_Permutation.
  - assert (Done : forall s, s = ((q, m), held) -> exists a q' m' held' slots' avail' over', Ok PDone s = Ok a ((q', m'), held') /\
      OI q' m' slots' avail' over' /\ held' ≡ₚ slots' ++ over' /\ ostep (PWrite i k w) a (held, avail, over) (held', avail', over')).
    { intros s ->. eexists _, _, _, _, _, _, _. split; [reflexivity|]. split; [exact I|]. split; [done|]. constructor. }
    destruct (held !! i) as [p|] eqn:Hp; [|by apply Done].
    destruct ((0 <=? k) && (8 * (k + 1) <=? sz)) eqn:K; [|by apply Done]. cbn [fst snd].
    assert (Hx : p ∈ slots ++ over) by (rewrite <- HH; by eapply elem_of_list_lookup_2).
    assert (WA : word_at m (p + 8 * k) = true).
    { apply elem_of_app in Hx as [Hx|Hx].
      - pose proof PS as [_ B L R A]. eapply (pinv_word base len sz al NL B R); [apply I|apply elem_of_app; by left|lia|lia].
      - apply (word_at_ok _ p sz); [by eapply dinv_block, Hx; destruct I|lia|lia|].
        destruct (di_place _ _ _ _ _ (oi_over _ _ _ _ _ _ _ _ _ _ I) p Hx) as (_ & _ & D & _).
        apply Z.divide_add_r; [by etransitivity|apply Z.divide_factor_l]. }
    rewrite (store_word_ok _ _ _ WA). eexists _, _, _, _, _, _, _. split; [reflexivity|]. split; [|split; [exact HH|constructor]].
    split; [| |by destruct I].
    + eapply pinv_frame; [apply I| |apply I]. intros x Hxa. cbn. rewrite lookup_insert_ne; [done|]. intros <-.
      destruct (held_apart _ _ _ _ _ _ _ I Hx Hxa); lia.
    + eapply dinv_live; [apply I|done].
  - cbn [fst]. pose proof PS as [_ B L R A].
    destruct (pool_alloc_ok base len sz al NL B R chk _ _ _ _ (oi_pool _ _ _ _ _ _ _ _ _ _ I)) as (_ & _ & _ & C). rewrite C.
    eexists _, _, _, _, _, _, _. split; [reflexivity|]. split; [exact I|]. split; [exact HH|constructor].
Qed.

Lemma o_run_ok cs : forall q m held slots avail over, OI q m slots avail over -> held ≡ₚ slots ++ over ->
  exists l q' m' held' slots' avail' over', p_run aa (fun q => can_allocate (o_pool q)) chk sz al cs ((q, m), held) = Ok l ((q', m'), held') /\
    OI q' m' slots' avail' over' /\ held' ≡ₚ slots' ++ over' /\ osteps cs l (held, avail, over) (held', avail', over').
Proof.
  induction cs as [|c cs IH]; intros q m held slots avail over I HH; cbn [p_run].
  - eexists _, _, _, _, _, _, _. split; [reflexivity|]. split; [exact I|]. split; [exact HH|constructor].
  - destruct (o_call_ok c _ _ _ _ _ _ I HH) as (a & q1 & m1 & h1 & s1 & a1 & o1 & -> & I1 & HH1 & ST).
    destruct (IH _ _ _ _ _ _ I1 HH1) as (l & q2 & m2 & h2 & s2 & a2 & o2 & -> & I2 & HH2 & STS).
    eexists _, _, _, _, _, _, _. split; [reflexivity|]. split; [exact I2|]. split; [exact HH2|]. by econstructor.
Qed.

End opool.

Lemma usize_one {S : Type} chk sz (s : S) : 0 <= sz < usize_lim -> usizeZ chk (1 * sz) s = Ok sz s.
Proof. intros H. rewrite Z.mul_1_l. unfold usizeZ. repeat case_match; try done; lia. Qed.

Lemma L_C58_nodes_well_placed :
forall (T : Type) (m0 : mem T) (base len sz al : Z) (chk : bool), PoolSetup m0 base len sz al ->
  exists s0, pool_init chk sz al base len (pool_default, m0) = Ok tt s0 /\
  forall cs, exists l s held, p_run (PoolAlloc chk sz al) can_allocate chk sz al cs (s0, []) = Ok l (s, held) /\
    well_placed base len sz al held.
Proof.
  intros T m0 base len sz al chk PS. pose proof PS as [NL B L R A].
  destruct (pool_init_ok base len sz al NL B L R chk m0 A) as (q & H). destruct (H pool_default) as (E & I).
  exists (q, m0). split; [exact E|]. intros cs. destruct (spec_pool_run cs [] (slots_from base sz al 0 (pool_count base len sz al))) as [[l held] avail] eqn:ES.
  destruct (p_run_ok base len sz al chk m0 PS cs _ _ _ _ _ _ _ I ES) as (q' & m' & E' & I').
  exists l, (q', m'), held. split; [exact E'|]. by eapply pinv_placed.
Qed.

Lemma L_C58_short_memory_refuted :
exists (base len sz al : Z) (m0 : mem Z), node_layout sz al /\ 0 < base /\ 0 <= len /\ accessible m0 base len = true /\
  is_panic (pool_init true sz al base len (pool_default, m0)) = true /\
  exists s, pool_init false sz al base len (pool_default, m0) = Ok tt s /\ can_allocate (fst s) = true /\
    pool_alloc false sz al sz al s = UB.
Proof.
  exists 1001, 4, 32, 16, (Mem [Region 1001 4 1 false] ∅ ∅ 0). split; [split; [by exists 4; lia|split; [lia|split; [by exists 2|done]]]|].
  split; [lia|]. split; [lia|]. split; [done|]. split; [done|].
  exists (Pool 0 1008 976, Mem [Region 1001 4 1 false] ∅ ∅ 0). split; [by vm_compute|]. split; by vm_compute.
Qed.

Lemma L_C58_short_memory :
forall (T : Type) (m0 : mem T) (base len sz al : Z) (chk : bool),
  node_layout sz al -> 0 < base -> 0 <= len -> base + (al - 1) < usize_lim -> base + len < pool_first base al ->
  if chk then is_panic (pool_init chk sz al base len (pool_default, m0)) = true
  else exists s, pool_init chk sz al base len (pool_default, m0) = Ok tt s /\ can_allocate (fst s) = true /\
    (pool_alloc chk sz al sz al s = UB \/
     exists p s', pool_alloc chk sz al sz al s = Ok p s' /\ base + len < p).
Proof.
  intros T m0 base len sz al chk NL B L LB SH. pose proof (node_layout_pos _ _ NL) as (A8 & D8 & AS & SZ).
  pose proof NL as ((k & Hk & EA) & _ & DS & LO).
  assert (EF : (base + (al - 1)) / al * al = pool_first base al) by (unfold pool_first, round_up; do 2 f_equal; lia).
  assert (EM : forall e, Z.land e (Z.lnot (al - 1)) = e / al * al) by (intros e; rewrite EA; apply mask_down; lia).
  assert (FB : base <= pool_first base al <= base + (al - 1)).
  { rewrite <- EF. pose proof (Z.div_mod (base + (al - 1)) al ltac:(lia)) as X. pose proof (Z.mod_pos_bound (base + (al - 1)) al ltac:(lia)). lia. }
  assert (SB : sz <= isize_max). { unfold layout_ok in LO. apply Z.leb_le in LO. lia. }
  assert (EI : pool_init chk sz al base len (pool_default, m0) =
    if chk then Panic (pool_default, m0) else
    Ok tt (Pool 0 (pool_first base al) ((pool_first base al + (len - (pool_first base al - base)) mod usize_lim / sz * sz) mod usize_lim), m0)).
  { unfold pool_init. unfold bind at 1. rewrite debug_assert_ok by (rewrite EA, pow2_and by lia; done).
    cbv zeta. rewrite (proj2 (Z.ltb_ge al 1)) by lia. unfold bind at 1. rewrite usizeZ_ok by lia. rewrite EM, EF.
    unfold bind at 1. rewrite usizeZ_ok by lia. unfold bind at 1. unfold usizeZ at 1.
    rewrite (proj2 (Z.leb_gt 0 (len - (pool_first base al - base)))) by lia. cbn [andb].
    destruct chk; [done|]. unfold ret at 1. unfold bind at 1. rewrite debug_assert_ok by lia. rewrite (proj2 (Z.eqb_neq sz 0)) by lia.
    unfold bind at 1, usizeZ at 1. set (c := pool_first base al + _).
    assert (0 <= c). { unfold c. pose proof (Z.mod_pos_bound (len - (pool_first base al - base)) usize_lim ltac:(done)). 
      assert (0 <= (len - (pool_first base al - base)) mod usize_lim / sz) by (apply Z.div_pos; lia). nia. }
    rewrite (proj2 (Z.leb_le 0 c)) by done. cbn [andb]. destruct (Z.ltb_spec c usize_lim); [|done]. by rewrite (Z.mod_small c) by lia. }
  rewrite EI. destruct chk; [done|].
  set (w := (len - (pool_first base al - base)) mod usize_lim).
  assert (EW : w = usize_lim + (len - (pool_first base al - base))).
  { unfold w. rewrite <- (Z.mod_add _ 1) by done. rewrite Z.mul_1_l. rewrite Z.mod_small; [lia|]. unfold usize_lim, isize_max in *. lia. }
  assert (Q : 0 < w / sz * sz < usize_lim).
  { pose proof (Z.div_mod w sz ltac:(lia)). pose proof (Z.mod_pos_bound w sz ltac:(lia)).
    assert (1 <= w / sz) by (apply Z.div_le_lower_bound; [lia|]; unfold usize_lim, isize_max in *; lia). nia. }
  set (d := w / sz * sz) in *. set (f := pool_first base al) in *.
  assert (NE : f <> (f + d) mod usize_lim).
  { destruct (Z.lt_ge_cases (f + d) usize_lim).
    - rewrite Z.mod_small by lia. lia.
    - rewrite <- (Z.mod_add _ (-1)) by done. rewrite Z.mod_small by lia. lia. }
  eexists. split; [done|]. split; [cbn; unfold can_allocate; cbn; apply negb_true_iff; apply Z.eqb_neq; exact NE|].
  set (q := Pool 0 f ((f + d) mod usize_lim)).
  assert (EP : pool_alloc false sz al sz al (q, m0) = if accessible m0 f sz then Ok f (Pool 0 (f + sz) (p_cap q), m0) else UB).
  { unfold pool_alloc. unfold bind at 1. rewrite debug_assert_ok by apply Z.eqb_refl. unfold bind at 1. rewrite debug_assert_ok by apply Z.eqb_refl.
    unfold bind at 1, gets at 1. unfold bind at 1, gets at 1. unfold q. cbn [fst snd p_head p_next p_cap Z.eqb negb].
    rewrite (proj2 (Z.eqb_neq _ _) NE). cbn [negb]. by destruct (accessible m0 f sz). }
  rewrite EP. destruct (accessible m0 f sz); [|by left]. right. do 2 eexists. split; [done|]. lia.
Qed.

Lemma L_C59_pool_is_a_stack :
forall (T : Type) (m0 : mem T) (base len sz al : Z) (chk : bool), PoolSetup m0 base len sz al ->
  exists s0, pool_init chk sz al base len (pool_default, m0) = Ok tt s0 /\
  forall cs, exists l s held avail, p_run (PoolAlloc chk sz al) can_allocate chk sz al cs (s0, []) = Ok l (s, held) /\
    spec_pool_run cs [] (pool_slots base len sz al) = (l, held, avail).
Proof.
  intros T m0 base len sz al chk PS. pose proof PS as [NL B L R A].
  destruct (pool_init_ok base len sz al NL B L R chk m0 A) as (q & H). destruct (H pool_default) as (E & I).
  exists (q, m0). split; [exact E|]. intros cs. destruct (spec_pool_run cs [] (pool_slots base len sz al)) as [[l held] avail] eqn:ES.
  destruct (p_run_ok base len sz al chk m0 PS cs _ _ _ _ _ _ _ I ES) as (q' & m' & E' & I').
  exists l, (q', m'), held, avail. split; [exact E'|done].
Qed.

Lemma L_C59_exact_capacity :
forall (T : Type) (m0 : mem T) (base len sz al : Z) (chk : bool) (cs : list pcall) s0 l s held, PoolSetup m0 base len sz al ->
  pool_init chk sz al base len (pool_default, m0) = Ok tt s0 ->
  p_run (PoolAlloc chk sz al) can_allocate chk sz al cs (s0, []) = Ok l (s, held) ->
  (length held <= pool_count base len sz al)%nat /\
  can_allocate (fst s) = (length held <? pool_count base len sz al)%nat /\
  (exists p s', allocate (PoolAlloc chk sz al) chk sz al 1 s = Ok p s' /\ (p <> 0 <-> (length held < pool_count base len sz al)%nat)) /\
  (forall p, p ∈ held -> exists s1 s2, deallocate (PoolAlloc chk sz al) chk sz al p 1 s = Ok tt s1 /\
    allocate (PoolAlloc chk sz al) chk sz al 1 s1 = Ok p s2).
Proof.
  intros T m0 base len sz al chk cs s0 l s held PS E0 ER. pose proof PS as [NL B L R A].
  destruct (pool_init_ok base len sz al NL B L R chk m0 A) as (q & H). destruct (H pool_default) as (E & I).
  rewrite E in E0. injection E0 as <-.
  destruct (spec_pool_run cs [] (slots_from base sz al 0 (pool_count base len sz al))) as [[l1 held1] avail] eqn:ES.
  destruct (p_run_ok base len sz al chk m0 PS cs _ _ _ _ _ _ _ I ES) as (q' & m' & E' & I').
  rewrite ER in E'. injection E' as <- -> <-. pose proof (node_layout_pos _ _ NL) as (? & ? & ? & ?).
  assert (LN : (length held + length avail = pool_count base len sz al)%nat).
  { rewrite <- app_length, (pi_perm _ _ _ _ _ _ _ _ I'). unfold slots_from. by rewrite map_length, seq_length. }
  destruct (pool_alloc_ok base len sz al NL B R chk _ _ _ _ I') as (q1 & E1 & I1 & C).
  split; [lia|]. split.
  { cbn [fst]. rewrite C. destruct avail; cbn in LN; symmetry; [apply Nat.ltb_ge|apply Nat.ltb_lt]; lia. }
  split.
  - unfold allocate, bind. rewrite usizeZ_ok by lia. cbn [aa_alloc PoolAlloc]. rewrite Z.mul_1_l, E1. eexists _, _. split; [reflexivity|].
    destruct avail as [|x avail]; cbn in LN; [split; [done|lia]|]. split; [lia|]. intros _.
    assert (Hx : x ∈ held ++ x :: avail) by (apply elem_of_app; right; constructor).
    destruct (slot_bounds base len sz al m0 PS _ _ _ _ _ I' Hx) as (? & ? & ? & ? & _). lia.
  - intros p Hp. apply elem_of_Permutation in Hp as [held' Hp].
    destruct (pool_free_ok base len sz al NL B R chk q' m' held held' avail p sz al I' Hp) as (q2 & m2 & E2 & I2 & _).
    destruct (pool_alloc_ok base len sz al NL B R chk _ _ _ _ I2) as (q3 & E3 & _ & _).
    unfold allocate, deallocate, bind. rewrite !usizeZ_ok by lia. cbn [aa_alloc aa_free PoolAlloc]. rewrite Z.mul_1_l, E2.
    eexists _, _. split; [reflexivity|]. rewrite usizeZ_ok by lia. exact E3.
Qed.

Lemma L_C59_before_init :
forall (T : Type) (m0 : mem T) (sz al : Z) (chk : bool) (cs : list pcall), 0 <= sz < usize_lim ->
  p_run (PoolAlloc chk sz al) can_allocate chk sz al cs ((pool_default, m0), []) =
  Ok (map (fun c => match c with PAlloc => PGot 0 | PCan => PBool false | _ => PDone end) cs) ((pool_default, m0), []).
Proof.
  intros T m0 sz al chk cs Hsz. induction cs as [|c cs IH]; cbn [p_run map]; [done|].
  assert (E : p_call (PoolAlloc chk sz al) can_allocate chk sz al c (pool_default, m0, []) =
    Ok (match c with PAlloc => PGot 0 | PCan => PBool false | _ => PDone end) (pool_default, m0, [])).
  { destruct c; try done. cbn [p_call]. unfold allocate, bind at 1. rewrite (usize_one chk sz (pool_default, m0) Hsz). cbn [PoolAlloc aa_alloc].
    unfold pool_alloc, bind at 1, debug_assert at 1. rewrite Z.eqb_refl, andb_false_r. unfold ret at 1.
    unfold bind at 1, debug_assert at 1. rewrite Z.eqb_refl, andb_false_r. done. }
  by rewrite E, IH.
Qed.

Lemma L_C60_before_init :
forall (T O : Type) (ov : AddrAlloc O T) (o : O) (m0 : mem T) (sz al : Z) (chk : bool) (cs : list pcall), 0 <= sz < usize_lim ->
  p_run (OPoolAlloc ov chk sz al) (fun q => can_allocate (o_pool q)) chk sz al cs ((opool_with o, m0), []) =
  match p_run ov (fun _ => false) chk sz al cs ((o, m0), []) with
  | Ok l (o', m, held) => Ok l (OPool (Pool 0 0 0) o' 0, m, held)
  | Panic (o', m, held) => Panic (OPool (Pool 0 0 0) o' 0, m, held)
  | UB => UB
  end.
Proof.
  intros T O ov o m0 sz al chk cs Hsz.
  assert (G : forall held, Forall (fun p => p <> 0) held -> forall o m0,
    p_run (OPoolAlloc ov chk sz al) (fun q => can_allocate (o_pool q)) chk sz al cs ((opool_with o, m0), held) =
    match p_run ov (fun _ => false) chk sz al cs ((o, m0), held) with
    | Ok l (o', m, held) => Ok l (OPool (Pool 0 0 0) o' 0, m, held)
    | Panic (o', m, held) => Panic (OPool (Pool 0 0 0) o' 0, m, held)
    | UB => UB
    end); [|by apply G].
  induction cs as [|c cs IH]; intros held F o1 m1; cbn [p_run]; [done|].
  assert (E : p_call (OPoolAlloc ov chk sz al) (fun q => can_allocate (o_pool q)) chk sz al c (opool_with o1, m1, held) =
    match p_call ov (fun _ => false) chk sz al c (o1, m1, held) with
    | Ok l (o', m, held) => Ok l (OPool (Pool 0 0 0) o' 0, m, held)
    | Panic (o', m, held) => Panic (OPool (Pool 0 0 0) o' 0, m, held)
    | UB => UB
    end /\ match p_call ov (fun _ => false) chk sz al c (o1, m1, held) with Ok _ (_, held') => Forall (fun p => p <> 0) held' | _ => True end).
  { destruct c; cbn [p_call].
    - unfold allocate. unfold bind at 1 2 3. rewrite !(usize_one chk sz _ Hsz). cbn [OPoolAlloc aa_alloc].
      unfold opool_alloc, bind at 1, debug_assert at 1. rewrite Z.eqb_refl, andb_false_r. unfold ret at 1.
      unfold bind at 1, debug_assert at 1. rewrite Z.eqb_refl, andb_false_r. unfold ret at 1.
      unfold bind at 1, in_pool. cbn [opool_with o_pool o_over o_begin].
      unfold pool_alloc, bind at 1, debug_assert at 1. rewrite Z.eqb_refl, andb_false_r. unfold ret at 1.
      unfold bind at 1, debug_assert at 1. rewrite Z.eqb_refl, andb_false_r. unfold ret at 1.
      cbn. destruct (aa_alloc ov sz al (o1, m1)) as [p [o2 m2]|[o2 m2]|]; [|done..]. split; [done|].
      destruct (Z.eqb_spec p 0); [done|]. by constructor.
    - destruct (held !! i) as [p|] eqn:Hi; [|done]. unfold deallocate. unfold bind at 1 2 3. rewrite !(usize_one chk sz _ Hsz). cbn [OPoolAlloc aa_free].
      unfold opool_free, bind at 1, gets. cbn [fst opool_with o_begin o_pool pool_default p_cap].
      assert (p <> 0) by (exact (Forall_lookup_1 _ _ _ _ F Hi)).
      destruct ((0 <=? p) && (p <=? 0)) eqn:B; [lia|]. unfold in_over. cbn [opool_with o_pool o_over o_begin].
      destruct (aa_free ov p sz al (o1, m1)) as [? [o2 m2]|[o2 m2]|]; [|done..]. split; [done|]. by apply Forall_delete.
    - destruct (held !! i) as [p|]; [|done]. destruct (_ && _); [|done]. cbn [snd fst]. match goal with |- context [store_word m1 ?a ?b] => by destruct (store_word m1 a b) end.
    - done. }
  destruct E as [E F']. rewrite E. destruct (p_call ov (fun _ => false) chk sz al c (o1, m1, held)) as [a [[o2 m2] held2]|[[o2 m2] held2]|]; [|done..].
  change (OPool (Pool 0 0 0) o2 0) with (opool_with o2). rewrite (IH held2 F' o2 m2). by destruct (p_run ov (fun _ => false) chk sz al cs (o2, m2, held2)) as [? [[? ?] ?]|[[? ?] ?]|].
Qed.

Lemma L_C60_blocks_go_home :
forall (T : Type) (pick : mem T -> Z -> Z -> Z) (strict : bool) (m0 : mem T) (base len sz al : Z) (chk : bool),
  PoolSetup m0 base len sz al -> honest pick -> (forall r, r ∈ m_live m0 -> 0 < r_bytes r) ->
  accessible m0 base (pool_end base len sz al + 1 - base) = true ->
  exists s0, opool_init chk sz al base len (opool_with tt, m0) = Ok tt s0 /\
  forall cs, exists l q m held avail over,
    p_run (OPoolAlloc (DefaultAddrAlloc pick strict) chk sz al) (fun q => can_allocate (o_pool q)) chk sz al cs (s0, []) = Ok l ((q, m), held) /\
    osteps cs l ([], pool_slots base len sz al, []) (held, avail, over) /\
    m_live m ≡ₚ m_live m0 ++ map (fun p => Region p sz al true) over.
Proof.
  intros T pick strict m0 base len sz al chk PS HP WF PAD.
  destruct (opool_init_ok base len sz al m0 PS chk) as (q0 & E0 & I0). exists (q0, m0). split; [exact E0|]. intros cs.
  destruct (o_run_ok pick strict base len sz al chk m0 PS HP WF PAD cs q0 m0 [] [] _ [] I0 ltac:(done)) as (l & q & m & held & slots & avail & over & E & I & _ & ST).
  exists l, q, m, held, avail, over. split; [exact E|]. split; [exact ST|]. apply (di_live _ _ _ _ _ (oi_over _ _ _ _ _ _ _ _ _ _ I)).
Qed.

Lemma L_C60_boundary_block_refuted :
exists (pick : mem Z -> Z -> Z -> Z) (m0 : mem Z) (base len sz al : Z),
  PoolSetup m0 base len sz al /\ honest pick /\ (forall r, r ∈ m_live m0 -> 0 < r_bytes r) /\
  exists s0, opool_init true sz al base len (opool_with tt, m0) = Ok tt s0 /\
  exists q m held, p_run (OPoolAlloc (DefaultAddrAlloc pick true) true sz al) (fun q => can_allocate (o_pool q)) true sz al
      [PAlloc; PCan; PAlloc; PFree 0; PCan; PAlloc] (s0, []) =
    Ok [PGot base; PBool false; PGot (base + len); PDone; PBool true; PGot (base + len)] ((q, m), held) /\
    m_live m = Region (base + len) sz al true :: m_live m0.
Proof.
  set (m0 := Mem [Region 4096 32 16 false] ∅ ∅ 0 : mem Z).
  exists bump_pick, m0, 4096, 32, 32, 16. split.
  { split; [|lia|unfold usize_lim; lia|done|done]. split; [by exists 4; lia|]. split; [lia|]. split; [by exists 2|done]. }
  split; [apply bump_honest|]. split; [intros r Hr; apply elem_of_list_singleton in Hr as ->; cbn; lia|].
  eexists. split; [reflexivity|]. eexists _, _, _. split; [by vm_compute|]. by vm_compute.
Qed.
