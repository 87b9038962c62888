(** Proofs of the properties stated in FixedMapProps.v. *)
From Verif Require Import Base Alloc AddrMem FixedPool FixedPoolSpec RBTree RBTreeSpec Layout FixedMap FixedMapSpec.
Local Open Scope Z_scope.

From Verif Require Import FixedPoolProofs FixedPoolDerived LinkedListFixed RBTreeProofs RBTreeCalls RBTreeFree RBTreeDerived.

Lemma align_up_round a b : align_up a b = round_up a b.
Proof. done. Qed.

Lemma tree_struct P nsz nal : P = plain_pool \/ P = overflow_pool ->
  struct (rb_tree_fields (Lay nsz nal) P comparator) = Lay (40 + ly_size P) 8 /\ (ly_size P = 24 \/ ly_size P = 40).
Proof. intros [-> | ->]; (split; [done|]); [by left|by right]. Qed.

Lemma map_places P nsz nal (n : nat) : tree_layout nsz nal -> P = plain_pool \/ P = overflow_pool ->
  map_buffer_off P nsz nal (Z.of_nat n) = round_up (40 + ly_size P) nal /\
  map_bytes P nsz nal (Z.of_nat n) = round_up (40 + ly_size P) nal + (Z.of_nat n + 1) * nsz /\ (24 <= ly_size P).
Proof.
  intros [NL H24] HP. pose proof (node_layout_pos _ _ NL) as (N8 & ND & NA & NB). pose proof NL as (_ & _ & DS & _).
  pose proof (tree_struct P nsz nal HP) as (ES & EP).
  assert (L24 : 24 <= ly_size P) by lia.
  pose proof (round_up_spec (40 + ly_size P) nal ltac:(lia)) as (D1 & L1).
  set (o := round_up (40 + ly_size P) nal) in *.
  assert (D2 : (nal | o + Z.of_nat n * nsz)) by (apply Z.divide_add_r; [done|by apply Z.divide_mul_r]).
  assert (D3 : (nal | o + Z.of_nat n * nsz + nsz)) by (by apply Z.divide_add_r).
  unfold map_buffer_off, map_bytes, map_fields, offsets, struct, repr_c. unfold fixed_map_fields. rewrite ES.
  cbn [place fst snd nth max_align ly_align ly_size array]. change align_up with round_up.
  assert (R8 : round_up 0 8 = 0) by done. rewrite R8, !Z.add_0_l. fold o.
  split; [done|]. split; [|done].
  rewrite (round_up_fix _ nal ltac:(lia) D2). rewrite round_up_fix; [lia|lia|].
  assert (Z.max 8 (Z.max nal (Z.max nal 1)) = nal) as -> by lia. done.
Qed.

Lemma fm_setup {T} (m : mem T) P nsz nal n obj : P = plain_pool \/ P = overflow_pool -> FixedMapSetup m P nsz nal n obj ->
  let base := obj + map_buffer_off P nsz nal (Z.of_nat n) in let len := Z.of_nat n * nsz in
  PoolSetup m base len nsz nal /\ obj + 64 <= base /\ pool_count base len nsz nal = n /\
  pool_slots base len nsz nal = buffer_nodes P nsz nal n obj /\
  accessible m base (pool_end base len nsz nal + 1 - base) = true /\
  accessible m (obj + 8) 24 = true /\ (8 | obj) /\ obj + 32 < usize_lim.
Proof.
  intros HP [TL (O1 & O2 & O3) HM WF] base len. pose proof (map_places P nsz nal n TL HP) as (EO & EB & L24).
  destruct TL as [NL H24]. pose proof (node_layout_pos _ _ NL) as (N8 & ND & NA & NB).
  pose proof (round_up_spec (40 + ly_size P) nal ltac:(lia)) as (D1 & L1).
  rewrite EB in HM, O3. assert (Ebase : base = obj + round_up (40 + ly_size P) nal) by (subst base; by rewrite EO).
  set (o := round_up (40 + ly_size P) nal) in *. assert (EN : len = Z.of_nat n * nsz) by done.
  assert (L0 : 0 <= Z.of_nat n * nsz) by nia.
  assert (PF : pool_first base nal = base) by (apply round_up_fix; [lia|rewrite Ebase; by apply Z.divide_add_r]).
  assert (PC : pool_count base len nsz nal = n) by (apply count_is; [lia|]; rewrite PF; lia).
  split; [|split; [lia|split; [done|split; [|split; [|split; [|split]]]]]].
  - split; [done|lia|lia|rewrite PF; lia|]. eapply accessible_sub; [exact HM|lia|lia].
  - unfold pool_slots, buffer_nodes. by rewrite PC, PF.
  - unfold pool_end. rewrite PC, PF. eapply accessible_sub; [exact HM|lia|lia].
  - eapply accessible_sub; [exact HM|lia|lia].
  - exact (Z.divide_trans _ _ _ ND O2).
  - lia.
Qed.

Lemma alloc_all (k : nat) : forall held avail, (length avail = k)%nat ->
  spec_pool_run (replicate k PAlloc ++ [PCan; PAlloc]) held avail = (map PGot avail ++ [PBool false; PGot 0], rev avail ++ held, []) /\
  spec_pool_run (replicate k PAlloc) held avail = (map PGot avail, rev avail ++ held, []).
Proof.
  induction k as [|k IH]; intros held avail EL.
  - destruct avail; [|done]. done.
  - destruct avail as [|x avail]; [done|]. injection EL as EL. destruct (IH (x :: held) avail EL) as [E1 E2].
    cbn [replicate app spec_pool_run spec_pool map rev]. rewrite E1, E2. rewrite <- app_assoc. done.
Qed.

(** ** Without overflow *)
Section plain.
Context {K V : Type}.
Variables (chk : bool) (nsz nal base len obj : Z) (n : nat) (m0 : mem (K * V)).
Hypothesis PS : PoolSetup m0 base len nsz nal.
Hypothesis H24 : 24 <= nsz.
Hypothesis HO : obj + 64 <= base.
Hypothesis HN : pool_count base len nsz nal = n.
Let NL := ps_node _ _ _ _ _ PS.

Definition TPI (q : pool) (m : mem (K * V)) (L : list Z) : Prop := exists avail, PInv base len nsz nal q m L avail.

Lemma pool_tfree : TFree (PoolAlloc chk nsz nal) chk nsz nal TPI.
Proof using All.
  pose proof (node_layout_pos _ _ NL) as (? & ? & ? & ?). pose proof NL as NL'. pose proof PS as [_ B Le R A]. split.
  - intros q m L p (avail & I) Hp. assert (Hx : p ∈ L ++ avail) by (apply elem_of_app; by left).
    destruct (slot_bounds base len nsz nal m0 PS _ _ _ _ _ I Hx) as (? & ? & _). pose proof (end_ok base len nsz nal m0 PS).
    eapply accessible_sub; [apply I|done|lia].
  - intros q m L L' (avail & I) P. exists avail. by eapply pinv_perm.
  - intros q m p L (avail & I).
    destruct (pool_free_ok base len nsz nal NL' B R chk q m (p :: L) L avail p nsz nal I ltac:(done)) as (q1 & m1 & E1 & I1 & EM).
    exists q1, m1. unfold deallocate, bind. rewrite usizeZ_ok by lia. cbn [aa_free PoolAlloc]. rewrite Z.mul_1_l, E1.
    split; [done|]. split; [by exists (p :: avail)|]. intros x Hx.
    assert (NE : x <> p). { pose proof (pinv_nodup base len nsz nal NL' _ _ _ _ I) as ND. cbn in ND. apply NoDup_cons in ND as [ND _]. intros ->. apply ND. apply elem_of_app. by left. }
    destruct (slots_apart base len nsz nal NL' q m (p :: L) avail p x I) as [AP|AP]; [constructor|apply elem_of_app; left; by constructor|done| |];
      rewrite EM; cbn; split; rewrite lookup_insert_ne; try done; lia.
Qed.

Lemma plain_out q (m : mem (K * V)) avail : PInv base len nsz nal q m [] avail ->
  (exists st held, p_run (PoolAlloc chk nsz nal) can_allocate chk nsz nal (replicate n PAlloc) ((q, m), []) = Ok (map PGot avail) (st, held)) /\
  (exists l st held, p_run (PoolAlloc chk nsz nal) can_allocate chk nsz nal (replicate n PAlloc ++ [PCan; PAlloc]) ((q, m), []) = Ok (l ++ [PBool false; PGot 0]) (st, held)).
Proof using All.
  intros I. assert (LN : length avail = n).
  { pose proof (pi_perm _ _ _ _ _ _ _ _ I) as P. cbn in P. rewrite P. unfold slots_from. by rewrite map_length, seq_length, HN. }
  destruct (alloc_all n [] avail LN) as [E1 E2].
  destruct (p_run_ok base len nsz nal chk m0 PS _ _ _ _ _ _ _ _ I E1) as (q1 & m1 & R1 & _).
  destruct (p_run_ok base len nsz nal chk m0 PS _ _ _ _ _ _ _ _ I E2) as (q2 & m2 & R2 & _).
  rewrite R1, R2. split; [by eexists _, _|by eexists _, _, _].
Qed.

Lemma plain_filled (s0 s : tstate pool K V) t : t_obj s0 = obj -> filled (PoolAlloc chk nsz nal) can_allocate chk nsz nal s0 s t ->
  PInv base len nsz nal (t_alloc s0) (t_mem s0) [] (pool_slots base len nsz nal) ->
  TPI (t_alloc s) (t_mem s) (addrs t).
Proof using All.
  intros EO [(cs & l & m & held & E & P & EL & EW) EO' HT] I0. pose proof NL as NL'.
  destruct (spec_pool_run cs [] (pool_slots base len nsz nal)) as [[l1 held1] avail] eqn:ES.
  destruct (p_run_ok base len nsz nal chk m0 PS cs _ _ _ _ _ _ _ I0 ES) as (q' & m' & E' & I').
  rewrite E in E'. injection E' as <- <- <- <-. exists avail. eapply pinv_perm; [|exact P].
  eapply pinv_frame; [exact I'| |].
  - intros x Hx. destruct (decide (m_word (t_mem s) !! x = m_word m !! x)) as [|NE]; [done|]. exfalso.
    assert (Hx' : x ∈ held ++ avail) by (apply elem_of_app; by right).
    destruct (slot_bounds base len nsz nal m0 PS _ _ _ _ _ I' Hx') as (? & ? & _).
    destruct (EW x NE) as [C|(p & Hp & C)]; [lia|].
    assert (x <> p). { intros ->. pose proof (pinv_nodup base len nsz nal NL' _ _ _ _ I') as ND. apply NoDup_app in ND as (_ & ND & _). by apply (ND p). }
    destruct (slots_apart base len nsz nal NL' _ _ held avail p x I'); [apply elem_of_app; by left|done|done|lia|lia].
  - eapply accessible_live; [|apply I']. by rewrite EL.
Qed.
End plain.

(** ** With overflow *)
Section over.
Context {K V : Type}.
Variables (pick : mem (K * V) -> Z -> Z -> Z) (strict : bool) (chk : bool) (nsz nal base len obj : Z) (n : nat) (m0 : mem (K * V)).
Hypothesis PS : PoolSetup m0 base len nsz nal.
Hypothesis HP : honest pick.
Hypothesis WF : forall r, r ∈ m_live m0 -> 0 < r_bytes r.
Hypothesis PAD : accessible m0 base (pool_end base len nsz nal + 1 - base) = true.
Hypothesis H24 : 24 <= nsz.
Hypothesis HO : obj + 64 <= base.
Hypothesis HN : pool_count base len nsz nal = n.
Let NL := ps_node _ _ _ _ _ PS.
Local Notation aa := (OPoolAlloc (DefaultAddrAlloc pick strict) chk nsz nal).
Local Notation can := (fun q : opool unit => can_allocate (o_pool q)).

Definition TOI (q : opool unit) (m : mem (K * V)) (L : list Z) : Prop :=
  exists slots avail over, OInv base len nsz nal m0 q m slots avail over /\ L ≡ₚ slots ++ over.

Lemma opool_tfree : TFree aa chk nsz nal TOI.
Proof using All.
  pose proof (node_layout_pos _ _ NL) as (? & ? & ? & ?). pose proof NL as NL'. pose proof PS as [_ B Le R A]. split.
  - intros q m L p (slots & avail & over & I & P) Hp. rewrite P in Hp. apply elem_of_app in Hp as [Hp|Hp].
    + assert (Hx : p ∈ slots ++ avail) by (apply elem_of_app; by left).
      destruct (slot_bounds base len nsz nal m0 PS _ _ _ _ _ (oi_pool _ _ _ _ _ _ _ _ _ _ I) Hx) as (? & ? & _). pose proof (end_ok base len nsz nal m0 PS).
      eapply accessible_sub; [apply I|done|lia].
    + by eapply dinv_block, Hp; destruct I.
  - intros q m L L' (slots & avail & over & I & P) PL. exists slots, avail, over. by rewrite <- PL.
  - intros q m p L (slots & avail & over & I & P).
    assert (Hin : p ∈ slots ++ over) by (rewrite <- P; constructor).
    unfold deallocate, bind. rewrite usizeZ_ok by lia. cbn [aa_free OPoolAlloc]. rewrite Z.mul_1_l.
    destruct (decide (p ∈ over)) as [HOv|HOv].
    + apply elem_of_Permutation in HOv as [over' HOv].
      destruct (opool_free_over_ok pick strict base len nsz nal m0 PS WF PAD chk q m slots avail over over' p nsz nal I HOv) as (q1 & m1 & E1 & I1 & EW & _).
      { by destruct NL' as (_ & _ & _ & ?). } { by right. }
      rewrite E1. exists q1, m1. split; [done|]. split; [|intros x _; by rewrite EW].
      exists slots, avail, over'. split; [done|]. apply (Permutation_cons_inv (a := p)). rewrite P, HOv. solve_Permutation.
    + apply elem_of_app in Hin as [Hs|]; [|done]. apply elem_of_Permutation in Hs as [slots' Hs].
      destruct (opool_free_slot_ok pick strict base len nsz nal m0 PS PAD chk q m slots slots' avail over p nsz nal I Hs) as (q1 & m1 & w & E1 & I1 & EM).
      rewrite E1. exists q1, m1. split; [done|].
      assert (PL : L ≡ₚ slots' ++ over). { apply (Permutation_cons_inv (a := p)). by rewrite P, Hs. }
      split; [by exists slots', (p :: avail), over|]. intros x Hx. rewrite PL in Hx.
      destruct (held_apart base len nsz nal m0 PS WF PAD _ _ _ _ _ x p I1 Hx ltac:(constructor));
        rewrite EM; cbn; split; rewrite lookup_insert_ne; try done; lia.
Qed.

Lemma over_take (k : nat) : forall q (m : mem (K * V)) held avail, OInv base len nsz nal m0 q m held avail [] -> (length avail = k)%nat ->
  forall hh, exists st held', p_run aa can chk nsz nal (replicate k PAlloc) ((q, m), hh) = Ok (map PGot avail) (st, held').
Proof using All.
  pose proof (node_layout_pos _ _ NL) as (? & ? & ? & ?).
  induction k as [|k IH]; intros q m held avail I EL hh.
  - destruct avail; [|done]. by eexists _, _.
  - destruct avail as [|x avail]; [done|]. injection EL as EL.
    destruct (opool_alloc_ok pick strict base len nsz nal m0 PS HP PAD chk _ _ _ _ _ I) as (p & q1 & m1 & E1 & -> & -> & I1).
    assert (Hx : x ∈ held ++ x :: avail) by (apply elem_of_app; right; constructor).
    destruct (slot_bounds base len nsz nal m0 PS _ _ _ _ _ (oi_pool _ _ _ _ _ _ _ _ _ _ I) Hx) as (? & ? & ? & ? & _).
    cbn [replicate p_run p_call map]. unfold allocate, bind. rewrite usizeZ_ok by lia. cbn [aa_alloc OPoolAlloc]. rewrite Z.mul_1_l, E1.
    rewrite (proj2 (Z.eqb_neq x 0)) by lia.
    destruct (IH _ _ _ _ I1 EL (x :: hh)) as (st & h' & ->). by eexists _, _.
Qed.

Lemma over_out q (m : mem (K * V)) avail : OInv base len nsz nal m0 q m [] avail [] ->
  exists st held, p_run aa can chk nsz nal (replicate n PAlloc) ((q, m), []) = Ok (map PGot avail) (st, held).
Proof using All.
  intros I. apply (over_take n _ _ _ _ I). pose proof (pi_perm _ _ _ _ _ _ _ _ (oi_pool _ _ _ _ _ _ _ _ _ _ I)) as P. cbn in P. rewrite P. unfold slots_from. by rewrite map_length, seq_length, HN.
Qed.

Lemma over_filled (s0 s : tstate (opool unit) K V) t : t_obj s0 = obj -> accessible m0 obj 40 = true ->
  filled aa can chk nsz nal s0 s t ->
  OInv base len nsz nal m0 (t_alloc s0) (t_mem s0) [] (pool_slots base len nsz nal) [] ->
  TOI (t_alloc s) (t_mem s) (addrs t).
Proof using All.
  intros EO AO [(cs & l & m & held & E & P & EL & EW) EO' HT] I0. pose proof NL as NL'.
  destruct (o_run_ok pick strict base len nsz nal chk m0 PS HP WF PAD cs _ _ [] [] _ [] I0 ltac:(done)) as (l' & q & m' & held' & slots & avail & over & E' & I & HH & _).
  rewrite E in E'. injection E' as <- <- <- <-. exists slots, avail, over. split; [|by rewrite <- P].
  destruct I as [IP ID IB]. split; [|by eapply dinv_live|done].
  eapply pinv_frame; [exact IP| |].
  - intros x Hx. destruct (decide (m_word (t_mem s) !! x = m_word m !! x)) as [|NE]; [done|]. exfalso.
    assert (Hx' : x ∈ slots ++ avail) by (apply elem_of_app; by right).
    destruct (slot_bounds base len nsz nal m0 PS _ _ _ _ _ IP Hx') as (? & ? & _).
    destruct (EW x NE) as [C|(p & Hp & C)]; [lia|]. rewrite HH in Hp.
    destruct (held_apart base len nsz nal m0 PS WF PAD _ _ _ _ _ p x ltac:(by split) Hp Hx); [lia|].
    pose proof (node_layout_pos _ _ NL'). lia.
  - eapply accessible_live; [|apply IP]. by rewrite EL.
Qed.
End over.

Lemma fm_new {K V} chk nsz nal n obj (m : mem (K * V)) : FixedMapSetup m plain_pool nsz nal n obj ->
  exists s, fixed_map_new chk nsz nal (Z.of_nat n) obj m = Ok tt s /\ holds nsz s (Leaf : tree K V) /\ t_drops s = [] /\ t_obj s = obj /\
    m_live (t_mem s) = m_live m /\
    PInv (obj + map_buffer_off plain_pool nsz nal (Z.of_nat n)) (Z.of_nat n * nsz) nsz nal (t_alloc s) (t_mem s) []
      (pool_slots (obj + map_buffer_off plain_pool nsz nal (Z.of_nat n)) (Z.of_nat n * nsz) nsz nal).
Proof.
  intros FS. pose proof (fm_setup m plain_pool nsz nal n obj (or_introl eq_refl) FS) as (PS & HO & HN & HB & PAD & AC & D8 & OL).
  destruct FS as [TL (O1 & _) _ _]. destruct (new_holds nsz obj pool_default m O1 OL D8 AC) as (s & E & H & EA & EL & ED).
  unfold fixed_map_new, fixed_map_new_with. rewrite E. destruct PS as [NL B L R A].
  assert (A' : accessible (t_mem s) (obj + map_buffer_off plain_pool nsz nal (Z.of_nat n)) (Z.of_nat n * nsz) = true).
  { eapply accessible_live; [|exact A]. by rewrite EL. }
  destruct (pool_init_ok _ _ nsz nal NL B L R chk (t_mem s) A') as (q & HQ). destruct (HQ (t_alloc s)) as (EQ & I).
  unfold t_in_alloc. rewrite EQ. eexists. split; [reflexivity|]. cbn. split.
  - destruct H. by split.
  - split; [done|]. split; [|done]. unfold tree_new, bind, t_put, gets in E. cbn in E.
    repeat (destruct (store_word _ _ _); cbn in E; [|done]). by injection E as <-.
Qed.

Lemma ofm_new {K V} chk nsz nal n obj (m : mem (K * V)) : FixedMapSetup m overflow_pool nsz nal n obj ->
  exists s, overflow_map_new chk nsz nal (Z.of_nat n) obj m = Ok tt s /\ holds nsz s (Leaf : tree K V) /\ t_drops s = [] /\ t_obj s = obj /\
    m_live (t_mem s) = m_live m /\
    OInv (obj + map_buffer_off overflow_pool nsz nal (Z.of_nat n)) (Z.of_nat n * nsz) nsz nal (t_mem s) (t_alloc s) (t_mem s) []
      (pool_slots (obj + map_buffer_off overflow_pool nsz nal (Z.of_nat n)) (Z.of_nat n * nsz) nsz nal) [].
Proof.
  intros FS. pose proof (fm_setup m overflow_pool nsz nal n obj (or_intror eq_refl) FS) as (PS & HO & HN & HB & PAD & AC & D8 & OL).
  destruct FS as [TL (O1 & _) _ _]. destruct (new_holds nsz obj (opool_with tt) m O1 OL D8 AC) as (s & E & H & EA & EL & ED).
  unfold overflow_map_new, fixed_map_new_with. rewrite E. destruct PS as [NL B L R A].
  assert (PS' : PoolSetup (t_mem s) (obj + map_buffer_off overflow_pool nsz nal (Z.of_nat n)) (Z.of_nat n * nsz) nsz nal).
  { split; [done|done|done|done|]. eapply accessible_live; [|exact A]. by rewrite EL. }
  destruct (opool_init_ok _ _ nsz nal (t_mem s) PS' chk) as (q & EQ & I).
  unfold t_in_alloc. rewrite EA, EQ. eexists. split; [reflexivity|]. cbn. split.
  - destruct H. by split.
  - split; [done|]. split; [|done]. unfold tree_new, bind, t_put, gets in E. cbn in E.
    repeat (destruct (store_word _ _ _); cbn in E; [|done]). by injection E as <-.
Qed.

Lemma fx_setup P : P = plain_pool \/ P = overflow_pool -> FixedMapSetup (fx_mem P) P 40 8 3 4096.
Proof.
  intros HP. assert (NL : tree_layout 40 8).
  { split; [|lia]. split; [by exists 3; lia|]. split; [lia|]. split; [by exists 5|done]. }
  destruct HP as [-> | ->].
  - split; [done| |done|]. { split; [lia|]. split; [by exists 512|]. by vm_compute. }
    intros r Hr. unfold fx_mem in Hr. cbn [m_live] in Hr. apply elem_of_list_singleton in Hr as ->. by vm_compute.
  - split; [done| |done|]. { split; [lia|]. split; [by exists 512|]. by vm_compute. }
    intros r Hr. unfold fx_mem in Hr. cbn [m_live] in Hr. apply elem_of_list_singleton in Hr as ->. by vm_compute.
Qed.

Lemma addrs_entries {K V} (t : tree K V) : length (addrs t) = length (entries t).
Proof. induction t; cbn; [done|]. rewrite !app_length. cbn. lia. Qed.

Lemma L_C82_new_map_is_empty_with_room_for_n :
forall (K V : Type) (chk : bool) (lt : K -> K -> bool) (nsz nal : Z) (n : nat) (obj : Z) (m : mem (K * V)),
  strict_weak_order lt -> FixedMapSetup m plain_pool nsz nal n obj ->
  exists s, fixed_map_new chk nsz nal (Z.of_nat n) obj m = Ok tt s /\
    (forall cs, let '(answers, dropped, _) := tspec_run lt cs [] in
       exists s', t_run nsz lt cs s = Some (answers, s') /\ t_drops s' = dropped) /\
    m_live (t_mem s) = m_live m /\
    hands_out (FixedMapAlloc chk nsz nal) can_allocate chk nsz nal n s (buffer_nodes plain_pool nsz nal n obj) /\
    is_full (FixedMapAlloc chk nsz nal) can_allocate chk nsz nal n s.
Proof.
  intros K V chk lt nsz nal n obj m SW FS. destruct (fm_new chk nsz nal n obj m FS) as (s & E & H & ED & EO & EL & I).
  exists s. split; [done|]. pose proof FS as [[NL H24] _ _ _]. split; [|split; [done|]].
  - intros cs. pose proof (run_ok nsz H24 lt SW cs s Leaf H ltac:(constructor)) as R. cbn [entries] in R.
    destruct (tspec_run lt cs []) as [[l d] es]. destruct R as (s' & t' & E' & H' & SK & EE & D & _). exists s'. split; [done|]. by rewrite D, ED.
  - pose proof (fm_setup m plain_pool nsz nal n obj (or_introl eq_refl) FS) as (PS & HO & HN & HB & _).
    rewrite <- HB. apply (plain_out chk nsz nal _ _ obj n m PS H24 HO HN _ _ _ I).
Qed.

Lemma L_C82_drop_gives_back_every_node :
forall (K V : Type) (chk : bool) (nsz nal : Z) (n : nat) (obj : Z) (m : mem (K * V)) s0 (s : tstate pool K V) (t : tree K V),
  FixedMapSetup m plain_pool nsz nal n obj -> fixed_map_new chk nsz nal (Z.of_nat n) obj m = Ok tt s0 ->
  filled (FixedMapAlloc chk nsz nal) can_allocate chk nsz nal s0 s t ->
  (length (entries t) <= n)%nat /\
  exists s' ps, t_drop (FixedMapAlloc chk nsz nal) chk nsz nal s = Ok tt s' /\
    hands_out (FixedMapAlloc chk nsz nal) can_allocate chk nsz nal n s' ps /\ ps ≡ₚ buffer_nodes plain_pool nsz nal n obj /\
    is_full (FixedMapAlloc chk nsz nal) can_allocate chk nsz nal n s'.
Proof.
  intros K V chk nsz nal n obj m s0 s t FS E0 F. destruct (fm_new chk nsz nal n obj m FS) as (s00 & E & H & ED & EO & EL & I).
  rewrite E in E0. injection E0 as ->. pose proof FS as [[NL H24] _ _ _].
  pose proof (fm_setup m plain_pool nsz nal n obj (or_introl eq_refl) FS) as (PS & HO & HN & HB & _).
  pose proof (plain_filled chk nsz nal _ _ obj n m PS H24 HO HN s0 s t EO F I) as I'.
  destruct (free_nodes_ok _ chk nsz nal _ H24 (pool_tfree chk nsz nal _ _ obj n m PS H24 HO HN) s t (fl_tree _ _ _ _ _ _ _ _ F) I') as (s' & E' & (avail & I2) & _).
  split.
  - destruct I' as (av & I'). pose proof (pi_perm _ _ _ _ _ _ _ _ I') as P. apply Permutation_length in P. rewrite app_length in P.
    unfold slots_from in P. rewrite map_length, seq_length, HN in P. rewrite <- addrs_entries. lia.
  - exists s', avail. split; [done|]. rewrite <- HB.
    destruct (plain_out chk nsz nal _ _ obj n m PS H24 HO HN _ _ _ I2) as [G1 G2]. split; [done|]. split; [|done].
    exact (pi_perm _ _ _ _ _ _ _ _ I2).
Qed.

Lemma L_C82_overflow_map_new_and_drop :
forall (K V : Type) (pick : mem (K * V) -> Z -> Z -> Z) (strict chk : bool) (nsz nal : Z) (n : nat) (obj : Z) (m : mem (K * V)),
  honest pick -> FixedMapSetup m overflow_pool nsz nal n obj ->
  exists s0, overflow_map_new chk nsz nal (Z.of_nat n) obj m = Ok tt s0 /\ holds nsz s0 (Leaf : tree K V) /\ m_live (t_mem s0) = m_live m /\
    hands_out (OverflowMapAlloc chk nsz nal pick strict) (fun q => can_allocate (o_pool q)) chk nsz nal n s0 (buffer_nodes overflow_pool nsz nal n obj) /\
    forall s t, filled (OverflowMapAlloc chk nsz nal pick strict) (fun q => can_allocate (o_pool q)) chk nsz nal s0 s t ->
      exists s' ps, t_drop (OverflowMapAlloc chk nsz nal pick strict) chk nsz nal s = Ok tt s' /\ m_live (t_mem s') ≡ₚ m_live m /\
        hands_out (OverflowMapAlloc chk nsz nal pick strict) (fun q => can_allocate (o_pool q)) chk nsz nal n s' ps /\
        ps ≡ₚ buffer_nodes overflow_pool nsz nal n obj.
Proof.
  intros K V pick strict chk nsz nal n obj m HP FS. destruct (ofm_new chk nsz nal n obj m FS) as (s0 & E & H & ED & EO & EL & I).
  exists s0. split; [done|]. split; [done|]. split; [done|]. pose proof FS as [[NL H24] (O1 & O2 & O3) AM WF].
  pose proof (fm_setup m overflow_pool nsz nal n obj (or_intror eq_refl) FS) as (PS0 & HO & HN & HB & PAD & AC & _).
  assert (LV : forall x k, accessible m x k = true -> accessible (t_mem s0) x k = true) by (intros x k; apply accessible_live; by rewrite EL).
  assert (PS : PoolSetup (t_mem s0) (obj + map_buffer_off overflow_pool nsz nal (Z.of_nat n)) (Z.of_nat n * nsz) nsz nal) by (destruct PS0; split; auto).
  assert (WF0 : forall r, r ∈ m_live (t_mem s0) -> 0 < r_bytes r) by (by rewrite EL).
  pose proof (map_places overflow_pool nsz nal n ltac:(by split) (or_intror eq_refl)) as (_ & EB & L24).
  assert (AO : accessible (t_mem s0) obj 40 = true).
  { apply LV. eapply accessible_sub; [exact AM|lia|]. pose proof (node_layout_pos _ _ NL) as (N8 & _). pose proof (round_up_spec (40 + ly_size overflow_pool) nal ltac:(lia)). nia. }
  split.
  - rewrite <- HB. eapply over_out; eauto.
  - intros s t F.
    assert (I' : TOI nsz nal (obj + map_buffer_off overflow_pool nsz nal (Z.of_nat n)) (Z.of_nat n * nsz) (t_mem s0) (t_alloc s) (t_mem s) (addrs t)).
    { eapply (over_filled pick strict chk nsz nal _ _ obj n); eauto. }
    destruct (free_nodes_ok _ chk nsz nal _ H24 (opool_tfree pick strict chk nsz nal _ _ obj n (t_mem s0) PS HP WF0 (LV _ _ PAD) H24 HO HN) s t (fl_tree _ _ _ _ _ _ _ _ F) I') as (s' & E' & (slots & avail & over & I2 & P2) & _).
    apply Permutation_nil in P2. apply app_eq_nil in P2 as [-> ->].
    exists s', avail. split; [done|]. split; [|split].
    + pose proof (di_live _ _ _ _ _ (oi_over _ _ _ _ _ _ _ _ _ _ I2)) as DL. cbn in DL. by rewrite app_nil_r, EL in DL.
    + eapply over_out; eauto.
    + rewrite <- HB. exact (pi_perm _ _ _ _ _ _ _ _ (oi_pool _ _ _ _ _ _ _ _ _ _ I2)).
Qed.

Lemma L_C69_fixed_map_clear_then_drop_refuted :
exists (K V : Type) (nsz nal : Z) (n : nat) (obj : Z) (m : mem (K * V)) s0 (s : tstate pool K V) (t : tree K V),
  FixedMapSetup m plain_pool nsz nal n obj /\ fixed_map_new true nsz nal (Z.of_nat n) obj m = Ok tt s0 /\
  filled (FixedMapAlloc true nsz nal) can_allocate true nsz nal s0 s t /\
  exists s1 s2 p, t_clear (FixedMapAlloc true nsz nal) true nsz nal s = Ok tt s1 /\ t_len s1 = Ok 1 s1 /\
    t_drop (FixedMapAlloc true nsz nal) true nsz nal s1 = Ok tt s2 /\
    hands_out (FixedMapAlloc true nsz nal) can_allocate true nsz nal 2 s2 [p; p].
Proof.
  exists Z, Z, 40, 8, 3%nat, 4096, (fx_mem plain_pool).
  destruct (fixed_map_new true 40 8 (Z.of_nat 3) 4096 (fx_mem plain_pool)) as [[] s0|s0|] eqn:E; [|by vm_compute in E|by vm_compute in E].
  assert (E0 : t_alloc s0 = Pool 0 4160 4280 /\ t_obj s0 = 4096 /\ t_mem s0 = Mem [Region 4096 224 8 false] (<[4120:=0]> (<[4112:=0]> (<[4104:=0]> ∅))) ∅ 0).
  { vm_compute in E. injection E as <-. done. }
  destruct E0 as (EA & EO & EM).
  set (m1 := Mem [Region 4096 224 8 false] (<[4120:=0]> (<[4112:=0]> (<[4104:=0]> ∅))) ∅ 0 : mem (Z * Z)).
  exists s0, (fx_fill s0 (Pool 0 4200 4280) m1 4160 4160 4160 1 [(4160, 0, 0, 4105, (1, 10))]), (Bin Black Leaf 4160 1 10 Leaf).
  split; [by apply fx_setup; left|]. split; [done|]. split.
  - split.
    + exists [PAlloc], [PGot 4160], m1, [4160]. rewrite EA, EM. split; [by vm_compute|]. split; [done|]. split; [done|].
      intros x NE. unfold fx_fill in *. cbn [t_obj t_mem m_word fold_right] in NE |- *. rewrite EO in *.
      destruct (decide (4096 <= x < 4136)); [by left|]. right. exists 4160. split; [constructor|].
      destruct (decide (4160 <= x < 4200)); [done|]. exfalso. apply NE.
      rewrite !lookup_insert_ne by lia. done.
    + done.
    + unfold fx_fill. rewrite EO. split; cbn [t_obj t_mem t_size addrs app head last addr entries length].
      * split; [lia|]. split; [unfold usize_lim; lia|by exists 512].
      * exists 4160. split; [by vm_compute|done].
      * exists 4160. split; [by vm_compute|done].
      * by vm_compute.
      * cbn [placed addr]. split; [unfold usize_lim; lia|]. split; [by exists 520|]. split; [by vm_compute|]. split; [by vm_compute|]. split; [by vm_compute|]. split; [by vm_compute|]. done.
      * repeat constructor; set_solver.
      * done.
  - vm_compute in E. injection E as <-. eexists _, _, 4160. split; [vm_compute; reflexivity|]. split; [by vm_compute|]. split; [vm_compute; reflexivity|].
    eexists _, _. vm_compute. reflexivity.
Qed.
