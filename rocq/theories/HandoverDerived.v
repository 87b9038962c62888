(** Proofs of the properties stated in HandoverProps.v. *)
From Verif Require Import Base Heap HeapLemmas Alloc AllocContract AddrMem Vector VectorSpec VectorMap VectorMapSpec Deque DequeSpec DequeCpp
  RehashPolicy HashTable HashTableSpec FixedPool FixedPoolSpec LinkedList LinkedListSpec HandoverSpec.

From Verif Require Import VectorProofs VectorMapProofs DequeProofs DequeCppDerived RehashPolicyProofs HashTableProofs FixedPoolProofs
  LinkedListProofs LinkedListCalls LinkedListRuns LinkedListDerived.

(** The heap without some blocks. *)
Definition wipe {C} (own : list nat) (h : heap C) : heap C := Heap (h_next h) (foldr delete (h_blk h) own).
Lemma wipe_lookup {C} own (h : heap C) b : h_blk (wipe own h) !! b = if decide (b ∈ own) then None else h_blk h !! b.
Proof.
  unfold wipe. cbn. induction own as [|o own IH]; cbn; [by rewrite decide_False by apply not_elem_of_nil|].
  destruct (decide (b = o)) as [->|N].
  - rewrite lookup_delete. rewrite decide_True; [done|constructor].
  - rewrite lookup_delete_ne by done. rewrite IH. destruct (decide (b ∈ own)) as [I|I].
    + rewrite decide_True; [done|by constructor].
    + rewrite decide_False; [done|]. intros X. apply elem_of_cons in X as [X|X]; done.
Qed.
Lemma wipe_wf {C} own (h : heap C) : heap_wf h -> heap_wf (wipe own h).
Proof. intros W b Hb. rewrite wipe_lookup in Hb. destruct (decide _); [by destruct Hb|]. by apply W. Qed.

(** *** Vectors *)
Section vec.
Context {T : Type}.
Variables sz al : Z.
Hypothesis Hsz : (0 < sz)%Z.
Hypothesis Hal : (0 < al)%Z.
Let AS := DefaultSpec (C := T) sz al Hsz Hal.
Lemma vim_rep v h xs cap d : heap_wf h -> vector_in_memory sz al v h xs cap ->
  VectorProofs.Rep _ sz al AS (VState v tt h d) xs cap.
Proof.
  intros W M. split; [done|]. split; [done|]. destruct M as [M|(b & spare & -> & C0 & B & L & F)]; [by left|right].
  unfold layout_ok in F. eexists b, _, spare. split; [done|]. split; [done|]. split; [lia|]. split; [unfold isize_max in *; lia|]. split; [exact B|].
  split; [done|]. cbn [bk_cells bk_bytes bk_align]. rewrite app_length, map_length. split; [lia|]. right.
  cbn. rewrite app_length, map_length. split; [done|]. split; [done|]. split; [unfold default_fits; lia|lia].
Qed.
Lemma rep_vim s xs cap : VectorProofs.Rep _ sz al AS s xs cap -> vector_in_memory sz al (st_v s) (st_h s) xs cap.
Proof.
  intros (_ & _ & [R|(b & bk & j & E & C0 & L & Z0 & B & CE & LC & [P|LY])]); [by left|done|right].
  destruct bk as [by_ a cells]. cbn in *. destruct LY as (-> & -> & F & L2). subst cells.
  exists b, j. split; [done|]. split; [done|]. split; [done|]. rewrite app_length, fmap_length in L2. split; [lia|].
  unfold default_fits in F. unfold layout_ok. lia.
Qed.
Lemma vec_frame (s : vstate unit T) b : VectorProofs.frame _ sz al AS s !! b = if decide (b ∈ vector_blocks (st_v s)) then None else h_blk (st_h s) !! b.
Proof.
  unfold VectorProofs.frame. change (as_pool AS (st_a s)) with (@None nat). cbn [drop_opt].
  unfold own_block, vector_blocks. destruct (v_begin (st_v s)) as [|b0 o]; cbn [drop_opt].
  - by rewrite decide_False by apply not_elem_of_nil.
  - destruct (decide (b = b0)) as [->|N].
    + rewrite lookup_delete, decide_True; [done|constructor].
    + rewrite lookup_delete_ne by done. rewrite decide_False; [done|]. intros X. by apply elem_of_list_singleton in X.
Qed.
End vec.

Lemma L_C97_vector_taken_over :
forall (T : Type) (sz al : Z) (chk nd : bool) (clone : T -> option T) (cl : T -> T) (h : heap T) v xs cap (cs : list (call T)) l d ys cap',
  (0 < sz)%Z -> (0 < al)%Z -> (forall x, clone x = Some (cl x)) -> heap_wf h -> vector_in_memory sz al v h xs cap ->
  nd = false \/ forallb is_move cs = true ->
  spec_calls (default_fits sz al) cl cs (SVec xs cap) = (l, d, SVec ys cap') -> chk = true \/ forallb (modest sz) cs = true ->
  exists s, run_calls (DefaultAllocator T) sz al chk nd clone cs (VState v tt h []) = Some (l, s) /\
    as_slice sz s = Ok ys s /\ vector_in_memory sz al (st_v s) (st_h s) ys cap' /\
    (forall b, is_Some (h_blk h !! b) -> b ∉ vector_blocks v -> h_blk (st_h s) !! b = h_blk h !! b) /\
    exists s', Vector.clear (DefaultAllocator T) sz al chk nd s = Ok tt s' /\ st_drops s' = (if nd then d ++ ys else []) /\
      agree_outside (vector_blocks v) h (st_h s') /\ all_free (vector_blocks v) (st_h s').
Proof.
  intros T sz al chk nd clone cl h v xs cap cs l d ys cap' Hsz Hal Hcl Hh M ND S K.
  pose proof (vim_rep sz al Hsz Hal v h xs cap [] Hh M) as R0.
  destruct (run_modest (DefaultAllocator T) sz al chk nd Hsz (DefaultSpec sz al Hsz Hal) clone cl Hcl cs (VState v tt h []) xs cap l d ys cap' R0 ND S K)
    as (s & E & R & F & A & D).
  exists s. split; [done|]. split; [by eapply (as_slice_ok (DefaultAllocator T) sz al Hsz)|]. split; [by eapply rep_vim|].
  assert (FB : forall b, (if decide (b ∈ vector_blocks (st_v s)) then None else h_blk (st_h s) !! b) = (if decide (b ∈ vector_blocks v) then None else h_blk h !! b)).
  { intros b. rewrite <- !(vec_frame sz al Hsz Hal). rewrite F. by rewrite vec_frame. }
  split.
  - intros b [bk Eb] Nb. specialize (FB b). rewrite (decide_False (P := b ∈ vector_blocks v)) in FB by done.
    destruct (decide _); [congruence|done].
  - destruct (VectorProofs.clear_ok (DefaultAllocator T) sz al chk nd Hsz (DefaultSpec sz al Hsz Hal) s ys cap' R) as (s' & E' & R' & F' & _ & D').
    exists s'. split; [done|]. rewrite D', D. cbn [st_drops app]. split; [unfold ran; by destruct nd|].
    assert (v_begin (st_v s') = Null) as EV.
    { destruct R' as (_ & _ & [(-> & _)|(b & bk & j & _ & C0 & _)]); [done|lia]. }
    assert (FB' : forall b, h_blk (st_h s') !! b = (if decide (b ∈ vector_blocks v) then None else h_blk h !! b)).
    { intros b. rewrite <- FB. rewrite <- (vec_frame sz al Hsz Hal), <- F'. rewrite vec_frame. unfold vector_blocks. rewrite EV.
      by rewrite decide_False by apply not_elem_of_nil. }
    split; intros b Hb; rewrite FB'; [by rewrite decide_False|by rewrite decide_True].
Qed.

Lemma L_C97_vector_map_taken_over :
forall (K V : Type) (sz al : Z) (chk nd : bool) (cmp eqb : K -> K -> bool) (h : heap (K * V)) v xs cap (cs : list (mcall K V)) l d e m,
  (0 < sz)%Z -> (0 < al)%Z -> KeyOrder cmp eqb -> heap_wf h -> vector_in_memory sz al v h xs cap -> sorted_by cmp xs ->
  spec_mcalls eqb (default_fits sz al) cs (SMap xs cap) = (l, d, e, m) -> chk = true \/ forallb (m_modest sz) cs = true ->
  exists s ys, m_run (DefaultAllocator (K * V)) sz al chk nd cmp eqb cs (MState (VState v tt h []) []) = Some (l, s) /\
    as_slice sz (ms_v s) = Ok ys (ms_v s) /\ ys ≡ₚ entries m /\ sorted_by cmp ys /\
    vector_in_memory sz al (st_v (ms_v s)) (st_h (ms_v s)) ys (mroom m) /\
    (forall b, is_Some (h_blk h !! b) -> b ∉ vector_blocks v -> h_blk (st_h (ms_v s)) !! b = h_blk h !! b) /\
    exists s', Vector.clear (DefaultAllocator (K * V)) sz al chk nd (ms_v s) = Ok tt s' /\
      agree_outside (vector_blocks v) h (st_h s') /\ all_free (vector_blocks v) (st_h s').
Proof.
  intros K V sz al chk nd cmp eqb h v xs cap cs l d e m Hsz Hal KO Hh M SO S CK.
  pose proof (vim_rep sz al Hsz Hal v h xs cap [] Hh M) as R0.
  destruct (m_run_refines (DefaultAllocator (K * V)) sz al chk nd Hsz (DefaultSpec sz al Hsz Hal) cmp eqb KO cs (MState (VState v tt h []) []) (SMap xs cap) xs l d e m)
    as (s & E & (ys & R & SO' & P) & F & _ & _); [by split|done|done|].
  exists s, ys. split; [done|]. split; [by eapply (as_slice_ok (DefaultAllocator (K * V)) sz al Hsz)|]. split; [done|]. split; [done|]. split; [by eapply rep_vim|].
  cbn [ms_v] in F.
  assert (FB : forall b, (if decide (b ∈ vector_blocks (st_v (ms_v s))) then None else h_blk (st_h (ms_v s)) !! b) = (if decide (b ∈ vector_blocks v) then None else h_blk h !! b)).
  { intros b. rewrite <- !(vec_frame sz al Hsz Hal). rewrite F. by rewrite vec_frame. }
  split.
  - intros b [bk Eb] Nb. specialize (FB b). rewrite (decide_False (P := b ∈ vector_blocks v)) in FB by done.
    destruct (decide _); [congruence|done].
  - destruct (VectorProofs.clear_ok (DefaultAllocator (K * V)) sz al chk nd Hsz (DefaultSpec sz al Hsz Hal) (ms_v s) ys (mroom m) R) as (s' & E' & R' & F' & _ & D').
    exists s'. split; [done|].
    assert (v_begin (st_v s') = Null) as EV.
    { destruct R' as (_ & _ & [(-> & _)|(b & bk & j & _ & C0 & _)]); [done|lia]. }
    assert (FB' : forall b, h_blk (st_h s') !! b = (if decide (b ∈ vector_blocks v) then None else h_blk h !! b)).
    { intros b. rewrite <- FB. rewrite <- (vec_frame sz al Hsz Hal), <- F'. rewrite vec_frame. unfold vector_blocks. rewrite EV.
      by rewrite decide_False by apply not_elem_of_nil. }
    split; intros b Hb; rewrite FB'; [by rewrite decide_False|by rewrite decide_True].
Qed.

(** *** Deques *)
Section deq.
Context {T : Type}.
Variables (sz al : Z).
Hypothesis Hsz : (0 < sz)%Z.
Lemma dim_rep (s : dstate T) N xs own : heap_wf (d_h s) -> deque_in_memory sz al N s xs own -> N = subarray_size sz /\
  exists pa start subs bo, own = pa :: subs /\ DRep sz al (wipe own (d_h s)) s pa start subs [] bo xs.
Proof.
  intros W [EB (pa & start & subs & sl & fi & -> & ND & EA & EP & LS & SL & LF & LN & Eb & Ee & EL) SZ U].
  pose proof (eastl_block_size sz N Hsz EB) as ->. split; [done|]. exists pa, start, subs, fi. split; [done|].
  split; try done.
  split; try done.
  - by apply wipe_wf.
  - by rewrite app_nil_r.
  - intros b Hb. rewrite app_nil_r in Hb. split; [rewrite wipe_lookup; by rewrite decide_True|].
    apply elem_of_cons in Hb as [->|Hb]; [eauto|]. apply elem_of_list_lookup in Hb as (i & Hi).
    destruct (SL i b Hi) as (_ & cells & EC & _). eauto.
  - intros b Hb. rewrite app_nil_r in Hb. rewrite wipe_lookup. by rewrite decide_False.
  - exists sl. split; [done|]. lia.
  - destruct subs as [|b0 subs] using rev_ind; [cbn in LN; lia|]. clear IHsubs.
    destruct (SL (length subs) b0) as (H & _); [by rewrite lookup_app_r, Nat.sub_diag by lia|]. apply lookup_lt_Some in H.
    rewrite app_length. cbn. lia.
  - intros i b Hi. destruct (SL i b Hi) as (H & _). unfold hload. rewrite (cells_of_some _ _ _ EP). cbn [bk_cells]. by rewrite H.
  - intros b Hb. apply elem_of_list_lookup in Hb as (i & Hi). destruct (SL i b Hi) as (_ & cells & EC & LC). by exists cells.
Qed.
Lemma rep_dim h0 (s : dstate T) pa start subs leak bo xs : eastl_block sz (subarray_size sz) -> DRep sz al h0 s pa start subs leak bo xs ->
  deque_in_memory sz al (subarray_size sz) s xs (pa :: subs).
Proof.
  intros EB R. pose proof (dr_shape _ _ _ _ _ _ _ _ _ _ R) as SH.
  destruct (sh_pa _ _ _ _ _ _ _ _ _ SH) as (cs & EP & LP).
  split; [done| |by apply SH|by apply SH].
  exists pa, start, subs, cs, bo. split; [done|]. split.
  { pose proof (sh_nodup _ _ _ _ _ _ _ _ _ SH) as ND. rewrite app_comm_cons in ND. by apply NoDup_app in ND as [? _]. }
  split; [by apply R|]. split; [done|]. split.
  { rewrite LP. destruct (sh_size _ _ _ _ _ _ _ _ _ SH) as (j & Hj & E). assert (0 < 2 ^ j)%Z by lia. lia. }
  split.
  { intros i b Hi. pose proof (sh_slots _ _ _ _ _ _ _ _ _ SH i b Hi) as H. unfold hload in H. rewrite (cells_of_some _ _ _ EP) in H. cbn [bk_cells] in H.
    split; [|by apply (sh_subs _ _ _ _ _ _ _ _ _ SH), (elem_of_list_lookup_2 _ i)].
    destruct (cs !! (start + i)) as [[c|]|]; [by injection H as ->|done|done]. }
  split; [by apply R|]. split; [symmetry; apply R|]. split; [by apply R|]. split; [by apply R|]. intros i x Hx. by apply (dr_elems _ _ _ _ _ _ _ _ _ _ R).
Qed.
End deq.

Lemma L_C97_deque_taken_over :
forall (T : Type) (sz al : Z) (chk : bool) (N : nat) (s : dstate T) xs own (prog : list (dcall T)),
  (0 < sz)%Z -> layout_ok (Z.of_nat N * sz) al = true -> heap_wf (d_h s) -> deque_in_memory sz al N s xs own ->
  (Z.of_nat (length xs + DequeSpec.pushes prog) <= max_len sz)%Z ->
  let '(answers, dropped, ys) := DequeSpec.spec_run prog xs in
  exists s' own', d_run sz al chk prog s = Some (map Some answers, s') /\ d_drops s' = d_drops s ++ dropped /\
    deque_in_memory sz al N s' ys own' /\
    (forall b, is_Some (h_blk (d_h s) !! b) -> b ∉ own -> h_blk (d_h s') !! b = h_blk (d_h s) !! b) /\
    exists s'' left cells, deque_drop sz al chk s' = Ok tt s'' /\ d_drops s'' = d_drops s' ++ ys /\
      h_blk (d_h s'') !! left = Some (Block (Z.of_nat N * sz) al cells) /\ (left ∈ own \/ h_blk (d_h s) !! left = None) /\
      agree_outside (left :: own) (d_h s) (d_h s'') /\
      forall b, b <> left -> b ∈ own -> h_blk (d_h s'') !! b = None.
Proof.
  intros T sz al chk N s xs own prog Hsz Hlay W M B.
  destruct (dim_rep sz al Hsz s N xs own W M) as (-> & pa & st & subs & bo & -> & R). pose proof (dm_block _ _ _ _ _ _ M) as EB.
  set (h0 := wipe (pa :: subs) (d_h s)) in *.
  destruct (DequeProofs.run_ok sz al chk Hsz Hlay h0 prog s [] xs) as (l & s' & lk & d & ys & E & (pa' & st' & subs' & bo' & R') & X & D & LK); [by exists pa, st, subs, bo|].
  destruct (DequeProofs.explains_fun sz al Hlay _ _ _ _ _ _ X B) as (-> & -> & ->).
  destruct (DequeSpec.spec_run prog xs) as [[answers dr] ys]. cbn [fst snd] in *.
  assert (lk = []) as ->.
  { apply LK. right. intros H. apply elem_of_list_fmap in H as (? & ? & _). done. }
  assert (H0 : forall b, b ∈ pa :: subs -> h_blk h0 !! b = None) by (intros b Hb; unfold h0; rewrite wipe_lookup; by rewrite decide_True).
  assert (H1 : forall b, b ∉ pa :: subs -> h_blk h0 !! b = h_blk (d_h s) !! b) by (intros b Hb; unfold h0; rewrite wipe_lookup; by rewrite decide_False).
  exists s', (pa' :: subs'). split; [done|]. split; [done|]. split; [by eapply rep_dim|].
  pose proof (dr_shape _ _ _ _ _ _ _ _ _ _ R') as SH.
  split.
  - intros b Hb N. rewrite (sh_frame _ _ _ _ _ _ _ _ _ SH); [by apply H1|]. intros I.
    apply (sh_own _ _ _ _ _ _ _ _ _ SH) in I as [Z _]. rewrite H1 in Z by done. rewrite Z in Hb. by destruct Hb.
  - destruct (deque_drop_ok sz al chk Hlay h0 _ _ _ _ _ _ _ R') as (s3 & b3 & E3 & D3 & _ & (cs & EBk & _) & OW & FR).
    exists s3, b3, cs. split; [done|]. split; [done|]. split; [done|]. split.
    { destruct (decide (b3 ∈ pa :: subs)) as [I|I]; [by left|right]. rewrite <- H1 by done. by apply (OW b3), elem_of_list_singleton. }
    split.
    + intros b Hb. apply not_elem_of_cons in Hb as [N1 N2]. rewrite FR; [by apply H1|]. intros I. by apply elem_of_list_singleton in I.
    + intros b N Hb. rewrite FR; [by apply H0|]. intros I. by apply elem_of_list_singleton in I.
Qed.

(** *** Lists *)
Section lst.
Local Open Scope Z_scope.
Context {T : Type}.
Lemma follow_prev_snoc (m : mem T) l : forall e p x, follow_prev m e (l ++ [p]) x <-> follow_prev m e l p /\ load_word m (p + 8) = Some x.
Proof. induction l as [|q l IH]; intros e p x; cbn; [tauto|]. rewrite IH. tauto. Qed.
Lemma loaded (m : mem T) a v : load_word m a = Some v -> m_word m !! a = Some v.
Proof. unfold load_word. by destruct (word_at m a). Qed.
Lemma follows_ring (m : mem T) ps : forall x e, follow_next m x ps e -> follow_prev m e (rev ps) x -> Forall (link (m_word m)) (zip (x :: ps) (ps ++ [e])).
Proof.
  induction ps as [|p ps IH]; intros x e F B; cbn in *.
  - constructor; [|constructor]. split; by apply loaded.
  - destruct F as [F1 F2]. apply follow_prev_snoc in B as [B1 B2]. constructor; [split; by apply loaded|]. by apply IH.
Qed.
Lemma lim_rep nsz nal obj (s : lstate unit T) m0 ps xs B : list_in_memory nsz nal obj s m0 ps xs -> Z.of_nat (length xs) <= B -> LRep obj B (DI nsz nal m0) s xs ps.
Proof.
  intros [EN ES (F1 & F2 & ND & V & _) LV PL AP] LB. split; try done.
  - split; try done. by apply NoDup_cons in ND as [_ ?].
  - by apply follows_ring.
  - eapply Forall2_impl; [exact V|]. intros p x H. unfold load_val in H. by destruct (accessible _ _ _).
Qed.
End lst.

Lemma L_C97_list_taken_over :
forall (T : Type) (pick : mem T -> Z -> Z -> Z) (chk : bool) (nsz nal obj : Z) (m0 : mem T) (s : lstate unit T) ps xs (prog : list (lcall T)),
  ListSetup m0 obj 24 nsz nal -> honest pick -> list_in_memory nsz nal obj s m0 ps xs ->
  room pick (m_live m0) nsz nal (LinkedListSpec.peak prog (length xs)) -> (Z.of_nat (LinkedListSpec.peak prog (length xs)) < u32_lim)%Z ->
  let '(answers, dropped, ys) := LinkedListSpec.spec_run prog xs in
  exists s' ps', l_run (DefaultAddrAlloc pick false) chk nsz nal prog s = Some (map Some answers, s') /\ l_drops s' = l_drops s ++ dropped /\
    list_in_memory nsz nal obj s' m0 ps' ys /\ LinkedListSpec.contents chk nsz s' ys /\
    exists s'', list_drop (DefaultAddrAlloc pick false) chk nsz s' = Ok tt s'' /\ l_drops s'' = l_drops s' ++ ys /\
      m_live (l_mem s'') ≡ₚ m_live m0.
Proof.
  intros T pick chk nsz nal obj m0 s ps xs prog LS HP M RM SH.
  set (B := LinkedListSpec.peak prog (length xs)) in *.
  assert (LB : (Z.of_nat (length xs) <= Z.of_nat B)%Z) by (pose proof (peak_ge prog (length xs)); lia).
  assert (R := lim_rep nsz nal obj s m0 ps xs _ M LB).
  assert (AO := default_ok pick false chk nsz nal obj 24 m0 false B LS HP (fun _ => RM) ltac:(lia)).
  assert (FO := default_frees pick false chk nsz nal obj 24 m0 false B LS (fun _ => RM) eq_refl).
  assert (H16 : (16 <= nsz)%Z) by apply (ls_node _ _ _ _ _ LS).
  destruct (LinkedListRuns.run_ok (DefaultAddrAlloc pick false) chk nsz nal obj _ false _ H16 (ls_align _ _ _ _ _ LS) SH AO prog s xs ps R (fun _ => FO) ltac:(done))
    as (l & s' & ps' & ys & d & E & R' & X & D & SP).
  destruct (SP eq_refl) as [S2 NN]. rewrite S2. exists s', ps'. rewrite <- (none_free l NN). split; [done|]. split; [done|].
  pose proof R' as [EN ES HI RG V LBB]. destruct HI as [DL DP DN DA].
  split; [|split].
  - split; try done. by eapply (rep_ring (DefaultAddrAlloc pick false) chk nsz nal obj _ false _ H16 (ls_align _ _ _ _ _ LS) SH AO).
  - by eapply (rep_contents (DefaultAddrAlloc pick false) chk nsz nal obj _ false _ H16 (ls_align _ _ _ _ _ LS) SH AO).
  - destruct (LinkedListRuns.drop_ok _ chk nsz nal obj _ false _ H16 (ls_align _ _ _ _ _ LS) SH AO s' ys ps' FO R') as (s'' & E' & DI' & D').
    exists s''. split; [done|]. split; [done|]. pose proof (di_live _ _ _ _ _ DI') as L. cbn in L. by rewrite app_nil_r in L.
Qed.

(** *** Hash tables *)
Lemma grown_stage bc nr n : grown_by_policy bc nr n -> exists g, in_stage g bc nr n.
Proof.
  induction 1 as [|bc nr n n' _ [g IH] L|bc nr n a nr' _ [g IH] E].
  - exists (Stage 1 0 0). apply stage_start.
  - exists g. by eapply stage_less.
  - pose proof IH as (Hg & EB & EN & L). destruct (decide (n = g_lasts g)) as [EQ|NE].
    + destruct (policy_turn g bc nr n true IH EQ) as [[_ P]|(g' & I' & _ & _ & _ & P)].
      { rewrite P in E. done. }
      rewrite P in E. injection E as <- <-. by exists g'.
    + rewrite (policy_quiet g bc nr n true IH) in E by lia. injection E as <- <-. exists g. split; [done|]. split; [done|]. split; [done|]. lia.
Qed.
Lemma grown_up g bc nr n k : in_stage g bc nr n -> grown_by_policy bc nr n -> (Z.of_nat k <= g_lasts g - n)%Z -> grown_by_policy bc nr (n + Z.of_nat k).
Proof.
  induction k as [|k IH]; intros I G L; [by rewrite Z.add_0_r|].
  assert (G' := IH I G ltac:(lia)). pose proof I as (Hg & EB & EN & B).
  replace (n + Z.of_nat (S k))%Z with (n + Z.of_nat k + 1)%Z by lia.
  apply (grown_added bc nr (n + Z.of_nat k) None nr); [done|]. apply (policy_quiet g); [|lia].
  split; [done|]. split; [done|]. split; [done|]. lia.
Qed.
Lemma grown_all l1 : forall g l2, stages = l1 ++ g :: l2 -> grown_by_policy (g_buckets g) (g_resize g) (g_lasts g).
Proof.
  induction l1 as [|g0 l1 IH] using rev_ind; intros g l2 E.
  - cbn in E. assert (g = Stage 1 0 0) as -> by (injection E; congruence). exact grown_empty.
  - rewrite <- app_assoc in E. cbn in E. pose proof (IH _ _ E) as G0.
    assert (I0 : in_stage g0 (g_buckets g0) (g_resize g0) (g_lasts g0)).
    { destruct (grown_stage _ _ _ G0) as (gx & (_ & _ & _ & L)). split; [rewrite E, elem_of_app, !elem_of_cons; tauto|]. split; [done|]. split; [done|]. lia. }
    destruct (policy_turn g0 _ _ _ true I0 eq_refl) as [[EL _]|(g' & I' & G2 & _ & BF & P)].
    { exfalso. pose proof (f_equal last E) as LE. rewrite last_app_cons, last_cons_cons in LE.
      assert (QN : forallb (fun x => (g_buckets x <=? g_buckets last_stage))%Z stages = true) by (vm_compute; reflexivity).
      pose proof (stages_grow_split _ _ _ _ _ stages_grow_ok E) as SG. unfold stage_grows in SG. subst g0.
      eapply forallb_forall in QN; [|apply elem_of_list_In; rewrite E, elem_of_app, !elem_of_cons; eauto]. cbn in QN, SG. lia. }
    pose proof (stages_turn_split _ _ _ _ stages_turn_ok E) as TU. unfold stage_turns in TU. cbn [head] in TU. rewrite P in TU.
    apply andb_prop in TU as [T1 T2]. assert (EB : g_buckets g' = g_buckets g) by lia. assert (ER : g_resize g' = g_resize g) by lia.
    assert (EG : g_lasts g' = g_lasts g).
    { assert (QN : forallb (fun x => forallb (fun y => negb (g_buckets x =? g_buckets y) || (g_lasts x =? g_lasts y))%Z stages) stages = true) by (vm_compute; reflexivity).
      pose proof I' as (Hg' & _). eapply forallb_forall in QN; [eapply forallb_forall in QN|apply elem_of_list_In; exact Hg'];
        [|apply elem_of_list_In; rewrite E, elem_of_app, !elem_of_cons; eauto]. lia. }
    pose proof (grown_added _ _ _ _ _ G0 P) as G1. cbn in G1.
    pose proof I' as (_ & _ & _ & B'). rewrite EB, ER in *.
    pose proof (grown_up g' _ _ _ (Z.to_nat (g_lasts g' - (g_lasts g0 + 1))) I' G1 ltac:(lia)) as G3.
    rewrite Z2Nat.id in G3 by lia. replace (g_lasts g0 + 1 + (g_lasts g' - (g_lasts g0 + 1)))%Z with (g_lasts g') in G3 by lia. by rewrite EG in G3.
Qed.
Lemma stage_grown g bc nr n : in_stage g bc nr n -> grown_by_policy bc nr n.
Proof.
  intros (Hg & -> & -> & L). apply elem_of_list_split in Hg as (l1 & l2 & E). eapply grown_removed; [by eapply grown_all|]. lia.
Qed.

Section tab.
Context {K V : Type}.
Variables (nsz nal : Z) (eb : nat) (hash : K -> Z) (eqb : K -> K -> bool).
Lemma nodes_chain (h : heap (tcell K V)) l : forall p, nodes_from nsz nal h p l <-> HashTableProofs.chain nsz nal h p l.
Proof.
  induction l as [|[b [k v]] l IH]; intros p; cbn; [done|]. split.
  - intros (-> & nx & E & C). exists nx. split; [done|]. split; [done|]. by apply IH.
  - intros (nx & -> & E & C). split; [done|]. exists nx. split; [done|]. by apply IH.
Qed.
Lemma nodes_chains (h : heap (tcell K V)) ps cs : Forall2 (nodes_from nsz nal h) ps cs <-> Forall2 (HashTableProofs.chain nsz nal h) ps cs.
Proof. split; induction 1; constructor; try done; by apply nodes_chain. Qed.

Lemma tim_rep (s : tstate K V) bs own : heap_wf (t_h s) -> table_in_memory nsz nal eb hash eqb s bs own ->
  exists arrs, own = map fst (concat bs) ++ arrs /\ TRep nsz nal eb hash eqb (wipe own (t_h s)) s bs arrs 4294967296.
Proof.
  intros W [(a & hs & by_ & EA & LH & EBk & F & OW) [ST NS] CN PO HA ND KD].
  destruct (grown_stage _ _ _ PO) as (g & G). pose proof (stage_range _ _ _ _ G) as [RB RE]. pose proof (stage_limit _ _ _ _ G) as LI. unfold grow_limit in LI.
  assert (LB : Z.of_nat (length bs) = t_bc s) by (rewrite <- LH; f_equal; symmetry; by eapply Forall2_length).
  assert (H0 : forall b, b ∈ own -> h_blk (wipe own (t_h s)) !! b = None) by (intros b Hb; rewrite wipe_lookup; by rewrite decide_True).
  assert (H1 : forall b, b ∉ own -> h_blk (t_h s) !! b = h_blk (wipe own (t_h s)) !! b) by (intros b Hb; rewrite wipe_lookup; by rewrite decide_False).
  assert (QL : forall g, g ∈ stages -> (g_lasts g < 4294967296)%Z).
  { assert (Q : forallb (fun g => g_lasts g <? 4294967296)%Z stages = true) by (vm_compute; reflexivity).
    intros g0 Hg. eapply forallb_forall in Q; [|by apply elem_of_list_In]. lia. }
  assert (PL : placed hash (t_bc s) bs).
  { intros i c e Hc He. unfold idx. rewrite (HA i c e Hc He). lia. }
  assert (SS : static_ok eb (wipe own (t_h s))) by (unfold static_ok; rewrite <- H1 by done; exact ST).
  destruct (Z.eqb_spec (t_bc s) 1) as [B1|B1].
  - destruct OW as [-> EO]. exists []. rewrite app_nil_r. split; [done|].
    rewrite EO in *. split; rewrite ?app_nil_r; try done.
    + exists eb, hs, by_. split; [done|]. split; [done|]. split; [by apply nodes_chains|]. by left.
    + intros b Hb. by apply elem_of_nil in Hb.
    + by exists g.
    + lia.
    + by left.
    + cbn. lia.
    + intros g0 Hg _. by apply QL.
  - destruct OW as [EBy EO]. exists [a]. split; [done|].
    rewrite EO in *. split; try done.
    + exists a, hs, by_. split; [done|]. split; [done|]. split; [by apply nodes_chains|]. right. exists []. split; [done|]. lia.
    + intros b Hb. apply elem_of_list_singleton in Hb as ->. exists hs. rewrite LH, <- EBy. done.
    + by exists g.
    + lia.
    + right. cbn. lia.
    + cbn. lia.
    + intros g0 Hg _. by apply QL.
Qed.

Lemma rep_tim h0 (s : tstate K V) cs arrs cnt : TRep nsz nal eb hash eqb h0 s cs arrs cnt ->
  exists own, table_in_memory nsz nal eb hash eqb s cs own /\ (forall b, b ∈ own -> b ∈ map fst (concat cs) ++ arrs) /\ (forall b, b ∈ map fst (concat cs) -> b ∈ own).
Proof.
  intros R. pose proof R as [W ST BC (a & ps & by_ & EA & E & F & OR) AR (g & G) EC PL ND FR FM KD _ _ _ _].
  pose proof (stage_range _ _ _ _ G) as [RB RE].
  assert (NE : eb ∉ map fst (concat cs) ++ arrs) by (by eapply TRep_eb).
  assert (SS : static_ok eb (t_h s)) by (unfold static_ok; rewrite (FM eb NE); exact ST).
  assert (LP : Z.of_nat (length ps) = t_bc s) by (rewrite BC; f_equal; by eapply Forall2_length).
  assert (HA : forall i l e, cs !! i = Some l -> e ∈ l -> (hash (fst (snd e)) mod t_bc s)%Z = Z.of_nat i).
  { intros i l e Hl He. pose proof (PL i l e Hl He) as P. unfold idx in P. pose proof (Z.mod_pos_bound (hash (fst (snd e))) (t_bc s)). lia. }
  destruct OR as [(-> & -> & B1)|(old & -> & B1)].
  - exists (map fst (concat cs)). rewrite app_nil_r in *. split; [|done]. split; try done.
    + exists eb, ps, by_. rewrite B1. split; [done|]. split; [lia|]. split; [exact E|]. split; [by apply nodes_chains|done].
    + by eapply stage_grown.
  - exists (map fst (concat cs) ++ [a]). split; [|split; set_solver].
    assert (by_ = (t_bc s + 1) * 8)%Z as EB.
    { destruct (AR a) as (ps' & SL); [left|]. unfold Slots in *. rewrite E in SL. injection SL as EQ1 EQ2.
      rewrite EQ1. unfold slots in EQ2. apply (f_equal length) in EQ2. rewrite !app_length, !map_length in EQ2. lia. }
    split; try done.
    + exists a, ps, by_. split; [done|]. split; [lia|]. split; [exact E|]. split; [by apply nodes_chains|].
      rewrite (proj2 (Z.eqb_neq _ _)) by lia. done.
    + split; [done|]. intros I. apply NE. set_solver.
    + by eapply stage_grown.
    + rewrite (app_assoc _ [a] old) in ND. by apply NoDup_app in ND as [? _].
Qed.
End tab.

Lemma L_C97_hash_map_taken_over :
forall (K V : Type) nsz nal eb chk hash eqb (s : tstate K V) buckets own (prog : list (hcall K V)),
  (0 < nsz)%Z -> layout_ok nsz nal = true -> KeyHash eqb hash -> heap_wf (t_h s) ->
  table_in_memory nsz nal eb hash eqb s buckets own ->
  let '(answers, dropped, m) := HashTableSpec.spec_run eqb prog (map snd (concat buckets)) in
  exists l s' buckets' own', h_run nsz nal eb chk hash eqb prog s = Some (l, s') /\ Forall2 same_answer l answers /\
    (exists d, t_drops s' = t_drops s ++ d /\ d ≡ₚ dropped) /\
    table_in_memory nsz nal eb hash eqb s' buckets' own' /\ map snd (concat buckets') ≡ₚ m /\
    (forall b, is_Some (h_blk (t_h s) !! b) -> b ∉ own -> h_blk (t_h s') !! b = h_blk (t_h s) !! b) /\
    exists s'' left d, ht_drop nsz nal eb s' = Ok tt s'' /\ t_drops s'' = t_drops s' ++ d /\ d ≡ₚ parts m /\
      agree_outside (left ++ own) (t_h s) (t_h s'') /\
      (forall b, b ∉ left -> b ∈ own -> h_blk (t_h s'') !! b = None) /\
      forall b, b ∈ left -> (b ∈ own \/ h_blk (t_h s) !! b = None) /\ exists bk, h_blk (t_h s'') !! b = Some bk /\ last (bk_cells bk) = Some (Some TOnes).
Proof.
  intros K V nsz nal eb chk hash eqb s bs own prog Hnsz Hlay KH W M.
  destruct (tim_rep nsz nal eb hash eqb s bs own W M) as (arrs & EO & R).
  set (h0 := wipe own (t_h s)) in *.
  assert (H0 : forall b, b ∈ own -> h_blk h0 !! b = None) by (intros b Hb; unfold h0; rewrite wipe_lookup; by rewrite decide_True).
  assert (H1 : forall b, b ∉ own -> h_blk h0 !! b = h_blk (t_h s) !! b) by (intros b Hb; unfold h0; rewrite wipe_lookup; by rewrite decide_False).
  pose proof (h_run_ok nsz nal eb chk hash eqb Hnsz Hlay KH prog h0 s bs arrs _ _ R (Permutation_refl _)) as H.
  destruct (HashTableSpec.spec_run eqb prog (map snd (concat bs))) as [[answers dr] m].
  destruct H as (l & s' & cs' & arrs' & d' & E & SA & R' & P' & D' & PD & _).
  destruct (rep_tim nsz nal eb hash eqb h0 s' cs' arrs' _ R') as (own' & M' & SUB & _).
  exists l, s', cs', own'. split; [done|]. split; [done|]. split; [by exists d'|]. split; [done|]. split; [done|]. split.
  - intros b Hb N. rewrite (tr_frame _ _ _ _ _ _ _ _ _ _ R'); [by apply H1|]. intros I.
    apply (tr_fresh _ _ _ _ _ _ _ _ _ _ R') in I. rewrite H1 in I by done. rewrite I in Hb. by destruct Hb.
  - destruct (ht_drop_ok nsz nal eb hash eqb Hnsz Hlay h0 s' cs' arrs' _ R') as (s'' & E' & DD & FR & AR & _).
    exists s'', arrs', (HashTableProofs.dropped cs'). split; [done|]. split; [done|]. split; [rewrite dropped_perm; unfold parts; by rewrite P'|]. split; [|split].
    + intros b Hb. apply not_elem_of_app in Hb as [N1 N2]. rewrite FR by done. by apply H1.
    + intros b N Hb. rewrite FR by done. by apply H0.
    + intros b Hb. split.
      { destruct (decide (b ∈ own)) as [I|I]; [by left|right]. rewrite <- H1 by done. apply (tr_fresh _ _ _ _ _ _ _ _ _ _ R'), elem_of_app. by right. }
      destruct (AR b Hb) as (_ & ps & SL). unfold Slots in SL. eexists. split; [exact SL|]. cbn. unfold slots. by rewrite last_snoc.
Qed.
