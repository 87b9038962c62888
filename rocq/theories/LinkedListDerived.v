(** Proofs of the properties stated in LinkedListProps.v. *)
From Verif Require Import Base Alloc AddrMem FixedPool FixedPoolSpec LinkedList LinkedListSpec.
Local Open Scope Z_scope.

From Verif Require Import FixedPoolProofs LinkedListProofs LinkedListCalls LinkedListRuns LinkedListFixed.

(** ** The allocator of the examples *)
Lemma fit_honest {T} start stride n : honest (@fit_pick T start stride n).
Proof.
  intros m bytes align HB. unfold fit_pick. destruct (0 <? align) eqn:EA; [|by left].
  destruct (List.find _ _) as [p|] eqn:E; [right|by left]. apply List.find_some in E as [_ E]. unfold fits in E.
  rewrite !andb_true_iff in E. destruct E as [[[E1 E2] E3] E4]. split; [lia|]. split; [lia|]. split; [apply Z.mod_divide; lia|].
  intros r Hr. rewrite forallb_forall in E4. apply elem_of_list_In in Hr. specialize (E4 _ Hr). by destruct (meets p bytes r).
Qed.

Lemma blockers (cand L : list Z) (sz : Z) : NoDup cand -> (forall c c', c ∈ cand -> c' ∈ cand -> c <> c' -> c + 2 * sz <= c' \/ c' + 2 * sz <= c) ->
  (forall c, c ∈ cand -> exists p, p ∈ L /\ p < c + sz /\ c < p + sz) -> (length cand <= length L)%nat.
Proof.
  intros ND SP H.
  assert (exists ps, length ps = length cand /\ NoDup ps /\ (forall p, p ∈ ps -> p ∈ L /\ exists c, c ∈ cand /\ p < c + sz /\ c < p + sz)) as (ps & E & NP & HP).
  { induction cand as [|c cand IH]; [exists []; split; [done|]; split; [constructor|]; intros p Hp; by apply elem_of_nil in Hp|].
    apply NoDup_cons in ND as [NI ND]. destruct IH as (ps & E & NP & HP); [done| | |].
    - intros; apply SP; by try constructor.
    - intros; apply H; by constructor.
    - destruct (H c ltac:(constructor)) as (p & Hp & B1 & B2). exists (p :: ps). split; [cbn; lia|]. split.
      + apply NoDup_cons. split; [|done]. intros Hq. destruct (HP _ Hq) as (_ & c' & Hc' & B3 & B4).
        assert (c <> c') by (by intros ->). destruct (SP c c'); [constructor|by constructor|done|lia|lia].
      + intros q Hq. apply elem_of_cons in Hq as [-> |Hq]; [split; [done|]; exists c; split; [constructor|done]|].
        destruct (HP _ Hq) as (? & c' & ? & ?). split; [done|]. exists c'. split; [by constructor|done]. }
  rewrite <- E. apply submseteq_length. apply NoDup_submseteq; [done|]. intros p Hp. by apply HP.
Qed.

Lemma fit_room {T} start stride n live0 sz al : 0 < sz -> 0 < al -> 0 < start -> 2 * sz <= stride -> (al | start) -> (al | stride) ->
  start + Z.of_nat n * stride < usize_lim -> (forall r, r ∈ live0 -> r_base r + r_bytes r <= start) -> 
  room (@fit_pick T start stride n) live0 sz al n.
Proof.
  intros Hs Ha H0 HS D1 D2 HL HR m L LT P. unfold fit_pick. rewrite (proj2 (Z.ltb_lt 0 al)) by done.
  set (cand := map _ _). destruct (List.find _ _) as [p|] eqn:E.
  - apply List.find_some in E as [_ E]. unfold fits in E. rewrite !andb_true_iff in E. lia.
  - exfalso. pose proof (List.find_none _ _ E) as N. clear E.
    assert (CE : forall c, c ∈ cand -> exists i, (i < n)%nat /\ c = start + Z.of_nat i * stride).
    { intros c Hc. apply elem_of_list_In, in_map_iff in Hc as (i & <- & Hi). apply in_seq in Hi. exists i. split; [lia|done]. }
    assert (length cand = n) as LC by (subst cand; by rewrite map_length, seq_length).
    assert (length cand <= length L)%nat; [|lia]. apply (blockers _ _ sz).
    + subst cand. apply NoDup_fmap_2; [intros i j; nia|apply NoDup_ListNoDup, seq_NoDup].
    + intros c c' Hc Hc' NE. apply CE in Hc as (i & _ & ->). apply CE in Hc' as (j & _ & ->). assert (i <> j) by (by intros ->). nia.
    + intros c Hc. destruct (CE c Hc) as (i & Hi & EC). specialize (N c ltac:(by apply elem_of_list_In)). unfold fits in N.
      rewrite !andb_false_iff in N. destruct N as [[[N|N]|N]|N].
      * exfalso. nia.
      * exfalso. nia.
      * exfalso. assert (c mod al = 0); [|lia]. apply Z.mod_divide; [lia|]. subst c. apply Z.divide_add_r; [done|]. by apply Z.divide_mul_r.
      * assert (exists r, r ∈ m_live m /\ meets c sz r = true) as (r & Hr & M).
        { clear -N. induction (m_live m) as [|r l IH]; [done|]. cbn in N. destruct (meets c sz r) eqn:M; [exists r; split; [constructor|done]|].
          destruct (IH N) as (r' & ? & ?). exists r'. split; [by constructor|done]. }
        rewrite P in Hr. unfold meets in M. apply elem_of_app in Hr as [Hr|Hr]; [exfalso; specialize (HR _ Hr); nia|].
        apply elem_of_list_In, in_map_iff in Hr as (p & <- & Hp). cbn in M. exists p. split; [by apply elem_of_list_In|]. lia.
Qed.

Lemma lx_room bytes k : bytes <= 1024 -> (k <= 10)%nat -> room lx_pick (m_live (lx_mem bytes)) 24 8 k.
Proof.
  intros HB HK m L LT P. refine (fit_room 65536 64 10 (m_live (lx_mem bytes)) 24 8 _ _ _ _ _ _ _ _ m L _ P); try (unfold usize_lim; lia).
  - by exists 8192.
  - by exists 8.
  - intros r Hr. apply elem_of_list_singleton in Hr as ->. cbn. lia.
Qed.

Lemma lx_layout : list_layout 24 8.
Proof. split; [|split; [lia|done]]. split; [exists 3; lia|]. split; [lia|]. split; [by exists 3|done]. Qed.
Lemma lx_setup bytes : 0 < bytes <= 1024 -> ListSetup (lx_mem bytes) 4096 bytes 24 8.
Proof.
  intros HB. split; [apply lx_layout|unfold usize_lim; lia|by exists 512| |].
  - unfold accessible. cbn. rewrite orb_false_r. lia.
  - intros r Hr. apply elem_of_list_singleton in Hr as ->. cbn. lia.
Qed.

(** ** Generalities *)
Lemma ao_mono {A T} (aa : AddrAlloc A T) chk nsz nal s B B' nul I : AllocOK aa chk nsz nal s B nul I -> B' <= B -> AllocOK aa chk nsz nal s B' nul I.
Proof. intros [H1 H2 H3 H4 H5 H6 H7] LE. split; try done. intros. apply H7; [done|lia]. Qed.
Lemma lrep_mono {A T} s B B' I (st : lstate A T) xs ps : LRep s B I st xs ps -> Z.of_nat (length xs) <= B' -> LRep s B' I st xs ps.
Proof. intros [H1 H2 H3 H4 H5 H6] LE. by split. Qed.

Lemma none_free {X} (l : list (option X)) : None ∉ l -> l = map Some (omap id l).
Proof.
  induction l as [|[x|] l IH]; intros N; [done| |exfalso; apply N; constructor]. cbn. f_equal. apply IH. intros H. apply N. by constructor.
Qed.

Section rep.
Context {A T : Type} (aa : AddrAlloc A T) (chk : bool) (nsz nal s B : Z) (nul : bool) (I : A -> mem T -> list Z -> Prop).
Hypothesis Hsz : 16 <= nsz.
Hypothesis Hs : (8 | s).
Hypothesis HB : B < u32_lim.
Hypothesis AO : AllocOK aa chk nsz nal s B nul I.

Lemma zip_in (l l' : list Z) a : a ∈ l -> length l' = length l -> exists b, b ∈ l' /\ (a, b) ∈ zip l l'.
Proof using Type.
  intros Ha EL. apply elem_of_list_lookup in Ha as (i & Hi). destruct (lookup_lt_is_Some_2 l' i) as (b & Hb).
  { apply lookup_lt_Some in Hi. lia. }
  exists b. split; [by eapply elem_of_list_lookup_2|]. apply elem_of_list_lookup. exists i. apply lookup_zip_with_Some. eauto.
Qed.

Lemma rep_ring st xs ps : LRep s B I st xs ps -> ring_of nsz s st ps xs.
Proof using All.
  intros H. destruct (rep_follow aa chk nsz nal s B nul I Hsz Hs HB AO st xs ps H) as (F1 & F2 & F3 & F4).
  split; [done|]. split; [done|]. split; [done|]. split; [done|]. pose proof H as [EN ES HI R V LB].
  intros a Ha. destruct (zip_in (s :: ps) (ps ++ [s]) a Ha) as (b & Hb & Z); [rewrite app_length; cbn; lia|].
  exists b. assert (Hb' : b ∈ s :: ps).
  { apply elem_of_app in Hb as [Hb|Hb]; [by constructor|]. apply elem_of_list_singleton in Hb as ->. constructor. }
  split; [done|]. unfold ring in R. rewrite Forall_forall in R. destruct (R _ Z) as [L1 L2]. cbn in L1, L2.
  destruct (alloc_words aa chk nsz nal s B nul I Hsz Hs AO _ _ _ a HI Ha) as [W1 _].
  destruct (alloc_words aa chk nsz nal s B nul I Hsz Hs AO _ _ _ b HI Hb') as [_ W2].
  unfold load_word. rewrite W1, W2. done.
Qed.

Lemma rep_iterates st xs ps : LRep s B I st xs ps -> iterates chk nsz st xs.
Proof using All.
  intros H k. destruct (rep_iter_take aa chk nsz nal s B nul I Hsz Hs HB AO k st xs ps H) as (i & i' & E1 & E2 & E3 & E4).
  exists i, i'. unfold size_hint. rewrite E2, E4. done.
Qed.
Lemma rep_contents st xs ps : LRep s B I st xs ps -> contents chk nsz st xs.
Proof using All. intros H. by eapply (iter_all_ok aa chk nsz nal s B nul I Hsz Hs HB AO). Qed.

Lemma rep_iter_alias st x xs ps : LRep s B I st (x :: xs) ps ->
  exists i p i', iter st = Ok i st /\ iter_next chk i st = Ok (Some p, i') st.
Proof using All.
  intros H. pose proof H as [EN ES HI R V LB]. apply Forall2_cons_inv_r in V as (p & ps' & E & V & ->).
  exists (LIter s s (Z.of_nat (length (x :: xs)))), p, (LIter s p (Z.of_nat (length xs))). split; [unfold iter, size_, bind, gets; by rewrite EN, ES|].
  unfold iter_next. unfold bind at 1. cbn [it_current it_sentinel it_len].
  pose proof (proj1 (ends aa chk nsz nal s B nul I Hsz Hs AO _ _ _ H)) as EF. cbn [first_of hd] in EF. rewrite EF.
  rewrite (proj2 (Z.eqb_neq p s)) by (eapply (alloc_ne aa chk nsz nal s B nul I); [done|exact AO|done|constructor]).
  unfold bind. unfold u32_lim in HB. rewrite usizeZ_ok by (cbn [length] in *; unfold usize_lim; lia). unfold ret. do 3 f_equal. cbn [length]. lia.
Qed.
End rep.

Lemma peak_pushes {T} (cs : list (lcall T)) : forall k, forallb (fun c => negb (frees c)) cs = true ->
  peak cs k = (k + length (concat (map pushed cs)))%nat.
Proof.
  induction cs as [|c cs IH]; intros k H; cbn [peak map concat forallb] in *; [cbn; lia|]. apply andb_true_iff in H as [H1 H2].
  rewrite (IH _ H2), app_length. destruct (len_call_ge c k) as [[E _]|E]; [by rewrite E in H1|]. rewrite E. lia.
Qed.
Lemma no_frees {T} (cs : list (lcall T)) : forallb (fun c => negb (frees c)) cs = true -> ~ exists c, c ∈ cs /\ frees c = true.
Proof. intros H (c & Hc & F). rewrite forallb_forall in H. apply elem_of_list_In in Hc. specialize (H _ Hc). by rewrite F in H. Qed.

Lemma follow_unique {T} (m : mem T) e l : forall l' a, follow_next m a l e -> follow_next m a l' e -> e ∉ l -> e ∉ l' -> l = l'.
Proof.
  induction l as [|q l IH]; intros [|p l'] a F1 F2 N1 N2; cbn in *; try done.
  - destruct F2 as [F2 _]. rewrite F1 in F2. injection F2 as ->. exfalso. apply N2. constructor.
  - destruct F1 as [F1 _]. rewrite F1 in F2. injection F2 as ->. exfalso. apply N1. constructor.
  - destruct F1 as [F1 G1], F2 as [F2 G2]. rewrite F1 in F2. injection F2 as <-. f_equal. eapply IH; [exact G1|exact G2| |]; intros C; [apply N1|apply N2]; by constructor.
Qed.

(** ** Lists over the default allocator *)
Section def.
Context {T : Type}.
Variables (pick : mem T -> Z -> Z -> Z) (strict chk : bool) (nsz nal obj : Z) (m0 : mem T) (prog : list (lcall T)).
Hypothesis LS : ListSetup m0 obj 24 nsz nal.
Hypothesis HP : honest pick.
Hypothesis SH : short prog.
Hypothesis ST : strict = false \/ forallb (fun c => negb (frees c)) prog = true.

Lemma def_ao nul : (nul = false -> room pick (m_live m0) nsz nal (peak prog 0)) ->
  AllocOK (DefaultAddrAlloc pick strict) chk nsz nal obj (Z.of_nat (peak prog 0)) nul (DI nsz nal m0).
Proof using LS HP. intros HN. by apply (default_ok pick strict chk nsz nal obj 24 m0 nul (peak prog 0) LS HP HN). Qed.
Lemma def_sz : 16 <= nsz.
Proof using LS. apply (ls_node _ _ _ _ _ LS). Qed.

Lemma def_run nul : (nul = false -> room pick (m_live m0) nsz nal (peak prog 0)) ->
  exists l s ps xs, built pick strict chk nsz nal obj m0 prog l s /\ LRep obj (Z.of_nat (peak prog 0)) (DI nsz nal m0) s xs ps /\
    explains prog l (l_drops s) [] xs /\ (nul = false -> spec_run prog [] = (omap id l, l_drops s, xs) /\ None ∉ l).
Proof using LS HP SH ST.
  intros HN. destruct (new_ok pick nsz nal obj 24 m0 nul (peak prog 0) LS HN ltac:(lia)) as (s0 & E0 & R0 & D0).
  destruct (run_ok (DefaultAddrAlloc pick strict) chk nsz nal obj _ nul _ def_sz (ls_align _ _ _ _ _ LS) SH (def_ao nul HN) prog s0 [] [] R0) as
    (l & s & ps & xs & d & E1 & R1 & X1 & D1 & S1).
  - intros FR. destruct ST as [ST'|ST']; [|by destruct (no_frees _ ST')].
    by apply (default_frees pick strict chk nsz nal obj 24 m0 nul (peak prog 0) LS HN).
  - done.
  - rewrite D0 in D1. cbn in D1. subst d. exists l, s, ps, xs. split; [by exists s0|]. done.
Qed.

Lemma def_built l s : built pick strict chk nsz nal obj m0 prog l s -> exists xs ps,
  LRep obj (Z.of_nat (peak prog 0)) (DI nsz nal m0) s xs ps /\ explains prog l (l_drops s) [] xs.
Proof using LS HP SH ST.
  intros (s0 & E0 & E1). destruct (def_run true ltac:(done)) as (l' & s' & ps & xs & (s0' & E0' & E1') & R & X & _).
  rewrite E0 in E0'. injection E0' as <-. rewrite E1 in E1'. injection E1' as <- <-. by exists xs, ps.
Qed.
Lemma def_ao' : AllocOK (DefaultAddrAlloc pick strict) chk nsz nal obj (Z.of_nat (peak prog 0)) true (DI nsz nal m0).
Proof using LS HP. by apply def_ao. Qed.
End def.

(** ** Fixed lists *)
Definition FX {T} (m0 : mem T) (nsz nal obj : Z) (n : nat) (bytes base len : Z) : Prop :=
  ListSetup m0 obj bytes nsz nal /\ PoolSetup m0 base len nsz nal /\ obj + 16 <= base /\ 16 <= bytes /\
  pool_count base len nsz nal = n /\ accessible m0 base (pool_end base len nsz nal + 1 - base) = true.
Lemma fixed_fx {T} (m0 : mem T) nsz nal obj n : FixedSetup m0 obj nsz nal n ->
  FX m0 nsz nal obj n (fixed_list_bytes nsz nal (Z.of_nat n)) (obj + fixed_buffer_off nal) (Z.of_nat n * nsz).
Proof. intros [LS D]. split; [done|]. by apply fixed_setup. Qed.
Lemma conformant_fx {T} (m0 : mem T) nsz nal obj n : ConformantSetup m0 obj nsz nal n ->
  FX m0 nsz nal obj n (conformant_bytes nsz (Z.of_nat n)) (obj + base_list_size) ((Z.of_nat n + 1) * nsz - 1).
Proof. intros LS. split; [done|]. by apply conformant_setup. Qed.

Section fixd.
Context {T : Type}.
Variables (pick : mem T -> Z -> Z -> Z) (strict chk : bool) (nsz nal obj : Z) (n : nat) (bytes base len : Z) (m0 : mem T) (prog : list (lcall T)).
Hypothesis H : FX m0 nsz nal obj n bytes base len.
Local Notation aa := (FixedListAlloc pick strict chk nsz nal).

Lemma fx_sz : 16 <= nsz.
Proof using H. apply (ls_node _ _ _ _ _ (proj1 H)). Qed.
Lemma fx_al : (8 | obj).
Proof using H. apply (ls_align _ _ _ _ _ (proj1 H)). Qed.

(** A created fixed list. *)
Lemma fx_new s0 : fixed_new_at chk nsz nal obj base len m0 = Ok tt s0 -> l_drops s0 = [] /\ m_live (l_mem s0) = m_live m0 /\ m_time (l_mem s0) = m_time m0 /\
  FX (l_mem s0) nsz nal obj n bytes base len /\
  LRep obj (Z.of_nat n) (BI nsz nal base len (l_mem s0)) s0 [] [] /\ forall B, 0 <= B -> LRep obj B (GI nsz nal base len (l_mem s0)) s0 [] [].
Proof using H.
  intros E. destruct H as (LS & PS & HO & H16 & HC & PAD). destruct (fixed_new_ok chk nsz nal obj bytes base len m0 LS PS H16 HO) as (s0' & E' & D & EL & ET & LS' & PS' & R1 & R2).
  rewrite E in E'. injection E' as <-. rewrite HC in R1. split; [done|]. split; [done|]. split; [done|]. split; [|done].
  split; [done|]. split; [done|]. split; [done|]. split; [done|]. split; [done|]. unfold accessible. by rewrite EL.
Qed.
Lemma fx_exists : exists s0, fixed_new_at chk nsz nal obj base len m0 = Ok tt s0.
Proof using H. destruct H as (LS & PS & HO & H16 & HC & PAD). destruct (fixed_new_ok chk nsz nal obj bytes base len m0 LS PS H16 HO) as (s0' & E' & _). by exists s0'. Qed.

(** While the buffer suffices. *)
Lemma fx_bounded s0 : fixed_new_at chk nsz nal obj base len m0 = Ok tt s0 -> (peak prog 0 <= n)%nat -> short prog ->
  exists l s, l_run aa chk nsz nal prog s0 = Some (l, s) /\ as_a_list chk nsz prog l s /\ 
    m_live (l_mem s) = m_live m0 /\ m_time (l_mem s) = m_time m0 /\
    exists s', list_drop aa chk nsz s = Ok tt s' /\ m_live (l_mem s') = m_live m0 /\ m_time (l_mem s') = m_time m0.
Proof using H.
  intros E0 PK SH. destruct (fx_new s0 E0) as (D0 & EL & ET & (LS & PS & HO & H16 & HC & PAD) & R0 & _).
  assert (AO := bounded_ok pick strict chk nsz nal obj bytes base len (l_mem s0) LS PS H16 HO). rewrite HC in AO.
  assert (AO' := ao_mono _ _ _ _ _ _ (Z.of_nat (peak prog 0)) _ _ AO ltac:(lia)).
  assert (R0' := lrep_mono _ _ (Z.of_nat (peak prog 0)) _ _ _ _ R0 ltac:(cbn; lia)).
  assert (FR := bounded_frees pick strict chk nsz nal obj bytes base len (l_mem s0) LS PS H16 HO).
  destruct (run_ok aa chk nsz nal obj _ false _ fx_sz fx_al SH AO' prog s0 [] [] R0' ltac:(done) ltac:(cbn; lia)) as (l & s & ps & xs & d & E1 & R1 & X1 & D1 & S1).
  destruct (S1 eq_refl) as [S2 N]. rewrite D0 in D1. cbn in D1. subst d. exists l, s. split; [done|]. split.
  { exists (omap id l), xs. split; [done|]. split; [by apply none_free|]. by eapply (rep_contents aa chk nsz nal obj _ false _ fx_sz fx_al SH AO'). }
  destruct (lr_alloc _ _ _ _ _ _ R1) as (avail & _ & _ & ET1 & EL1). rewrite ET1, EL1. split; [done|]. split; [done|].
  destruct (drop_ok aa chk nsz nal obj _ false _ fx_sz fx_al SH AO' s xs ps FR R1) as (s' & E2 & (avail2 & _ & _ & ET2 & EL2) & _).
  exists s'. rewrite ET2, EL2. done.
Qed.

Hypothesis HP : honest pick.

Lemma fx_general nul s0 : fixed_new_at chk nsz nal obj base len m0 = Ok tt s0 -> short prog ->
  strict = false \/ forallb (fun c => negb (frees c)) prog = true -> (nul = false -> room pick (m_live m0) nsz nal (peak prog 0)) ->
  exists l s ps xs, l_run aa chk nsz nal prog s0 = Some (l, s) /\ LRep obj (Z.of_nat (peak prog 0)) (GI nsz nal base len (l_mem s0)) s xs ps /\
    explains prog l (l_drops s) [] xs /\ (nul = false -> spec_run prog [] = (omap id l, l_drops s, xs) /\ None ∉ l).
Proof using H HP.
  intros E0 SH ST HN. destruct (fx_new s0 E0) as (D0 & EL & ET & (LS & PS & HO & H16 & HC & PAD) & _ & R0). rewrite <- EL in HN.
  specialize (R0 (Z.of_nat (peak prog 0)) ltac:(lia)).
  assert (AO := general_ok pick strict chk nsz nal obj bytes base len (l_mem s0) LS PS H16 HO HP PAD nul (peak prog 0) HN).
  destruct (run_ok aa chk nsz nal obj _ nul _ fx_sz fx_al SH AO prog s0 [] [] R0) as (l & s & ps & xs & d & E1 & R1 & X1 & D1 & S1).
  - intros FR. destruct ST as [ST'|ST']; [|by destruct (no_frees _ ST')].
    by apply (general_frees pick strict chk nsz nal obj bytes base len (l_mem s0) LS PS H16 HO HP PAD nul (peak prog 0) HN).
  - done.
  - rewrite D0 in D1. cbn in D1. subst d. exists l, s, ps, xs. done.
Qed.
Lemma fx_ao s0 B : fixed_new_at chk nsz nal obj base len m0 = Ok tt s0 -> AllocOK aa chk nsz nal obj (Z.of_nat B) true (GI nsz nal base len (l_mem s0)).
Proof using H HP.
  intros E0. destruct (fx_new s0 E0) as (D0 & EL & ET & (LS & PS & HO & H16 & HC & PAD) & _ & R0).
  by apply (general_ok pick strict chk nsz nal obj bytes base len (l_mem s0) LS PS H16 HO HP PAD).
Qed.

Lemma fx_refines s0 : fixed_new_at chk nsz nal obj base len m0 = Ok tt s0 -> short prog -> strict = false -> room pick (m_live m0) nsz nal (peak prog 0) ->
  exists l s, l_run aa chk nsz nal prog s0 = Some (l, s) /\ as_a_list chk nsz prog l s.
Proof using H HP.
  intros E0 SH ST HR. destruct (fx_general false s0 E0 SH (or_introl ST) (fun _ => HR)) as (l & s & ps & xs & E & R & X & S1). destruct (S1 eq_refl) as [S2 N].
  exists l, s. split; [done|]. exists (omap id l), xs. split; [done|]. split; [by apply none_free|].
  by eapply (rep_contents aa chk nsz nal obj _ true _ fx_sz fx_al SH (fx_ao s0 (peak prog 0) E0)).
Qed.

Lemma fx_facts s0 l s : fixed_new_at chk nsz nal obj base len m0 = Ok tt s0 -> short prog -> strict = false -> l_run aa chk nsz nal prog s0 = Some (l, s) ->
  exists ps xs, explains prog l (l_drops s) [] xs /\ contents chk nsz s xs /\ ring_of nsz obj s ps xs /\ iterates chk nsz s xs /\
  exists s', list_drop aa chk nsz s = Ok tt s' /\ l_drops s' = l_drops s ++ xs /\ m_live (l_mem s') ≡ₚ m_live m0.
Proof using H HP.
  intros E0 SH ST E1. destruct (fx_general true s0 E0 SH (or_introl ST) ltac:(done)) as (l' & s' & ps & xs & E & R & X & _). rewrite E1 in E. injection E as <- <-.
  assert (AO := fx_ao s0 (peak prog 0) E0). exists ps, xs. split; [done|]. split; [by eapply (rep_contents aa chk nsz nal obj _ true _ fx_sz fx_al SH AO)|].
  split; [by eapply (rep_ring aa chk nsz nal obj _ true _ fx_sz fx_al SH AO)|]. split; [by eapply (rep_iterates aa chk nsz nal obj _ true _ fx_sz fx_al SH AO)|].
  destruct (fx_new s0 E0) as (D0 & EL & ET & (LS & PS & HO & H16 & HC & PAD) & _ & _).
  assert (FR := general_frees pick strict chk nsz nal obj bytes base len (l_mem s0) LS PS H16 HO HP PAD true 0 ltac:(done) ST).
  destruct (drop_ok aa chk nsz nal obj _ true _ fx_sz fx_al SH AO s xs ps FR R) as (s' & E2 & (slots & avail & over & OI & P) & D2).
  exists s'. split; [done|]. split; [done|]. apply Permutation_nil in P. apply app_eq_nil in P as [-> ->].
  pose proof (di_live _ _ _ _ _ (oi_over _ _ _ _ _ _ _ _ _ _ OI)) as L. cbn in L. rewrite app_nil_r, EL in L. done.
Qed.

(** The buffer is used first. *)
Lemma inside_slots (m1 : mem T) q m slots avail over : FX m1 nsz nal obj n bytes base len -> OInv base len nsz nal m1 q m slots avail over ->
  inside base len (slots ++ over) = slots.
Proof using Type.
  intros (LS & PS & HO & H16 & HC & PAD) OI. pose proof (proj1 (proj2 (ls_node _ _ _ _ _ LS))) as Z16. unfold inside. rewrite List.filter_app.
  replace (List.filter _ over) with (@nil Z).
  - rewrite app_nil_r. assert (forall p, p ∈ slots -> base <= p < base + len) as IN.
    { intros p Hp. destruct (slot_bounds base len nsz nal m1 PS _ m slots avail p (oi_pool _ _ _ _ _ _ _ _ _ _ OI) ltac:(apply elem_of_app; by left)) as (? & ? & ? & ? & _).
      pose proof (end_ok base len nsz nal m1 PS). lia. }
    clear -IN. induction slots as [|p l IH]; [done|]. cbn [List.filter]. pose proof (IN p ltac:(constructor)).
    rewrite (proj2 (Z.leb_le _ _)), (proj2 (Z.ltb_lt _ _)) by lia. cbn [andb]. f_equal. apply IH. intros; apply IN. by constructor.
  - assert (forall p, p ∈ over -> ~ (base <= p < base + len)) as OUT.
    { intros p Hp IN. pose proof PS as [_ PB PL _ PM].
      destruct (dinv_apart nsz nal (m_live m1) (ls_wf _ _ _ _ _ LS) m1 m over p base len (oi_over _ _ _ _ _ _ _ _ _ _ OI) eq_refl Hp); [lia|done|lia|lia]. }
    clear -OUT. induction over as [|p l IH]; [done|]. cbn [List.filter]. pose proof (OUT p ltac:(constructor)).
    destruct (base <=? p) eqn:E1; cbn [andb]; [destruct (p <? base + len) eqn:E2; [lia|]|]; apply IH; intros; apply OUT; by constructor.
Qed.
Lemma inside_perm b k l l' : l ≡ₚ l' -> inside b k l ≡ₚ inside b k l'.
Proof using Type.
  unfold inside. induction 1; cbn [List.filter]; [done| | |by etransitivity].
  - case_match; [by constructor|done].
  - repeat case_match; try done. constructor.
Qed.

Lemma fx_first s0 l s ps cs : fixed_new_at chk nsz nal obj base len m0 = Ok tt s0 -> short prog -> strict = false ->
  l_run aa chk nsz nal prog s0 = Some (l, s) -> follow_next (l_mem s) obj ps obj -> obj ∉ ps ->
  forallb (fun c => negb (frees c)) cs = true -> (length (inside base len ps) + length (concat (map pushed cs)) <= n)%nat ->
  Z.of_nat (length ps + length (concat (map pushed cs))) < u32_lim ->
  exists l' s', l_run aa chk nsz nal cs s = Some (l', s') /\ None ∉ l' /\ m_time (l_mem s') = m_time (l_mem s) /\ m_live (l_mem s') ≡ₚ m_live (l_mem s).
Proof using H HP.
  intros E0 SH ST E1 FN NI NF LE LT. destruct (fx_general true s0 E0 SH (or_introl ST) ltac:(done)) as (l0 & s1 & ps' & xs & E & R & X & _).
  rewrite E1 in E. injection E as <- <-. assert (AO := fx_ao s0 (peak prog 0) E0).
  destruct (rep_follow aa chk nsz nal obj _ true _ fx_sz fx_al SH AO s xs ps' R) as (F1 & _ & _ & ND).
  assert (EP : ps' = ps).
  { apply NoDup_cons in ND as [ND _]. by eapply follow_unique. }
  subst ps'. destruct (fx_new s0 E0) as (D0 & EL & ET & FX1 & _ & _). pose proof FX1 as (LS & PS & HO & H16 & HC & PAD).
  pose proof R as [EN ES HI RR V LB]. destruct HI as (slots & avail & over & OI & P).
  assert (LI : length (inside base len ps) = length slots) by (rewrite (Permutation_length (inside_perm _ _ _ _ P)); by rewrite (inside_slots _ _ _ _ _ _ FX1 OI)).
  assert (LP : length ps = (length slots + length over)%nat) by (by rewrite P, app_length).
  assert (LX : length xs = length ps) by (symmetry; by eapply Forall2_length).
  set (k := (length ps + length (concat (map pushed cs)))%nat) in *.
  assert (AF := slots_first_ok pick strict chk nsz nal obj bytes base len (l_mem s0) LS PS H16 HO HP PAD true 0 ltac:(done) over (m_time (l_mem s))).
  rewrite HC in AF. assert (AF' := ao_mono _ _ _ _ _ _ (Z.of_nat k) _ _ AF ltac:(lia)).
  assert (RF : LRep obj (Z.of_nat k) (FI nsz nal base len (l_mem s0) over (m_time (l_mem s))) s xs ps).
  { split; try done; [|lia]. exists slots, avail. done. }
  destruct (run_ok aa chk nsz nal obj _ false _ fx_sz fx_al LT AF' cs s xs ps RF) as (l' & s' & ps2 & xs2 & d & E2 & R2 & _ & _ & S2).
  - intros FR. by destruct (no_frees _ NF).
  - rewrite peak_pushes by done. lia.
  - exists l', s'. split; [done|]. split; [by apply S2|]. destruct (lr_alloc _ _ _ _ _ _ R2) as (sl2 & av2 & OI2 & _ & ET2). split; [done|].
    rewrite (di_live _ _ _ _ _ (oi_over _ _ _ _ _ _ _ _ _ _ OI2)). by rewrite (di_live _ _ _ _ _ (oi_over _ _ _ _ _ _ _ _ _ _ OI)).
Qed.
End fixd.

Lemma L_C53_list_refines_list :
forall (T : Type) (pick : mem T -> Z -> Z -> Z) (chk : bool) (nsz nal obj : Z) (m0 : mem T) (prog : list (lcall T)),
  ListSetup m0 obj 24 nsz nal -> honest pick -> room pick (m_live m0) nsz nal (peak prog 0) -> short prog ->
  exists l s, built pick false chk nsz nal obj m0 prog l s /\ as_a_list chk nsz prog l s.
Proof.
  intros T pick chk nsz nal obj m0 prog LS HP HR SH.
  destruct (def_run pick false chk nsz nal obj m0 prog LS HP SH (or_introl eq_refl) false (fun _ => HR)) as (l & s & ps & xs & HB & R & X & S1).
  destruct (S1 eq_refl) as [S2 N]. exists l, s. split; [done|]. exists (omap id l), xs. split; [done|]. split; [by apply none_free|].
  by eapply (rep_contents (DefaultAddrAlloc pick false) chk nsz nal obj _ true _ (def_sz _ _ _ _ LS) (ls_align _ _ _ _ _ LS) SH (def_ao' pick false chk nsz nal obj m0 prog LS HP)).
Qed.

Lemma L_C53_list_after_refusals :
forall (T : Type) (pick : mem T -> Z -> Z -> Z) (chk : bool) (nsz nal obj : Z) (m0 : mem T) (prog : list (lcall T)),
  ListSetup m0 obj 24 nsz nal -> honest pick -> short prog ->
  exists l s xs, built pick false chk nsz nal obj m0 prog l s /\ explains prog l (l_drops s) [] xs /\ contents chk nsz s xs.
Proof.
  intros T pick chk nsz nal obj m0 prog LS HP SH.
  destruct (def_run pick false chk nsz nal obj m0 prog LS HP SH (or_introl eq_refl) true ltac:(done)) as (l & s & ps & xs & HB & R & X & _).
  exists l, s, xs. split; [done|]. split; [done|].
  by eapply (rep_contents (DefaultAddrAlloc pick false) chk nsz nal obj _ true _ (def_sz _ _ _ _ LS) (ls_align _ _ _ _ _ LS) SH (def_ao' pick false chk nsz nal obj m0 prog LS HP)).
Qed.

Lemma L_C54_ring_consistent :
forall (T : Type) (pick : mem T -> Z -> Z -> Z) (chk : bool) (nsz nal obj : Z) (m0 : mem T) (prog : list (lcall T)) l s,
  ListSetup m0 obj 24 nsz nal -> honest pick -> short prog -> built pick false chk nsz nal obj m0 prog l s ->
  exists ps xs, ring_of nsz obj s ps xs /\ contents chk nsz s xs.
Proof.
  intros T pick chk nsz nal obj m0 prog l s LS HP SH HB.
  destruct (def_built pick false chk nsz nal obj m0 prog LS HP SH (or_introl eq_refl) l s HB) as (xs & ps & R & X).
  assert (AO := def_ao' pick false chk nsz nal obj m0 prog LS HP). exists ps, xs.
  split; [by eapply (rep_ring _ chk nsz nal obj _ true _ (def_sz _ _ _ _ LS) (ls_align _ _ _ _ _ LS) SH AO)|].
  by eapply (rep_contents _ chk nsz nal obj _ true _ (def_sz _ _ _ _ LS) (ls_align _ _ _ _ _ LS) SH AO).
Qed.

Lemma L_C54_fixed_ring_consistent :
forall (T : Type) (pick : mem T -> Z -> Z -> Z) (chk : bool) (nsz nal obj : Z) (n : nat) (m0 : mem T) (prog : list (lcall T)) l s,
  honest pick -> short prog ->
  (FixedSetup m0 obj nsz nal n /\ fixed_built pick false chk nsz nal n obj m0 prog l s) \/
  (ConformantSetup m0 obj nsz nal n /\ conformant_built pick false chk nsz nal n obj m0 prog l s) ->
  exists ps xs, ring_of nsz obj s ps xs /\ contents chk nsz s xs.
Proof.
  intros T pick chk nsz nal obj n m0 prog l s HP SH [(FS & s0 & E0 & E1)|(FS & s0 & E0 & E1)].
  - destruct (fx_facts pick false chk nsz nal obj n _ _ _ m0 prog (fixed_fx _ _ _ _ _ FS) HP s0 l s E0 SH eq_refl E1) as (ps & xs & _ & HC & HR & _). by exists ps, xs.
  - destruct (fx_facts pick false chk nsz nal obj n _ _ _ m0 prog (conformant_fx _ _ _ _ _ FS) HP s0 l s E0 SH eq_refl E1) as (ps & xs & _ & HC & HR & _). by exists ps, xs.
Qed.

Lemma L_C55_iteration_exact :
forall (T : Type) (pick : mem T -> Z -> Z -> Z) (chk : bool) (nsz nal obj : Z) (m0 : mem T) (prog : list (lcall T)) l s,
  ListSetup m0 obj 24 nsz nal -> honest pick -> short prog -> built pick false chk nsz nal obj m0 prog l s ->
  exists xs, explains prog l (l_drops s) [] xs /\ iterates chk nsz s xs.
Proof.
  intros T pick chk nsz nal obj m0 prog l s LS HP SH HB.
  destruct (def_built pick false chk nsz nal obj m0 prog LS HP SH (or_introl eq_refl) l s HB) as (xs & ps & R & X).
  assert (AO := def_ao' pick false chk nsz nal obj m0 prog LS HP). exists xs. split; [done|].
  by eapply (rep_iterates _ chk nsz nal obj _ true _ (def_sz _ _ _ _ LS) (ls_align _ _ _ _ _ LS) SH AO).
Qed.

Lemma L_C55_fixed_iteration_exact :
forall (T : Type) (pick : mem T -> Z -> Z -> Z) (chk : bool) (nsz nal obj : Z) (n : nat) (m0 : mem T) (prog : list (lcall T)) l s,
  honest pick -> short prog ->
  (FixedSetup m0 obj nsz nal n /\ fixed_built pick false chk nsz nal n obj m0 prog l s) \/
  (ConformantSetup m0 obj nsz nal n /\ conformant_built pick false chk nsz nal n obj m0 prog l s) ->
  exists xs, explains prog l (l_drops s) [] xs /\ iterates chk nsz s xs.
Proof.
  intros T pick chk nsz nal obj n m0 prog l s HP SH [(FS & s0 & E0 & E1)|(FS & s0 & E0 & E1)].
  - destruct (fx_facts pick false chk nsz nal obj n _ _ _ m0 prog (fixed_fx _ _ _ _ _ FS) HP s0 l s E0 SH eq_refl E1) as (ps & xs & HX & _ & _ & HI & _). by exists xs.
  - destruct (fx_facts pick false chk nsz nal obj n _ _ _ m0 prog (conformant_fx _ _ _ _ _ FS) HP s0 l s E0 SH eq_refl E1) as (ps & xs & HX & _ & _ & HI & _). by exists xs.
Qed.

Lemma L_C56_free_layout_refuted :
forall (T : Type) (pick : mem T -> Z -> Z -> Z) (chk : bool) (nsz nal obj : Z) (m0 : mem T) (prog : list (lcall T)) l s x xs,
  ListSetup m0 obj 24 nsz nal -> honest pick -> short prog -> forallb (fun c => negb (frees c)) prog = true ->
  built pick true chk nsz nal obj m0 prog l s -> contents chk nsz s (x :: xs) ->
  pop_front (DefaultAddrAlloc pick true) chk nsz s = UB /\ pop_back (DefaultAddrAlloc pick true) chk nsz s = UB /\
  clear (DefaultAddrAlloc pick true) chk nsz s = UB /\ list_drop (DefaultAddrAlloc pick true) chk nsz s = UB.
Proof.
  intros T pick chk nsz nal obj m0 prog l s x xs LS HP SH NF HB HC.
  destruct (def_built pick true chk nsz nal obj m0 prog LS HP SH (or_intror NF) l s HB) as (xs' & ps & R & X).
  assert (AO := def_ao' pick true chk nsz nal obj m0 prog LS HP).
  pose proof (rep_contents _ chk nsz nal obj _ true _ (def_sz _ _ _ _ LS) (ls_align _ _ _ _ _ LS) SH AO _ _ _ R) as HC'.
  unfold contents in *. rewrite HC in HC'. injection HC' as <-.
  destruct (bad_free (DefaultAddrAlloc pick true) chk nsz nal obj _ true _ (def_sz _ _ _ _ LS) (ls_align _ _ _ _ _ LS) SH AO s (x :: xs) ps) as (U1 & U2 & U3); [|done|done|].
  - intros a m p L D. by eapply (strict_free pick true chk nsz nal obj 24 m0 true (peak prog 0) LS).
  - done.
Qed.

Lemma L_C57_list_drop :
forall (T : Type) (pick : mem T -> Z -> Z -> Z) (chk : bool) (nsz nal obj : Z) (m0 : mem T) (prog : list (lcall T)) l s,
  ListSetup m0 obj 24 nsz nal -> honest pick -> short prog -> forallb no_rewrite prog = true ->
  built pick false chk nsz nal obj m0 prog l s ->
  exists s', list_drop (DefaultAddrAlloc pick false) chk nsz s = Ok tt s' /\
    concat (map given prog) ≡ₚ all_taken prog l ++ l_drops s' /\ m_live (l_mem s') ≡ₚ m_live m0.
Proof.
  intros T pick chk nsz nal obj m0 prog l s LS HP SH NR HB.
  destruct (def_built pick false chk nsz nal obj m0 prog LS HP SH (or_introl eq_refl) l s HB) as (xs & ps & R & X).
  assert (AO := def_ao' pick false chk nsz nal obj m0 prog LS HP).
  assert (FR := default_frees pick false chk nsz nal obj 24 m0 true (peak prog 0) LS ltac:(done) eq_refl).
  destruct (drop_ok _ chk nsz nal obj _ true _ (def_sz _ _ _ _ LS) (ls_align _ _ _ _ _ LS) SH AO s xs ps FR R) as (s' & E & D & EL).
  exists s'. split; [done|]. pose proof (explains_conserve _ _ _ _ _ NR X) as C. rewrite app_nil_r in C. rewrite EL. split; [done|].
  pose proof (di_live _ _ _ _ _ D) as L. cbn in L. by rewrite app_nil_r in L.
Qed.

Lemma L_C57_fixed_list_drop :
forall (T : Type) (pick : mem T -> Z -> Z -> Z) (chk : bool) (nsz nal obj : Z) (n : nat) (m0 : mem T) (prog : list (lcall T)) l s,
  honest pick -> short prog -> forallb no_rewrite prog = true ->
  (FixedSetup m0 obj nsz nal n /\ fixed_built pick false chk nsz nal n obj m0 prog l s) \/
  (ConformantSetup m0 obj nsz nal n /\ conformant_built pick false chk nsz nal n obj m0 prog l s) ->
  exists s', list_drop (FixedListAlloc pick false chk nsz nal) chk nsz s = Ok tt s' /\
    concat (map given prog) ≡ₚ all_taken prog l ++ l_drops s' /\ m_live (l_mem s') ≡ₚ m_live m0.
Proof.
  intros T pick chk nsz nal obj n m0 prog l s HP SH NR [(FS & s0 & E0 & E1)|(FS & s0 & E0 & E1)].
  - destruct (fx_facts pick false chk nsz nal obj n _ _ _ m0 prog (fixed_fx _ _ _ _ _ FS) HP s0 l s E0 SH eq_refl E1) as (ps & xs & HX & _ & _ & _ & s' & ED & EL & LV).
    exists s'. split; [done|]. split; [|done]. rewrite EL. pose proof (explains_conserve _ _ _ _ _ NR HX) as C. by rewrite app_nil_r in C.
  - destruct (fx_facts pick false chk nsz nal obj n _ _ _ m0 prog (conformant_fx _ _ _ _ _ FS) HP s0 l s E0 SH eq_refl E1) as (ps & xs & HX & _ & _ & _ & s' & ED & EL & LV).
    exists s'. split; [done|]. split; [|done]. rewrite EL. pose proof (explains_conserve _ _ _ _ _ NR HX) as C. by rewrite app_nil_r in C.
Qed.

Lemma L_C61_fixed_list_refines_list :
forall (T : Type) (pick : mem T -> Z -> Z -> Z) (chk : bool) (nsz nal obj : Z) (n : nat) (m0 : mem T) (prog : list (lcall T)),
  honest pick -> room pick (m_live m0) nsz nal (peak prog 0) -> short prog ->
  (FixedSetup m0 obj nsz nal n -> exists l s, fixed_built pick false chk nsz nal n obj m0 prog l s /\ as_a_list chk nsz prog l s) /\
  (ConformantSetup m0 obj nsz nal n -> exists l s, conformant_built pick false chk nsz nal n obj m0 prog l s /\ as_a_list chk nsz prog l s).
Proof.
  intros T pick chk nsz nal obj n m0 prog HP HR SH. split; intros FS.
  - pose proof (fixed_fx _ _ _ _ _ FS) as F. destruct (fx_exists chk nsz nal obj n _ _ _ m0 F) as (s0 & E0).
    destruct (fx_refines pick false chk nsz nal obj n _ _ _ m0 prog F HP s0 E0 SH eq_refl HR) as (l & s & E & A). exists l, s. split; [by exists s0|done].
  - pose proof (conformant_fx _ _ _ _ _ FS) as F. destruct (fx_exists chk nsz nal obj n _ _ _ m0 F) as (s0 & E0).
    destruct (fx_refines pick false chk nsz nal obj n _ _ _ m0 prog F HP s0 E0 SH eq_refl HR) as (l & s & E & A). exists l, s. split; [by exists s0|done].
Qed.

Lemma L_C61_small_lists_stay_inside :
forall (T : Type) (pick : mem T -> Z -> Z -> Z) (strict chk : bool) (nsz nal obj : Z) (n : nat) (m0 : mem T) (prog : list (lcall T)),
  (peak prog 0 <= n)%nat -> short prog ->
  (FixedSetup m0 obj nsz nal n -> exists l s s', fixed_built pick strict chk nsz nal n obj m0 prog l s /\ as_a_list chk nsz prog l s /\
     list_drop (FixedListAlloc pick strict chk nsz nal) chk nsz s = Ok tt s' /\
     m_live (l_mem s) = m_live m0 /\ m_time (l_mem s) = m_time m0 /\ m_live (l_mem s') = m_live m0 /\ m_time (l_mem s') = m_time m0) /\
  (ConformantSetup m0 obj nsz nal n -> exists l s s', conformant_built pick strict chk nsz nal n obj m0 prog l s /\ as_a_list chk nsz prog l s /\
     list_drop (FixedListAlloc pick strict chk nsz nal) chk nsz s = Ok tt s' /\
     m_live (l_mem s) = m_live m0 /\ m_time (l_mem s) = m_time m0 /\ m_live (l_mem s') = m_live m0 /\ m_time (l_mem s') = m_time m0).
Proof.
  intros T pick strict chk nsz nal obj n m0 prog PK SH. split; intros FS.
  - pose proof (fixed_fx _ _ _ _ _ FS) as F. destruct (fx_exists chk nsz nal obj n _ _ _ m0 F) as (s0 & E0).
    destruct (fx_bounded pick strict chk nsz nal obj n _ _ _ m0 prog F s0 E0 PK SH) as (l & s & E & A & L1 & T1 & s' & ED & L2 & T2).
    exists l, s, s'. split; [by exists s0|done].
  - pose proof (conformant_fx _ _ _ _ _ FS) as F. destruct (fx_exists chk nsz nal obj n _ _ _ m0 F) as (s0 & E0).
    destruct (fx_bounded pick strict chk nsz nal obj n _ _ _ m0 prog F s0 E0 PK SH) as (l & s & E & A & L1 & T1 & s' & ED & L2 & T2).
    exists l, s, s'. split; [by exists s0|done].
Qed.

Lemma L_C61_buffer_first :
forall (T : Type) (pick : mem T -> Z -> Z -> Z) (chk : bool) (nsz nal obj : Z) (n : nat) (m0 : mem T) (prog cs : list (lcall T)) l s ps,
  honest pick -> short prog -> follow_next (l_mem s) obj ps obj -> obj ∉ ps -> forallb (fun c => negb (frees c)) cs = true ->
  Z.of_nat (length ps + length (concat (map pushed cs))) < u32_lim ->
  (FixedSetup m0 obj nsz nal n /\ fixed_built pick false chk nsz nal n obj m0 prog l s /\
     (length (inside (obj + fixed_buffer_off nal) (Z.of_nat n * nsz) ps) + length (concat (map pushed cs)) <= n)%nat) \/
  (ConformantSetup m0 obj nsz nal n /\ conformant_built pick false chk nsz nal n obj m0 prog l s /\
     (length (inside (obj + base_list_size) ((Z.of_nat n + 1) * nsz - 1) ps) + length (concat (map pushed cs)) <= n)%nat) ->
  exists l' s', l_run (FixedListAlloc pick false chk nsz nal) chk nsz nal cs s = Some (l', s') /\ None ∉ l' /\
    m_time (l_mem s') = m_time (l_mem s) /\ m_live (l_mem s') ≡ₚ m_live (l_mem s).
Proof.
  intros T pick chk nsz nal obj n m0 prog cs l s ps HP SH FN NI NF LT [(FS & (s0 & E0 & E1) & LE)|(FS & (s0 & E0 & E1) & LE)].
  - by apply (fx_first pick false chk nsz nal obj n _ _ _ m0 prog (fixed_fx _ _ _ _ _ FS) HP s0 l s ps cs).
  - by apply (fx_first pick false chk nsz nal obj n _ _ _ m0 prog (conformant_fx _ _ _ _ _ FS) HP s0 l s ps cs).
Qed.

Lemma L_C81_iter_mut_exclusive_refuted :
forall (T : Type) (pick : mem T -> Z -> Z -> Z) (chk : bool) (nsz nal obj : Z) (m0 : mem T) (prog : list (lcall T)) l s x xs,
  ListSetup m0 obj 24 nsz nal -> honest pick -> short prog -> built pick false chk nsz nal obj m0 prog l s -> contents chk nsz s (x :: xs) ->
  exists i1 i2 p i1' i2', iter s = Ok i1 s /\ iter s = Ok i2 s /\
    iter_next chk i1 s = Ok (Some p, i1') s /\ iter_next chk i2 s = Ok (Some p, i2') s.
Proof.
  intros T pick chk nsz nal obj m0 prog l s x xs LS HP SH HB HC.
  destruct (def_built pick false chk nsz nal obj m0 prog LS HP SH (or_introl eq_refl) l s HB) as (xs' & ps & R & X).
  assert (AO := def_ao' pick false chk nsz nal obj m0 prog LS HP).
  pose proof (rep_contents _ chk nsz nal obj _ true _ (def_sz _ _ _ _ LS) (ls_align _ _ _ _ _ LS) SH AO _ _ _ R) as HC'.
  unfold contents in *. rewrite HC in HC'. injection HC' as <-.
  destruct (rep_iter_alias _ chk nsz nal obj _ true _ (def_sz _ _ _ _ LS) (ls_align _ _ _ _ _ LS) SH AO _ _ _ _ R) as (i & p & i' & E1 & E2).
  by exists i, i, p, i', i'.
Qed.
