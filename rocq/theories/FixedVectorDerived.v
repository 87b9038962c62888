(** Proofs of the properties stated in FixedVectorProps.v. *)
From Verif Require Import Base Heap HeapLemmas Alloc AllocContract Vector VectorSpec.
From Verif Require Import FixedVector FixedVectorSpec.

From Verif Require Import VectorProofs VectorMore FixedVectorProofs.

Section obs.
Context {T : Type}.
Variables sz al : Z.
Hypothesis Hsz : (0 < sz)%Z.
Hypothesis Hal : (0 < al)%Z.
Variable N : nat.
Hypothesis HN : 0 < N.

Lemma over_flag (h : heap T) d f sf : FRep sz al Hsz Hal N h d f sf -> has_overflowed N f = Some (sf_over sf).
Proof.
  intros R. unfold has_overflowed. destruct (Nat.eqb_spec N 0) as [?|_]; [lia|]. f_equal. destruct (sf_over sf) eqn:EO.
  - apply negb_true_iff, bool_decide_eq_false. intros E.
    destruct (fr_out _ _ _ _ _ _ _ _ _ R EO (f_buf f)) as (? & _); [|done]. unfold own_block. by rewrite E.
  - apply negb_false_iff, bool_decide_eq_true. by destruct (fr_in _ _ _ _ _ _ _ _ _ R EO).
Qed.

Lemma shows_ok h0 (w : fworld T) ss i sf : FWRep sz al Hsz Hal N h0 w ss -> ss !! i = Some (Some sf) ->
  exists f, fw_objs w !! i = Some f /\ f_moved f = false /\
    shows sz N w f (items (sf_vec sf)) (room (sf_vec sf)) (sf_over sf) /\
    FRep sz al Hsz Hal N (fw_h w) (fw_drops w) f sf.
Proof.
  intros W Hs. destruct (lookup_lt_is_Some_2 (fw_objs w) i) as [f Hf].
  { rewrite <- (fw_len _ _ _ _ _ _ _ _ W). by eapply lookup_lt_Some. }
  destruct (fw_live _ _ _ _ _ _ _ _ W _ _ _ Hf Hs) as (M & R). exists f. split; [done|]. split; [done|]. split; [|done].
  pose proof (fr_rep _ _ _ _ _ _ _ _ _ R) as HR. split; [by eapply as_slice_ok|]. split; [by eapply capacity_ok|].
  by apply (over_flag _ _ _ _ R).
Qed.

Lemma live_spec h0 (w : fworld T) ss i f : FWRep sz al Hsz Hal N h0 w ss -> fw_objs w !! i = Some f -> f_moved f = false ->
  exists sf, ss !! i = Some (Some sf) /\ shows sz N w f (items (sf_vec sf)) (room (sf_vec sf)) (sf_over sf) /\
    FRep sz al Hsz Hal N (fw_h w) (fw_drops w) f sf.
Proof.
  intros W Hf M. destruct (lookup_lt_is_Some_2 ss i) as [[sf|] Hs].
  { rewrite (fw_len _ _ _ _ _ _ _ _ W). by eapply lookup_lt_Some. }
  - destruct (shows_ok _ _ _ _ _ W Hs) as (g & Hg & _ & S & R). rewrite Hf in Hg. injection Hg as <-. by exists sf.
  - rewrite (fw_dead _ _ _ _ _ _ _ _ W _ _ Hf Hs) in M. done.
Qed.

(** The flag is the list-and-capacity test as long as nobody clears. *)
Definition no_clear_inv (ss : list (option (sfixed T))) : Prop :=
  forall i sf, ss !! i = Some (Some sf) -> sf_over sf = (N <? room (sf_vec sf)) /\ N <= room (sf_vec sf).

Lemma with_room_room fits r (s : svec T) xa ok d a d' v' : room s <= r ->
  with_room fits r s xa ok d = (a, d', v') -> room s <= room v'.
Proof. unfold with_room. intros L. case_match; intros [= <- <- <-]; cbn; lia. Qed.

Lemma room_grows fits cl c (s : svec T) a d v' : is_clear c = false ->
  spec_call fits cl c s = (a, d, v') -> room s <= room v'.
Proof.
  assert (R1 : room s <= room_for_one s) by (unfold room_for_one; case_match; [|lia]; case_match; lia).
  intros EC. destruct c; try discriminate EC; cbn [spec_call];
    try (intros H; eapply with_room_room; [|exact H]; lia);
    try (intros [= <- <- <-]; cbn; lia).
  - case_match; [intros H0; eapply with_room_room; [|exact H0]; lia|intros [= <- <- <-]; lia].
  - case_match; intros [= <- <- <-]; cbn; lia.
  - repeat case_match; intros [= <- <- <-]; cbn; lia.
Qed.

Lemma no_clear_step fits cl o ss a d ss' : no_clear_inv ss -> f_clears o = false ->
  spec_fop fits cl N o ss = Some (a, d, ss') -> no_clear_inv ss'.
Proof.
  intros I C H. destruct o as [|i c|i g gp|i|i]; cbn [spec_fop] in H.
  - destruct (Nat.eqb_spec N 0) as [?|_]; [lia|]. simplify_eq. intros i sf Hs.
    apply lookup_app_Some in Hs as [Hs|[_ Hs]]; [by apply (I i)|].
    destruct (i - length ss) as [|k]; cbn in Hs; [|done]. simplify_eq. cbn. split; [|lia].
    symmetry. apply Nat.ltb_irrefl.
  - destruct (ss !! i) as [[sf|]|] eqn:Hs; [|done|done].
    destruct (spec_call fits cl c (sf_vec sf)) as [[a1 d1] v'] eqn:EC. simplify_eq.
    pose proof (room_grows _ _ _ _ _ _ _ C EC) as G. destruct (I _ _ Hs) as (F & L).
    pose proof (lookup_lt_Some _ _ _ Hs) as Li.
    intros j sg Hj. destruct (decide (i = j)) as [<-|Nij].
    + rewrite list_lookup_insert in Hj by done. simplify_eq. cbn [sf_over sf_vec]. cbn [f_clears] in C. rewrite C, F.
      split; [|lia]. destruct (Nat.ltb_spec N (room (sf_vec sf))), (Nat.ltb_spec N (room v')),
        (Nat.eqb_spec (room v') (room (sf_vec sf))); try lia; done.
    + rewrite list_lookup_insert_ne in Hj by done. by apply (I j).
  - destruct (ss !! i) as [[sf|]|] eqn:Hs; [|done|done]. simplify_eq. pose proof (lookup_lt_Some _ _ _ Hs) as Li.
    intros j sg Hj. apply lookup_app_Some in Hj as [Hj|[_ Hj]].
    + destruct (decide (i = j)) as [<-|Nij]; [by rewrite list_lookup_insert in Hj by done|].
      rewrite list_lookup_insert_ne in Hj by done. by apply (I j).
    + destruct (j - _) as [|k]; cbn in Hj; [|done]. simplify_eq. by apply (I i).
  - destruct (ss !! i) as [[sf|]|] eqn:Hs; [|done|done]. by simplify_eq.
  - destruct (ss !! i) as [[sf|]|] eqn:Hs; [|done|done]. by simplify_eq.
Qed.

Lemma no_clear_run fits cl os : forall ss l d ss', no_clear_inv ss -> forallb (fun o => negb (f_clears o)) os = true ->
  spec_fops fits cl N os ss = Some (l, d, ss') -> no_clear_inv ss'.
Proof.
  induction os as [|o os IH]; intros ss l d ss' I C H; cbn [spec_fops forallb] in *; [by simplify_eq|].
  apply andb_prop in C as [C1 C2]. apply negb_true_iff in C1.
  destruct (spec_fop fits cl N o ss) as [[[a1 d1] ss1]|] eqn:E1; [|done].
  destruct (spec_fops fits cl N os ss1) as [[[l2 d2] ss2]|] eqn:E2; [|done]. simplify_eq.
  eapply IH; [|done|exact E2]. by eapply no_clear_step.
Qed.

(** Once set, the flag stays set. *)
Lemma over_stays fits (cl : T -> T) os : forall ss l d ss' i (sf : sfixed T), ss !! i = Some (Some sf) -> sf_over sf = true ->
  spec_fops fits cl N os ss = Some (l, d, ss') ->
  ss' !! i = Some None \/ exists sf', ss' !! i = Some (Some sf') /\ sf_over sf' = true.
Proof.
  assert (DEAD : forall os ss l d ss' i, ss !! i = Some None -> spec_fops fits cl N os ss = Some (l, d, ss') -> ss' !! i = Some None).
  { clear os. induction os as [|o os IH]; intros ss l d ss' i Hi H; cbn [spec_fops] in *; [by simplify_eq|].
    destruct (spec_fop fits cl N o ss) as [[[a1 d1] ss1]|] eqn:E1; [|done].
    destruct (spec_fops fits cl N os ss1) as [[[l2 d2] ss2]|] eqn:E2; [|done]. simplify_eq.
    eapply IH; [|exact E2]. clear IH E2. pose proof (lookup_lt_Some _ _ _ Hi) as Li.
    destruct o as [|j c|j g gp|j|j]; cbn [spec_fop] in E1.
    - destruct (N =? 0); simplify_eq; [done|]. by rewrite lookup_app_l.
    - destruct (ss !! j) as [[sf|]|] eqn:Hs; [|done|done].
      destruct (spec_call fits cl c (sf_vec sf)) as [[a3 d3] v']. simplify_eq.
      rewrite list_lookup_insert_ne; [done|]. intros ->. congruence.
    - destruct (ss !! j) as [[sf|]|] eqn:Hs; [|done|done]. simplify_eq. rewrite lookup_app_l by (by rewrite insert_length).
      rewrite list_lookup_insert_ne; [done|]. intros ->. congruence.
    - destruct (ss !! j) as [[sf|]|] eqn:Hs; [|done|done]. by simplify_eq.
    - destruct (ss !! j) as [[sf|]|] eqn:Hs; [|done|done]. by simplify_eq. }
  induction os as [|o os IH]; intros ss l d ss' i sf Hi EO H; cbn [spec_fops] in *.
  { simplify_eq. right. by exists sf. }
  destruct (spec_fop fits cl N o ss) as [[[a1 d1] ss1]|] eqn:E1; [|done].
  destruct (spec_fops fits cl N os ss1) as [[[l2 d2] ss2]|] eqn:E2; [|done]. simplify_eq.
  assert (X : ss1 !! i = Some None \/ exists sf', ss1 !! i = Some (Some sf') /\ sf_over sf' = true).
  { clear IH E2. pose proof (lookup_lt_Some _ _ _ Hi) as Li.
    destruct o as [|j c|j g gp|j|j]; cbn [spec_fop] in E1.
    - right. exists sf. destruct (N =? 0); simplify_eq; [done|]. by rewrite lookup_app_l.
    - destruct (ss !! j) as [[sg|]|] eqn:Hs; [|done|done].
      destruct (spec_call fits cl c (sf_vec sg)) as [[a3 d3] v']. simplify_eq. right.
      destruct (decide (j = i)) as [->|Nij].
      + rewrite list_lookup_insert by done. eexists. split; [done|]. cbn. simplify_eq. by rewrite EO.
      + rewrite list_lookup_insert_ne by done. by exists sf.
    - destruct (ss !! j) as [[sg|]|] eqn:Hs; [|done|done]. simplify_eq. rewrite lookup_app_l by (by rewrite insert_length).
      destruct (decide (j = i)) as [->|Nij]; [left; by rewrite list_lookup_insert|].
      rewrite list_lookup_insert_ne by done. right. by exists sf.
    - destruct (ss !! j) as [[sg|]|] eqn:Hs; [|done|done]. simplify_eq. right. by exists sf.
    - destruct (ss !! j) as [[sg|]|] eqn:Hs; [|done|done]. simplify_eq. right. by exists sf. }
  destruct X as [X|(sf' & X & EO')]; [left; by eapply DEAD|by eapply IH].
Qed.
End obs.

Lemma clear_all_f {T} fits (cl : T -> T) N (js : list nat) : forall (ss : list (option (sfixed T))),
  (forall i, In i js -> exists sf, ss !! i = Some (Some sf)) ->
  exists l d ss', spec_fops fits cl N (map (fun i => FCall i CClear) js) ss = Some (l, d, ss') /\ length ss' = length ss /\
    (forall i, In i js -> ss' !! i = Some (Some (SFixed (SVec [] 0) true))) /\
    (forall i, ~ In i js -> ss' !! i = ss !! i).
Proof.
  induction js as [|k js IH]; intros ss A.
  - by exists [], [], ss.
  - cbn [map spec_fops spec_fop]. destruct (A k (or_introl eq_refl)) as [sf Ek]. rewrite Ek. cbn [spec_call is_clear].
    pose proof (lookup_lt_Some _ _ _ Ek) as Lk.
    destruct (IH (<[k := Some (SFixed (SVec [] 0) (sf_over sf || true || negb (0 =? room (sf_vec sf))))]> ss)) as (l & d & ss' & E & L & I1 & I2).
    { intros i Hi. destruct (decide (k = i)) as [<-|Nk]; [rewrite list_lookup_insert by done; by eexists|].
      rewrite list_lookup_insert_ne by done. apply A. by right. }
    cbn [room]. rewrite E. eexists _, _, _. split; [reflexivity|]. rewrite insert_length in L. split; [done|]. split.
    + intros i Hi. destruct (in_dec Nat.eq_dec i js) as [Hj|Nj]; [by apply I1|].
      destruct Hi as [<-|Hi]; [|done]. rewrite I2 by done. rewrite list_lookup_insert by done. by rewrite orb_true_r.
    + intros i Hi. rewrite I2 by (intros Hj; apply Hi; by right).
      apply list_lookup_insert_ne. intros ->. apply Hi. by left.
Qed.

Definition idc (x : Z) : option Z := Some x.

Lemma L_C62_fixed_vector_is_a_list :
  forall (T : Type) (sz al : Z) (N : nat) (chk nd : bool) clone (cl : T -> T) (h : heap T) (os : list (fop T)) l d ss,
  (0 < sz)%Z -> (0 < al)%Z -> 0 < N -> (Z.of_nat N * sz <= isize_max)%Z ->
  (forall x, clone x = Some (cl x)) -> heap_wf h ->
  nd = false \/ forallb f_is_move os = true -> chk = true \/ forallb (f_modest sz) os = true ->
  spec_fops (default_fits sz al) cl N os [] = Some (l, d, ss) ->
  exists w, f_run sz al N chk nd clone os (FWorld [] h []) = Some (l, w) /\
    fw_drops w = (if nd then d else []) /\
    length (fw_objs w) = length ss /\
    (forall i sf, ss !! i = Some (Some sf) -> exists f, fw_objs w !! i = Some f /\
       shows sz N w f (items (sf_vec sf)) (room (sf_vec sf)) (sf_over sf)) /\
    (forall b bk, h_blk h !! b = Some bk -> h_blk (fw_h w) !! b = Some bk) /\
    (forall b, is_Some (h_blk (fw_h w) !! b) -> is_Some (h_blk h !! b) \/
       exists i f, fw_objs w !! i = Some f /\
         (b = f_buf f \/ (f_moved f = false /\ exists k, v_begin (f_vec f) = Ptr b k))).
Proof.
  intros T sz al N chk nd clone cl h os l d ss Hsz Hal HN HNs Hcl Hh Hnd HK HS.
  destruct (f_run_refines sz al Hsz Hal N HN HNs chk nd clone cl Hcl (h_blk h) os (FWorld [] h []) [] l d ss) as (w & E & W & D); try done.
  { by apply FWRep_start. }
  exists w. split; [done|]. split; [done|]. split; [by rewrite (fw_len _ _ _ _ _ _ _ _ W)|]. split; [|split].
  - intros i sf Hs. destruct (shows_ok sz al Hsz Hal N HN _ _ _ _ _ W Hs) as (f & Hf & _ & S & _). by exists f.
  - apply (fw_base _ _ _ _ _ _ _ _ W).
  - intros b Hb. destruct (fw_acct _ _ _ _ _ _ _ _ W b Hb) as [?|(i & f & Hf & [?|(sf & Hs & E2)])]; [by left|right..].
    + exists i, f. split; [done|by left].
    + exists i, f. split; [done|]. right. split; [by apply (fw_live _ _ _ _ _ _ _ _ W _ _ _ Hf Hs)|].
      unfold own_block in E2. destruct (v_begin (f_vec f)); simplify_eq. by eexists.
Qed.

Lemma L_C62_programs_never_undefined :
  forall (T : Type) (sz al : Z) (N : nat) (chk nd : bool) clone (cl : T -> T) (h : heap T) (os : list (fop T)),
  (0 < sz)%Z -> (0 < al)%Z -> 0 < N -> (Z.of_nat N * sz <= isize_max)%Z ->
  (forall x, clone x = Some (cl x)) -> heap_wf h ->
  nd = false \/ forallb f_is_move os = true -> chk = true \/ forallb (f_modest sz) os = true ->
  f_run sz al N chk nd clone os (FWorld [] h []) = None <-> spec_fops (default_fits sz al) cl N os [] = None.
Proof.
  intros T sz al N chk nd clone cl h os Hsz Hal HN HNs Hcl Hh Hnd HK.
  pose proof (FWRep_start sz al Hsz Hal N h Hh) as W0. split; intros E.
  - destruct (spec_fops (default_fits sz al) cl N os []) as [[[l d] ss]|] eqn:HS; [|done].
    destruct (f_run_refines sz al Hsz Hal N HN HNs chk nd clone cl Hcl _ os _ _ _ _ _ W0 Hnd HK HS) as (w & E2 & _). congruence.
  - destruct (f_run sz al N chk nd clone os (FWorld [] h [])) as [[l w]|] eqn:ER; [|done].
    destruct (f_run_reached sz al Hsz Hal N HN HNs chk nd clone cl Hcl _ os _ _ _ _ W0 Hnd HK ER) as (d & ss & HS & _). congruence.
Qed.

Lemma L_C62_overflow_memory_freed :
  forall (T : Type) (sz al : Z) (N : nat) (chk nd : bool) clone (cl : T -> T) (h : heap T) (os : list (fop T)) l w (js : list nat),
  (0 < sz)%Z -> (0 < al)%Z -> 0 < N -> (Z.of_nat N * sz <= isize_max)%Z ->
  (forall x, clone x = Some (cl x)) -> heap_wf h ->
  nd = false \/ forallb f_is_move os = true -> chk = true \/ forallb (f_modest sz) os = true ->
  f_run sz al N chk nd clone os (FWorld [] h []) = Some (l, w) ->
  (forall i, In i js <-> exists f, fw_objs w !! i = Some f /\ f_moved f = false) ->
  exists l' w', f_run sz al N chk nd clone (map (fun i => FCall i CClear) js) w = Some (l', w') /\
    (forall b, h_blk h !! b = None -> is_Some (h_blk (fw_h w') !! b) -> exists i f, fw_objs w' !! i = Some f /\ b = f_buf f) /\
    (forall b bk, h_blk h !! b = Some bk -> h_blk (fw_h w') !! b = Some bk) /\
    (forall i f, fw_objs w' !! i = Some f -> f_moved f = false -> is_Some (h_blk (fw_h w') !! f_buf f)).
Proof.
  intros T sz al N chk nd clone cl h os l w js Hsz Hal HN HNs Hcl Hh Hnd HK ER ALL.
  pose proof (FWRep_start sz al Hsz Hal N h Hh) as W0.
  destruct (f_run_reached sz al Hsz Hal N HN HNs chk nd clone cl Hcl _ os _ _ _ _ W0 Hnd HK ER) as (d & ss & HS & W & D).
  destruct (clear_all_f (default_fits sz al) cl N js ss) as (l' & d' & ss' & HC & LS & I1 & I2).
  { intros i Hi. apply ALL in Hi as (f & Hf & M).
    destruct (live_spec sz al Hsz Hal N HN _ _ _ _ _ W Hf M) as (sf & Hs & _). by exists sf. }
  assert (MV : forallb f_is_move (map (fun i => @FCall T i CClear) js) = true).
  { apply forallb_forall. intros o Ho. apply in_map_iff in Ho as (i & <- & _). done. }
  assert (MD : forallb (f_modest sz) (map (fun i => @FCall T i CClear) js) = true).
  { apply forallb_forall. intros o Ho. apply in_map_iff in Ho as (i & <- & _). done. }
  destruct (f_run_refines sz al Hsz Hal N HN HNs chk nd clone cl Hcl _ _ _ _ _ _ _ W (or_intror MV) (or_intror MD) HC)
    as (w' & E' & W' & D').
  exists l', w'. split; [done|].
  assert (SP : forall i sf, ss' !! i = Some (Some sf) -> sf = SFixed (SVec [] 0) true).
  { intros i sf Hi. destruct (in_dec Nat.eq_dec i js) as [Hj|Nj]; [rewrite I1 in Hi by done; by simplify_eq|].
    exfalso. apply Nj. rewrite I2 in Hi by done. apply ALL.
    destruct (lookup_lt_is_Some_2 (fw_objs w) i) as [f Hf].
    { rewrite <- (fw_len _ _ _ _ _ _ _ _ W). by eapply lookup_lt_Some. }
    exists f. split; [done|]. by destruct (fw_live _ _ _ _ _ _ _ _ W _ _ _ Hf Hi). }
  split; [|split].
  - intros b Hb HB. destruct (fw_acct _ _ _ _ _ _ _ _ W' b HB) as [[bk E]|(i & f & Hf & [->|(sf & Hs & E2)])]; [congruence|by exists i, f|].
    exfalso. destruct (fw_live _ _ _ _ _ _ _ _ W' _ _ _ Hf Hs) as (_ & R). rewrite (SP _ _ Hs) in R.
    destruct (Rep_capn sz al Hsz Hal N HN _ _ _ (fr_rep _ _ _ _ _ _ _ _ _ R)) as (_ & _ & NU). cbn in NU.
    unfold own_block in E2. by rewrite (proj2 NU eq_refl) in E2.
  - apply (fw_base _ _ _ _ _ _ _ _ W').
  - intros i f Hf M. destruct (live_spec sz al Hsz Hal N HN _ _ _ _ _ W' Hf M) as (sf & Hs & _ & R).
    destruct (fr_buf _ _ _ _ _ _ _ _ _ R) as (bk & -> & _). by eexists.
Qed.

Lemma L_C62_zero_capacity_panics :
  forall (T : Type) (sz al : Z) chk nd clone (w : fworld T),
  exists h, f_step sz al 0 chk nd clone FNew w = Some (APanic, FWorld (fw_objs w) h (fw_drops w)).
Proof.
  intros T sz al chk nd clone w. eexists. reflexivity.
Qed.

Lemma L_C63_flag_tells_where_elements_are :
  forall (T : Type) (sz al : Z) (N : nat) (chk nd : bool) clone (cl : T -> T) (h : heap T) (os : list (fop T)) l w i f,
  (0 < sz)%Z -> (0 < al)%Z -> 0 < N -> (Z.of_nat N * sz <= isize_max)%Z ->
  (forall x, clone x = Some (cl x)) -> heap_wf h ->
  nd = false \/ forallb f_is_move os = true -> chk = true \/ forallb (f_modest sz) os = true ->
  f_run sz al N chk nd clone os (FWorld [] h []) = Some (l, w) ->
  fw_objs w !! i = Some f -> f_moved f = false ->
  exists xs cap over, shows sz N w f xs cap over /\
    (xs <> [] ->
      (over = false <-> hslice (fw_h w) (Ptr (f_buf f) 0) (length xs) = Some xs /\ v_begin (f_vec f) = Ptr (f_buf f) 0) /\
      (over = true <-> exists b bk, b <> f_buf f /\ hslice (fw_h w) (Ptr b 0) (length xs) = Some xs /\
         v_begin (f_vec f) = Ptr b 0 /\ h_blk (fw_h w) !! b = Some bk /\
         bk_bytes bk = (Z.of_nat cap * sz)%Z /\ bk_align bk = al)).
Proof.
  intros T sz al N chk nd clone cl h os l w i f Hsz Hal HN HNs Hcl Hh Hnd HK ER Hf M.
  pose proof (FWRep_start sz al Hsz Hal N h Hh) as W0.
  destruct (f_run_reached sz al Hsz Hal N HN HNs chk nd clone cl Hcl _ os _ _ _ _ W0 Hnd HK ER) as (d & ss & HS & W & D).
  destruct (live_spec sz al Hsz Hal N HN _ _ _ _ _ W Hf M) as (sf & Hs & S & R).
  exists (items (sf_vec sf)), (room (sf_vec sf)), (sf_over sf). split; [done|]. intros NE.
  pose proof (fr_rep _ _ _ _ _ _ _ _ _ R) as (_ & _ & [(_ & E & _)|(b & bk & junk & E & C0 & Cl & Cz & Hb & Hc & Hlen & HPL)]); [done|].
  cbn [st_v st_h st_a] in *.
  assert (SL : hslice (fw_h w) (Ptr b 0) (length (items (sf_vec sf))) = Some (items (sf_vec sf))).
  { eapply hslice_ok; [exact Hb| |].
    - rewrite Hc, app_length, map_length. lia.
    - rewrite drop_0, Hc. apply take_app_alt. by rewrite map_length. }
  destruct (sf_over sf) eqn:EO.
  - assert (b <> f_buf f /\ pool_of (f_pool f) <> Some b) as (N1 & N2).
    { apply (fr_out _ _ _ _ _ _ _ _ _ R EO). rewrite E. done. }
    split.
    + split; [done|]. intros (_ & E2). rewrite E in E2. cbn in E2. congruence.
    + split; [|done]. intros _. exists b, bk. split; [done|]. split; [done|]. rewrite E. split; [done|]. split; [done|].
      destruct HPL as [HPL|(L1 & L2 & _)]; [|done]. exfalso. apply N2. exact HPL.
  - destruct (fr_in _ _ _ _ _ _ _ _ _ R EO) as (B & _). rewrite E in B. cbn in B. injection B as ->. split.
    + split; [|done]. intros _. split; [done|]. by rewrite E.
    + split; [done|]. intros (b' & bk' & N1 & _ & E2 & _). rewrite E in E2. cbn in E2. congruence.
Qed.

Lemma L_C63_flag_without_clear :
  forall (T : Type) (sz al : Z) (N : nat) (chk nd : bool) clone (cl : T -> T) (h : heap T) (os : list (fop T)) l w i f,
  (0 < sz)%Z -> (0 < al)%Z -> 0 < N -> (Z.of_nat N * sz <= isize_max)%Z ->
  (forall x, clone x = Some (cl x)) -> heap_wf h ->
  nd = false \/ forallb f_is_move os = true -> chk = true \/ forallb (f_modest sz) os = true ->
  forallb (fun o => negb (f_clears o)) os = true ->
  f_run sz al N chk nd clone os (FWorld [] h []) = Some (l, w) ->
  fw_objs w !! i = Some f -> f_moved f = false ->
  exists xs cap, shows sz N w f xs cap (N <? cap) /\ N <= cap.
Proof.
  intros T sz al N chk nd clone cl h os l w i f Hsz Hal HN HNs Hcl Hh Hnd HK NC ER Hf M.
  pose proof (FWRep_start sz al Hsz Hal N h Hh) as W0.
  destruct (f_run_reached sz al Hsz Hal N HN HNs chk nd clone cl Hcl _ os _ _ _ _ W0 Hnd HK ER) as (d & ss & HS & W & D).
  destruct (live_spec sz al Hsz Hal N HN _ _ _ _ _ W Hf M) as (sf & Hs & S & R).
  exists (items (sf_vec sf)), (room (sf_vec sf)).
  destruct (no_clear_run N HN _ _ _ _ _ _ _ ltac:(intros ? ? Hx; by rewrite lookup_nil in Hx) NC HS i sf Hs) as (<- & L). done.
Qed.

Lemma L_C63_flag_refuted :
  forall (T : Type) (sz al : Z) (N : nat) (chk nd : bool) clone (cl : T -> T),
  (0 < sz)%Z -> (0 < al)%Z -> 0 < N -> (Z.of_nat N * sz <= isize_max)%Z ->
  (forall x, clone x = Some (cl x)) ->
  exists (os : list (fop T)) l w f, f_run sz al N chk nd clone os (FWorld [] (Heap 0 ∅) []) = Some (l, w) /\
    fw_objs w = [f] /\ shows sz N w f [] 0 true /\
    (forall b, is_Some (h_blk (fw_h w) !! b) -> b = f_buf f).
Proof.
  intros T sz al N chk nd clone cl Hsz Hal HN HNs Hcl.
  assert (HS : spec_fops (default_fits sz al) cl N [FNew; FCall 0 CClear] [] = Some ([AUnit; AUnit], [], [Some (SFixed (SVec [] 0) true)])).
  { cbn. destruct (Nat.eqb_spec N 0) as [?|_]; [lia|]. done. }
  assert (Hh : heap_wf (Heap 0 (∅ : gmap nat (block T)))) by (intros b [? Hb]; cbn in Hb; by rewrite lookup_empty in Hb).
  pose proof (FWRep_start sz al Hsz Hal N _ Hh) as W0.
  destruct ((fun H => f_run_refines sz al Hsz Hal N HN HNs chk nd clone cl Hcl _ _ _ _ _ _ _ W0 H (or_intror (eq_refl : forallb (f_modest sz) [FNew; FCall 0 CClear] = true)) HS) ltac:(by right)) as (w & E & W & _).
  destruct (shows_ok sz al Hsz Hal N HN _ _ _ 0 _ W eq_refl) as (f & Hf & _ & S & R).
  exists [FNew; FCall 0 CClear], [AUnit; AUnit], w, f. split; [done|].
  assert (EO : fw_objs w = [f]).
  { pose proof (fw_len _ _ _ _ _ _ _ _ W) as L. destruct (fw_objs w) as [|g [|]]; try done. cbn in Hf. congruence. }
  split; [done|]. split; [done|]. intros b Hb.
  destruct (fw_acct _ _ _ _ _ _ _ _ W b Hb) as [[bk E2]|(i & g & Hg & HK)]; [cbn in E2; by rewrite lookup_empty in E2|].
  rewrite EO in Hg. destruct i as [|i]; [|done]. cbn in Hg. injection Hg as <-. destruct HK as [?|(sf & Hsf & E2)]; [done|]. exfalso.
  destruct (Rep_capn sz al Hsz Hal N HN _ _ _ (fr_rep _ _ _ _ _ _ _ _ _ R)) as (_ & _ & NU). cbn in NU.
  unfold own_block in E2. by rewrite (proj2 NU eq_refl) in E2.
Qed.

Lemma L_C64_reuse_refuted :
  forall (T : Type) (sz al : Z) (N : nat) (chk nd : bool) clone (cl : T -> T) (x y : T),
  (0 < sz)%Z -> (0 < al)%Z -> (sz <= isize_max + 1 - al)%Z -> 0 < N -> (Z.of_nat N * sz <= isize_max)%Z ->
  (forall x, clone x = Some (cl x)) ->
  exists l w f, f_run sz al N chk nd clone [FNew; FCall 0 (CPush x); FCall 0 CClear; FCall 0 (CPush y)] (FWorld [] (Heap 0 ∅) []) = Some (l, w) /\
    fw_objs w = [f] /\ shows sz N w f [y] 1 true /\
    exists b k, v_begin (f_vec f) = Ptr b k /\ b <> f_buf f /\ is_Some (h_blk (fw_h w) !! b).
Proof.
  intros T sz al N chk nd clone cl x y Hsz Hal Hfit HN HNs Hcl.
  assert (MD : forallb (f_modest sz) [FNew; FCall 0 (CPush x); FCall 0 CClear; FCall 0 (CPush y)] = true).
  { assert (M1 : forall z : T, modest sz (CPush z) = true) by (intros z; unfold modest; apply Z.leb_le; cbn [named]; nia).
    cbn [forallb f_modest]. by rewrite !M1. }
  assert (HS : spec_fops (default_fits sz al) cl N [FNew; FCall 0 (CPush x); FCall 0 CClear; FCall 0 (CPush y)] []
    = Some ([AUnit; AUnit; AUnit; AUnit], [x], [Some (SFixed (SVec [y] 1) true)])).
  { assert (F1 : default_fits sz al 1 = true) by (unfold default_fits; apply Z.leb_le; lia).
    destruct N as [|n]; [lia|]. cbn -[default_fits]. unfold with_room. cbn -[default_fits]. rewrite Nat.eqb_refl. cbn -[default_fits].
    rewrite F1. cbn. rewrite !orb_true_r.
    done. }
  assert (Hh : heap_wf (Heap 0 (∅ : gmap nat (block T)))) by (intros b [? Hb]; cbn in Hb; by rewrite lookup_empty in Hb).
  pose proof (FWRep_start sz al Hsz Hal N _ Hh) as W0.
  destruct ((fun H => f_run_refines sz al Hsz Hal N HN HNs chk nd clone cl Hcl _ _ _ _ _ _ _ W0 H (or_intror MD) HS) ltac:(by right)) as (w & E & W & _).
  destruct (shows_ok sz al Hsz Hal N HN _ _ _ 0 _ W eq_refl) as (f & Hf & _ & S & R).
  eexists _, w, f. split; [exact E|].
  assert (EO : fw_objs w = [f]).
  { pose proof (fw_len _ _ _ _ _ _ _ _ W) as L. destruct (fw_objs w) as [|g [|]]; try done. cbn in Hf. congruence. }
  split; [done|]. split; [done|].
  pose proof (fr_rep _ _ _ _ _ _ _ _ _ R) as (_ & _ & [(_ & E2 & _)|(b & bk & junk & E2 & C0 & Cl & Cz & Hb & _)]); [done|].
  cbn [st_v st_h] in *. exists b, 0. rewrite E2. split; [done|].
  destruct (fr_out _ _ _ _ _ _ _ _ _ R eq_refl b) as (N1 & _); [by rewrite E2|]. split; [done|]. rewrite Hb. by eexists.
Qed.

Lemma L_C64_never_inline_again :
  forall (T : Type) (sz al : Z) (N : nat) (chk nd : bool) clone (cl : T -> T) (h : heap T) (os1 os2 : list (fop T)) l1 w1 l2 w2 i f1 f2,
  (0 < sz)%Z -> (0 < al)%Z -> 0 < N -> (Z.of_nat N * sz <= isize_max)%Z ->
  (forall x, clone x = Some (cl x)) -> heap_wf h ->
  nd = false \/ forallb f_is_move (os1 ++ os2) = true -> chk = true \/ forallb (f_modest sz) (os1 ++ os2) = true ->
  f_run sz al N chk nd clone os1 (FWorld [] h []) = Some (l1, w1) ->
  fw_objs w1 !! i = Some f1 -> f_moved f1 = false -> has_overflowed N f1 = Some true ->
  f_run sz al N chk nd clone os2 w1 = Some (l2, w2) ->
  fw_objs w2 !! i = Some f2 -> f_moved f2 = false -> has_overflowed N f2 = Some true.
Proof.
  intros T sz al N chk nd clone cl h os1 os2 l1 w1 l2 w2 i f1 f2 Hsz Hal HN HNs Hcl Hh Hnd HK E1 H1 M1 O1 E2 H2 M2.
  pose proof (FWRep_start sz al Hsz Hal N h Hh) as W0.
  rewrite forallb_app, andb_true_iff in Hnd, HK.
  destruct (f_run_reached sz al Hsz Hal N HN HNs chk nd clone cl Hcl _ os1 _ _ _ _ W0 ltac:(tauto) ltac:(tauto) E1) as (d & ss & HS & W & D).
  destruct (f_run_reached sz al Hsz Hal N HN HNs chk nd clone cl Hcl _ os2 _ _ _ _ W ltac:(tauto) ltac:(tauto) E2) as (d2 & ss2 & HS2 & W2 & D2).
  destruct (live_spec sz al Hsz Hal N HN _ _ _ _ _ W H1 M1) as (sf & Hs & (_ & _ & O2) & R).
  destruct (live_spec sz al Hsz Hal N HN _ _ _ _ _ W2 H2 M2) as (sf2 & Hs2 & (_ & _ & O3) & R2).
  rewrite O1 in O2. injection O2 as EO.
  destruct (over_stays N _ _ _ _ _ _ _ _ _ Hs (eq_sym EO) HS2) as [X|(sf' & X & EO')]; [congruence|].
  rewrite Hs2 in X. simplify_eq. by rewrite O3, EO'.
Qed.

Lemma L_C65_move_preserves :
  forall (T : Type) (sz al : Z) (N : nat) (chk nd : bool) clone (cl : T -> T) (h : heap T) (os : list (fop T)) l w i f g gp xs cap over,
  (0 < sz)%Z -> (0 < al)%Z -> 0 < N -> (Z.of_nat N * sz <= isize_max)%Z ->
  (forall x, clone x = Some (cl x)) -> heap_wf h ->
  nd = false \/ forallb f_is_move os = true -> chk = true \/ forallb (f_modest sz) os = true ->
  f_run sz al N chk nd clone os (FWorld [] h []) = Some (l, w) ->
  fw_objs w !! i = Some f -> f_moved f = false -> shows sz N w f xs cap over ->
  exists w' src' new, f_step sz al N chk nd clone (FMove i g gp) w = Some (AUnit, w') /\
    fw_objs w' = <[i := src']> (fw_objs w) ++ [new] /\ f_moved src' = true /\ f_moved new = false /\
    shows sz N w' new xs cap over /\
    fw_drops w' = fw_drops w /\
    (forall j fj xj cj oj, j <> i -> fw_objs w !! j = Some fj -> f_moved fj = false -> shows sz N w fj xj cj oj -> shows sz N w' fj xj cj oj) /\
    (forall b, is_Some (h_blk (fw_h w') !! b) <-> is_Some (h_blk (fw_h w) !! b) \/ b = f_buf new).
Proof.
  intros T sz al N chk nd clone cl h os l w i f g gp xs cap over Hsz Hal HN HNs Hcl Hh Hnd HK ER Hf M Sh.
  pose proof (FWRep_start sz al Hsz Hal N h Hh) as W0.
  destruct (f_run_reached sz al Hsz Hal N HN HNs chk nd clone cl Hcl _ os _ _ _ _ W0 Hnd HK ER) as (d & ss & HS & W & D).
  destruct (live_spec sz al Hsz Hal N HN _ _ _ _ _ W Hf M) as (sf & Hs & Sh' & R).
  assert (items (sf_vec sf) = xs /\ room (sf_vec sf) = cap /\ sf_over sf = over) as (<- & <- & <-).
  { destruct Sh as (A1 & A2 & A3), Sh' as (B1 & B2 & B3). rewrite A1 in B1. rewrite A2 in B2. rewrite A3 in B3. by simplify_eq. }
  destruct (f_move_ok sz al Hsz Hal N HN chk nd _ w ss i f sf g gp W Hf Hs) as (w' & E & W' & D' & src' & new & EO & EM1 & EM2 & DOM).
  exists w', src', new. cbn [f_step]. rewrite Hf, M. split; [done|]. split; [done|]. split; [done|]. split; [done|].
  pose proof (lookup_lt_Some _ _ _ Hf) as Li.
  pose proof (fw_len _ _ _ _ _ _ _ _ W) as LEN.
  split; [|split; [done|split]].
  - assert (HN1 : (<[i:=None]> ss ++ [Some sf]) !! length ss = Some (Some sf)).
    { rewrite lookup_app_r by (rewrite insert_length; lia). by rewrite insert_length, Nat.sub_diag. }
    destruct (shows_ok sz al Hsz Hal N HN _ _ _ _ _ W' HN1) as (f' & Hf' & _ & S' & _).
    rewrite EO, lookup_app_r in Hf' by (rewrite insert_length; lia).
    rewrite insert_length, LEN, Nat.sub_diag in Hf'. cbn in Hf'. by simplify_eq.
  - intros j fj xj cj oj Nj Hj Mj Sj.
    destruct (live_spec sz al Hsz Hal N HN _ _ _ _ _ W Hj Mj) as (sj & Hsj & Sj' & _).
    assert (items (sf_vec sj) = xj /\ room (sf_vec sj) = cj /\ sf_over sj = oj) as (<- & <- & <-).
    { destruct Sj as (A1 & A2 & A3), Sj' as (B1 & B2 & B3). rewrite A1 in B1. rewrite A2 in B2. rewrite A3 in B3. by simplify_eq. }
    assert (HN1 : (<[i:=None]> ss ++ [Some sf]) !! j = Some (Some sj)).
    { rewrite lookup_app_l by (rewrite insert_length; by eapply lookup_lt_Some). by rewrite list_lookup_insert_ne. }
    destruct (shows_ok sz al Hsz Hal N HN _ _ _ _ _ W' HN1) as (f' & Hf' & _ & S' & _).
    rewrite EO, lookup_app_l, list_lookup_insert_ne in Hf' by (rewrite ?insert_length; try done; by eapply lookup_lt_Some).
    by simplify_eq.
  - exact DOM.
Qed.
