(** Proofs of the properties stated in VectorProps.v. *)
From Verif Require Import Base Heap HeapLemmas Alloc AllocContract Vector VectorSpec IterSpec.

From Verif Require Import VectorProofs VectorMore VectorIter VectorFindings.

Definition clone_ok {T} (clone : T -> option T) (cl : T -> T) : Prop := forall x, clone x = Some (cl x).

Section reach.
Context {T : Type}.
Variables sz al : Z.
Hypothesis Hsz : (0 < sz)%Z.
Hypothesis Hal : (0 < al)%Z.
Variables (chk nd : bool) (clone : T -> option T) (cl : T -> T).
Hypothesis Hcl : forall x, clone x = Some (cl x).
Variable h : heap T.
Hypothesis Hh : heap_wf h.
Let AS := DefaultSpec (C := T) sz al Hsz Hal.
Let s0 : vstate unit T := VState new_in tt h [].

Lemma run_from_new cs l d xs cap : nd = false \/ forallb is_move cs = true ->
  spec_calls (default_fits sz al) cl cs (SVec [] 0) = (l, d, SVec xs cap) ->
  chk = true \/ forallb (modest sz) cs = true ->
  exists s, run_calls (DefaultAllocator T) sz al chk nd clone cs s0 = Some (l, s) /\
    Rep _ sz al AS s xs cap /\ length xs <= cap /\
    frame _ sz al AS s = h_blk h /\ st_drops s = if nd then d else [].
Proof.
  intros M S K.
  destruct (run_modest (DefaultAllocator T) sz al chk nd Hsz AS clone cl Hcl cs s0 [] 0 l d xs cap)
    as (s & E & R & F & A & D); try done.
  { by apply Rep_new. }
  exists s. split; [done|]. split; [done|]. split; [by eapply Rep_len|]. split; [|done].
  rewrite F. done.
Qed.

(** Every state reached by calls represents some list. *)
Lemma reached cs l s : chk = true \/ forallb (modest sz) cs = true -> nd = false \/ forallb is_move cs = true ->
  run_calls (DefaultAllocator T) sz al chk nd clone cs s0 = Some (l, s) ->
  exists d xs cap, spec_calls (default_fits sz al) cl cs (SVec [] 0) = (l, d, SVec xs cap) /\
    Rep _ sz al AS s xs cap /\ frame _ sz al AS s = h_blk h /\ st_drops s = if nd then d else [].
Proof.
  intros K M E. destruct (spec_calls (default_fits sz al) cl cs (SVec [] 0)) as [[l' d] [xs cap]] eqn:S.
  destruct (run_from_new cs l' d xs cap M S K) as (s' & E' & R & _ & F & D).
  rewrite E in E'. simplify_eq. by exists d, xs, cap.
Qed.

Lemma owned_frame s xs cap b : Rep _ sz al AS s xs cap -> frame _ sz al AS s = h_blk h ->
  is_Some (h_blk h !! b) -> h_blk (st_h s) !! b = h_blk h !! b.
Proof.
  intros R F [bk E]. pose proof (f_equal (lookup b) F) as L.
  rewrite frame_lookup in L by done. destruct (decide _); congruence.
Qed.
End reach.

Lemma spec_pushes_fact {T} (fits : nat -> bool) (xs : list T) : forall ys k a d s1,
  spec_pushes fits xs (SVec ys k) = (a, d, s1) ->
  match a with
  | APanic => d ≡ₚ xs ++ ys /\ k < length ys + length xs
  | _ => a = AUnit /\ d = [] /\ items s1 = ys ++ xs /\ (length ys + length xs <= k -> room s1 = k)
  end.
Proof.
  induction xs as [|x xs IH]; intros ys k a d s1 H; cbn [spec_pushes items room] in H.
  - simplify_eq. by rewrite app_nil_r.
  - destruct (_ || _) eqn:F.
    + specialize (IH _ _ _ _ _ H). rewrite app_length in IH. cbn [length] in *.
      assert (Hk : length ys < k -> room_for_one (SVec ys k) = k).
      { unfold room_for_one. cbn [items room]. destruct (Nat.eqb_spec (length ys) k); [lia|done]. }
      destruct a; try (destruct IH as (? & ? & IH1 & IH2); split; [done|]; split; [done|];
        rewrite IH1, <- app_assoc; split; [done|]; intros L; rewrite Hk in IH2 by lia; apply IH2; lia).
      destruct IH as [IH1 IH2]. split.
      * rewrite IH1. rewrite app_assoc, (Permutation_app_comm _ [x]). done.
      * destruct (decide (length ys < k)) as [L|L]; [rewrite Hk in IH2 by done|]; lia.
    + simplify_eq. split; [done|]. unfold room_for_one in F. cbn [items room length] in *.
      destruct (Nat.eqb_spec (length ys) k) as [->|N]; [lia|].
      rewrite Nat.eqb_refl in F. done.
Qed.

Lemma clear_all {T} fits (cl : T -> T) m : forall k (ss : list (svec T)), k + m = length ss ->
  exists l d, spec_wops fits cl (map (fun i => WCall i CClear) (seq k m)) ss
    = Some (l, d, take k ss ++ replicate m (SVec [] 0)) /\ ~ In APanic l.
Proof.
  induction m as [|m IH]; intros k ss L.
  - exists [], []. cbn. rewrite app_nil_r, take_ge by lia. split; [done|intros []].
  - cbn [seq map spec_wops spec_wop].
    destruct (lookup_lt_is_Some_2 ss k) as [s Hs]; [lia|]. rewrite Hs. cbn [spec_call].
    destruct (IH (S k) (<[k := SVec [] 0]> ss)) as (l & d & E & NP); [rewrite insert_length; lia|].
    rewrite E. exists (AUnit :: l), (items s ++ d). split.
    + f_equal. f_equal. rewrite (take_S_r _ _ (SVec [] 0)) by (apply list_lookup_insert; lia).
      rewrite take_insert by lia. by rewrite <- app_assoc.
    + intros [|]; done.
Qed.

Lemma spec_wops_app {T} fits (cl : T -> T) os1 : forall os2 ss l1 d1 ss1 l2 d2 ss2,
  spec_wops fits cl os1 ss = Some (l1, d1, ss1) ->
  spec_wops fits cl os2 ss1 = Some (l2, d2, ss2) ->
  spec_wops fits cl (os1 ++ os2) ss = Some (l1 ++ l2, d1 ++ d2, ss2).
Proof.
  induction os1 as [|o os1 IH]; intros os2 ss l1 d1 ss1 l2 d2 ss2 H1 H2; cbn [app spec_wops] in *.
  - by simplify_eq.
  - destruct (spec_wop fits cl o ss) as [[[a d] ss']|]; [|done].
    destruct (spec_wops fits cl os1 ss') as [[[l' d'] ss'']|] eqn:E; [|done]. simplify_eq.
    rewrite (IH _ _ _ _ _ _ _ _ E H2). by rewrite <- app_assoc.
Qed.

Lemma L_C01_vector_is_a_list :
forall (T : Type) (sz al : Z) (chk nd : bool) (clone : T -> option T) (cl : T -> T) (h : heap T)
  (cs : list (call T)) l d xs cap,
  (0 < sz)%Z -> (0 < al)%Z -> (forall x, clone x = Some (cl x)) -> heap_wf h ->
  nd = false \/ forallb is_move cs = true ->
  spec_calls (default_fits sz al) cl cs (SVec [] 0) = (l, d, SVec xs cap) ->
  chk = true \/ forallb (modest sz) cs = true ->
  exists s, run_calls (DefaultAllocator T) sz al chk nd clone cs (VState new_in tt h []) = Some (l, s) /\
    as_slice sz s = Ok xs s /\ capacity sz s = Ok cap s /\
    st_drops s = (if nd then d else []).
Proof.
  intros T sz al chk nd clone cl h cs l d xs cap Hsz Hal Hcl Hh M S K.
  destruct (run_from_new sz al Hsz Hal chk nd clone cl Hcl h Hh cs l d xs cap M S K) as (s & E & R & _ & _ & D).
  exists s. split; [done|]. split; [by eapply as_slice_ok|]. split; [by eapply capacity_ok|done].
Qed.

Lemma L_C02_capacity_law :
forall (T : Type) (sz al : Z) (chk nd : bool) (clone : T -> option T) (cl : T -> T) (h : heap T)
  (cs : list (call T)) l s n k,
  (0 < sz)%Z -> (0 < al)%Z -> (forall x, clone x = Some (cl x)) -> heap_wf h ->
  nd = false \/ forallb is_move cs = true ->
  chk = true \/ forallb (modest sz) cs = true ->
  run_calls (DefaultAllocator T) sz al chk nd clone cs (VState new_in tt h []) = Some (l, s) ->
  len sz s = Ok n s -> capacity sz s = Ok k s ->
  n <= k /\
  forall c a s', nd = false \/ is_move c = true -> chk = true \/ modest sz c = true ->
    step (DefaultAllocator T) sz al chk nd clone c s = Some (a, s') ->
    capacity sz s' = Ok (next_capacity c a n k) s'.
Proof.
  intros T sz al chk nd clone cl h cs l s n k Hsz Hal Hcl Hh M K E EL EC.
  destruct (reached sz al Hsz Hal chk nd clone cl Hcl h Hh cs l s K M E) as (d & xs & cap & S & R & _).
  erewrite len_ok in EL by done. erewrite capacity_ok in EC by done. simplify_eq.
  split; [by eapply Rep_len|]. intros c a s' M' K' E'.
  destruct (spec_call (default_fits sz al) cl c (SVec xs k)) as [[a' d'] [xs' k']] eqn:SC.
  destruct (step_modest (DefaultAllocator T) sz al chk nd Hsz (DefaultSpec sz al Hsz Hal) clone cl Hcl c s xs k
    a' d' xs' k' R M' SC K') as (s2 & E2 & P). rewrite E' in E2. simplify_eq.
  destruct P as (R2 & _). pose proof (spec_capacity _ _ _ _ _ _ _ SC) as HC. cbn [items room] in HC.
  subst k'. by eapply capacity_ok.
Qed.

Lemma L_C03_vector_is_memory_safe :
forall (T : Type) (sz al : Z) (chk nd : bool) (clone : T -> option T) (cl : T -> T) (h : heap T)
  (cs : list (call T)),
  (0 < sz)%Z -> (0 < al)%Z -> (forall x, clone x = Some (cl x)) -> heap_wf h ->
  nd = false \/ forallb is_move cs = true ->
  chk = true \/ forallb (modest sz) cs = true ->
  run_calls (DefaultAllocator T) sz al chk nd clone cs (VState new_in tt h []) <> None.
Proof.
  intros T sz al chk nd clone cl h cs Hsz Hal Hcl Hh M K E.
  destruct (spec_calls (default_fits sz al) cl cs (SVec [] 0)) as [[l d] [xs cap]] eqn:S.
  destruct (run_from_new sz al Hsz Hal chk nd clone cl Hcl h Hh cs l d xs cap M S K) as (s & E' & _).
  by rewrite E in E'.
Qed.

Lemma L_C04_elements_owned_once :
forall (T : Type) (sz al : Z) (chk : bool) (clone : T -> option T) (h : heap T) (cs : list (call T)) l s,
  (0 < sz)%Z -> (0 < al)%Z -> heap_wf h -> (forall x, clone x = Some x) ->
  forallb is_move cs = true ->
  chk = true \/ forallb (modest sz) cs = true ->
  run_calls (DefaultAllocator T) sz al chk true clone cs (VState new_in tt h []) = Some (l, s) ->
  exists xs s', as_slice sz s = Ok xs s /\
    concat (map given cs) ≡ₚ xs ++ concat (map returned l) ++ st_drops s /\
    clear (DefaultAllocator T) sz al chk true s = Ok tt s' /\ as_slice sz s' = Ok [] s' /\
    concat (map given cs) ≡ₚ concat (map returned l) ++ st_drops s'.
Proof.
  intros T sz al chk clone h cs l s Hsz Hal Hh Hcl M K E.
  destruct (reached sz al Hsz Hal chk true clone id Hcl h Hh cs l s K ltac:(by right) E)
    as (d & xs & cap & S & R & F & D).
  destruct (clear_ok (DefaultAllocator T) sz al chk true Hsz (DefaultSpec sz al Hsz Hal) s xs cap R) as (s' & E' & R' & _ & _ & D').
  exists xs, s'. split; [by eapply as_slice_ok|].
  pose proof (spec_calls_account _ _ _ _ _ _ _ M S) as P. cbn [items] in P. rewrite app_nil_r in P.
  rewrite D. split; [done|]. split; [done|]. split; [by eapply as_slice_ok|].
  rewrite D', D. unfold ran. rewrite P, Permutation_app_comm. by rewrite <- app_assoc.
Qed.

Lemma L_C05_drop_returns_memory :
forall (T : Type) (sz al : Z) (chk nd : bool) (clone : T -> option T) (cl : T -> T) (h : heap T)
  (os : list (wop T)) l d ss,
  (0 < sz)%Z -> (0 < al)%Z -> (forall x, clone x = Some (cl x)) -> heap_wf h ->
  nd = false \/ forallb w_is_move os = true ->
  chk = true \/ forallb (w_modest sz) os = true ->
  spec_wops (default_fits sz al) cl os [] = Some (l, d, ss) ->
  exists w, w_run (DefaultAllocator T) sz al chk nd clone os (World [] tt h []) = Some (l, w) /\
    (forall b bk, h_blk h !! b = Some bk -> h_blk (w_h w) !! b = Some bk) /\
    exists l' w', w_run (DefaultAllocator T) sz al chk nd clone
        (map (fun i => WCall i CClear) (seq 0 (length (w_vecs w)))) w = Some (l', w') /\
      h_blk (w_h w') = h_blk h.
Proof.
  intros T sz al chk nd clone cl h os l d ss Hsz Hal Hcl Hh M K S.
  destruct (w_run_refines (DefaultAllocator T) sz al chk nd clone cl Hsz Hcl (DefaultSpec sz al Hsz Hal)
    (h_blk h) os (World [] tt h []) [] l d ss (WRep_start _ sz al (DefaultSpec sz al Hsz Hal) tt h [] Hh eq_refl) M S K) as (w & E & W & D).
  exists w. split; [done|]. split.
  { intros b bk Hb. rewrite (wr_base _ _ _ _ _ _ _ W); [done|]. intros i v Hv Ho.
    pose proof (wr_fresh _ _ _ _ _ _ _ W i v b Hv Ho). congruence. }
  destruct (clear_all (default_fits sz al) cl (length ss) 0 ss eq_refl) as (l2 & d2 & E2 & NP).
  rewrite <- (wr_len _ _ _ _ _ _ _ W).
  destruct (w_run_refines (DefaultAllocator T) sz al chk nd clone cl Hsz Hcl (DefaultSpec sz al Hsz Hal)
    (h_blk h) (map (fun i => WCall i CClear) (seq 0 (length ss))) w ss l2 d2 (take 0 ss ++ replicate (length ss) (SVec [] 0)) W) as (w2 & E3 & W2 & D2); [| exact E2| |].
  { right. apply forallb_forall. intros o Ho. apply in_map_iff in Ho as (i & <- & _). done. }
  { right. apply forallb_forall. intros o Ho. apply in_map_iff in Ho as (i & <- & _). done. }
  exists l2, w2. split; [done|]. eapply WRep_done; [done|]. rewrite take_0.
  apply Forall_app. split; [done|]. by apply Forall_replicate.
Qed.

Lemma L_C06_out_of_range_is_harmless :
forall (T : Type) (sz al : Z) (chk nd : bool) (clone : T -> option T) (cl : T -> T) (h : heap T)
  (cs : list (call T)) l s n,
  (0 < sz)%Z -> (0 < al)%Z -> (forall x, clone x = Some (cl x)) -> heap_wf h ->
  nd = false \/ forallb is_move cs = true ->
  chk = true \/ forallb (modest sz) cs = true ->
  run_calls (DefaultAllocator T) sz al chk nd clone cs (VState new_in tt h []) = Some (l, s) ->
  len sz s = Ok n s ->
  (forall i x, n < i -> exists s', insert (DefaultAllocator T) sz al chk nd i x s = Panic s' /\
     st_v s' = st_v s /\ st_h s' = st_h s /\ st_drops s' = st_drops s ++ (if nd then [x] else [])) /\
  (forall i, n <= i -> remove sz chk i s = Ok None s) /\
  (n = 0 -> pop sz s = Ok None s).
Proof.
  intros T sz al chk nd clone cl h cs l s n Hsz Hal Hcl Hh M K E EL.
  destruct (reached sz al Hsz Hal chk nd clone cl Hcl h Hh cs l s K M E) as (d & xs & cap & S & R & _).
  erewrite len_ok in EL by done. simplify_eq. split; [|split].
  - intros i x Hi. rewrite (insert_oob (DefaultAllocator T) sz al chk nd Hsz (DefaultSpec sz al Hsz Hal) s xs cap i x R Hi).
    eexists. split; [reflexivity|]. done.
  - intros i Hi. by eapply remove_none.
  - intros Hn. unfold pop, bind. erewrite is_empty_ok by done. by rewrite Hn.
Qed.

Lemma L_C07_vectors_are_independent :
forall (T : Type) (sz al : Z) (chk nd : bool) (clone : T -> option T) (cl : T -> T) (h : heap T)
  (os : list (wop T)) l d ss,
  (0 < sz)%Z -> (0 < al)%Z -> (forall x, clone x = Some (cl x)) -> heap_wf h ->
  nd = false \/ forallb w_is_move os = true ->
  spec_wops (default_fits sz al) cl os [] = Some (l, d, ss) ->
  chk = true \/ forallb (w_modest sz) os = true ->
  exists w, w_run (DefaultAllocator T) sz al chk nd clone os (World [] tt h []) = Some (l, w) /\
    w_drops w = (if nd then d else []) /\ length (w_vecs w) = length ss /\
    forall i v s, w_vecs w !! i = Some v -> ss !! i = Some s ->
      let sv := VState v tt (w_h w) (w_drops w) in
      as_slice sz sv = Ok (items s) sv /\ capacity sz sv = Ok (room s) sv.
Proof.
  intros T sz al chk nd clone cl h os l d ss Hsz Hal Hcl Hh M S K.
  destruct (w_run_refines (DefaultAllocator T) sz al chk nd clone cl Hsz Hcl (DefaultSpec sz al Hsz Hal)
    (h_blk h) os (World [] tt h []) [] l d ss (WRep_start _ sz al (DefaultSpec sz al Hsz Hal) tt h [] Hh eq_refl) M S K) as (w & E & W & D).
  exists w. split; [done|]. split; [done|]. split; [symmetry; apply W|].
  intros i v s Hv Hs sv.
  assert (R : Rep _ sz al (DefaultSpec sz al Hsz Hal) sv (items s) (room s)).
  { unfold sv. destruct (w_a w) eqn:EA. eapply (Rep_other _ _ _ _ _ _ (w_h w) []); try done; try apply W.
    pose proof (wr_rep _ _ _ _ _ _ _ W i v s Hv Hs) as R0. by rewrite EA in R0. }
  split; [by eapply as_slice_ok|by eapply capacity_ok].
Qed.

Lemma L_C08_copying_drops_uninitialised_refuted :
forall (T : Type) (sz al : Z) (chk : bool) (clone : T -> option T) (v : vec) (h : heap T) (buf : list T),
  (0 < sz)%Z -> (0 < al)%Z -> heap_wf h -> (forall x, clone x <> None) ->
  buf <> [] -> default_fits sz al (length buf) = true ->
  from_in (DefaultAllocator T) sz al chk true clone buf (VState v tt h []) = UB.
Proof.
  intros T sz al chk clone v h buf Hsz Hal Hh HC NE F.
  by apply (from_in_ub (DefaultAllocator T) sz al chk true Hsz (DefaultSpec sz al Hsz Hal)).
Qed.

Lemma L_C08_assign_within_length_partial :
forall (T : Type) (sz al : Z) (chk : bool) (clone : T -> option T) (cl : T -> T) (h : heap T) (cs : list (call T)) l s xs buf,
  (0 < sz)%Z -> (0 < al)%Z -> (forall x, clone x = Some (cl x)) -> heap_wf h ->
  forallb is_move cs = true ->
  chk = true \/ forallb (modest sz) cs = true ->
  run_calls (DefaultAllocator T) sz al chk true clone cs (VState new_in tt h []) = Some (l, s) ->
  as_slice sz s = Ok xs s -> length buf <= length xs ->
  exists s', assign (DefaultAllocator T) sz al chk true clone buf s = Ok tt s' /\
    as_slice sz s' = Ok (map cl buf) s' /\ st_drops s' = st_drops s ++ take (length buf) xs.
Proof.
  intros T sz al chk clone cl h cs l s xs buf Hsz Hal Hcl Hh M K E EX L.
  destruct (reached sz al Hsz Hal chk true clone cl Hcl h Hh cs l s K ltac:(by right) E) as (d & xs' & cap & S & R & _).
  erewrite as_slice_ok in EX by done. simplify_eq.
  pose proof (Rep_len _ _ _ _ _ _ _ R) as HL.
  destruct (assign_ok (DefaultAllocator T) sz al chk true Hsz (DefaultSpec sz al Hsz Hal) clone cl Hcl s xs cap buf R) as (s' & E' & R' & _ & _ & D).
  { by right. }
  { rewrite Nat.max_l, Nat.eqb_refl by lia. done. }
  exists s'. split; [done|]. split; [by eapply as_slice_ok|done].
Qed.

Lemma L_C09_assign_leaks_the_rest_refuted :
forall (T : Type) (sz al : Z) (chk : bool) (clone : T -> option T) (h : heap T) (cs : list (call T)) l s xs buf,
  (0 < sz)%Z -> (0 < al)%Z -> (forall x, clone x = Some x) -> heap_wf h ->
  forallb is_move cs = true ->
  chk = true \/ forallb (modest sz) cs = true ->
  run_calls (DefaultAllocator T) sz al chk true clone cs (VState new_in tt h []) = Some (l, s) ->
  as_slice sz s = Ok xs s -> length buf < length xs ->
  exists s' s'', assign (DefaultAllocator T) sz al chk true clone buf s = Ok tt s' /\
    clear (DefaultAllocator T) sz al chk true s' = Ok tt s'' /\
    concat (map given cs) ++ buf ≡ₚ concat (map returned l) ++ st_drops s'' ++ drop (length buf) xs /\
    drop (length buf) xs <> [].
Proof.
  intros T sz al chk clone h cs l s xs buf Hsz Hal Hcl Hh M K E EX L.
  destruct (reached sz al Hsz Hal chk true clone id Hcl h Hh cs l s K ltac:(by right) E) as (d & xs' & cap & S & R & _ & D0).
  erewrite as_slice_ok in EX by done. simplify_eq.
  pose proof (Rep_len _ _ _ _ _ _ _ R) as HL.
  destruct (assign_ok (DefaultAllocator T) sz al chk true Hsz (DefaultSpec sz al Hsz Hal) clone id Hcl s xs cap buf R) as (s' & E' & R' & _ & _ & D).
  { right. lia. }
  { rewrite Nat.max_l, Nat.eqb_refl by lia. done. }
  destruct (clear_ok (DefaultAllocator T) sz al chk true Hsz (DefaultSpec sz al Hsz Hal) s' _ _ R') as (s'' & E'' & R'' & _ & _ & D').
  exists s', s''. split; [done|]. split; [done|]. split.
  - pose proof (spec_calls_account _ _ _ _ _ _ _ M S) as P. cbn [items] in P. rewrite app_nil_r in P.
    rewrite D', D. unfold ran. rewrite P. rewrite map_id.
    rewrite <- (take_drop (length buf) xs) at 1. rewrite <- !app_assoc.
    rewrite (Permutation_app_comm (take (length buf) xs)), <- !app_assoc.
    rewrite (Permutation_app_comm (drop (length buf) xs)), <- !app_assoc.
    do 2 f_equiv. apply Permutation_app_swap_app.
  - intros E0. apply (f_equal length) in E0. rewrite drop_length in E0. cbn in E0. lia.
Qed.

Lemma L_C10_into_iter_yields_each_once :
forall (T : Type) (sz al : Z) (chk nd : bool) (clone : T -> option T) (cl : T -> T) (h : heap T)
  (cs : list (call T)) l s xs k (ics : list icall) la rest,
  (0 < sz)%Z -> (0 < al)%Z -> (forall x, clone x = Some (cl x)) -> heap_wf h ->
  nd = false \/ forallb is_move cs = true ->
  chk = true \/ forallb (modest sz) cs = true ->
  run_calls (DefaultAllocator T) sz al chk nd clone cs (VState new_in tt h []) = Some (l, s) ->
  as_slice sz s = Ok xs s -> capacity sz s = Ok k s ->
  ispec_calls k ics xs = (la, rest) ->
  from_front ics la ++ rest ++ rev (from_back ics la) = xs /\
  exists s1 s2, irun sz ics (vec_into_iter s) = Ok la s1 /\
    ii_drop (DefaultAllocator T) sz al chk nd s1 = Ok tt s2 /\
    st_drops (is_st s2) = st_drops s ++ (if nd then rest else []) /\
    h_blk (st_h (is_st s2)) = h_blk h.
Proof.
  intros T sz al chk nd clone cl h cs l s xs k ics la rest Hsz Hal Hcl Hh M K E EX EC HI.
  destruct (reached sz al Hsz Hal chk nd clone cl Hcl h Hh cs l s K M E) as (d & xs' & cap & S & R & F & D).
  erewrite as_slice_ok in EX by done. erewrite capacity_ok in EC by done. simplify_eq.
  split; [by eapply ispec_order|].
  destruct (irun_refines (DefaultAllocator T) sz al Hsz (DefaultSpec sz al Hsz Hal) ics s k _ xs la rest
    (IRep_start _ _ _ _ _ _ _ R) HI) as (s1 & E1 & R1).
  destruct (ii_drop_ok (DefaultAllocator T) sz al chk nd Hsz (DefaultSpec sz al Hsz Hal) s k s1 rest) as (s2 & E2 & F2 & D2).
  { by destruct R. } { done. } { done. }
  exists s1, s2. split; [done|]. split; [done|]. split; [done|]. by rewrite F2.
Qed.

Lemma L_C11_capacity_is_backed_checked_partial :
forall (T : Type) (sz al : Z) (chk nd : bool) (clone : T -> option T) (cl : T -> T) (h : heap T)
  (cs : list (call T)) l s k,
  (0 < sz)%Z -> (0 < al)%Z -> (forall x, clone x = Some (cl x)) -> heap_wf h ->
  nd = false \/ forallb is_move cs = true ->
  chk = true \/ forallb (modest sz) cs = true ->
  run_calls (DefaultAllocator T) sz al chk nd clone cs (VState new_in tt h []) = Some (l, s) ->
  capacity sz s = Ok k s -> 0 < k ->
  exists b bk, v_begin (st_v s) = Ptr b 0 /\ h_blk (st_h s) !! b = Some bk /\
    bk_bytes bk = (Z.of_nat k * sz)%Z /\ bk_align bk = al /\ k <= length (bk_cells bk).
Proof.
  intros T sz al chk nd clone cl h cs l s k Hsz Hal Hcl Hh M K E EC K0.
  destruct (reached sz al Hsz Hal chk nd clone cl Hcl h Hh cs l s K M E) as (d & xs' & cap & S & R & F & D).
  erewrite capacity_ok in EC by done. simplify_eq.
  destruct R as (_ & _ & [(_ & _ & ->)|(b & bk & j & Ev & C0 & Cl & Cz & Hb & Hc & Hl & HO)]); [lia|].
  exists b, bk. rewrite Ev. destruct HO as [HO|(HB & HA & _)]; done.
Qed.

Lemma L_C11_capacity_wraps_unchecked_refuted :
forall (T : Type) (sz al : Z) (h : heap T) d n,
  (0 < sz)%Z -> (0 < al)%Z -> heap_wf h ->
  (Z.of_nat n < usize_lim)%Z -> (usize_lim <= Z.of_nat n * sz)%Z ->
  (0 < Z.of_nat n * sz mod usize_lim)%Z -> (Z.of_nat n * sz mod usize_lim <= isize_max + 1 - al)%Z ->
  reserve (DefaultAllocator T) sz al false n (VState new_in tt h d) = UB.
Proof.
  intros. by apply reserve_wraps_ub.
Qed.

Lemma L_C12_append_panic_refuted :
forall (T : Type) (sz al : Z) (chk : bool) (clone : T -> option T) (h : heap T) x rest,
  (0 < sz)%Z -> (0 < al)%Z -> heap_wf h -> clone x = None ->
  default_fits sz al (length (x :: rest)) = true ->
  exists s', append (DefaultAllocator T) sz al chk true clone (x :: rest) (VState new_in tt h []) = Panic s' /\
    clear (DefaultAllocator T) sz al chk true s' = UB.
Proof.
  intros T sz al chk clone h x rest Hsz Hal Hh HC F.
  by apply (append_panic_unsafe (DefaultAllocator T) sz al chk true Hsz (DefaultSpec sz al Hsz Hal)).
Qed.

Lemma L_C12_push_and_insert_panic_safe_partial :
forall (T : Type) (sz al : Z) (chk nd : bool) (clone : T -> option T) (cl : T -> T) (h : heap T)
  (cs : list (call T)) l s xs c s',
  (0 < sz)%Z -> (0 < al)%Z -> (forall x, clone x = Some (cl x)) -> heap_wf h ->
  nd = false \/ forallb is_move (c :: cs) = true ->
  chk = true \/ forallb (modest sz) (c :: cs) = true ->
  run_calls (DefaultAllocator T) sz al chk nd clone cs (VState new_in tt h []) = Some (l, s) ->
  as_slice sz s = Ok xs s ->
  step (DefaultAllocator T) sz al chk nd clone c s = Some (APanic, s') ->
  as_slice sz s' = Ok xs s' /\ st_drops s' = st_drops s ++ (if nd then given c else []).
Proof.
  intros T sz al chk nd clone cl h cs l s xs c s' Hsz Hal Hcl Hh M K E EX E'.
  destruct (reached sz al Hsz Hal chk nd clone cl Hcl h Hh cs l s) as (d & xs' & cap & S & R & F & D).
  { destruct K as [K|K]; [by left|right]. cbn in K. by apply andb_prop in K as [_ ?]. }
  { destruct M as [M|M]; [by left|right]. cbn in M. by apply andb_prop in M as [_ ?]. } { done. }
  erewrite as_slice_ok in EX by done. simplify_eq.
  destruct (spec_call (default_fits sz al) cl c (SVec xs cap)) as [[a' d'] [xs' k']] eqn:SC.
  destruct (step_modest (DefaultAllocator T) sz al chk nd Hsz (DefaultSpec sz al Hsz Hal) clone cl Hcl c s xs cap
    a' d' xs' k' R ltac:(destruct M as [M|M]; [by left|right; cbn in M; by apply andb_prop in M as [? _]]) SC
    ltac:(destruct K as [K|K]; [by left|right; cbn in K; by apply andb_prop in K as [? _]])) as (s2 & E2 & P).
  rewrite E' in E2. simplify_eq. destruct P as (R2 & _ & _ & D2).
  assert (d' = given c /\ xs' = xs) as [-> ->].
  { destruct c; cbn [spec_call] in SC; unfold with_room in SC; cbn [items room] in SC;
      repeat (case_match; simplify_eq); try done. }
  split; [by eapply as_slice_ok|]. done.
Qed.

Lemma L_C13_collect_keeps_everything :
forall (T : Type) (sz al : Z) (chk nd : bool) (v : vec) (h : heap T) (hint : nat) (xs : list T),
  (0 < sz)%Z -> (0 < al)%Z -> heap_wf h ->
  chk = true \/ (sz <= isize_max /\ Z.of_nat hint * sz <= isize_max)%Z ->
  match from_iter (DefaultAllocator T) sz al chk nd hint xs (VState v tt h []) with
  | Ok v' s' =>
    let s := VState v' (st_a s') (st_h s') (st_drops s') in
    as_slice sz s = Ok xs s /\ st_drops s' = [] /\
    (length xs <= hint -> capacity sz s = Ok hint s)
  | Panic s' =>
    h_blk (st_h s') = h_blk h /\ st_drops s' ≡ₚ (if nd then xs else []) /\
    ~ (default_fits sz al hint = true /\ length xs <= hint)
  | UB => False
  end.
Proof.
  intros T sz al chk nd v h hint xs Hsz Hal Hh K.
  destruct (spec_wop (default_fits sz al) (@id T) (WIter hint xs) []) as [[[a d] ss]|] eqn:S.
  2: { cbn [spec_wop] in S. destruct (spec_build _) as [[? ?] ?]. done. }
  destruct (w_step_refines (DefaultAllocator T) sz al chk nd Some id Hsz ltac:(done) (DefaultSpec sz al Hsz Hal)
    (h_blk h) (WIter hint xs) (World [] tt h []) [] a d ss) as (w & E & W & D).
  { by apply WRep_start. } { by right. } { done. }
  { destruct K as [K|K]; [by left|right]. unfold w_modest. cbn [w_named]. lia. }
  cbn [w_step w_a w_h w_drops] in E.
  assert (EV : from_iter (DefaultAllocator T) sz al chk nd hint xs (VState v tt h []) =
    match from_iter (DefaultAllocator T) sz al chk nd hint xs (VState new_in tt h []) with
    | Ok v' s' => Ok v' (VState v (st_a s') (st_h s') (st_drops s'))
    | Panic s' => Panic (VState v (st_a s') (st_h s') (st_drops s'))
    | UB => UB end).
  { unfold from_iter, build. cbn [st_v st_a st_h st_drops].
    destruct (bind _ _ _) as [? s1|s1|]; [done| |done]. by destruct (clear _ _ _ _ _ s1). }
  rewrite EV. clear EV.
  cbn [spec_wop] in S.
  destruct (from_iter _ _ _ _ _ _ _ (VState new_in tt h [])) as [v' s'|s'|]; cbn [w_build w_vecs app] in E; simplify_eq.
  - cbn [w_drops w_h w_a w_vecs st_a st_h st_drops] in *.
    assert (HS : exists s1, spec_pushes (default_fits sz al) xs (SVec [] hint) = (AUnit, d, s1) /\ ss = [s1]).
    { destruct (_ || _); [|done]. destruct (spec_pushes _ xs _) as [[a1 d1] s1] eqn:EP.
      pose proof (spec_pushes_fact _ _ _ _ _ _ _ EP) as HF.
      destruct a1; cbn [spec_build] in S; simplify_eq; try (by destruct HF). by exists s1. }
    destruct HS as (s1 & EP & ->). pose proof (spec_pushes_fact _ _ _ _ _ _ _ EP) as (_ & -> & EI & ER).
    cbn in EI, ER.
    pose proof (wr_rep _ _ _ _ _ _ _ W 0 v' s1 eq_refl eq_refl) as R. cbn [w_a w_h] in R. rewrite EI in R.
    assert (R' : Rep _ sz al (DefaultSpec sz al Hsz Hal) (VState v' (st_a s') (st_h s') (st_drops s')) xs (room s1)).
    { eapply (Rep_other _ _ _ _ _ _ (st_h s') []); try done. by destruct R. }
    split; [by eapply as_slice_ok|]. split.
    { rewrite D. unfold ran. by destruct nd. }
    intros L. rewrite <- (ER L). by eapply capacity_ok.
  - cbn [w_drops w_h w_a w_vecs st_a st_h st_drops] in *.
    pose proof (wr_len _ _ _ _ _ _ _ W) as L0. cbn in L0. apply nil_length_inv in L0. subst ss.
    split; [|split].
    + apply map_eq. intros b. apply (wr_base _ _ _ _ _ _ _ W). done.
    + rewrite D. unfold ran. destruct nd; [|done]. destruct (_ || _).
      * destruct (spec_pushes _ xs _) as [[a1 d1] s1] eqn:EP.
        pose proof (spec_pushes_fact _ _ _ _ _ _ _ EP) as HF.
        destruct a1; cbn [spec_build] in S; simplify_eq. destruct HF as [-> _]. by rewrite app_nil_r.
      * cbn [spec_build] in S. by simplify_eq.
    + intros [F L]. rewrite F, orb_true_r in S.
      destruct (spec_pushes _ xs _) as [[a1 d1] s1] eqn:EP.
      pose proof (spec_pushes_fact _ _ _ _ _ _ _ EP) as HF.
      destruct a1; cbn [spec_build] in S; simplify_eq. destruct HF as [_ HF]. cbn in HF. lia.
Qed.

Lemma L_C75_zero_sized_elements_panic :
forall (A T : Type) (AI : AllocImpl A T) (al : Z) (chk nd : bool) (s : vstate A T) x i,
  len 0 s = Panic s /\ capacity 0 s = Panic s /\
  push AI 0 al chk nd x s = Panic (log_drop nd x s) /\
  insert AI 0 al chk nd i x s = Panic (log_drop nd x s) /\
  pop 0 s = Panic s /\ remove 0 chk i s = Panic s.
Proof.
  done.
Qed.
