(** Proofs of the properties stated in SharedDequeProps.v. *)
From Verif Require Import Base Heap Alloc Deque DequeSpec SharedRefs SharedRefsSpec.
Local Open Scope nat_scope.

From Verif Require Import HeapLemmas DequeProofs DequeDerived SharedRefsProofs.
Local Open Scope nat_scope.

Section share.
Context {T : Type}.
Variables (sz al : Z) (chk : bool) (h0 : heap (dcell T)).
Hypothesis SU : Setup sz al h0.

Lemma d_share_ok s pa start subs leak bo (xs : list T) : DRep sz al h0 s pa start subs leak bo xs ->
  forall sch ws rs, Forall (fun w => fst w <= snd w <= length xs) ws ->
  d_share chk sch (map (fun w => iter_at sz pa start subs (bo + fst w) (bo + snd w)) ws) rs s =
    Ok (hands (map (fun i => (loc sz subs (bo + i), true)) (handed sch ws)) rs) s.
Proof using SU.
  intros R. pose proof (dr_shape _ _ _ _ _ _ _ _ _ _ R) as SH.
  pose proof (R_bound sz al (su_layout _ _ _ SU) R) as LB.
  induction sch as [|[j d] sch IH]; intros ws rs F; [done|]. cbn [d_share handed].
  change (map ?f ws) with (f <$> ws) at 1. rewrite list_lookup_fmap.
  destruct (ws !! j) as [[lo hi]|] eqn:W; cbn [fmap option_fmap option_map]; [|by apply IH].
  pose proof (Forall_lookup_1 _ _ _ _ F W) as [L1 L2]. cbn [fst snd] in *.
  assert (S : forall w, fst w <= snd w <= length xs ->
    <[j := iter_at sz pa start subs (bo + fst w) (bo + snd w)]> (map (fun w => iter_at sz pa start subs (bo + fst w) (bo + snd w)) ws) =
    map (fun w => iter_at sz pa start subs (bo + fst w) (bo + snd w)) (<[j := w]> ws) /\
    Forall (fun w => fst w <= snd w <= length xs) (<[j := w]> ws)).
  { intros w Hw. split; [|by apply Forall_insert].
    change (map ?f ?l) with (f <$> l). by rewrite list_fmap_insert. }
  destruct (Nat.ltb_spec lo hi) as [L|L].
  - destruct d.
    + unfold bind at 1. rewrite (raw_next_ok sz al chk (su_layout _ _ _ SU) s SH) by lia. cbn [fst snd].
      replace (bo + lo + 1) with (bo + (lo + 1)) by lia.
      destruct (S (lo + 1, hi)) as [E F']; [cbn; lia|]. cbn [fst snd] in E. rewrite E. rewrite IH by done. done.
    + unfold bind at 1. rewrite (raw_next_back_ok sz al chk (su_layout _ _ _ SU) s SH) by lia. cbn [fst snd].
      replace (bo + hi - 1) with (bo + (hi - 1)) by lia.
      destruct (S (lo, hi - 1)) as [E F']; [cbn; lia|]. cbn [fst snd] in E. rewrite E. rewrite IH by done. done.
  - assert (lo = hi) as -> by lia.
    assert (E0 : <[j := iter_at sz pa start subs (bo + hi) (bo + hi)]> (map (fun w => iter_at sz pa start subs (bo + fst w) (bo + snd w)) ws) =
      map (fun w => iter_at sz pa start subs (bo + fst w) (bo + snd w)) ws).
    { apply list_insert_id. change (map ?f ws) with (f <$> ws). by rewrite list_lookup_fmap, W. }
    destruct d; unfold bind at 1; [rewrite raw_next_end|rewrite raw_next_back_end]; cbn [fst snd]; rewrite E0; by apply IH.
Qed.

Lemma handed_bound sch : forall n ws, Forall (fun w => fst w <= snd w <= n) ws -> Forall (fun i => i < n) (handed sch ws).
Proof using.
  clear. induction sch as [|[j d] sch IH]; intros n ws F; cbn [handed]; [done|].
  destruct (ws !! j) as [[lo hi]|] eqn:W; [|by apply IH].
  pose proof (Forall_lookup_1 _ _ _ _ F W) as [L1 L2]. cbn [fst snd] in *.
  destruct (Nat.ltb_spec lo hi); [|by apply IH].
  destruct d; (constructor; [lia|]); apply IH, Forall_insert; [done|cbn; lia|done|cbn; lia].
Qed.

Lemma handed_one sch : forall lo hi, lo <= hi -> NoDup (handed sch [(lo, hi)]) /\ Forall (fun i => lo <= i < hi) (handed sch [(lo, hi)]).
Proof using.
  clear. induction sch as [|[j d] sch IH]; intros lo hi L; cbn [handed]; [split; constructor|].
  destruct j as [|j]; cbn [lookup list_lookup]; [|by apply IH].
  destruct (Nat.ltb_spec lo hi); [|by apply IH].
  destruct d; cbn [insert list_insert].
  - destruct (IH (lo + 1) hi) as [N F]; [lia|]. rewrite Forall_forall in F. split.
    + constructor; [|done]. intros H1. apply F in H1. lia.
    + constructor; [lia|]. apply Forall_forall. intros i Hi. apply F in Hi. lia.
  - destruct (IH lo (hi - 1)) as [N F]; [lia|]. rewrite Forall_forall in F. split.
    + constructor; [|done]. intros H1. apply F in H1. lia.
    + constructor; [lia|]. apply Forall_forall. intros i Hi. apply F in Hi. lia.
Qed.
End share.

Lemma L_C120_deque_shared_references_partial :
forall (T : Type) (sz al : Z) (chk : bool) (h0 : heap (dcell T)) prog l s xs (m : nat) (sch : list (nat * bool)), Setup sz al h0 ->
  built sz al chk h0 prog l s -> contents sz chk s xs ->
  let hs := handed sch (replicate m (0, length xs)) in
  exists rs, d_shared chk m sch s = Ok rs s /\ length rs = length hs /\
    forall r i, hs !! r = Some i ->
    exists p good x, rs !! r = Some (p, good) /\ xs !! i = Some x /\ read_elem p s = Ok x s /\
      (good = true <-> i ∉ drop (S r) hs).
Proof.
  intros T sz al chk h0 prog l s xs m sch SU B C.
  destruct (built_rep sz al chk h0 SU _ _ _ B) as (pa & st & subs & lk & bo & xs' & d & R & _).
  rewrite (contents_eq sz al chk h0 SU _ _ _ _ _ _ _ _ R C). clear C xs. intros hs.
  assert (F : Forall (fun w => fst w <= snd w <= length xs') (replicate m (0, length xs'))).
  { apply Forall_replicate. cbn. lia. }
  pose proof (d_share_ok sz al chk h0 SU _ _ _ _ _ _ _ R sch (replicate m (0, length xs')) [] F) as E.
  assert (FB : Forall (fun i => i < length xs') hs) by (by apply handed_bound).
  fold hs in E. clearbody hs.
  pose proof (R_bound sz al (su_layout _ _ _ SU) R) as LB.
  eexists. split.
  { unfold d_shared, bind. rewrite (iter_ok sz al (su_layout _ _ _ SU) h0 _ _ _ _ _ _ _ R).
    change (map ?f (replicate m ?x)) with (f <$> replicate m x) in E. rewrite fmap_replicate in E. cbn [fst snd] in E.
    rewrite Nat.add_0_r in E. exact E. }
  split. { rewrite hands_length, map_length. done. }
  intros r i Hi. pose proof (Forall_lookup_1 _ _ _ _ FB Hi) as Li. cbn in Li.
  destruct (lookup_lt_is_Some_2 _ _ Li) as [x Hx].
  exists (loc sz subs (bo + i)), (negb (bool_decide ((loc sz subs (bo + i), true) ∈ drop (S r) (map (fun i => (loc sz subs (bo + i), true)) hs)))), x.
  split.
  { apply (hands_new _ [] r _ true). change (map ?f hs) with (f <$> hs). by rewrite list_lookup_fmap, Hi. }
  split; [done|]. split.
  { apply read_elem_ok. by apply (dr_elems _ _ _ _ _ _ _ _ _ _ R). }
  rewrite negb_true_iff, bool_decide_eq_false.
  change (map ?f hs) with (f <$> hs). rewrite <- fmap_drop. rewrite elem_of_list_fmap. split.
  - intros N Q. apply N. by exists i.
  - intros N (k & Q & Hk). assert (Q' : loc sz subs (bo + i) = loc sz subs (bo + k)) by congruence. clear Q. rename Q' into Q.
    apply (loc_inj sz al (su_layout _ _ _ SU) (dr_shape _ _ _ _ _ _ _ _ _ _ R)) in Q; [| |].
    + assert (i = k) as -> by lia. done.
    + lia.
    + assert (k ∈ hs) as Hk' by (rewrite <- (take_drop (S r) hs); apply elem_of_app; by right).
      apply (proj1 (Forall_forall _ _) FB) in Hk'. lia.
Qed.

Lemma L_C120_deque_one_iterator :
forall (T : Type) (sz al : Z) (chk : bool) (h0 : heap (dcell T)) prog l s xs (ds : list bool), Setup sz al h0 ->
  built sz al chk h0 prog l s -> contents sz chk s xs ->
  exists rs, d_shared chk 1 (map (pair 0) ds) s = Ok rs s /\ Forall (fun r => snd r = true) rs /\
    length rs = length ds `min` length xs.
Proof.
  intros T sz al chk h0 prog l s xs ds SU B C.
  destruct (L_C120_deque_shared_references_partial T sz al chk h0 prog l s xs 1 (map (pair 0) ds) SU B C) as (rs & E & L & H).
  exists rs. split; [done|]. cbn [replicate] in *. destruct (handed_one (map (pair 0) ds) 0 (length xs) ltac:(lia)) as [N _]. split.
  - apply Forall_lookup_2. intros r [p good] Hr.
    assert (Lr : r < length (handed (map (pair 0) ds) [(0, length xs)])) by (rewrite <- L; by eapply lookup_lt_Some).
    destruct (lookup_lt_is_Some_2 _ _ Lr) as [i Hi]. destruct (H r i Hi) as (p' & good' & x & Hr' & _ & _ & G).
    rewrite Hr in Hr'. injection Hr' as <- <-. cbn. apply G. intros Q.
    apply elem_of_list_lookup in Q as (k & Hk). rewrite lookup_drop in Hk.
    pose proof (NoDup_lookup _ _ _ _ N Hi Hk). lia.
  - rewrite L. clear. assert (G : forall ds lo hi, lo <= hi -> length (handed (map (pair 0) ds) [(lo, hi)]) = length ds `min` (hi - lo)).
    { clear. induction ds as [|d ds IH]; intros lo hi L; cbn [map handed length]; [lia|]. cbn [lookup list_lookup].
      destruct (Nat.ltb_spec lo hi).
      - destruct d; cbn [insert list_insert length]; rewrite IH by lia; lia.
      - rewrite IH by lia. lia. }
    rewrite G by lia. lia.
Qed.

Lemma L_C120_deque_shared_references_refuted :
forall (T : Type) (sz al : Z) (chk : bool) (h0 : heap (dcell T)) prog l s xs, Setup sz al h0 ->
  built sz al chk h0 prog l s -> contents sz chk s xs -> xs <> [] ->
  exists p q, d_shared chk 2 [(0, true); (1, true)] s = Ok [(p, false); (p, true)] s /\
    d_shared chk 2 [(0, false); (1, false)] s = Ok [(q, false); (q, true)] s.
Proof.
  intros T sz al chk h0 prog l s xs SU B C NE.
  destruct (built_rep sz al chk h0 SU _ _ _ B) as (pa & st & subs & lk & bo & xs' & d & R & _).
  rewrite (contents_eq sz al chk h0 SU _ _ _ _ _ _ _ _ R C) in *. clear C xs.
  assert (F : Forall (fun w => fst w <= snd w <= length xs') (replicate 2 (0, length xs'))).
  { apply Forall_replicate. cbn. lia. }
  assert (L : 0 < length xs') by (destruct xs'; [done|cbn; lia]).
  assert (E : forall sch, d_shared chk 2 sch s = Ok (hands (map (fun i => (loc sz subs (bo + i), true)) (handed sch (replicate 2 (0, length xs')))) []) s).
  { intros sch. pose proof (d_share_ok sz al chk h0 SU _ _ _ _ _ _ _ R sch (replicate 2 (0, length xs')) [] F) as E.
    unfold d_shared, bind. rewrite (iter_ok sz al (su_layout _ _ _ SU) h0 _ _ _ _ _ _ _ R).
    change (map ?f (replicate 2 ?x)) with (f <$> replicate 2 x) in E. rewrite fmap_replicate in E. cbn [fst snd] in E.
    rewrite Nat.add_0_r in E. exact E. }
  exists (loc sz subs (bo + 0)), (loc sz subs (bo + (length xs' - 1))). rewrite !E.
  assert (LT : (0 <? length xs') = true) by (by apply Nat.ltb_lt).
  split; cbn [handed replicate lookup list_lookup]; rewrite LT; cbn [insert list_insert lookup list_lookup]; rewrite LT;
    cbn [map hands fold_left hand fst snd app]; by rewrite bool_decide_eq_true_2.
Qed.
