(** Proofs of the properties stated in SourceVecProps.v. *)
(** C100, vectors and ordered vector maps: a panic of the iterator they are filled from. *)
From Verif Require Import Base Heap Alloc Source.
From Verif Require Import Vector VectorSpec.
From Verif Require VectorMap VectorMapSpec.

From Verif Require Import AllocContract VectorProofs VectorMore VectorDerived SourceProofs.
From Verif Require VectorMapDerived.

Lemma spec_pushes_given {T} fits (xs : list T) : forall s l d s',
  spec_calls fits id (map CPush xs) s = (l, d, s') -> concat (map returned l) = [].
Proof.
  induction xs as [|x xs IH]; intros s l d s' E; cbn [map spec_calls] in E; [by simplify_eq|].
  destruct (spec_call fits id (CPush x) s) as [[a d1] s1] eqn:E1.
  destruct (spec_calls fits id (map CPush xs) s1) as [[l2 d2] s2] eqn:E2. simplify_eq. cbn [map concat].
  rewrite (IH _ _ _ _ E2), app_nil_r. cbn [spec_call] in E1. unfold with_room in E1.
  repeat case_match; simplify_eq; done.
Qed.
Lemma spec_pushes_all {T} fits (xs : list T) : forall s l d s',
  spec_calls fits id (map CPush xs) s = (l, d, s') -> Forall (fun a => ~ a = APanic) l -> items s' = items s ++ xs /\ d = [].
Proof.
  induction xs as [|x xs IH]; intros s l d s' E F; cbn [map spec_calls] in E; [simplify_eq; by rewrite app_nil_r|].
  destruct (spec_call fits id (CPush x) s) as [[a d1] s1] eqn:E1.
  destruct (spec_calls fits id (map CPush xs) s1) as [[l2 d2] s2] eqn:E2. simplify_eq.
  apply Forall_cons in F as (F1 & F2). destruct (IH _ _ _ _ E2 F2) as (-> & ->).
  cbn [spec_call] in E1. unfold with_room in E1.
  repeat case_match; simplify_eq; try done. cbn. by rewrite <- app_assoc.
Qed.
Lemma run_calls_app {A T} (AI : AllocImpl A T) sz al chk nd clone cs cs' : forall s l s',
  run_calls AI sz al chk nd clone cs s = Some (l, s') ->
  run_calls AI sz al chk nd clone (cs ++ cs') s =
  match run_calls AI sz al chk nd clone cs' s' with Some (l', s'') => Some (l ++ l', s'') | None => None end.
Proof.
  induction cs as [|c cs IH]; intros s l s' E; cbn [run_calls app] in *.
  { simplify_eq. by destruct (run_calls _ _ _ _ _ _ cs' _) as [[]|]. }
  destruct (step AI sz al chk nd clone c s) as [[a s1]|]; [|done].
  destruct (run_calls _ _ _ _ _ _ cs s1) as [[l1 s2]|] eqn:E1; [|done]. simplify_eq.
  rewrite (IH _ _ _ E1). by destruct (run_calls _ _ _ _ _ _ cs' s') as [[]|].
Qed.
Lemma spec_calls_app {T} fits (cl : T -> T) cs cs' : forall s,
  spec_calls fits cl (cs ++ cs') s =
  let '(l, d, s1) := spec_calls fits cl cs s in let '(l', d', s2) := spec_calls fits cl cs' s1 in (l ++ l', d ++ d', s2).
Proof.
  induction cs as [|c cs IH]; intros s; cbn [spec_calls app].
  { by destruct (spec_calls fits cl cs' s) as [[]]. }
  destruct (spec_call fits cl c s) as [[a d] s1]. rewrite IH.
  destruct (spec_calls fits cl cs s1) as [[l1 d1] s2]. destruct (spec_calls fits cl cs' s2) as [[l2 d2] s3].
  cbn. by rewrite app_assoc.
Qed.

Lemma moves_only {T} n (ps : list T) : forallb is_move (CReserve n :: map CPush ps) = true.
Proof. cbn. induction ps; by cbn. Qed.

(** What a dropped vector leaves behind, after a program of a reserve and pushes. *)
Lemma dropped_after {T} sz al chk nd (h : heap T) c0 ps l s :
  (0 < sz)%Z -> (0 < al)%Z -> heap_wf h -> (exists n, c0 = CReserve n) ->
  chk = true \/ forallb (modest sz) (c0 :: map CPush ps) = true ->
  run_calls (DefaultAllocator T) sz al chk nd Some (c0 :: map CPush ps) (VState new_in tt h []) = Some (l, s) ->
  exists s', clear (DefaultAllocator T) sz al chk nd s = Ok tt s' /\ h_blk (st_h s') = h_blk h /\
    st_drops s' ≡ₚ (if nd then ps else []).
Proof.
  intros Hsz Hal Hh (n & ->) K E.
  pose proof (moves_only n ps) as MV.
  destruct (reached sz al Hsz Hal chk nd Some id ltac:(done) h Hh _ l s K ltac:(by right) E) as (d & xs & cap & S & R & F & D).
  destruct (clear_ok (DefaultAllocator T) sz al chk nd Hsz (DefaultSpec sz al Hsz Hal) s xs cap R) as (s' & E' & R' & F' & _ & D').
  exists s'. split; [done|]. split.
  - destruct R' as (_ & _ & [(EV & _)|(b & bk & j & _ & C0 & _)]); [|lia].
    rewrite <- F, <- F'. unfold frame. rewrite EV. cbn. done.
  - rewrite D', D. unfold ran. destruct nd; [|done].
    pose proof (spec_calls_account _ _ _ _ _ _ _ MV S) as P. cbn [items] in P. rewrite app_nil_r in P.
    assert (G : concat (map given (CReserve n :: map CPush ps)) = ps).
    { cbn. clear. induction ps; cbn; [done|by f_equal]. }
    rewrite G in P. rewrite P.
    assert (concat (map returned l) = []) as ->; [|cbn; by rewrite Permutation_app_comm].
    cbn [spec_calls] in S. destruct (spec_call _ _ (CReserve n) _) as [[a d1] s1] eqn:E1.
    destruct (spec_calls _ _ (map CPush ps) s1) as [[l2 d2] s2] eqn:E2. simplify_eq. cbn [map concat].
    rewrite (spec_pushes_given _ _ _ _ _ _ E2), app_nil_r. cbn [spec_call] in E1. unfold with_room in E1.
    repeat case_match; simplify_eq; done.
Qed.

Lemma L_C100_vector_from_iter :
forall (T : Type) (sz al : Z) (chk nd : bool) (h : heap T) (hint : nat) (src : source T),
  (0 < sz)%Z -> (0 < al)%Z -> heap_wf h ->
  chk = true \/ (sz <= isize_max /\ Z.of_nat hint * sz <= isize_max)%Z ->
  match vector_collect (DefaultAllocator T) sz al chk nd hint src (VState new_in tt h []) with
  | (Ok _ s, n) => panics src = false /\ n = length (yields src) /\ as_slice sz s = Ok (yields src) s /\ st_drops s = []
  | (Panic s, n) => h_blk (st_h s) = h_blk h /\ st_drops s ≡ₚ (if nd then take n (yields src) else [])
  | (UB, _) => False
  end.
Proof.
  intros T sz al chk nd h hint src Hsz Hal Hh K0. unfold vector_collect.
  assert (K : forall ps : list T, chk = true \/ forallb (modest sz) (CReserve hint :: map CPush ps) = true).
  { intros ps. destruct K0 as [K0|(K1 & K2)]; [by left|right]. cbn [forallb]. apply andb_true_iff.
    split; [unfold modest; cbn [named]; lia|]. induction ps as [|p ps IH]; [done|]. cbn [map forallb]. rewrite IH.
    unfold modest. cbn [named]. lia. }
  set (s0 := VState new_in tt h []).
  assert (H0 : match reserve (DefaultAllocator T) sz al chk hint s0 with
    | Ok _ s1 => exists a, step (DefaultAllocator T) sz al chk nd Some (CReserve hint) s0 = Some (a, s1) /\ ~ a = APanic
    | Panic s1 => step (DefaultAllocator T) sz al chk nd Some (CReserve hint) s0 = Some (APanic, s1)
    | UB => step (DefaultAllocator T) sz al chk nd Some (CReserve hint) s0 = None end).
  { unfold step. cbn [exec]. unfold bind. destruct (reserve _ _ _ _ hint s0) as [[]| |]; cbn; try done. by eexists. }
  destruct (reserve _ _ _ _ hint s0) as [u s1|s1|] eqn:E0.
  2: { destruct (dropped_after sz al chk nd h (CReserve hint) [] [APanic] s1 Hsz Hal Hh ltac:(by eexists) (K _)) as (s' & EC & B & D).
       { cbn [map run_calls]. fold s0. by rewrite H0. }
       cbn [unwinding]. rewrite EC, take_0. done. }
  2: { exfalso. apply (L_C03_vector_is_memory_safe T sz al chk nd Some id h [CReserve hint]); try done.
       { right. done. } { exact (K []). }
       cbn [run_calls]. fold s0. by rewrite H0. }
  destruct H0 as (a0 & H0 & NR0). unfold collect.
  pose proof (drain_run (push (DefaultAllocator T) sz al chk nd) CPush (step (DefaultAllocator T) sz al chk nd Some)
    (fun a => a = APanic) (run_calls (DefaultAllocator T) sz al chk nd Some) ltac:(done) ltac:(done)
    (vector_sim _ sz al chk nd Some) (yields src) (panics src) s1) as DR.
  destruct (drain _ _ _ s1) as [[u' s2|s2|] n]; cbn [unwinding].
  - destruct DR as (B & -> & l & El & F). split; [done|]. split; [done|].
    assert (ER : run_calls (DefaultAllocator T) sz al chk nd Some (CReserve hint :: map CPush (yields src)) s0 = Some (a0 :: l, s2)).
    { cbn [run_calls]. by rewrite H0, El. }
    destruct (reached sz al Hsz Hal chk nd Some id ltac:(done) h Hh _ _ _ (K _) (or_intror (moves_only hint (yields src))) ER)
      as (d & xs & cap & S & R & _ & D).
    cbn [spec_calls] in S. destruct (spec_call _ _ (CReserve hint) _) as [[a d1] st1] eqn:E1.
    destruct (spec_calls _ _ (map CPush (yields src)) st1) as [[l2 d2] st2] eqn:E2. simplify_eq.
    destruct (spec_pushes_all _ _ _ _ _ _ E2 F) as (EI & ->).
    assert (items st1 = [] /\ d1 = []) as (EI1 & ->).
    { cbn [spec_call] in E1. unfold with_room in E1. repeat case_match; simplify_eq; done. }
    rewrite EI1 in EI. cbn in EI. subst xs. split; [by eapply as_slice_ok|]. rewrite D. by destruct nd.
  - destruct DR as (L & l & El & _).
    destruct (dropped_after sz al chk nd h (CReserve hint) (take n (yields src)) (a0 :: l) s2 Hsz Hal Hh ltac:(by eexists) (K _)) as (s' & EC & B & D).
    { cbn [run_calls]. fold s0. by rewrite H0, El. }
    rewrite EC. done.
  - eapply (L_C03_vector_is_memory_safe T sz al chk nd Some id h (CReserve hint :: map CPush (take n (yields src)))); try done.
    { right. apply moves_only. }
    cbn [run_calls]. fold s0. by rewrite H0, DR.
Qed.
