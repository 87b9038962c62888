(** Proofs of the properties stated in SourceMapProps.v. *)
(** C100, ordered vector maps: a panic of the iterator they are filled from. *)
From Verif Require Import Base Heap Alloc Source.
From Verif Require Import Vector VectorSpec VectorMap VectorMapSpec.

From Verif Require Import AllocContract VectorProofs VectorMapProofs VectorMapDerived SourceProofs.

Lemma single_extend {K V} (eqb : K -> K -> bool) fits (kv : K * V) m a d e m' :
  spec_mcall eqb fits (MExtend [kv]) m = (a, d, e, m') -> m_returned a = [].
Proof.
  intros E. cbn [spec_mcall] in E. destruct kv as [k v]. cbn [spec_extend] in E.
  repeat case_match; by simplify_eq.
Qed.
Lemma extends_return {K V} (eqb : K -> K -> bool) fits (xs : list (K * V)) : forall m l d e m',
  spec_mcalls eqb fits (map (fun kv => MExtend [kv]) xs) m = (l, d, e, m') -> concat (map m_returned l) = [].
Proof.
  induction xs as [|x xs IH]; intros m l d e m' E; cbn [map spec_mcalls] in E; [by simplify_eq|].
  destruct (spec_mcall eqb fits (MExtend [x]) m) as [[[a d1] e1] m1] eqn:E1.
  destruct (spec_mcalls eqb fits (map _ xs) m1) as [[[l2 d2] e2] m2] eqn:E2. simplify_eq. cbn [map concat].
  rewrite (IH _ _ _ _ _ E2), app_nil_r. by eapply single_extend.
Qed.
Lemma extends_look {K V} cmp (eqb : K -> K -> bool) (KO : KeyOrder cmp eqb) fits k (xs : list (K * V)) : forall m l d e m',
  spec_mcalls eqb fits (map (fun kv => MExtend [kv]) xs) m = (l, d, e, m') -> Forall (fun a => ~ a = MPanic) l ->
  option_map snd (look eqb k m') =
    match List.find (has eqb k) (rev xs) with Some p => Some (snd p) | None => option_map snd (look eqb k m) end.
Proof.
  induction xs as [|x xs IH]; intros m l d e m' E F; cbn [map spec_mcalls] in E; [by simplify_eq|].
  destruct (spec_mcall eqb fits (MExtend [x]) m) as [[[a d1] e1] m1] eqn:E1.
  destruct (spec_mcalls eqb fits (map _ xs) m1) as [[[l2 d2] e2] m2] eqn:E2. simplify_eq.
  apply Forall_cons in F as (F1 & F2). rewrite (IH _ _ _ _ _ E2 F2). cbn [rev]. rewrite find_app.
  destruct (List.find _ (rev xs)); [done|]. cbn [spec_mcall] in E1.
  assert (a = MUnit) as ->.
  { destruct x as [k1 v1]. cbn [spec_extend] in E1. repeat case_match; by simplify_eq. }
  by rewrite (extend_look cmp eqb KO fits k [x] m _ _ _ E1).
Qed.
Lemma extends_given {K V} (xs : list (K * V)) : concat (map m_given (map (fun kv => MExtend [kv]) xs)) = parts xs.
Proof. induction xs as [|x xs IH]; [done|]. cbn [map concat m_given]. rewrite IH. done. Qed.

Lemma L_C100_vector_map_from_iter :
forall (K V : Type) (sz al : Z) (chk nd : bool) (cmp eqb : K -> K -> bool) (h : heap (K * V)) (src : source (K * V)),
  (0 < sz)%Z -> (0 < al)%Z -> KeyOrder cmp eqb -> heap_wf h -> chk = true \/ (sz <= isize_max)%Z ->
  match map_collect (DefaultAllocator (K * V)) sz al chk nd cmp eqb src (new_map h) with
  | (Ok _ s, n) =>
    panics src = false /\ n = length (yields src) /\
    exists xs, as_slice sz (ms_v s) = Ok xs (ms_v s) /\
      (forall k, m_step (DefaultAllocator (K * V)) sz al chk nd cmp eqb (MGet k) s =
         Some (MRead (option_map snd (List.find (fun p => eqb (fst p) k) (rev (yields src)))), s)) /\
      (nd = true -> parts (yields src) ≡ₚ parts xs ++ parts (st_drops (ms_v s)) ++ ms_lone s)
  | (Panic s, n) =>
    h_blk (st_h (ms_v s)) = h_blk h /\
    (nd = true -> parts (st_drops (ms_v s)) ++ ms_lone s ≡ₚ parts (take n (yields src)))
  | (UB, _) => False
  end.
Proof.
  intros K V sz al chk nd cmp eqb h src Hsz Hal KO Hh HK.
  assert (HK2 : forall xs : list (K * V), chk = true \/ forallb (m_modest sz) (map (fun kv => MExtend [kv]) xs) = true).
  { intros xs. destruct HK as [HK|HK]; [by left|right]. apply forallb_forall. intros c Hc.
    apply in_map_iff in Hc as (x & <- & _). unfold m_modest. cbn [m_named]. lia. }
  unfold map_collect, collect.
  pose proof (drain_run (map_put (DefaultAllocator (K * V)) sz al chk nd cmp eqb) (fun kv => MExtend [kv])
    (m_step (DefaultAllocator (K * V)) sz al chk nd cmp eqb)
    (fun a => a = MPanic) (m_run (DefaultAllocator (K * V)) sz al chk nd cmp eqb) ltac:(done) ltac:(done)
    (map_sim _ sz al chk nd cmp eqb) (yields src) (panics src) (new_map h)) as DR.
  destruct (drain _ _ _ (new_map h)) as [[u' s2|s2|] n]; cbn [unwinding].
  - destruct DR as (B & -> & l & El & F). split; [done|]. split; [done|].
    destruct (reached sz al Hsz Hal chk nd cmp eqb KO h Hh _ l s2 (HK2 _) El) as (d & e & m & S & (xs & R) & F2 & (d' & PD & D) & L).
    pose proof R as (RV & SO & P). exists xs. split; [by eapply as_slice_ok|]. split.
    + intros k. rewrite (get_spec sz al Hsz Hal chk nd cmp eqb KO s2 m xs k R), (extends_look cmp eqb KO _ k _ _ _ _ _ _ S F).
      unfold has. by destruct (List.find _ (rev _)).
    + intros ->.
      destruct (L_C78_map_ownership K V sz al chk cmp eqb h _ l s2 Hsz Hal KO Hh (HK2 _) El) as (xs' & ES & HP).
      rewrite (as_slice_ok (DefaultAllocator (K * V)) sz al Hsz (DefaultSpec sz al Hsz Hal) _ _ _ RV) in ES. simplify_eq.
      by rewrite extends_given, (extends_return _ _ _ _ _ _ _ _ S) in HP.
  - destruct DR as (L & l & El & _).
    destruct (reached sz al Hsz Hal chk nd cmp eqb KO h Hh _ l s2 (HK2 _) El) as (d & e & m & S & (xs & R) & F2 & (d' & PD & D) & L').
    destruct (L_C78_map_memory K V sz al chk nd cmp eqb h _ l s2 Hsz Hal KO Hh (HK2 _) El) as (_ & s' & EC & B).
    unfold m_step in EC. cbn [m_exec] in EC. unfold bind in EC.
    destruct (base (clear (DefaultAllocator (K * V)) sz al chk nd) s2) as [[] s3|s3|] eqn:EB; cbn in EC; simplify_eq.
    split; [done|]. intros ->.
    pose proof (calls_conserve sz al Hsz Hal chk true cmp eqb KO _ (new_map h) (SMap [] 0) [] l d e m (HK2 _)
      (new_map_rep sz al Hsz Hal cmp h Hh) S) as HC.
    destruct (step_spec sz al Hsz Hal chk true cmp eqb KO s2 m xs MClear _ _ _ _ (or_intror eq_refl) R eq_refl)
      as (s1 & E1 & _ & _ & (d2 & PD2 & D2) & L2).
    unfold m_step in E1. cbn [m_exec] in E1. unfold bind in E1. rewrite EB in E1. cbn in E1. simplify_eq.
    rewrite extends_given, (extends_return _ _ _ _ _ _ _ _ S) in HC. cbn in HC. rewrite app_nil_r in HC. rewrite HC.
    rewrite D2, D, L2, L'. cbn [new_map ms_v st_drops ms_lone app ran lone]. unfold ran, lone. rewrite !parts_app, (parts_Permutation _ _ PD), (parts_Permutation _ _ PD2). solve_Permutation.
  - destruct (spec_mcalls eqb (default_fits sz al) (map (fun kv => MExtend [kv]) (take n (yields src))) (SMap [] 0)) as [[[l d] e] m] eqn:S.
    destruct (run_from_new sz al Hsz Hal chk nd cmp eqb KO h Hh _ l d e m S (HK2 _)) as (s & E & _).
    by rewrite DR in E.
Qed.
