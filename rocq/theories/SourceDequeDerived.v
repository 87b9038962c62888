(** Proofs of the properties stated in SourceDequeProps.v. *)
(** C100, deques and queues: a panic of the iterator they are filled from. *)
From Verif Require Import Base Heap Alloc Source.
From Verif Require Import Deque DequeSpec.

From Verif Require Import HeapLemmas DequeProofs DequeDerived SourceProofs.

Lemma d_run_cons {T} sz al chk (c : dcall T) cs s :
  d_run sz al chk (c :: cs) s =
  match (match d_call sz al chk c s with Ok a s' => Some (Some a, s') | Panic s' => Some (None, s') | UB => None end) with
  | None => None
  | Some (a, s') => match d_run sz al chk cs s' with None => None | Some (l, s'') => Some (a :: l, s'') end
  end.
Proof. cbn [d_run]. destruct (d_call sz al chk c s) as [a s'|s'|]; [| |done]; by destruct (d_run sz al chk cs s') as [[]|]. Qed.
Lemma pushes_all_some {T} big (xs : list T) : forall ys l d zs, explains big (map DPushBack xs) l d ys zs ->
  Forall (fun a => ~ a = None) l \/ (Z.of_nat (length ys + length xs) <= big)%Z ->
  Forall (fun a => ~ a = None) l /\ d = [] /\ zs = ys ++ xs.
Proof.
  induction xs as [|x xs IH]; intros ys l d zs EX H; inversion EX as [|c cs a l2 d1 d2 ys1 ys2 zs1 SP EX2|c cs y l2 d2 ys1 zs1 PU BG EX2]; subst.
  - split; [done|]. split; [done|]. by rewrite app_nil_r.
  - cbn in SP. simplify_eq. destruct (IH _ _ _ _ EX2) as (F & -> & ->).
    { destruct H as [H|H]; [left; by apply Forall_cons in H as (_ & H)|right]. rewrite app_length. cbn in *. lia. }
    split; [by constructor|]. split; [done|]. by rewrite <- app_assoc.
  - exfalso. destruct H as [H|H]; [by apply Forall_cons in H as (H & _)|]. cbn in H. lia.
Qed.
Lemma pushes_given {T} (xs : list T) : flat_map given (map DPushBack xs) = xs.
Proof. induction xs; cbn; [done|by f_equal]. Qed.
Lemma pushes_taken {T} (xs : list T) : forall l, all_taken (map DPushBack xs) l = [].
Proof. induction xs as [|x xs IH]; intros [|a l]; cbn; try done. Qed.
Lemma pushes_move {T} (xs : list T) : forallb no_rewrite (map DPushBack xs) = true.
Proof. induction xs; by cbn. Qed.

Lemma L_C100_deque_from_iter :
forall (T : Type) (sz al : Z) (chk : bool) (h0 : heap (dcell T)) (src : source T), Setup sz al h0 ->
  match deque_collect sz al chk src h0 with
  | (Ok _ s, n) => panics src = false /\ n = length (yields src) /\ contents sz chk s (yields src) /\ d_drops s = []
  | (Panic s, n) =>
    d_drops s ≡ₚ take n (yields src) /\
    ((Z.of_nat (length (yields src)) <= max_len sz)%Z -> panics src = true /\ d_drops s = yields src) /\
    (chk = true -> exists b cs, h_blk h0 !! b = None /\
       h_blk (d_h s) !! b = Some (Block (Z.of_nat (subarray_size sz) * sz) al cs) /\
       forall b', b' <> b -> h_blk (d_h s) !! b' = h_blk h0 !! b')
  | (UB, _) => False
  end.
Proof.
  intros T sz al chk h0 src SU. unfold deque_collect, collect.
  destruct (deque_new_ok sz al (su_size _ _ _ SU) (su_layout _ _ _ SU) h0 [] (su_heap _ _ _ SU)) as (s0 & E0 & _).
  rewrite E0.
  pose proof (drain_run (push_back sz al chk) DPushBack
    (fun c s => match d_call sz al chk c s with Ok a s' => Some (Some a, s') | Panic s' => Some (None, s') | UB => None end)
    (fun a => a = None) (d_run sz al chk) ltac:(done) (d_run_cons sz al chk)
    (deque_sim sz al chk) (yields src) (panics src) s0) as DR.
  destruct (drain _ _ _ s0) as [[u' s2|s2|] n]; cbn [unwinding].
  - destruct DR as (B & -> & l & El & F). split; [done|]. split; [done|].
    assert (BU : built sz al chk h0 (map DPushBack (yields src)) l s2) by (by exists s0).
    destruct (built_rep sz al chk h0 SU _ _ _ BU) as (pa & st & subs & lk & bo & xs & d & R & EX & D & _).
    destruct (pushes_all_some _ _ _ _ _ _ EX ltac:(by left)) as (_ & -> & ->). split; [|done].
    cbn [app] in R. by eapply (rep_contents sz al chk h0 SU).
  - destruct DR as (L & l & El & H).
    assert (BU : built sz al chk h0 (map DPushBack (take n (yields src))) l s2) by (by exists s0).
    destruct (L_C35_each_element_once T sz al chk h0 _ l s2 SU BU (pushes_move _)) as (s3 & E3 & P).
    rewrite E3. rewrite pushes_given, pushes_taken in P. cbn [app] in P. split; [done|]. split.
    + intros ML. destruct (built_rep sz al chk h0 SU _ _ _ BU) as (pa & st & subs & lk & bo & xs & d & R & EX & D & _).
      destruct (pushes_all_some _ _ _ _ _ _ EX) as (F & -> & ->).
      { right. cbn [length]. rewrite take_length. lia. }
      cbn [app] in R.
      destruct H as [(-> & -> & _)|(l1 & a & -> & -> & _)]; [|by apply Forall_app in F as (_ & F); apply Forall_cons in F as (F & _)].
      rewrite take_ge in R by done. split; [done|].
      destruct (L_C35_drop_order T sz al chk h0 _ l s2 (yields src) SU BU) as (s3' & E3' & D3).
      { by eapply (rep_contents sz al chk h0 SU). }
      rewrite E3 in E3'. simplify_eq. by rewrite D3, D.
    + intros CK.
      destruct (L_C36_drop_leaks_one_array T sz al chk h0 _ l s2 SU BU ltac:(by left)) as (s3' & b & cs & E3' & Q1 & Q2 & Q3).
      rewrite E3 in E3'. simplify_eq. by exists b, cs.
  - destruct (runs_total sz al chk h0 SU (map DPushBack (take n (yields src)))) as (l & s & s0' & E0' & E).
    rewrite E0 in E0'. injection E0' as <-. by rewrite DR in E.
Qed.
