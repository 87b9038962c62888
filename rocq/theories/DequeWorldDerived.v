(** Proofs of the properties stated in DequeWorldProps.v. *)
From Verif Require Import Base Heap Alloc Deque DequeSpec DequeWorld DequeWorldSpec.
Local Open Scope nat_scope.



From Verif Require Import HeapLemmas DequeProofs DequeDerived.

Section world.
Context {T : Type}.
Variables (sz al : Z) (chk : bool) (h0 : heap (dcell T)).
Hypothesis SU : Setup sz al h0.
Let Hsz := su_size _ _ _ SU.
Let Hlay := su_layout _ _ _ SU.

(** A heap without some blocks. *)
Definition cut (h : heap (dcell T)) (bs : list nat) : heap (dcell T) := foldr (fun b h => hdel h b) h bs.
Lemma cut_next h bs : h_next (cut h bs) = h_next h.
Proof. induction bs; [done|]. exact IHbs. Qed.
Lemma cut_wf h bs : heap_wf h -> heap_wf (cut h bs).
Proof. intros W. induction bs; [done|]. by apply wf_hdel. Qed.
Lemma cut_in h bs b : b ∈ bs -> h_blk (cut h bs) !! b = None.
Proof.
  induction bs as [|b' bs IH]; intros Hb; [by apply elem_of_nil in Hb|]. cbn. destruct (decide (b = b')) as [->|N].
  - by rewrite lookup_delete.
  - rewrite lookup_delete_ne by done. apply IH. apply elem_of_cons in Hb as [?|?]; done.
Qed.
Lemma cut_out h bs b : b ∉ bs -> h_blk (cut h bs) !! b = h_blk h !! b.
Proof.
  induction bs as [|b' bs IH]; intros Hb; [done|]. apply not_elem_of_cons in Hb as [N Hb]. cbn. rewrite lookup_delete_ne by done. by apply IH.
Qed.

(** What a deque owns, with the blocks it lost. *)
Record inside : Type := Inside { in_pa : nat; in_start : nat; in_subs : list nat; in_leak : list nat; in_bo : nat }.
Definition own (r : inside) : list nat := in_pa r :: in_subs r ++ in_leak r.
Notation DR H s r xs := (DRep sz al H s (in_pa r) (in_start r) (in_subs r) (in_leak r) (in_bo r) xs).

(** A deque does not depend on the rest of the heap. *)
Lemma DR_move H s r xs h' d : DR H s r xs -> heap_wf h' ->
  (forall b, b ∈ own r -> h_blk h' !! b = h_blk (d_h s) !! b) ->
  DR (cut h' (own r)) (DState (d_arr s) (d_size s) (d_b s) (d_e s) h' d) r xs.
Proof.
  intros R W FR. pose proof (dr_shape _ _ _ _ _ _ _ _ _ _ R) as SH.
  assert (PA : in_pa r ∈ own r) by left.
  assert (SB : forall b, b ∈ in_subs r -> b ∈ own r) by (intros b Hb; right; apply elem_of_app; by left).
  split; cbn [d_arr d_size d_b d_e d_h d_drops]; try (apply R; fail).
  - split; try (apply SH; fail).
    + by apply cut_wf.
    + exact W.
    + intros b Hb. split; [by apply cut_in|]. rewrite FR by exact Hb. apply (sh_own _ _ _ _ _ _ _ _ _ SH b Hb).
    + by rewrite cut_next.
    + intros b Hb. symmetry. by apply cut_out.
    + destruct (sh_pa _ _ _ _ _ _ _ _ _ SH) as (cs & E & L). exists cs. by rewrite FR.
    + intros i b Hi. rewrite (hload_same (d_h s) h') by (by apply FR). by apply (sh_slots _ _ _ _ _ _ _ _ _ SH).
    + intros b Hb. destruct (sh_subs _ _ _ _ _ _ _ _ _ SH b Hb) as (cs & E & L). exists cs. rewrite FR by (by apply SB). done.
  - intros i x Hx. pose proof (dr_elems _ _ _ _ _ _ _ _ _ _ R i x Hx) as E. unfold loc in *. rewrite (hload_same (d_h s) h'); [done|].
    apply FR, SB. apply sh_sub_in. apply (dv_lt sz al Hlay). pose proof (R_bound sz al Hlay R) as B. apply lookup_lt_Some in Hx. lia.
Qed.

(** One place. *)
Definition one (w : dworld T) (t : option dobj) (r : option inside) (m : option (list T)) : Prop :=
  match t, r, m with
  | None, None, None => True
  | Some t, Some r, Some xs => DR (cut (dw_heap w) (own r)) (the_deque w t) r xs
  | _, _, _ => False
  end.

Record DW (w : dworld T) (rs : list (option inside)) (ms : list (option (list T))) : Prop := {
  dwi_wf : heap_wf (dw_heap w);
  dwi_keep : forall b, is_Some (h_blk h0 !! b) -> h_blk (dw_heap w) !! b = h_blk h0 !! b;
  dwi_lens : length (dw_objs w) = length rs /\ length rs = length ms;
  dwi_each : forall i t r m, dw_objs w !! i = Some t -> rs !! i = Some r -> ms !! i = Some m -> one w t r m;
  dwi_apart : forall i j r r' b, rs !! i = Some (Some r) -> rs !! j = Some (Some r') -> b ∈ own r -> b ∈ own r' -> i = j;
  dwi_new : forall i r b, rs !! i = Some (Some r) -> b ∈ own r -> h_blk h0 !! b = None
}.

Lemma DW_change w rs ms i t r m h' d' t' r' m' : DW w rs ms -> dw_objs w !! i = Some t -> rs !! i = Some r -> ms !! i = Some m ->
  let w' := DWorld (<[i := t']> (dw_objs w)) h' d' in
  heap_wf h' ->
  (forall b, (forall r0, r = Some r0 -> b ∉ own r0) -> is_Some (h_blk (dw_heap w) !! b) -> h_blk h' !! b = h_blk (dw_heap w) !! b) ->
  (forall b r1, r' = Some r1 -> b ∈ own r1 -> (exists r0, r = Some r0 /\ b ∈ own r0) \/ h_blk (dw_heap w) !! b = None) ->
  one w' t' r' m' -> DW w' (<[i := r']> rs) (<[i := m']> ms).
Proof.
  intros H Ht Hr Hm w' W' KEEP NEW ONE. destruct (dwi_lens _ _ _ H) as [L1 L2].
  pose proof (lookup_lt_Some _ _ _ Ht) as Lt.
  assert (OTHER : forall j r0 b, j <> i -> rs !! j = Some (Some r0) -> b ∈ own r0 ->
    h_blk h' !! b = h_blk (dw_heap w) !! b /\ is_Some (h_blk (dw_heap w) !! b) /\ forall r1, r = Some r1 -> b ∉ own r1).
  { intros j r0 b Nj Hj Hb.
    assert (X : forall r1, r = Some r1 -> b ∉ own r1).
    { intros r1 -> Hb'. apply Nj. symmetry. by eapply (dwi_apart _ _ _ H). }
    assert (Y : is_Some (h_blk (dw_heap w) !! b)).
    { destruct (lookup_lt_is_Some_2 (dw_objs w) j) as [tj Htj]; [apply lookup_lt_Some in Hj; lia|].
      destruct (lookup_lt_is_Some_2 ms j) as [mj Hmj]; [apply lookup_lt_Some in Hj; lia|].
      pose proof (dwi_each _ _ _ H j _ _ _ Htj Hj Hmj) as O. destruct tj as [tj|], mj as [mj|]; try done. exact (proj2 (sh_own _ _ _ _ _ _ _ _ _ (dr_shape _ _ _ _ _ _ _ _ _ _ O) b Hb)). }
    split; [by apply KEEP|done]. }
  split; cbn.
  - exact W'.
  - intros b Hb. rewrite <- (dwi_keep _ _ _ H b Hb). apply KEEP.
    + intros r0 -> Hb'. pose proof (dwi_new _ _ _ H i r0 b Hr Hb') as N. rewrite N in Hb. by destruct Hb.
    + by rewrite (dwi_keep _ _ _ H b Hb).
  - by rewrite !insert_length.
  - intros j tj rj mj Htj Hrj Hmj. destruct (decide (j = i)) as [->|Nj].
    + rewrite list_lookup_insert in Htj by lia. rewrite list_lookup_insert in Hrj by lia. rewrite list_lookup_insert in Hmj by lia. injection Htj as <-. injection Hrj as <-. injection Hmj as <-. exact ONE.
    + rewrite list_lookup_insert_ne in Htj by done. rewrite list_lookup_insert_ne in Hrj by done. rewrite list_lookup_insert_ne in Hmj by done. pose proof (dwi_each _ _ _ H j _ _ _ Htj Hrj Hmj) as O.
      destruct tj as [tj|], rj as [rj|], mj as [mj|]; try done. apply (DR_move _ _ _ _ h' d' O W'). intros b Hb. by destruct (OTHER j rj b Nj Hrj Hb) as (? & _).
  - intros j k r1 r2 b Hj Hk Hb1 Hb2.
    destruct (decide (j = i)) as [->|Nj], (decide (k = i)) as [->|Nk]; [done| | |].
    + rewrite list_lookup_insert in Hj by lia. injection Hj as ->. rewrite list_lookup_insert_ne in Hk by done.
      exfalso. destruct (OTHER k r2 b Nk Hk Hb2) as (_ & [x Y] & Z). destruct (NEW b r1 eq_refl Hb1) as [(r0 & E0 & Hb0)|N]; [by apply (Z r0)|congruence].
    + rewrite list_lookup_insert in Hk by lia. injection Hk as ->. rewrite list_lookup_insert_ne in Hj by done.
      exfalso. destruct (OTHER j r1 b Nj Hj Hb1) as (_ & [x Y] & Z). destruct (NEW b r2 eq_refl Hb2) as [(r0 & E0 & Hb0)|N]; [by apply (Z r0)|congruence].
    + rewrite list_lookup_insert_ne in Hj by done. rewrite list_lookup_insert_ne in Hk by done. by eapply (dwi_apart _ _ _ H).
  - intros j r1 b Hj Hb. destruct (decide (j = i)) as [->|Nj].
    + rewrite list_lookup_insert in Hj by lia. injection Hj as ->. destruct (NEW b r1 eq_refl Hb) as [(r0 & -> & Hb0)|N].
      * by eapply (dwi_new _ _ _ H).
      * destruct (h_blk h0 !! b) eqn:E0; [|done]. pose proof (dwi_keep _ _ _ H b ltac:(by eexists)) as X. congruence.
    + rewrite list_lookup_insert_ne in Hj by done. by eapply (dwi_new _ _ _ H).
Qed.

Lemma obj_of w rs ms i m : DW w rs ms -> ms !! i = Some m -> exists t r, dw_objs w !! i = Some t /\ rs !! i = Some r /\ one w t r m.
Proof.
  intros H Hm. destruct (dwi_lens _ _ _ H) as [L1 L2]. pose proof (lookup_lt_Some _ _ _ Hm) as Lt.
  destruct (lookup_lt_is_Some_2 rs i) as [r Hr]; [lia|]. destruct (lookup_lt_is_Some_2 (dw_objs w) i) as [t Ht]; [lia|].
  exists t, r. split; [done|]. split; [done|]. by eapply (dwi_each _ _ _ H).
Qed.

(** A deque at a place, changed by code of its own. *)
Lemma DW_call w rs ms i t r m xs' s' r' : DW w rs ms -> dw_objs w !! i = Some t -> rs !! i = Some r -> ms !! i = Some m ->
  let o := match r with Some r0 => own r0 | None => [] end in
  DR (cut (dw_heap w) o) s' r' xs' ->
  DW (back_at w i s' true) (<[i := Some r']> rs) (<[i := Some xs']> ms).
Proof.
  intros H Ht Hr Hm o R'. pose proof (dr_shape _ _ _ _ _ _ _ _ _ _ R') as SH. pose proof (sh_wf _ _ _ _ _ _ _ _ _ SH) as W.
  assert (No : forall b, (forall r0, r = Some r0 -> b ∉ own r0) -> b ∉ o).
  { intros b N. unfold o. destruct r as [r0|]; [by apply N|apply not_elem_of_nil]. }
  unfold back_at. eapply DW_change; try eassumption.
  - intros b N L. apply No in N. assert (Nb : b ∉ own r').
    { intros Hb. destruct (sh_own _ _ _ _ _ _ _ _ _ SH b Hb) as [F _]. rewrite cut_out in F by done. rewrite F in L. by destruct L. }
    rewrite (sh_frame _ _ _ _ _ _ _ _ _ SH b Nb). by apply cut_out.
  - intros b r1 [= <-] Hb. destruct (sh_own _ _ _ _ _ _ _ _ _ SH b Hb) as [F _]. destruct (decide (b ∈ o)) as [I|Nb].
    + left. unfold o in I. destruct r as [r0|]; [by exists r0|by apply elem_of_nil in I].
    + right. by rewrite cut_out in F by done.
  - cbn [one]. by apply (DR_move _ s' r' xs' (d_h s') (d_drops s') R').
Qed.

Lemma run_ok : forall os w rs ms, DW w rs ms -> proper os (map (fun o : option (list T) => match o with Some _ => true | None => false end) ms) = true ->
  exists l d w' rs' ms', dw_run sz al chk os w = Some (l, w') /\ all_explained (max_len sz) os l d ms ms' /\
    dw_drops w' = dw_drops w ++ d /\ DW w' rs' ms'.
Proof.
  assert (AL : forall (ms : list (option (list T))) i b, map (fun o : option (list T) => match o with Some _ => true | None => false end) ms !! i = Some b ->
    exists m, ms !! i = Some m /\ match m with Some _ => true | None => false end = b).
  { intros ms i b E. change (map ?f ms) with (f <$> ms) in E. rewrite list_lookup_fmap in E. destruct (ms !! i) as [m|]; [|done]. injection E as <-. by exists m. }
  assert (IN : forall (ms : list (option (list T))) i m, map (fun o : option (list T) => match o with Some _ => true | None => false end) (<[i := m]> ms)
    = <[i := match m with Some _ => true | None => false end]> (map (fun o : option (list T) => match o with Some _ => true | None => false end) ms)).
  { intros ms i m. apply (list_fmap_insert (fun o : option (list T) => match o with Some _ => true | None => false end)). }
  assert (SAME : forall (ms : list (option (list T))) i xs ys, ms !! i = Some (Some xs) ->
    map (fun o : option (list T) => match o with Some _ => true | None => false end) (<[i := Some ys]> ms) = map (fun o : option (list T) => match o with Some _ => true | None => false end) ms).
  { intros ms i xs ys E. rewrite IN. apply list_insert_id. change (map ?f ms) with (f <$> ms). rewrite list_lookup_fmap, E. done. }
  intros os. induction os as [|o os IH]; intros w rs ms H P.
  { exists [], [], w, rs, ms. split; [done|]. split; [constructor|]. by rewrite app_nil_r. }
  cbn [proper] in P. cbn [dw_run]. destruct o as [i|i c|i|i j]; cbn [alive_after] in P.
  - destruct (map _ ms !! i) as [[|]|] eqn:Hm; try done. apply AL in Hm as ([m|] & Hm & B); [done|].
    destruct (obj_of _ _ _ _ _ H Hm) as (t & r & Ht & Hr & O). destruct t as [t|], r as [r|]; try done. cbn [dw_step]. rewrite Ht.
    destruct (deque_new_ok sz al Hsz Hlay (dw_heap w) (dw_drops w) (dwi_wf _ _ _ H)) as (s & E & (pa & b & R) & D & _). rewrite E.
    pose proof (DW_call w rs ms i None None None [] s (Inside pa 3 [b] [] 0) H Ht Hr Hm R) as H'. rewrite <- (IN ms i (Some [])) in P.
    destruct (IH _ _ _ H' P) as (l & d & w' & rs' & ms' & RN & EX & DD & H2). rewrite RN.
    eexists _, d, w', rs', ms'. split; [done|]. split; [by econstructor|]. split; [|done]. rewrite DD. cbn. by rewrite D.
  - destruct (map _ ms !! i) as [[|]|] eqn:Hm; try done. apply AL in Hm as ([xs|] & Hm & B); [|done]. clear B.
    destruct (obj_of _ _ _ _ _ H Hm) as (t & r & Ht & Hr & O). destruct t as [t|], r as [r|]; try done. cbn [dw_step]. rewrite Ht.
    destruct (call_ok sz al chk Hsz Hlay _ c _ _ _ _ _ _ _ O) as [(a & d1 & xs1 & s' & pa' & start' & subs' & bo' & E & SP & R' & D & _)|(x & s' & leak' & E & PU & ML & R' & D & _)]; rewrite E.
    + pose proof (DW_call w rs ms i (Some t) (Some r) (Some xs) xs1 s' (Inside pa' start' subs' (in_leak r) bo') H Ht Hr Hm R') as H'.
      rewrite <- (SAME ms i xs xs1 Hm) in P. destruct (IH _ _ _ H' P) as (l & d & w' & rs' & ms' & RN & EX & DD & H2). rewrite RN.
      eexists _, (d1 ++ d), w', rs', ms'. split; [done|]. split; [by econstructor|]. split; [|done]. rewrite DD. cbn. rewrite D. cbn. by rewrite app_assoc.
    + pose proof (DW_call w rs ms i (Some t) (Some r) (Some xs) xs s' (Inside (in_pa r) (in_start r) (in_subs r) leak' (in_bo r)) H Ht Hr Hm R') as H'.
      rewrite (list_insert_id ms i (Some xs) Hm) in H'. destruct (IH _ _ _ H' P) as (l & d & w' & rs' & ms' & RN & EX & DD & H2). rewrite RN.
      eexists _, (x :: d), w', rs', ms'. split; [done|]. split; [by econstructor|]. split; [|done]. rewrite DD. cbn. rewrite D. cbn. by rewrite <- app_assoc.
  - destruct (map _ ms !! i) as [[|]|] eqn:Hm; try done. apply AL in Hm as ([xs|] & Hm & B); [|done]. clear B.
    destruct (obj_of _ _ _ _ _ H Hm) as (t & r & Ht & Hr & O). destruct t as [t|], r as [r|]; try done. cbn [dw_step]. rewrite Ht.
    destruct (deque_drop_wf sz al chk Hlay _ _ _ _ _ _ _ _ O) as (s' & b & E & D & W' & _ & _ & OW & FR). rewrite E.
    assert (H' : DW (back_at w i s' false) (<[i := None]> rs) (<[i := None]> ms)).
    { unfold back_at. eapply DW_change; try eassumption; [|done..]. intros b' N L. specialize (N r eq_refl). rewrite FR; [by apply cut_out|].
      intros Hb. destruct (OW b' Hb) as [F _]. rewrite cut_out in F by done. rewrite F in L. by destruct L. }
    rewrite <- (IN ms i None) in P. destruct (IH _ _ _ H' P) as (l & d & w' & rs' & ms' & RN & EX & DD & H2). rewrite RN.
    eexists _, (xs ++ d), w', rs', ms'. split; [done|]. split; [by econstructor|]. split; [|done]. rewrite DD. cbn. rewrite D. cbn. by rewrite app_assoc.
  - destruct (map _ ms !! i) as [[|]|] eqn:Hm; try done. destruct (map _ ms !! j) as [[|]|] eqn:Hm'; try done.
    apply AL in Hm as ([m|] & Hm & B); [|done]. apply AL in Hm' as ([m'|] & Hm' & B'); [|done]. clear B B'.
    destruct (obj_of _ _ _ _ _ H Hm) as (t & r & Ht & Hr & O). destruct t as [t|], r as [r|]; try done.
    destruct (obj_of _ _ _ _ _ H Hm') as (t' & r' & Ht' & Hr' & O'). destruct t' as [t'|], r' as [r'|]; try done.
    cbn [dw_step]. rewrite Ht, Ht'.
    assert (Q : forall A (l : list A) x y k z, l !! i = Some x -> l !! j = Some y -> <[j := x]> (<[i := y]> l) !! k = Some z ->
       l !! (if decide (k = j) then i else if decide (k = i) then j else k) = Some z).
    { intros A l x y k z Hi Hj Hk. pose proof (lookup_lt_Some _ _ _ Hi). pose proof (lookup_lt_Some _ _ _ Hj). destruct (decide (k = j)) as [->|N1].
      - rewrite list_lookup_insert in Hk by (rewrite insert_length; lia). congruence.
      - rewrite list_lookup_insert_ne in Hk by done. destruct (decide (k = i)) as [->|N2].
        + rewrite list_lookup_insert in Hk by lia. congruence.
        + by rewrite list_lookup_insert_ne in Hk by done. }
    set (w1 := DWorld (<[j := Some t]> (<[i := Some t']> (dw_objs w))) (dw_heap w) (dw_drops w)).
    assert (H' : DW w1 (<[j := Some r]> (<[i := Some r']> rs)) (<[j := Some m]> (<[i := Some m']> ms))).
    { split; cbn.
      + apply (dwi_wf _ _ _ H).
      + apply (dwi_keep _ _ _ H).
      + rewrite !insert_length. apply (dwi_lens _ _ _ H).
      + intros k tk rk mk Htk Hrk Hmk. eapply Q in Htk; [|done..]. eapply Q in Hrk; [|done..]. eapply Q in Hmk; [|done..].
        exact (dwi_each _ _ _ H _ _ _ _ Htk Hrk Hmk).
      + intros k k' rk rk' b Hk Hk' Hb Hb'. eapply Q in Hk; [|done..]. eapply Q in Hk'; [|done..].
        pose proof (dwi_apart _ _ _ H _ _ _ _ _ Hk Hk' Hb Hb') as E. repeat destruct decide; congruence.
      + intros k rk b Hk Hb. eapply Q in Hk; [|done..]. by eapply (dwi_new _ _ _ H). }
    assert (Lj : exists ys, <[i := Some m']> ms !! j = Some (Some ys)).
    { destruct (decide (i = j)) as [->|N]; [|rewrite list_lookup_insert_ne by done; by exists m'].
      exists m'. apply list_lookup_insert. by apply lookup_lt_Some in Hm. }
    destruct Lj as [ys Lj]. rewrite <- (SAME ms i m m' Hm) in P. rewrite <- (SAME _ j ys m Lj) in P.
    destruct (IH _ _ _ H' P) as (l & d & w' & rs' & ms' & RN & EX & DD & H2). fold w1. rewrite RN.
    eexists _, d, w', rs', ms'. split; [done|]. split; [by econstructor|]. split; [|done]. exact DD.
Qed.

Lemma start_ok n : DW (dw_start n h0) (replicate n None) (replicate n None).
Proof.
  split; cbn.
  - apply (su_heap _ _ _ SU).
  - done.
  - by rewrite !replicate_length.
  - intros i t r m Ht Hr Hm. apply lookup_replicate in Ht as [-> _], Hr as [-> _], Hm as [-> _]. done.
  - intros i j r r' b Hr. by apply lookup_replicate in Hr as [? _].
  - intros i r b Hr. by apply lookup_replicate in Hr as [? _].
Qed.

Lemma shows_ok w rs ms : DW w rs ms -> dw_shows sz chk w ms.
Proof.
  intros H. destruct (dwi_lens _ _ _ H) as [L1 L2]. split; [lia|]. intros i o Hm. destruct (obj_of _ _ _ _ _ H Hm) as (t & r & Ht & Hr & O).
  destruct o as [m|], t as [t|], r as [r|]; try done. exists t. split; [done|]. exact (iter_all_ok sz al chk Hlay _ _ _ _ _ _ _ _ O).
Qed.

Definition push_op (o : dop T) : nat := match o with QCall _ c => match pushed c with Some _ => 1 | None => 0 end | _ => 0 end.
Lemma all_pushes_cons o (os : list (dop T)) : all_pushes (o :: os) = push_op o + all_pushes os.
Proof. unfold all_pushes, push_op. cbn. destruct o as [|i c| |]; try done. by destruct (pushed c). Qed.

Lemma few_pushes os l d (ms ms' : list (option (list T))) : all_explained (max_len sz) os l d ms ms' ->
  (Z.of_nat (all_pushes os) <= max_len sz)%Z ->
  (forall i (xs : list T), ms !! i = Some (Some xs) -> (Z.of_nat (length xs + all_pushes os) <= max_len sz)%Z) -> None ∉ l.
Proof.
  assert (NEW : forall (ms : list (option (list T))) i zs n, (forall k (xs : list T), ms !! k = Some (Some xs) -> (Z.of_nat (length xs + n) <= max_len sz)%Z) ->
    (forall ys : list T, zs = Some ys -> (Z.of_nat (length ys + n) <= max_len sz)%Z) ->
    forall k (xs : list T), <[i := zs]> ms !! k = Some (Some xs) -> (Z.of_nat (length xs + n) <= max_len sz)%Z).
  { intros ns i zs n B C k xs Hk. destruct (decide (k = i)) as [->|N].
    - destruct (decide (i < length ns)) as [L|L].
      + rewrite list_lookup_insert in Hk by done. injection Hk as ->. by apply C.
      + rewrite list_insert_ge in Hk by lia. by apply (B i).
    - rewrite list_lookup_insert_ne in Hk by done. by apply (B k). }
  induction 1 as [|i os l d ms ms' Hm EX IH|i c os a l d d' xs xs1 ms ms' Hm SP EX IH|i c os x l d xs ms ms' Hm PU ML EX IH|i os l d xs ms ms' Hm EX IH|i j os l d xs ys ms ms' Hm Hm' EX IH];
    intros A B; [apply not_elem_of_nil|rewrite all_pushes_cons in A, B; cbn [push_op Nat.add] in A, B..].
  - apply not_elem_of_cons. split; [done|]. apply IH; [done|]. apply NEW; [done|]. intros ys [= <-]. cbn. lia.
  - apply not_elem_of_cons. split; [done|]. apply IH; [lia|]. apply NEW; [intros k zs Hk; specialize (B k zs Hk); lia|].
    intros ys [= <-]. specialize (B i xs Hm). pose proof (spec_call_len sz al Hlay c xs) as L. rewrite SP in L. cbn in L. destruct (pushed c); lia.
  - exfalso. specialize (B i xs Hm). rewrite PU in B. lia.
  - apply not_elem_of_cons. split; [done|]. apply IH; [done|]. by apply NEW.
  - apply not_elem_of_cons. split; [done|]. apply IH; [done|]. apply NEW; [apply NEW; [done|]|]; intros zs [= <-]; by eapply B.
Qed.
End world.

Lemma L_C116_deques_apart :
forall (T : Type) (sz al : Z) (chk : bool) (h0 : heap (dcell T)) (n : nat) (os : list (dop T)), Setup sz al h0 -> proper os (replicate n false) = true ->
  exists l w xss, dw_run sz al chk os (dw_start n h0) = Some (l, w) /\
    all_explained (max_len sz) os l (dw_drops w) (replicate n None) xss /\ dw_shows sz chk w xss /\
    (forall b, is_Some (h_blk h0 !! b) -> h_blk (dw_heap w) !! b = h_blk h0 !! b) /\
    ((Z.of_nat (all_pushes os) <= max_len sz)%Z -> None ∉ l).
Proof.
  intros T sz al chk h0 n os SU P.
  destruct (run_ok sz al chk h0 SU os _ _ _ (start_ok sz al h0 SU n)) as (l & d & w & rs & xss & RN & EX & D & H).
  { change (map ?f (replicate n ?x)) with (f <$> replicate n x). by rewrite fmap_replicate. }
  exists l, w, xss. split; [done|]. rewrite D. split; [done|]. split; [by eapply shows_ok|]. split; [apply (dwi_keep _ _ _ _ _ _ H)|].
  intros B. eapply (few_pushes sz al h0 SU); [exact EX|exact B|]. intros i xs Hx. by apply lookup_replicate in Hx as [? _].
Qed.
