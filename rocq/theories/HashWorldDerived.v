(** Proofs of the properties stated in HashWorldProps.v. *)
From Verif Require Import Base Heap Alloc HashTable HashTableSpec HashWorld HashWorldSpec.
Local Open Scope nat_scope.



From Verif Require Import HeapLemmas RehashPolicy RehashPolicyProofs HashTableProofs HashTableMore HashTableDerived.

Section world.
Context {K V : Type}.
Variables (nsz nal : Z) (eb : nat) (chk : bool) (hash : K -> Z) (eqb : K -> K -> bool) (h0 : heap (tcell K V)).
Hypothesis SU : Setup nsz nal eb hash eqb h0.
Let Hnsz := su_size _ _ _ _ _ _ SU.
Let Hlay := su_layout _ _ _ _ _ _ SU.
Let KH := su_keys _ _ _ _ _ _ SU.
Notation TR := (TRep nsz nal eb hash eqb).
Notation enode := (nat * (K * V))%type.
Notation entries cs := (map (@snd nat (K * V)) (concat cs)).

(** What a table owns. *)
Record inside : Type := Inside { in_cs : list (list enode); in_arrs : list nat; in_cnt : Z }.
Definition own (r : inside) : list nat := map fst (concat (in_cs r)) ++ in_arrs r.

(** A table does not depend on the rest of the heap. *)
Lemma TR_move H s r h' d : TR H s (in_cs r) (in_arrs r) (in_cnt r) -> heap_wf h' -> static_ok eb h' ->
  (forall b, b ∈ own r -> h_blk h' !! b = h_blk (t_h s) !! b) ->
  TR (hdels h' (own r)) (TState (t_arr s) (t_bc s) (t_ec s) (t_nr s) h' d) (in_cs r) (in_arrs r) (in_cnt r).
Proof.
  intros R W S FR. pose proof (TRep_eb nsz nal eb hash eqb _ _ _ _ _ R) as NE.
  assert (EB : h_blk h' !! eb = h_blk (t_h s) !! eb).
  { rewrite (tr_frame _ _ _ _ _ _ _ _ _ _ R eb NE). unfold static_ok in S. rewrite S. symmetry. apply (tr_static _ _ _ _ _ _ _ _ _ _ R). }
  split; cbn.
  - exact W.
  - unfold static_ok. rewrite hdels_out by done. exact S.
  - apply (tr_bc _ _ _ _ _ _ _ _ _ _ R).
  - destruct (tr_arr _ _ _ _ _ _ _ _ _ _ R) as (a & ps & by_ & EA & E & F & OR). exists a, ps, by_. split; [done|]. split.
    { unfold Slots in *. rewrite <- E. destruct OR as [(-> & _)|(old & EO & _)]; [done|]. apply FR. unfold own. rewrite EO, elem_of_app. right. left. }
    split; [|done]. eapply chains_frame; [exact F|]. intros b Hb. apply FR. unfold own. rewrite elem_of_app. by left.
  - intros b Hb. destruct (tr_arrs _ _ _ _ _ _ _ _ _ _ R b Hb) as [ps E]. exists ps. unfold Slots in *. rewrite <- E. apply FR.
    unfold own. rewrite elem_of_app. by right.
  - apply (tr_stage _ _ _ _ _ _ _ _ _ _ R).
  - apply (tr_ec _ _ _ _ _ _ _ _ _ _ R).
  - apply (tr_placed _ _ _ _ _ _ _ _ _ _ R).
  - apply (tr_nodup _ _ _ _ _ _ _ _ _ _ R).
  - intros b Hb. by apply hdels_in.
  - intros b Hb. symmetry. by apply hdels_out.
  - apply (tr_keys _ _ _ _ _ _ _ _ _ _ R).
  - apply (tr_cnt _ _ _ _ _ _ _ _ _ _ R).
  - apply (tr_few _ _ _ _ _ _ _ _ _ _ R).
  - apply (tr_dbl _ _ _ _ _ _ _ _ _ _ R).
  - apply (tr_grown _ _ _ _ _ _ _ _ _ _ R).
Qed.

Lemma TR_live H s r b : TR H s (in_cs r) (in_arrs r) (in_cnt r) -> b ∈ own r -> is_Some (h_blk (t_h s) !! b).
Proof.
  intros R [Hb|Hb]%elem_of_app.
  - destruct (tr_arr _ _ _ _ _ _ _ _ _ _ R) as (a & ps & by_ & _ & _ & F & _). by eapply chains_live.
  - destruct (tr_arrs _ _ _ _ _ _ _ _ _ _ R b Hb) as [ps E]. by eexists.
Qed.

(** One place. *)
Definition one (w : hworld K V) (t : option htab) (r : option inside) (m : option (list (K * V))) : Prop :=
  match t, r, m with
  | None, None, None => True
  | Some t, Some r, Some m => TR (hdels (hw_heap w) (own r)) (the_table w t) (in_cs r) (in_arrs r) (in_cnt r) /\ entries (in_cs r) ≡ₚ m
  | _, _, _ => False
  end.

Record HW (w : hworld K V) (rs : list (option inside)) (ms : list (option (list (K * V)))) : Prop := {
  hw_wf : heap_wf (hw_heap w);
  hw_static : static_ok eb (hw_heap w);
  hw_keep : forall b, is_Some (h_blk h0 !! b) -> h_blk (hw_heap w) !! b = h_blk h0 !! b;
  hw_lens : length (hw_tabs w) = length rs /\ length rs = length ms;
  hw_each : forall i t r m, hw_tabs w !! i = Some t -> rs !! i = Some r -> ms !! i = Some m -> one w t r m;
  hw_apart : forall i j r r' b, rs !! i = Some (Some r) -> rs !! j = Some (Some r') -> b ∈ own r -> b ∈ own r' -> i = j;
  hw_new : forall i r b, rs !! i = Some (Some r) -> b ∈ own r -> h_blk h0 !! b = None
}.

(** A table changes: [r'] is what it then owns, or nothing. *)
Lemma HW_change w rs ms i t r m h' d' t' r' m' : HW w rs ms -> hw_tabs w !! i = Some t -> rs !! i = Some r -> ms !! i = Some m ->
  let w' := HWorld (<[i := t']> (hw_tabs w)) h' d' in
  heap_wf h' ->
  (forall b, (forall r0, r = Some r0 -> b ∉ own r0) -> is_Some (h_blk (hw_heap w) !! b) -> h_blk h' !! b = h_blk (hw_heap w) !! b) ->
  (forall b r1, r' = Some r1 -> b ∈ own r1 -> (exists r0, r = Some r0 /\ b ∈ own r0) \/ h_blk (hw_heap w) !! b = None) ->
  one w' t' r' m' -> HW w' (<[i := r']> rs) (<[i := m']> ms).
Proof.
  intros H Ht Hr Hm w' W' KEEP NEW ONE. destruct (hw_lens _ _ _ H) as [L1 L2].
  pose proof (lookup_lt_Some _ _ _ Ht) as Lt.
  assert (EBo : forall j r0, rs !! j = Some (Some r0) -> eb ∉ own r0).
  { intros j r0 Hj. destruct (lookup_lt_is_Some_2 (hw_tabs w) j) as [tj Htj]; [apply lookup_lt_Some in Hj; lia|].
    destruct (lookup_lt_is_Some_2 ms j) as [mj Hmj]; [apply lookup_lt_Some in Hj; lia|].
    pose proof (hw_each _ _ _ H j _ _ _ Htj Hj Hmj) as O. destruct tj as [tj|], mj as [mj|]; try done. destruct O as [O _].
    exact (TRep_eb nsz nal eb hash eqb _ _ _ _ _ O). }
  assert (OTHER : forall j r0 b, j <> i -> rs !! j = Some (Some r0) -> b ∈ own r0 ->
    h_blk h' !! b = h_blk (hw_heap w) !! b /\ is_Some (h_blk (hw_heap w) !! b) /\ forall r1, r = Some r1 -> b ∉ own r1).
  { intros j r0 b Nj Hj Hb.
    assert (X : forall r1, r = Some r1 -> b ∉ own r1).
    { intros r1 -> Hb'. apply Nj. symmetry. by eapply (hw_apart _ _ _ H). }
    assert (Y : is_Some (h_blk (hw_heap w) !! b)).
    { destruct (lookup_lt_is_Some_2 (hw_tabs w) j) as [tj Htj]; [apply lookup_lt_Some in Hj; lia|].
      destruct (lookup_lt_is_Some_2 ms j) as [mj Hmj]; [apply lookup_lt_Some in Hj; lia|].
      pose proof (hw_each _ _ _ H j _ _ _ Htj Hj Hmj) as O. destruct tj as [tj|], mj as [mj|]; try done. destruct O as [O _].
      exact (TR_live _ _ _ _ O Hb). }
    split; [by apply KEEP|done]. }
  assert (ST : static_ok eb h').
  { unfold static_ok. rewrite KEEP; [apply (hw_static _ _ _ H)| |rewrite (hw_static _ _ _ H); by eexists]. intros r0 ->. by eapply EBo. }
  split; cbn.
  - exact W'.
  - exact ST.
  - intros b Hb. rewrite <- (hw_keep _ _ _ H b Hb). apply KEEP.
    + intros r0 -> Hb'. pose proof (hw_new _ _ _ H i r0 b Hr Hb') as N. rewrite N in Hb. by destruct Hb.
    + by rewrite (hw_keep _ _ _ H b Hb).
  - by rewrite !insert_length.
  - intros j tj rj mj Htj Hrj Hmj. destruct (decide (j = i)) as [->|Nj].
    + rewrite list_lookup_insert in Htj by lia. rewrite list_lookup_insert in Hrj by lia. rewrite list_lookup_insert in Hmj by lia. injection Htj as <-. injection Hrj as <-. injection Hmj as <-. exact ONE.
    + rewrite list_lookup_insert_ne in Htj by done. rewrite list_lookup_insert_ne in Hrj by done. rewrite list_lookup_insert_ne in Hmj by done. pose proof (hw_each _ _ _ H j _ _ _ Htj Hrj Hmj) as O.
      destruct tj as [tj|], rj as [rj|], mj as [mj|]; try done. destruct O as [O P]. split; [|done].
      apply (TR_move _ _ _ h' d' O W' ST). intros b Hb. by destruct (OTHER j rj b Nj Hrj Hb) as (? & _).
  - intros j k r1 r2 b Hj Hk Hb1 Hb2.
    destruct (decide (j = i)) as [->|Nj], (decide (k = i)) as [->|Nk]; [done| | |].
    + rewrite list_lookup_insert in Hj by lia. injection Hj as ->. rewrite list_lookup_insert_ne in Hk by done.
      exfalso. destruct (OTHER k r2 b Nk Hk Hb2) as (_ & [x Y] & Z). destruct (NEW b r1 eq_refl Hb1) as [(r0 & E0 & Hb0)|N]; [by apply (Z r0)|congruence].
    + rewrite list_lookup_insert in Hk by lia. injection Hk as ->. rewrite list_lookup_insert_ne in Hj by done.
      exfalso. destruct (OTHER j r1 b Nj Hj Hb1) as (_ & [x Y] & Z). destruct (NEW b r2 eq_refl Hb2) as [(r0 & E0 & Hb0)|N]; [by apply (Z r0)|congruence].
    + rewrite list_lookup_insert_ne in Hj by done. rewrite list_lookup_insert_ne in Hk by done. by eapply (hw_apart _ _ _ H).
  - intros j r1 b Hj Hb. destruct (decide (j = i)) as [->|Nj].
    + rewrite list_lookup_insert in Hj by lia. injection Hj as ->. destruct (NEW b r1 eq_refl Hb) as [(r0 & -> & Hb0)|N].
      * by eapply (hw_new _ _ _ H).
      * destruct (h_blk h0 !! b) eqn:E0; [|done]. pose proof (hw_keep _ _ _ H b ltac:(by eexists)) as X. congruence.
    + rewrite list_lookup_insert_ne in Hj by done. by eapply (hw_new _ _ _ H).
Qed.

Lemma one_shows w i t r m : HW w r m -> hw_tabs w !! i = Some (Some t) -> exists ri mi, r !! i = Some (Some ri) /\ m !! i = Some (Some mi) /\
  TR (hdels (hw_heap w) (own ri)) (the_table w t) (in_cs ri) (in_arrs ri) (in_cnt ri) /\ entries (in_cs ri) ≡ₚ mi.
Proof.
  intros H Ht. destruct (hw_lens _ _ _ H) as [L1 L2]. pose proof (lookup_lt_Some _ _ _ Ht) as Lt.
  destruct (lookup_lt_is_Some_2 r i) as [ri Hr]; [lia|]. destruct (lookup_lt_is_Some_2 m i) as [mi Hm]; [lia|].
  pose proof (hw_each _ _ _ H i _ _ _ Ht Hr Hm) as O. destruct ri as [ri|], mi as [mi|]; try done. destruct O. by exists ri, mi.
Qed.

Lemma tab_of w rs ms i m : HW w rs ms -> ms !! i = Some m -> exists t r, hw_tabs w !! i = Some t /\ rs !! i = Some r /\ one w t r m.
Proof.
  intros H Hm. destruct (hw_lens _ _ _ H) as [L1 L2]. pose proof (lookup_lt_Some _ _ _ Hm) as Lt.
  destruct (lookup_lt_is_Some_2 rs i) as [r Hr]; [lia|]. destruct (lookup_lt_is_Some_2 (hw_tabs w) i) as [t Ht]; [lia|].
  exists t, r. split; [done|]. split; [done|]. by eapply (hw_each _ _ _ H).
Qed.

Lemma step_ok o w rs ms a d ms' : HW w rs ms -> one_step eqb o ms = Some (a, d, ms') ->
  exists a' d' w' rs', hw_step nsz nal eb chk hash eqb o w = Some (a', w') /\ same_answer a' a /\
    hw_drops w' = hw_drops w ++ d' /\ d' ≡ₚ d /\ HW w' rs' ms'.
Proof.
  intros H E. destruct o as [i|i c|i|i j]; cbn in E.
  - destruct (ms !! i) as [[?|]|] eqn:Hm; try done. injection E as <- <- <-. destruct (tab_of _ _ _ _ _ H Hm) as (t & r & Ht & Hr & O).
    destruct t as [t|], r as [r|]; try done. cbn [hw_step]. rewrite Ht.
    eexists _, [], _, (<[i := Some (Inside [[]] [] 0)]> rs). split; [done|]. split; [done|]. split; [cbn; by rewrite app_nil_r|]. split; [done|].
    unfold back_at. eapply HW_change; try eassumption.
    + cbn. apply (hw_wf _ _ _ H).
    + done.
    + intros b r1 [= <-] Hb. cbn in Hb. by apply elem_of_nil in Hb.
    + cbn. split; [|done]. exact (TRep_new nsz nal eb hash eqb Hlay (hw_heap w) (hw_drops w) (hw_wf _ _ _ H) (hw_static _ _ _ H)).
  - destruct (ms !! i) as [[m|]|] eqn:Hm; try done. destruct (spec_call eqb c m) as [[a1 d1] m1] eqn:SC. injection E as <- <- <-.
    destruct (tab_of _ _ _ _ _ H Hm) as (t & r & Ht & Hr & O). destruct t as [t|], r as [r|]; try done. destruct O as [R P].
    pose proof (h_run_ok nsz nal eb chk hash eqb Hnsz Hlay KH [c] _ _ _ _ _ _ R P) as C. cbn [spec_run] in C. rewrite SC in C.
    destruct C as (l' & s' & cs' & arrs' & d' & RN & SA & R' & P' & D & PD & _). cbn [hw_step]. rewrite Ht.
    assert (X : exists a', match h_call nsz nal eb chk hash eqb c (the_table w t) with Ok a s => Some (Some a, back_at w i s true) | Panic s => Some (None, back_at w i s true) | UB => None end
      = Some (a', back_at w i s' true) /\ same_answer a' a1).
    { cbn [h_run] in RN. destruct (h_call nsz nal eb chk hash eqb c (the_table w t)); try done; injection RN as <- <-; inversion SA; subst; eexists; by split. }
    destruct X as (a' & X & SA'). set (r' := Inside cs' arrs' (in_cnt r + Z.of_nat (keys_given [c]))).
    exists a', d', (back_at w i s' true), (<[i := Some r']> rs). split; [done|]. split; [done|]. split; [exact D|]. rewrite app_nil_r in PD. split; [done|].
    assert (NE : eb ∉ own r') by exact (TRep_eb nsz nal eb hash eqb _ _ _ _ _ R').
    unfold back_at. eapply HW_change; try eassumption.
    + apply (tr_wf _ _ _ _ _ _ _ _ _ _ R').
    + intros b N L. specialize (N r eq_refl). assert (Nb : b ∉ own r').
      { intros Hb. pose proof (tr_fresh _ _ _ _ _ _ _ _ _ _ R' b Hb) as F. rewrite hdels_out in F by done. rewrite F in L. by destruct L. }
      rewrite (tr_frame _ _ _ _ _ _ _ _ _ _ R' b Nb). by apply hdels_out.
    + intros b r1 [= <-] Hb. destruct (decide (b ∈ own r)) as [?|Nb]; [left; by exists r|right].
      pose proof (tr_fresh _ _ _ _ _ _ _ _ _ _ R' b Hb) as F. by rewrite hdels_out in F by done.
    + cbn [one]. split; [|done]. apply (TR_move _ s' r' (t_h s') (t_drops s') R').
      * apply (tr_wf _ _ _ _ _ _ _ _ _ _ R').
      * unfold static_ok. rewrite (tr_frame _ _ _ _ _ _ _ _ _ _ R' eb NE). apply (tr_static _ _ _ _ _ _ _ _ _ _ R').
      * done.
  - destruct (ms !! i) as [[m|]|] eqn:Hm; try done. injection E as <- <- <-.
    destruct (tab_of _ _ _ _ _ H Hm) as (t & r & Ht & Hr & O). destruct t as [t|], r as [r|]; try done. destruct O as [R P].
    destruct (free_all_ok nsz nal eb hash eqb Hnsz Hlay _ _ _ _ _ R) as (h' & FB & R' & FR). cbn [hw_step]. rewrite Ht. unfold ht_drop. rewrite FB.
    eexists _, (dropped (in_cs r)), _, (<[i := None]> rs). split; [done|]. split; [done|]. split; [done|]. split.
    { rewrite (dropped_perm (in_cs r)). by apply parts_perm. }
    unfold back_at. eapply HW_change; try eassumption.
    + exact (tr_wf _ _ _ _ _ _ _ _ _ _ R').
    + intros b N L. specialize (N r eq_refl). cbn. rewrite FR; [by apply hdels_out|]. intros Hb. apply N. unfold own. rewrite elem_of_app. by right.
    + done.
    + done.
  - destruct (ms !! i) as [[m|]|] eqn:Hm; try done. destruct (ms !! j) as [[m'|]|] eqn:Hm'; try done. injection E as <- <- <-.
    destruct (tab_of _ _ _ _ _ H Hm) as (t & r & Ht & Hr & O). destruct t as [t|], r as [r|]; try done.
    destruct (tab_of _ _ _ _ _ H Hm') as (t' & r' & Ht' & Hr' & O'). destruct t' as [t'|], r' as [r'|]; try done.
    cbn [hw_step]. rewrite Ht, Ht'.
    assert (Q : forall A (l : list A) x y k z, l !! i = Some x -> l !! j = Some y -> <[j := x]> (<[i := y]> l) !! k = Some z ->
       l !! (if decide (k = j) then i else if decide (k = i) then j else k) = Some z).
    { intros A l x y k z Hi Hj Hk. pose proof (lookup_lt_Some _ _ _ Hi). pose proof (lookup_lt_Some _ _ _ Hj). destruct (decide (k = j)) as [->|N1].
      - rewrite list_lookup_insert in Hk by (rewrite insert_length; lia). congruence.
      - rewrite list_lookup_insert_ne in Hk by done. destruct (decide (k = i)) as [->|N2].
        + rewrite list_lookup_insert in Hk by lia. congruence.
        + by rewrite list_lookup_insert_ne in Hk by done. }
    eexists _, [], _, (<[j := Some r]> (<[i := Some r']> rs)). split; [done|]. split; [done|]. split; [cbn; by rewrite app_nil_r|]. split; [done|].
    split; cbn.
    + apply (hw_wf _ _ _ H).
    + apply (hw_static _ _ _ H).
    + apply (hw_keep _ _ _ H).
    + rewrite !insert_length. apply (hw_lens _ _ _ H).
    + intros k tk rk mk Htk Hrk Hmk. eapply Q in Htk; [|done..]. eapply Q in Hrk; [|done..]. eapply Q in Hmk; [|done..].
      exact (hw_each _ _ _ H _ _ _ _ Htk Hrk Hmk).
    + intros k k' rk rk' b Hk Hk' Hb Hb'. eapply Q in Hk; [|done..]. eapply Q in Hk'; [|done..].
      pose proof (hw_apart _ _ _ H _ _ _ _ _ Hk Hk' Hb Hb') as E. repeat destruct decide; congruence.
    + intros k rk b Hk Hb. eapply Q in Hk; [|done..]. by eapply (hw_new _ _ _ H).
Qed.

Lemma run_ok : forall os w rs ms l d ms', HW w rs ms -> all_steps eqb os ms = Some (l, d, ms') ->
  exists l' d' w' rs', hw_run nsz nal eb chk hash eqb os w = Some (l', w') /\ Forall2 same_answer l' l /\
    hw_drops w' = hw_drops w ++ d' /\ d' ≡ₚ d /\ HW w' rs' ms'.
Proof.
  intros os. induction os as [|o os IH]; intros w rs ms l d ms' H E; cbn in E.
  - injection E as <- <- <-. exists [], [], w, rs. rewrite app_nil_r. by split_and!.
  - destruct (one_step eqb o ms) as [[[a d1] ms1]|] eqn:E1; [|done]. destruct (all_steps eqb os ms1) as [[[l1 d2] ms2]|] eqn:E2; [|done].
    injection E as <- <- <-. destruct (step_ok _ _ _ _ _ _ _ H E1) as (a' & e1 & w1 & rs1 & S1 & SA & D1 & P1 & H1).
    destruct (IH _ _ _ _ _ _ H1 E2) as (l' & e2 & w2 & rs2 & S2 & SA2 & D2 & P2 & H2).
    exists (a' :: l'), (e1 ++ e2), w2, rs2. cbn [hw_run]. rewrite S1, S2. split; [done|]. split; [by constructor|].
    split; [by rewrite D2, D1, app_assoc|]. split; [|done]. by f_equiv.
Qed.

Lemma start_ok n : HW (hw_start n h0) (replicate n None) (replicate n None).
Proof.
  split; cbn.
  - apply (su_heap _ _ _ _ _ _ SU).
  - apply (su_static _ _ _ _ _ _ SU).
  - done.
  - by rewrite !replicate_length.
  - intros i t r m Ht Hr Hm. apply lookup_replicate in Ht as [-> _], Hr as [-> _], Hm as [-> _]. done.
  - intros i j r r' b Hr. by apply lookup_replicate in Hr as [? _].
  - intros i r b Hr. by apply lookup_replicate in Hr as [? _].
Qed.

Lemma shows_ok w rs ms : HW w rs ms -> hw_shows w ms.
Proof.
  intros H. destruct (hw_lens _ _ _ H) as [L1 L2]. split; [lia|]. intros i o Hm. destruct (tab_of _ _ _ _ _ H Hm) as (t & r & Ht & Hr & O).
  destruct o as [m|], t as [t|], r as [r|]; try done. destruct O as [R P]. exists t, (entries (in_cs r)). split; [done|]. split; [|done].
  destruct (iter_ok _ _ _ _ _ Hlay _ _ _ _ _ R) as (a & ps & by_ & it & _ & E & IT & AT & _).
  unfold bind at 1. rewrite IT. unfold bind at 1, gets at 1.
  apply (iter_all_ok nsz nal Hlay by_ _ a ps E (concat (in_cs r)) _ it AT). by eapply all_fuel.
Qed.
End world.

Lemma L_C116_tables_apart :
forall (K V : Type) nsz nal eb chk hash eqb (h0 : heap (tcell K V)), Setup nsz nal eb hash eqb h0 ->
  forall n os l d ms, all_steps eqb os (replicate n None) = Some (l, d, ms) ->
  exists l' w, hw_run nsz nal eb chk hash eqb os (hw_start n h0) = Some (l', w) /\
    Forall2 same_answer l' l /\ hw_drops w ≡ₚ d /\ hw_shows w ms /\
    (forall b, is_Some (h_blk h0 !! b) -> h_blk (hw_heap w) !! b = h_blk h0 !! b).
Proof.
  intros K V nsz nal eb chk hash eqb h0 SU n os l d ms E.
  destruct (run_ok nsz nal eb chk hash eqb h0 SU os _ _ _ _ _ _ (start_ok nsz nal eb hash eqb h0 SU n) E) as (l' & d' & w & rs & RN & SA & D & P & H).
  exists l', w. split; [done|]. split; [done|]. split; [by rewrite D|]. split; [by eapply shows_ok|]. apply (hw_keep _ _ _ _ _ _ _ _ _ H).
Qed.
