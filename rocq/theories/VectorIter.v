(** The consuming iterator refines a list consumed from both ends. *)
From Verif Require Import Base Heap HeapLemmas Alloc AllocContract Vector VectorSpec VectorProofs VectorMore IterSpec.

Section proofs.
Context {A T : Type}.
Variable AI : AllocImpl A T.
Variables sz al : Z.
Variable chk nd : bool.
Hypothesis Hsz : (0 < sz)%Z.
Variable AS : AllocSpec AI sz al.

Notation st := (vstate A T).
Notation ist := (istate A T).
Notation Rep := (Rep AI sz al AS).
Notation frame := (frame AI sz al AS).

(** The state the vector was in, the block, and the elements left. *)
Definition IRep (s0 : st) (cap : nat) (s : ist) (xs : list T) : Prop :=
  is_st s = VState (Vec Null Null Null) (st_a s0) (st_h s0) (st_drops s0) /\
  ( (is_it s = IntoIter Null Null Null Null /\ xs = [] /\ cap = 0 /\ own_block (st_v s0) = None) \/
    (exists b bk f,
       own_block (st_v s0) = Some b /\
       is_it s = IntoIter (Ptr b 0) (Ptr b cap) (Ptr b f) (Ptr b (f + length xs)) /\
       0 < cap /\ f + length xs <= cap /\ (Z.of_nat cap * sz <= isize_max)%Z /\
       h_blk (st_h s0) !! b = Some bk /\ cap <= length (bk_cells bk) /\
       take (length xs) (drop f (bk_cells bk)) = Some <$> xs /\
       (as_pool AS (st_a s0) = Some b \/ as_layout AS cap bk)) ).

Lemma IRep_start s xs cap : Rep s xs cap -> IRep s cap (vec_into_iter s) xs.
Proof.
  intros (W & P & R). split; [done|].
  destruct R as [(E & -> & ->)|(b & bk & j & E & C0 & Cl & Cz & Hb & Hc & Hl & HO)].
  - left. unfold vec_into_iter. by rewrite E.
  - right. exists b, bk, 0. unfold vec_into_iter. rewrite E. cbn [own_block v_begin v_end v_cap is_it].
    repeat (split; [done|]). split; [|done]. rewrite drop_0, Hc. apply take_fmap_app.
Qed.

Lemma ii_len_ok s0 cap s xs : IRep s0 cap s xs -> ii_len sz s = Ok (length xs) s.
Proof.
  intros (ES & R). unfold ii_len, bind, gets, on_st, offset_from.
  destruct (Z.eqb_spec sz 0); [lia|]. destruct s as [it s]. cbn [is_it is_st] in *.
  destruct R as [(-> & -> & -> & _)|(b & bk & f & _ & -> & _)]; cbn [ii_back ii_front].
  - done.
  - rewrite pdiff_ok by lia. cbn. by replace (f + length xs - f) with (length xs) by lia.
Qed.

Lemma ii_is_empty_ok s0 cap s xs : IRep s0 cap s xs -> ii_is_empty sz s = Ok (length xs =? 0) s.
Proof. intros R. unfold ii_is_empty, bind. by rewrite (ii_len_ok _ _ _ _ R). Qed.

Lemma ii_capacity_ok s0 cap s xs : IRep s0 cap s xs -> ii_capacity sz s = Ok cap s.
Proof.
  intros (ES & R). unfold ii_capacity, bind, gets, on_st, offset_from.
  destruct (Z.eqb_spec sz 0); [lia|]. destruct s as [it s]. cbn [is_it is_st] in *.
  destruct R as [(-> & -> & -> & _)|(b & bk & f & _ & -> & _)]; cbn [ii_cap ii_begin].
  - done.
  - rewrite pdiff_ok by lia. cbn. by rewrite Nat.sub_0_r.
Qed.

Lemma ii_as_slice_ok s0 cap s xs : IRep s0 cap s xs -> ii_as_slice sz s = Ok xs s.
Proof.
  intros R. pose proof (ii_len_ok _ _ _ _ R) as L. destruct R as (ES & R).
  unfold ii_as_slice, bind at 1, gets at 1. destruct s as [it s]. cbn [is_it is_st] in *.
  destruct R as [(-> & -> & -> & _)|(b & bk & f & _ & -> & C0 & Cl & Cz & Hb & Hl & Ht & _)]; cbn [ii_front is_null].
  - done.
  - unfold bind at 1. rewrite L. unfold on_st, from_heap, bind, gets. subst s. cbn [is_st st_h].
    rewrite (hslice_ok _ _ _ _ xs Hb); [done|lia|done].
Qed.

Lemma head_cell (cs : list (option T)) f x xs :
  take (length (x :: xs)) (drop f cs) = Some <$> x :: xs -> cs !! f = Some (Some x).
Proof.
  intros E. pose proof (f_equal (lookup 0) E) as E0. cbn [fmap list_fmap] in E0.
  rewrite lookup_take in E0 by (cbn; lia). by rewrite lookup_drop, Nat.add_0_r in E0.
Qed.

Lemma ii_next_ok s0 cap s xs : IRep s0 cap s xs ->
  exists s', ii_next sz s = Ok (head xs) s' /\ IRep s0 cap s' (tail xs).
Proof.
  intros R. unfold ii_next, bind at 1. rewrite (ii_is_empty_ok _ _ _ _ R).
  destruct xs as [|x xs]; [by exists s|]. cbn [length Nat.eqb head tail].
  destruct R as (ES & R). destruct s as [it s]. cbn [is_it is_st] in *.
  destruct R as [(_ & ? & _)|(b & bk & f & HO & -> & C0 & Cl & Cz & Hb & Hl & Ht & HP)]; [done|].
  unfold bind at 1, gets at 1. cbn [is_it ii_front ii_begin ii_cap ii_back].
  unfold bind at 1, on_st at 1, from_heap at 1, bind at 1, gets at 1. subst s. cbn [is_st st_h].
  rewrite (hload_ok _ _ _ _ x Hb) by (by eapply head_cell).
  unfold or_ub at 1, ret at 1.
  unfold bind at 1, on_st at 1, from_heap at 1, bind at 1, gets at 1. cbn [is_st st_h length] in *.
  rewrite (hadd_ok _ _ _ _ _ Hb) by lia. unfold or_ub at 1, ret at 1, bind at 1, set_it, modify, ret.
  eexists. split; [reflexivity|]. split; [done|]. right. exists b, bk, (f + 1). cbn [is_it].
  split; [done|]. split; [f_equal; f_equal; lia|]. split; [done|]. split; [lia|].
  split; [done|]. split; [done|]. split; [done|]. split; [|done].
  rewrite <- drop_drop. destruct (drop f (bk_cells bk)) as [|c cs]; [done|].
  cbn in Ht. injection Ht as _ Ht. done.
Qed.

Lemma ii_next_back_ok s0 cap s xs : IRep s0 cap s xs ->
  exists s', ii_next_back sz s = Ok (last xs) s' /\ IRep s0 cap s' (removelast xs).
Proof.
  intros R. unfold ii_next_back, bind at 1. rewrite (ii_is_empty_ok _ _ _ _ R).
  destruct xs as [|x xs _] using rev_ind; [by exists s|].
  rewrite last_snoc, removelast_app, app_nil_r by done.
  destruct (Nat.eqb_spec (length (xs ++ [x])) 0) as [E0|_]; [rewrite app_length in E0; cbn in E0; lia|].
  destruct R as (ES & R). destruct s as [it s]. cbn [is_it is_st] in *.
  destruct R as [(_ & ? & _)|(b & bk & f & HO & -> & C0 & Cl & Cz & Hb & Hl & Ht & HP)]; [by destruct xs|].
  rewrite app_length in *. cbn [length] in *.
  unfold bind at 1, gets at 1. cbn [is_it ii_front ii_begin ii_cap ii_back].
  unfold bind at 1, on_st at 1, from_heap at 1, bind at 1, gets at 1. subst s. cbn [is_st st_h].
  rewrite (hsub_ok _ _ _ _ _ Hb) by lia. unfold or_ub at 1, ret at 1.
  unfold bind at 1, set_it, modify at 1.
  unfold bind at 1, on_st at 1, from_heap at 1, bind at 1, gets at 1. cbn [is_st st_h].
  replace (f + (length xs + 1) - 1) with (f + length xs) by lia.
  assert (Hx : bk_cells bk !! (f + length xs) = Some (Some x)).
  { pose proof (f_equal (lookup (length xs)) Ht) as E1.
    rewrite lookup_take in E1 by lia. rewrite lookup_drop in E1. rewrite E1, fmap_app.
    rewrite lookup_app_r by (rewrite fmap_length; lia). by rewrite fmap_length, Nat.sub_diag. }
  rewrite (hload_ok _ _ _ _ x Hb Hx). unfold or_ub at 1, ret.
  eexists. split; [reflexivity|]. split; [done|]. right. exists b, bk, f. cbn [is_it].
  split; [done|]. split; [done|]. split; [done|]. split; [lia|].
  split; [done|]. split; [done|]. split; [done|]. split; [|done].
  apply (f_equal (take (length xs))) in Ht. rewrite take_take, Nat.min_l in Ht by lia.
  rewrite Ht, fmap_app, take_fmap_app. done.
Qed.

Lemma iexec_ok c s0 cap s xs a xs' : IRep s0 cap s xs -> ispec_call cap c xs = (a, xs') ->
  exists s', iexec sz c s = Ok a s' /\ IRep s0 cap s' xs'.
Proof.
  intros R H. destruct c; cbn [ispec_call] in H; injection H as <- <-; cbn [iexec]; unfold bind.
  - destruct (ii_next_ok _ _ _ _ R) as (s' & -> & R'). by exists s'.
  - destruct (ii_next_back_ok _ _ _ _ R) as (s' & -> & R'). by exists s'.
  - rewrite (ii_len_ok _ _ _ _ R). by exists s.
  - rewrite (ii_is_empty_ok _ _ _ _ R). by exists s.
  - rewrite (ii_as_slice_ok _ _ _ _ R). by exists s.
  - rewrite (ii_capacity_ok _ _ _ _ R). by exists s.
Qed.

Theorem irun_refines cs : forall s0 cap s xs l xs',
  IRep s0 cap s xs -> ispec_calls cap cs xs = (l, xs') ->
  exists s', irun sz cs s = Ok l s' /\ IRep s0 cap s' xs'.
Proof.
  induction cs as [|c cs IH]; intros s0 cap s xs l xs' R H; cbn [ispec_calls] in H.
  - injection H as <- <-. by exists s.
  - destruct (ispec_call cap c xs) as [a xs1] eqn:E1.
    destruct (ispec_calls cap cs xs1) as [l2 xs2] eqn:E2. injection H as <- <-.
    destruct (iexec_ok _ _ _ _ _ _ _ R E1) as (s1 & Es & R1).
    destruct (IH _ _ _ _ _ _ R1 E2) as (s2 & Er & R2).
    exists s2. cbn [irun]. unfold bind. by rewrite Es, Er.
Qed.

(** Dropping the iterator drops what is left and gives back the buffer. *)
Theorem ii_drop_ok s0 cap s xs : heap_wf (st_h s0) -> as_pool AS (st_a s0) = None ->
  IRep s0 cap s xs ->
  exists s', ii_drop AI sz al chk nd s = Ok tt s' /\
    h_blk (st_h (is_st s')) = frame s0 /\
    st_drops (is_st s') = st_drops s0 ++ (if nd then xs else []).
Proof.
  intros W HPool R. pose proof (ii_len_ok _ _ _ _ R) as EL. pose proof (ii_capacity_ok _ _ _ _ R) as EC.
  destruct R as (ES & R). destruct s as [it s]. cbn [is_it is_st] in *.
  unfold ii_drop, bind at 1, gets at 1. cbn [is_it].
  destruct R as [(-> & -> & -> & HO)|(b & bk & f & HO & -> & C0 & Cl & Cz & Hb & Hl & Ht & HP)]; cbn [ii_begin ii_front is_null].
  - eexists. split; [reflexivity|]. subst s. cbn. unfold VectorProofs.frame. rewrite HO, HPool. cbn.
    split; [done|]. by destruct nd; rewrite app_nil_r.
  - unfold bind at 1. rewrite EL.
    destruct (drop_places_ok nd xs s b f bk) as (bk' & ED & EB & EA & EL').
    { by rewrite ES. } { lia. } { done. }
    unfold bind at 1, on_st at 1. cbn [is_st]. rewrite ED.
    unfold bind at 1. unfold ii_capacity, bind at 1, gets at 1. cbn [is_it ii_cap ii_begin].
    unfold on_st at 1, offset_from. destruct (Z.eqb_spec sz 0); [lia|]. cbn [is_st].
    rewrite pdiff_ok by lia. unfold or_ub at 1, ret at 1.
    unfold on_st at 1. cbn [is_st]. rewrite Nat.sub_0_r. subst s. cbn [st_v st_a st_h st_drops] in *.
    erewrite (deallocate_ok AI sz al chk Hsz AS _ b cap bk').
    + cbn [st_a]. rewrite HPool. destruct (decide _); [done|].
      eexists. split; [reflexivity|]. cbn. split; [|done].
      unfold VectorProofs.frame. rewrite HO, HPool. cbn. by rewrite delete_insert_delete.
    + apply hset_lookup.
    + done.
    + destruct HP as [HP|HP]; [by left|right].
      apply (as_layout_cells AS _ _ (bk_cells bk')) in HP; [|lia]. rewrite <- EB, <- EA in HP. by destruct bk'.
Qed.

(** What both ends hand out, with what is left, is the whole list in order. *)
Lemma ispec_order cap cs : forall (xs : list T) l xs', ispec_calls cap cs xs = (l, xs') ->
  from_front cs l ++ xs' ++ rev (from_back cs l) = xs.
Proof.
  induction cs as [|c cs IH]; intros xs l xs' H; cbn [ispec_calls] in H.
  - injection H as <- <-. cbn. by rewrite app_nil_r.
  - destruct (ispec_call cap c xs) as [a xs1] eqn:E1.
    destruct (ispec_calls cap cs xs1) as [l2 xs2] eqn:E2. injection H as <- <-.
    specialize (IH _ _ _ E2). destruct c; cbn [ispec_call] in E1; injection E1 as <- <-; try exact IH.
    + destruct xs as [|x xs]; cbn; [done|]. cbn [tail] in IH. by rewrite IH.
    + destruct xs as [|x xs _] using rev_ind; [cbn; done|]. rewrite last_snoc.
      rewrite removelast_app, app_nil_r in IH by done. cbn.
      rewrite <- IH at 1. by rewrite <- !app_assoc.
Qed.

End proofs.
