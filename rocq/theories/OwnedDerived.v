(** Proofs of the properties stated in OwnedProps.v. *)
From Verif Require Import Base Heap Alloc AllocContract Vector VectorSpec IterSpec Owned OwnedSpec.

From Verif Require Import HeapLemmas VectorProofs VectorMore VectorIter.

(** ** The allocator keeps the contract *)
Definition OwnedAllocSpec {C} (sz al : Z) (Hsz : (0 < sz)%Z) (Hal : (0 < al)%Z) (id : nat) : AllocSpec (OwnedAlloc C id) sz al.
Proof.
  refine {|
    as_fits := default_fits sz al;
    as_pool := fun _ => None;
    as_layout := fun n bk =>
      bk_bytes bk = (Z.of_nat n * sz)%Z /\ bk_align bk = (al + mark * Z.of_nat id)%Z /\ default_fits sz al n = true /\
      length (bk_cells bk) = n
  |}.
  - intros n E. unfold default_fits in E. lia.
  - intros a h n Hn F. unfold default_fits in F.
    exists (Block (Z.of_nat n * sz) (al + mark * Z.of_nat id) (replicate n None)), [].
    cbn [ai_alloc OwnedAlloc fst snd bk_bytes bk_align bk_cells]. unfold layout_ok.
    destruct (Z.eqb_spec (Z.of_nat n * sz) 0); [nia|]. rewrite F.
    rewrite Z.div_mul by lia. rewrite Nat2Z.id, app_nil_r.
    unfold default_fits. repeat split; [done|]. apply replicate_length.
  - intros a h n Hn F B. unfold default_fits in F. cbn [ai_alloc OwnedAlloc]. unfold layout_ok.
    destruct (Z.eqb_spec (Z.of_nat n * sz) 0); [nia|]. by rewrite F.
  - intros a h b n bk _ E (EB & EA & F & _). cbn [ai_free OwnedAlloc fst snd]. unfold layout_ok.
    unfold default_fits in F. rewrite F. cbn [hfree]. rewrite E, EB, EA, !Z.eqb_refl. done.
  - done.
  - intros n bk cs (? & ? & ? & <-) L. done.
Defined.

Section proofs.
Context {T : Type}.
Variables sz al : Z.
Variable chk nd : bool.
Variable clone : T -> option T.
Variable cl : T -> T.
Hypothesis Hsz : (0 < sz)%Z.
Hypothesis Hal : (0 < al)%Z.
Hypothesis Hclone : forall x, clone x = Some (cl x).

Notation AS := (OwnedAllocSpec (C:=T) sz al Hsz Hal).
Notation vst := (vstate unit T).
Notation VRep k := (Rep (OwnedAlloc T k) sz al (AS k)).
Notation VPost k := (Post (OwnedAlloc T k) sz al nd (AS k)).
Notation ITRep k := (IRep (OwnedAlloc T k) sz al (AS k)).
Notation fits := (default_fits sz al).

Definition iter_vec (it : into_iter) : vec := Vec (ii_begin it) Null Null.
Definition obown (o : option obj) : option nat :=
  match o with
  | Some (Obj _ (BVec v)) => own_block v
  | Some (Obj _ (BIter it)) => own_block (iter_vec it)
  | None => None
  end.
Definition objrep (h : heap T) (o : option obj) (s : option (sobj T)) : Prop :=
  match o, s with
  | None, None => True
  | Some (Obj k (BVec v)), Some (SV s) => VRep k (VState v tt h []) (items s) (room s)
  | Some (Obj k (BIter it)), Some (SI cap xs) => ITRep k (VState (iter_vec it) tt h []) cap (IState it (VState (Vec Null Null Null) tt h [])) xs
  | _, _ => False
  end.

(** Nothing but the object's block changes. *)
Definition Fr (h h' : heap T) (o o' : option nat) : Prop :=
  (forall b, o <> Some b -> o' <> Some b -> h_blk h' !! b = h_blk h !! b) /\
  (forall b, o <> Some b -> o' = Some b -> h_blk h !! b = None) /\
  (forall b, o = Some b -> o' <> Some b -> h_blk h' !! b = None).

Record ORep (base : gmap nat (block T)) (os : list (option obj)) (h : heap T) (ss : list (option (sobj T))) : Prop := {
  or_wf : heap_wf h;
  or_len : length ss = length os;
  or_rep : forall i o s, os !! i = Some o -> ss !! i = Some s -> objrep h o s;
  or_inj : forall i j o o' b, os !! i = Some o -> os !! j = Some o' -> obown o = Some b -> obown o' = Some b -> i = j;
  or_base : forall b, (forall i o, os !! i = Some o -> obown o <> Some b) -> h_blk h !! b = base !! b;
  or_fresh : forall i o b, os !! i = Some o -> obown o = Some b -> base !! b = None
}.

Lemma objrep_own h o s b : objrep h o s -> obown o = Some b ->
  exists bk k, h_blk h !! b = Some bk /\ option_map ob_alloc o = Some k /\ bk_align bk = (al + mark * Z.of_nat k)%Z /\ (al <= isize_max)%Z.
Proof.
  destruct o as [[k [v|it]]|]; [| |done]; destruct s as [[s|cap xs]|]; cbn [objrep obown option_map ob_alloc]; try done.
  - intros (_ & _ & [(E & _)|(b' & bk & j & E & C0 & _ & _ & Hb & _ & _ & [P|L])]); cbn [st_v st_a st_h] in *; subst v; cbn; [done|done|].
    intros [= ->]. exists bk, k. split; [done|]. split; [done|]. destruct L as (_ & -> & F & _). split; [done|]. unfold default_fits in F. unfold isize_max in *. nia.
  - intros (_ & [(E & _ & _ & HO)|(b' & bk & f & HO & E & C0 & _ & _ & Hb & _ & _ & [P|L])]); cbn [st_v st_a st_h is_it] in *; intros HB; [congruence|done|].
    assert (b' = b) as -> by congruence. exists bk, k. split; [done|]. split; [done|]. destruct L as (_ & -> & F & _). split; [done|]. unfold default_fits in F. unfold isize_max in *. nia.
Qed.

Lemma IRep_h k it h d h' d' cap xs : ITRep k (VState (iter_vec it) tt h d) cap (IState it (VState (Vec Null Null Null) tt h d)) xs ->
  (forall b, own_block (iter_vec it) = Some b -> h_blk h' !! b = h_blk h !! b) ->
  ITRep k (VState (iter_vec it) tt h' d') cap (IState it (VState (Vec Null Null Null) tt h' d')) xs.
Proof.
  intros (_ & R) L. split; [done|]. cbn [is_it st_v st_h st_a] in *.
  destruct R as [R|(b & bk & f & HO & E & C0 & Cl & Cz & Hb & R)]; [by left|right].
  exists b, bk, f. repeat (split; [done|]). split; [|done]. by rewrite (L b HO).
Qed.

Lemma objrep_other h h' o s : objrep h o s -> heap_wf h' -> (forall b, obown o = Some b -> h_blk h' !! b = h_blk h !! b) -> objrep h' o s.
Proof.
  intros R W L. destruct o as [[k [v|it]]|]; [| |done]; destruct s as [[s|cap xs]|]; cbn [objrep obown] in *; try done.
  - eapply (Rep_other (OwnedAlloc T k) sz al (AS k) v tt h []); done.
  - eapply (IRep_h k it h []); done.
Qed.

Lemma ORep_update base os h ss i o o' h' s' : ORep base os h ss -> os !! i = Some o -> heap_wf h' -> Fr h h' (obown o) (obown o') -> objrep h' o' s' ->
  ORep base (<[i := o']> os) h' (<[i := s']> ss).
Proof.
  intros W Ho WF (FL & FN & FO) R'. assert (Hi : i < length os) by (by eapply lookup_lt_Some).
  assert (Hi' : i < length ss) by (rewrite (or_len _ _ _ _ W); done).
  assert (OTH : forall j oj b, os !! j = Some oj -> obown oj = Some b -> i <> j -> obown o' <> Some b /\ obown o <> Some b).
  { intros j oj b Hj Hb N. assert (obown o <> Some b) by (intros E; apply N; by eapply (or_inj _ _ _ _ W)).
    split; [|done]. intros E. pose proof (FN b ltac:(done) E) as F.
    destruct (lookup_lt_is_Some_2 ss j) as [sj Hsj]; [rewrite (or_len _ _ _ _ W); by eapply lookup_lt_Some|].
    destruct (objrep_own _ _ _ b (or_rep _ _ _ _ W _ _ _ Hj Hsj) Hb) as (bk & k & E2 & _). congruence. }
  split.
  - done.
  - rewrite !insert_length. apply W.
  - intros j oj sj Hj Hsj. destruct (decide (i = j)) as [<-|N].
    + rewrite list_lookup_insert in Hj by done. rewrite list_lookup_insert in Hsj by done. by simplify_eq.
    + rewrite list_lookup_insert_ne in Hj by done. rewrite list_lookup_insert_ne in Hsj by done.
      eapply objrep_other; [by eapply (or_rep _ _ _ _ W)|done|]. intros b Hb. destruct (OTH _ _ _ Hj Hb N). by apply FL.
  - intros j k oj ok b Hj Hk Hoj Hok. destruct (decide (i = j)) as [<-|Nj], (decide (i = k)) as [<-|Nk]; [done| | |].
    + rewrite list_lookup_insert in Hj by done. rewrite list_lookup_insert_ne in Hk by done. simplify_eq. by destruct (OTH _ _ _ Hk Hok Nk).
    + rewrite list_lookup_insert in Hk by done. rewrite list_lookup_insert_ne in Hj by done. simplify_eq. by destruct (OTH _ _ _ Hj Hoj Nj).
    + rewrite list_lookup_insert_ne in Hj by done. rewrite list_lookup_insert_ne in Hk by done. by eapply (or_inj _ _ _ _ W).
  - intros b Hb. assert (N' : obown o' <> Some b) by (apply (Hb i); by rewrite list_lookup_insert).
    destruct (decide (obown o = Some b)) as [E|N].
    + rewrite FO by done. symmetry. by eapply (or_fresh _ _ _ _ W).
    + rewrite FL by done. apply (or_base _ _ _ _ W). intros j oj Hj. destruct (decide (i = j)) as [<-|Nj]; [congruence|].
      apply (Hb j). by rewrite list_lookup_insert_ne.
  - intros j oj b Hj Hb. destruct (decide (i = j)) as [<-|Nj].
    + rewrite list_lookup_insert in Hj by done. injection Hj as <-.
      destruct (decide (obown o = Some b)) as [E|N]; [by eapply (or_fresh _ _ _ _ W)|]. pose proof (FN b N Hb) as F.
      destruct (decide (Exists (fun u => obown u = Some b) os)) as [Ex|Ex].
      * apply Exists_exists in Ex as (u & Hu & Eu). apply elem_of_list_lookup in Hu as [k Hk]. by eapply (or_fresh _ _ _ _ W).
      * rewrite <- (or_base _ _ _ _ W); [done|]. intros k u Hk Eu. apply Ex, Exists_exists. exists u. split; [|done]. by eapply elem_of_list_lookup_2.
    + rewrite list_lookup_insert_ne in Hj by done. by eapply (or_fresh _ _ _ _ W).
Qed.

Lemma ORep_slot base os h ss : ORep base os h ss -> ORep base (os ++ [None]) h (ss ++ [None]).
Proof.
  intros W. assert (N : forall i o, (os ++ [None]) !! i = Some o -> os !! i = Some o \/ i = length os /\ o = None).
  { intros i o H. apply lookup_app_Some in H as [H|[L H]]; [by left|]. apply list_lookup_singleton_Some in H as [E <-]. right. split; [lia|done]. }
  split; try apply W.
  - rewrite !app_length. cbn. by rewrite (or_len _ _ _ _ W).
  - intros i o s Ho Hs. destruct (N _ _ Ho) as [Ho'|[-> ->]].
    + rewrite lookup_app_l in Hs by (rewrite (or_len _ _ _ _ W); by eapply lookup_lt_Some). by eapply (or_rep _ _ _ _ W).
    + rewrite <- (or_len _ _ _ _ W), lookup_app_r, Nat.sub_diag in Hs by lia. cbn in Hs. by simplify_eq.
  - intros i j o o' b Hi Hj Ho Ho'. destruct (N _ _ Hi) as [Hi'|[-> ->]]; [|done]. destruct (N _ _ Hj) as [Hj'|[-> ->]]; [|done]. by eapply (or_inj _ _ _ _ W).
  - intros b Hb. apply (or_base _ _ _ _ W). intros i o Ho. apply (Hb i). by apply lookup_app_l_Some.
  - intros i o b Hi Ho. destruct (N _ _ Hi) as [Hi'|[-> ->]]; [|done]. by eapply (or_fresh _ _ _ _ W).
Qed.

Lemma ORep_add base os h ss o' h' s' : ORep base os h ss -> heap_wf h' -> Fr h h' None (obown o') -> objrep h' o' s' ->
  ORep base (os ++ [o']) h' (ss ++ [s']).
Proof.
  intros W WF F R. pose proof (ORep_update _ _ _ _ (length os) None o' h' s' (ORep_slot _ _ _ _ W)) as U.
  rewrite lookup_app_r, Nat.sub_diag in U by lia. specialize (U eq_refl WF F R).
  rewrite insert_app_r_alt, Nat.sub_diag in U by lia. rewrite insert_app_r_alt in U by (rewrite (or_len _ _ _ _ W); lia).
  rewrite (or_len _ _ _ _ W), Nat.sub_diag in U. exact U.
Qed.

Lemma ORep_heap base os h ss h' : ORep base os h ss -> heap_wf h' -> (forall b, h_blk h' !! b = h_blk h !! b) -> ORep base os h' ss.
Proof.
  intros W WF E. split; try apply W; try done.
  - intros i o s Ho Hs. eapply objrep_other; [by eapply (or_rep _ _ _ _ W)|done|]. intros b _. apply E.
  - intros b Hb. rewrite E. by apply (or_base _ _ _ _ W).
Qed.

Lemma Post_Fr k v h d s' xs' cap' d' : VPost k (VState v tt h d) s' xs' cap' d' ->
  heap_wf (st_h s') /\ Fr h (st_h s') (own_block v) (own_block (st_v s')) /\ VRep k (VState (st_v s') tt (st_h s') []) xs' cap' /\ st_drops s' = d ++ ran nd d'.
Proof.
  intros (R' & HF & _ & HD). split; [apply R'|]. split.
  - assert (E : forall b, (if decide (own_block (st_v s') = Some b) then None else h_blk (st_h s') !! b) = (if decide (own_block v = Some b) then None else h_blk h !! b)).
    { intros b. pose proof (f_equal (lookup b) HF) as E. by rewrite !frame_lookup in E. }
    split; [|split]; intros b; pose proof (E b) as Eb; repeat destruct (decide _); try done; intros; congruence.
  - split; [|done]. destruct s' as [v' [] h' ds']. eapply (Rep_other (OwnedAlloc T k) sz al (AS k) v' tt h' ds'); try done. apply R'.
Qed.

(** ** Building a vector, from the theorem about programs with one allocator *)
Lemma built k (o : wop T) h d a d' l : heap_wf h -> nd = false \/ w_is_move o = true -> chk = true \/ w_modest sz o = true ->
  spec_wop fits cl o [] = Some (a, d', l) ->
  exists w', w_step (OwnedAlloc T k) sz al chk nd clone o (World [] tt h d) = Some (a, w') /\
    heap_wf (w_h w') /\ w_drops w' = d ++ ran nd d' /\
    ((l = [] /\ w_vecs w' = [] /\ forall b, h_blk (w_h w') !! b = h_blk h !! b) \/
     exists s v, l = [s] /\ w_vecs w' = [v] /\ VRep k (VState v tt (w_h w') []) (items s) (room s) /\ Fr h (w_h w') None (own_block v)).
Proof.
  intros WF HM HK HS.
  destruct (w_step_refines (OwnedAlloc T k) sz al chk nd clone cl Hsz Hclone (AS k) (h_blk h) o (World [] tt h d) [] a d' l) as (w' & E & W & D); [|done|done|done|].
  { by apply WRep_start. }
  exists w'. split; [done|]. split; [apply W|]. split; [done|].
  pose proof (wr_len _ _ _ _ _ _ _ W) as L. destruct l as [|s [|? ?]]; destruct (w_vecs w') as [|v [|? ?]] eqn:EV; try (cbn in L; lia).
  - left. split; [done|]. split; [done|]. intros b. apply (wr_base _ _ _ _ _ _ _ W). by rewrite EV.
  - right. exists s, v. split; [done|]. split; [done|]. split.
    + destruct (w_a w') eqn:EA. rewrite <- EA. apply (wr_rep _ _ _ _ _ _ _ W 0); [by rewrite EV|done].
    + split; [|split; [|done]].
      * intros b _ N. apply (wr_base _ _ _ _ _ _ _ W). rewrite EV. intros [|i] u Hu; cbn in Hu; by simplify_eq.
      * intros b _ Ho. apply (wr_fresh _ _ _ _ _ _ _ W 0 v b); [by rewrite EV|done].
  - exfalso. destruct o; cbn in HS; try done; destruct (spec_build _) as [[? ?] ?] eqn:B; simplify_eq;
    unfold spec_build in B; repeat case_match; simplify_eq.
Qed.

Lemma IRep_norm k v h d cap s xs : ITRep k (VState v tt h d) cap s xs ->
  objrep h (Some (Obj k (BIter (is_it s)))) (Some (SI cap xs)) /\ own_block (iter_vec (is_it s)) = own_block v /\
  is_st s = VState (Vec Null Null Null) tt h d.
Proof.
  intros (ES & R). cbn [st_v st_a st_h st_drops] in *. destruct s as [it s]. cbn [is_it is_st] in *. cbn [objrep].
  destruct R as [(-> & -> & -> & HO)|(b & bk & f & HO & -> & R)]; cbn [iter_vec ii_begin own_block].
  - split; [|done]. split; [done|]. by left.
  - split; [|done]. split; [done|]. right. by exists b, bk, f.
Qed.

Lemma ii_drop_wf k s0 cap s xs s' : heap_wf (st_h s0) -> ITRep k s0 cap s xs ->
  ii_drop (OwnedAlloc T k) sz al chk nd s = Ok tt s' -> heap_wf (st_h (is_st s')).
Proof.
  intros W R. pose proof (ii_len_ok _ _ _ Hsz (AS k) _ _ _ _ R) as EL.
  destruct R as (ES & R). destruct s as [it s]. cbn [is_it is_st] in *.
  unfold ii_drop, bind at 1, gets at 1. cbn [is_it].
  destruct R as [(-> & -> & -> & HO)|(b & bk & f & HO & -> & C0 & Cl & Cz & Hb & Hl & Ht & HP)]; cbn [ii_begin ii_front is_null].
  - intros [= <-]. by rewrite ES.
  - unfold bind at 1. rewrite EL.
    destruct (drop_places_ok nd xs s b f bk) as (bk' & ED & EB & EA & EL').
    { by rewrite ES. } { lia. } { done. }
    unfold bind at 1, on_st at 1. cbn [is_st]. rewrite ED.
    unfold bind at 1. unfold ii_capacity, bind at 1, gets at 1. cbn [is_it ii_cap ii_begin].
    unfold on_st at 1, offset_from. destruct (Z.eqb_spec sz 0); [lia|]. cbn [is_st].
    rewrite pdiff_ok by lia. unfold or_ub at 1, ret at 1.
    unfold on_st at 1. cbn [is_st]. rewrite Nat.sub_0_r. subst s. cbn [st_v st_a st_h st_drops] in *.
    erewrite (deallocate_ok (OwnedAlloc T k) sz al chk Hsz (AS k) _ b cap bk').
    + cbn [as_pool OwnedAllocSpec]. destruct (decide _); [done|]. intros [= <-]. cbn [is_st st_h].
      apply wf_hdel, wf_hset; [done|]. rewrite Hb. by eexists.
    + apply hset_lookup.
    + done.
    + destruct HP as [HP|HP]; [by left|right].
      apply (as_layout_cells (AS k) _ _ (bk_cells bk')) in HP; [|lia]. rewrite <- EB, <- EA in HP. by destruct bk'.
Qed.

Lemma ORep_move base os h ss i o o' s' : ORep base os h ss -> os !! i = Some o -> objrep h o' s' -> obown o' = obown o ->
  ORep base (<[i := None]> os ++ [o']) h (<[i := None]> ss ++ [s']).
Proof.
  intros W Ho R' EO. assert (Hi : i < length os) by (by eapply lookup_lt_Some).
  pose proof (or_len _ _ _ _ W) as L.
  assert (N : forall j u, (<[i := None]> os ++ [o']) !! j = Some u ->
    (j = length os /\ u = o') \/ (j = i /\ u = None) \/ (j <> i /\ j < length os /\ os !! j = Some u)).
  { intros j u H. apply lookup_app_Some in H as [H|[G H]].
    - right. destruct (decide (i = j)) as [<-|N].
      + rewrite list_lookup_insert in H by done. left. by simplify_eq.
      + rewrite list_lookup_insert_ne in H by done. right. split; [done|]. split; [by eapply lookup_lt_Some|done].
    - rewrite insert_length in *. apply list_lookup_singleton_Some in H as [E <-]. left. split; [lia|done]. }
  split; try apply W.
  - rewrite !app_length, !insert_length. cbn. lia.
  - intros j u sj Hu Hs. destruct (N _ _ Hu) as [[-> ->]|[[-> ->]|(Nj & Lj & Hj)]].
    + rewrite lookup_app_r in Hs by (rewrite insert_length; lia). rewrite insert_length, L, Nat.sub_diag in Hs. cbn in Hs. by simplify_eq.
    + rewrite lookup_app_l in Hs by (rewrite insert_length; lia). rewrite list_lookup_insert in Hs by lia. by simplify_eq.
    + rewrite lookup_app_l in Hs by (rewrite insert_length; lia). rewrite list_lookup_insert_ne in Hs by done. by eapply (or_rep _ _ _ _ W).
  - intros j j' u u' b Hu Hu' Hb Hb'.
    destruct (N _ _ Hu) as [[-> ->]|[[-> ->]|(Nj & Lj & Hj)]], (N _ _ Hu') as [[-> ->]|[[-> ->]|(Nj' & Lj' & Hj')]]; try done.
    + exfalso. apply Nj'. eapply (or_inj _ _ _ _ W); [done|done|done|congruence].
    + exfalso. apply Nj. eapply (or_inj _ _ _ _ W); [done|done|done|congruence].
    + by eapply (or_inj _ _ _ _ W).
  - intros b Hb. apply (or_base _ _ _ _ W). intros j u Hj. destruct (decide (j = i)) as [->|Nj].
    + replace u with o by congruence. rewrite <- EO. apply (Hb (length os)). rewrite lookup_app_r by (rewrite insert_length; lia). by rewrite insert_length, Nat.sub_diag.
    + apply (Hb j). apply lookup_app_l_Some. by rewrite list_lookup_insert_ne.
  - intros j u b Hu Hb. destruct (N _ _ Hu) as [[-> ->]|[[-> ->]|(Nj & Lj & Hj)]]; [|done|by eapply (or_fresh _ _ _ _ W)].
    rewrite EO in Hb. by eapply (or_fresh _ _ _ _ W).
Qed.

(** ** Who holds the allocators *)
Lemma in_use_app l1 l2 : in_use (l1 ++ l2) = in_use l1 ++ in_use l2.
Proof. induction l1 as [|[o|] l1 IH]; cbn; [done|by rewrite IH|done]. Qed.
Lemma in_use_set l i o o' : l !! i = Some (Some o) -> ob_alloc o' = ob_alloc o -> in_use (<[i := Some o']> l) = in_use l.
Proof.
  revert i. induction l as [|u l IH]; intros [|i] H E; cbn in *; [done|done| |].
  - simplify_eq. cbn. by rewrite E.
  - destruct u; cbn; by rewrite IH.
Qed.
Lemma in_use_take l i o : l !! i = Some (Some o) -> in_use l ≡ₚ ob_alloc o :: in_use (<[i := None]> l).
Proof.
  revert i. induction l as [|u l IH]; intros [|i] H; cbn in *; [done|done|by simplify_eq|].
  destruct u; cbn; [|by apply IH]. rewrite (IH i H). apply Permutation_swap.
Qed.
Definition custody (w : oworld T) : Prop := in_use (ow_objs w) ++ ow_gone w ≡ₚ seq 0 (ow_made w).

Lemma custody_gone w i o s : custody w -> ow_objs w !! i = Some (Some o) -> custody (o_gone w i (ob_alloc o) s).
Proof.
  intros C H. unfold custody, o_gone in *. cbn [ow_objs ow_gone ow_made]. rewrite <- C, (in_use_take _ _ _ H).
  rewrite app_assoc, <- Permutation_cons_append. done.
Qed.

Lemma o_build_ok base w ss (o : wop T) r a d' l : ORep base (ow_objs w) (ow_h w) ss -> custody w ->
  nd = false \/ w_is_move o = true -> chk = true \/ w_modest sz o = true ->
  spec_wop fits cl o [] = Some (a, d', l) ->
  w_step (OwnedAlloc T (ow_made w)) sz al chk nd clone o (World [] tt (ow_h w) (ow_drops w)) = w_build (World [] tt (ow_h w) (ow_drops w)) r ->
  exists w', o_build w r = Some (RVec a, w') /\ ORep base (ow_objs w') (ow_h w') (ss ++ map (fun s => Some (SV s)) l) /\
    custody w' /\ ow_drops w' = ow_drops w ++ ran nd d' /\ ow_made w' = S (ow_made w).
Proof.
  intros W C HM HK HS ER.
  destruct (built (ow_made w) o (ow_h w) (ow_drops w) a d' l) as (w1 & E & WF & D & H); [apply W|done|done|done|].
  rewrite ER in E. unfold custody in *. destruct r as [v s|s|]; cbn in E; [| |done]; simplify_eq; cbn [w_vecs w_h w_drops] in *; cbn [o_build].
  - destruct H as [(_ & H & _)|(s1 & v1 & -> & [= <-] & R & F)]; [done|]. eexists. split; [reflexivity|]. cbn [ow_objs ow_h ow_drops ow_made ow_gone map].
    split; [by apply (ORep_add _ _ _ _ _ _ _ W)|]. split; [|done].
    rewrite in_use_app, seq_S, <- C. cbn. rewrite <- !app_assoc. apply Permutation_app_head. cbn. apply Permutation_cons_append.
  - destruct H as [(-> & _ & H)|(s1 & v1 & _ & H & _)]; [|done]. eexists. split; [reflexivity|]. cbn [ow_objs ow_h ow_drops ow_made ow_gone map].
    rewrite app_nil_r. split; [by eapply ORep_heap|]. split; [|done].
    by rewrite seq_S, <- C, app_assoc.
Qed.

Theorem o_step_refines base o w ss a d ss' : ORep base (ow_objs w) (ow_h w) ss -> custody w ->
  nd = false \/ o_is_move o = true -> chk = true \/ o_fine sz o = true -> spec_oop fits cl o ss = Some (a, d, ss') ->
  exists w', o_step sz al chk nd clone o w = Some (a, w') /\ ORep base (ow_objs w') (ow_h w') ss' /\ custody w' /\
    ow_drops w' = ow_drops w ++ ran nd d /\ ow_made w' = (if makes o then S (ow_made w) else ow_made w).
Proof.
  intros W C HM HK HS.
  assert (GET : forall i s, ss !! i = Some (Some s) -> exists ob, ow_objs w !! i = Some (Some ob) /\ objrep (ow_h w) (Some ob) (Some s)).
  { intros i s Hs. destruct (lookup_lt_is_Some_2 (ow_objs w) i) as [u Hu]; [rewrite <- (or_len _ _ _ _ W); by eapply lookup_lt_Some|].
    pose proof (or_rep _ _ _ _ W _ _ _ Hu Hs) as R. destruct u as [ob|]; [|done]. by exists ob. }
  assert (DR : forall k v xs cap, VRep k (VState v tt (ow_h w) []) xs cap -> VRep k (v_at w v) xs cap).
  { intros k v xs cap R. eapply (Rep_other (OwnedAlloc T k) sz al (AS k) v tt (ow_h w) []); try done. apply W. }
  assert (BUILD : forall (q : wop T) r x, nd = false \/ w_is_move q = true -> chk = true \/ w_modest sz q = true ->
    spec_wop fits cl q [] = Some (let '(a, d, l) := spec_build x in (a, d, [] ++ l)) ->
    w_step (OwnedAlloc T (ow_made w)) sz al chk nd clone q (World [] tt (ow_h w) (ow_drops w)) = w_build (World [] tt (ow_h w) (ow_drops w)) r ->
    (let '(a, d, l) := spec_build x in Some (RVec a, d, ss ++ map (fun s => Some (SV s)) l)) = Some (a, d, ss') ->
    exists w', o_build w r = Some (a, w') /\ ORep base (ow_objs w') (ow_h w') ss' /\ custody w' /\
      ow_drops w' = ow_drops w ++ ran nd d /\ ow_made w' = S (ow_made w)).
  { intros q r x M1 K1 S1 E1 HN. destruct (spec_build x) as [[a1 d1] l1]. injection HN as <- <- <-.
    by apply (o_build_ok base w ss q r a1 d1 l1). }
  assert (FIXED : forall i ob (s : vst) o' s', ow_objs w !! i = Some (Some ob) -> ob_alloc o' = ob_alloc ob ->
    heap_wf (st_h s) -> Fr (ow_h w) (st_h s) (obown (Some ob)) (obown (Some o')) -> objrep (st_h s) (Some o') s' ->
    let w' := OWorld (<[i := Some o']> (ow_objs w)) (st_h s) (st_drops s) (ow_gone w) (ow_made w) in
    ORep base (ow_objs w') (ow_h w') (<[i := s']> ss) /\ custody w').
  { intros i ob s o' s' Ho EA WF F R w'. split; [by eapply ORep_update|]. unfold custody, w'. cbn [ow_objs ow_gone ow_made].
    by rewrite (in_use_set _ _ _ _ Ho EA). }
  assert (SLICE : forall n, chk = true \/ (Z.of_nat n * sz <= isize_max)%Z -> forall buf : list T, length buf = n -> chk = true \/ w_modest sz (WFrom buf) = true).
  { intros n [H|H] buf <-; [by left|right]. unfold w_modest. cbn. lia. }
  destruct o; cbn [spec_oop o_step makes o_is_move] in *.
  - apply (BUILD WNew _ (AUnit, [], SVec [] 0)); [by right|right; done|done|done|exact HS].
  - apply (BUILD (WFrom buf) _ (with_room fits (length buf) (SVec [] 0) [] (map cl buf) [])); [exact HM|exact HK|cbn; by repeat case_match|done|exact HS].
  - apply (BUILD (WIter hint xs) _ (if (hint =? 0) || fits hint then spec_pushes fits xs (SVec [] hint) else (APanic, xs, SVec [] 0)));
      [by right|exact HK|cbn [spec_wop]; by destruct (spec_build _) as [[??]?]|done|exact HS].
  - destruct HM as [HM|]; [|done]. destruct (ss !! i) as [[[s|]|]|] eqn:Es; try done.
    destruct (GET _ _ Es) as ([k [v|it]] & Ho & R); [|done]. rewrite Ho. cbn [objrep] in R. apply DR in R.
    rewrite (as_slice_ok _ _ _ Hsz (AS k) _ _ _ R).
    apply (BUILD (WFrom (items s)) _ (with_room fits (length (items s)) (SVec [] 0) [] (map cl (items s)) [])); [by left| |cbn; by repeat case_match|done|exact HS].
    eapply SLICE; [|done]. right. pose proof (Rep_len _ _ _ _ _ _ _ R). pose proof (Rep_cap _ _ _ _ _ _ _ R). nia.
  - destruct (ss !! i) as [[[s|]|]|] eqn:Es; try done.
    destruct (GET _ _ Es) as ([k [v|it]] & Ho & R); [|done]. rewrite Ho. cbn [objrep] in R. apply DR in R.
    destruct (spec_call _ cl c s) as [[a1 d1] [xs1 k1]] eqn:Ec. simplify_eq.
    destruct (step_modest (OwnedAlloc T k) sz al chk nd Hsz (AS k) clone cl Hclone c _ (items s) (room s) a1 d xs1 k1 R HM) as (s' & E & P); [by destruct s|exact HK|].
    destruct (Post_Fr _ _ _ _ _ _ _ _ P) as (WF & F & R' & D). rewrite E. eexists. split; [reflexivity|].
    destruct (FIXED i _ s' (Obj k (BVec (st_v s'))) (Some (SV (SVec xs1 k1))) Ho eq_refl WF F R') as (A & B). done.
  - destruct (ss !! i) as [[[s|]|]|] eqn:Es; try done.
    destruct (GET _ _ Es) as ([k [v|it]] & Ho & R); [|done]. rewrite Ho. cbn [objrep] in R. apply DR in R. simplify_eq.
    destruct (IRep_norm _ _ _ _ _ _ _ (IRep_start _ _ _ (AS k) _ _ _ R)) as (R' & EO & EI).
    eexists. split; [reflexivity|]. cbn [ow_objs ow_h ow_gone ow_drops ow_made]. rewrite EI. cbn [st_h st_drops].
    split; [by eapply ORep_move|]. split; [|by rewrite ran_nil, app_nil_r].
    unfold custody in *. cbn [ow_objs ow_gone ow_made]. rewrite <- C, in_use_app, (in_use_take _ _ _ Ho). cbn. by rewrite <- Permutation_cons_append.
  - destruct (ss !! i) as [[[|cap xs]|]|] eqn:Es; try done.
    destruct (GET _ _ Es) as ([k [v|it]] & Ho & R); [done|]. rewrite Ho. cbn [objrep] in R.
    destruct (ispec_call cap c xs) as [a1 xs1] eqn:Ec. simplify_eq.
    apply (IRep_h k it _ _ (ow_h w) (ow_drops w)) in R; [|done].
    destruct (iexec_ok _ _ _ Hsz (AS k) c _ _ _ _ _ _ R Ec) as (s' & E & R1).
    destruct (IRep_norm _ _ _ _ _ _ _ R1) as (R' & EO & EI).
    change (v_at w new_in) with (VState (Vec Null Null Null) tt (ow_h w) (ow_drops w)). rewrite E. eexists. split; [reflexivity|].
    rewrite EI. cbn [ow_objs ow_h ow_gone ow_drops ow_made st_h st_drops]. rewrite ran_nil, app_nil_r.
    destruct (FIXED i _ (VState (Vec Null Null Null) tt (ow_h w) (ow_drops w)) (Obj k (BIter (is_it s'))) (Some (SI cap xs1)) Ho eq_refl) as (A & B); [apply W| |exact R'|done].
    cbn [obown st_h]. rewrite EO. unfold iter_vec. split; [done|]. split; [done|]. intros b H1 H2. done.
  - destruct (ss !! i) as [[[s|cap xs]|]|] eqn:Es; try done.
    + destruct (GET _ _ Es) as ([k [v|it]] & Ho & R); [|done]. rewrite Ho. cbn [objrep] in R. apply DR in R. simplify_eq.
      destruct (clear_ok (OwnedAlloc T k) sz al chk nd Hsz (AS k) _ _ _ R) as (s' & E & P).
      destruct (Post_Fr _ _ _ _ _ _ _ _ P) as (WF & F & R' & D). rewrite E. eexists. split; [reflexivity|].
      split; [|split; [by apply (custody_gone w i (Obj k (BVec v)))|done]]. cbn [ow_objs ow_h o_gone].
      eapply ORep_update; [done|done|done| |done]. cbn [obown].
      assert (EN : own_block (st_v s') = None). { destruct R' as (_ & _ & [(E0 & _)|(b & bk & j & _ & C0 & _)]); [|lia]. cbn in E0. by rewrite E0. }
      by rewrite EN in F.
    + destruct (GET _ _ Es) as ([k [v|it]] & Ho & R); [done|]. rewrite Ho. cbn [objrep] in R. simplify_eq.
      apply (IRep_h k it _ _ (ow_h w) (ow_drops w)) in R; [|done].
      destruct (ii_drop_ok (OwnedAlloc T k) sz al chk nd Hsz (AS k) (VState (iter_vec it) tt (ow_h w) (ow_drops w)) _ _ _ (or_wf _ _ _ _ W) eq_refl R) as (s' & E & F & D).
      change (v_at w new_in) with (VState (Vec Null Null Null) tt (ow_h w) (ow_drops w)).
      pose proof (ii_drop_wf _ (VState (iter_vec it) tt (ow_h w) (ow_drops w)) _ _ _ _ (or_wf _ _ _ _ W) R E) as WF. rewrite E. eexists. split; [reflexivity|].
      split; [|split; [by apply (custody_gone w i (Obj k (BIter it)))|done]]. cbn [ow_objs ow_h o_gone].
      eapply ORep_update; [done|done|done| |done]. cbn [obown].
      assert (EE : forall b, h_blk (st_h (is_st s')) !! b = if decide (own_block (iter_vec it) = Some b) then None else h_blk (ow_h w) !! b).
      { intros b. rewrite F. by rewrite frame_lookup. }
      split; [|split; [done|]]; intros b; rewrite EE; by destruct (decide _).
Qed.

Theorem o_run_refines base os : forall w ss l d ss', ORep base (ow_objs w) (ow_h w) ss -> custody w ->
  nd = false \/ forallb o_is_move os = true -> chk = true \/ forallb (o_fine sz) os = true -> spec_oops fits cl os ss = Some (l, d, ss') ->
  exists w', o_run sz al chk nd clone os w = Some (l, w') /\ ORep base (ow_objs w') (ow_h w') ss' /\ custody w' /\
    ow_drops w' = ow_drops w ++ ran nd d /\ ow_made w' = ow_made w + length (List.filter makes os).
Proof.
  induction os as [|o os IH]; intros w ss l d ss' W C HM HK HS; cbn [spec_oops] in HS.
  - simplify_eq. exists w. cbn. rewrite ran_nil, app_nil_r, Nat.add_0_r. done.
  - destruct (spec_oop fits cl o ss) as [[[a d1] ss1]|] eqn:E1; [|done].
    destruct (spec_oops fits cl os ss1) as [[[l2 d2] ss2]|] eqn:E2; [|done]. simplify_eq.
    cbn [forallb] in HM, HK. rewrite andb_true_iff in HM, HK.
    destruct (o_step_refines base o w ss a d1 ss1 W C) as (w1 & S1 & W1 & C1 & D1 & M1); [tauto|tauto|done|].
    destruct (IH w1 ss1 l2 d2 ss' W1 C1) as (w2 & S2 & W2 & C2 & D2 & M2); [tauto|tauto|done|].
    exists w2. cbn [o_run List.filter]. rewrite S1, S2. split; [done|]. split; [done|]. split; [done|]. split.
    + rewrite D2, D1, <- app_assoc. unfold ran. by destruct nd; rewrite ?app_nil_r.
    + rewrite M2, M1. destruct (makes o); cbn; lia.
Qed.
End proofs.

Lemma L_C112_allocators_are_owned_once :
forall (T : Type) (sz al : Z) (chk nd : bool) (clone : T -> option T) (cl : T -> T) (h : heap T) (os : list (oop T)) l d ss,
  (0 < sz)%Z -> (0 < al)%Z -> (forall x, clone x = Some (cl x)) -> heap_wf h ->
  nd = false \/ forallb o_is_move os = true ->
  chk = true \/ forallb (o_fine sz) os = true ->
  spec_oops (default_fits sz al) cl os [] = Some (l, d, ss) ->
  exists w, o_run sz al chk nd clone os (OWorld [] h [] [] 0) = Some (l, w) /\
    ow_drops w = (if nd then d else []) /\
    ow_made w = length (List.filter makes os) /\
    in_use (ow_objs w) ++ ow_gone w ≡ₚ seq 0 (ow_made w) /\
    (forall b bk, h_blk h !! b = Some bk -> h_blk (ow_h w) !! b = Some bk) /\
    (forall b bk, h_blk (ow_h w) !! b = Some bk -> h_blk h !! b = Some bk \/
       exists k, k ∈ in_use (ow_objs w) /\ from_alloc bk = Z.of_nat k).
Proof.
  intros T sz al chk nd clone cl h os l d ss Hsz Hal Hcl WF HM HK HS.
  destruct (o_run_refines sz al chk nd clone cl Hsz Hal Hcl (h_blk h) os (OWorld [] h [] [] 0) [] l d ss) as (w & E & W & C & D & M).
  { split; try done. } { unfold custody. done. } { done. } { done. } { done. }
  exists w. split; [done|]. split; [exact D|]. split; [exact M|]. split; [exact C|]. split.
  - intros b bk Hb. rewrite (or_base _ _ _ _ _ _ _ _ W); [done|]. intros i o Ho Hob. rewrite (or_fresh _ _ _ _ _ _ _ _ W _ _ _ Ho Hob) in Hb. done.
  - intros b bk Hb. destruct (decide (Exists (fun u => obown u = Some b) (ow_objs w))) as [Ex|Ex].
    + right. apply Exists_exists in Ex as (u & Hu & Eu). apply elem_of_list_lookup in Hu as [i Hi].
      destruct (lookup_lt_is_Some_2 ss i) as [s Hs]; [rewrite (or_len _ _ _ _ _ _ _ _ W); by eapply lookup_lt_Some|].
      destruct (objrep_own _ _ _ _ _ _ _ b (or_rep _ _ _ _ _ _ _ _ W _ _ _ Hi Hs) Eu) as (bk' & k & Eb & Ek & EA & LA).
      assert (bk' = bk) as -> by congruence. exists k. split.
      * destruct u as [o|]; [|done]. cbn in Ek. injection Ek as <-. rewrite (in_use_take _ _ _ Hi). left.
      * unfold from_alloc. rewrite EA, Z.mul_comm, Z.div_add by done. rewrite Z.div_small; [done|]. unfold isize_max, mark in *. lia.
    + left. rewrite <- (or_base _ _ _ _ _ _ _ _ W); [done|]. intros i u Hi Eu. apply Ex, Exists_exists. exists u. split; [|done]. by eapply elem_of_list_lookup_2.
Qed.
