(** Proofs of the properties stated in FixedSwapProps.v. *)
From Verif Require Import Base Heap HeapLemmas Alloc AllocContract Vector VectorSpec.
From Verif Require Import FixedVector FixedVectorSpec FixedSwap.

From Verif Require Import VectorProofs VectorMore FixedVectorProofs FixedVectorDerived.

Lemma L_C107_swap_exchanges :
  forall (T : Type) (sz al : Z) (N : nat) (chk nd : bool) clone (cl : T -> T) (h : heap T) (os : list (fop T)) l w i j f g xs c o ys d p,
  (0 < sz)%Z -> (0 < al)%Z -> 0 < N -> (Z.of_nat N * sz <= isize_max)%Z ->
  (forall x, clone x = Some (cl x)) -> heap_wf h ->
  nd = false \/ forallb f_is_move os = true -> chk = true \/ forallb (f_modest sz) os = true ->
  f_run sz al N chk nd clone os (FWorld [] h []) = Some (l, w) ->
  i <> j -> fw_objs w !! i = Some f -> f_moved f = false -> fw_objs w !! j = Some g -> f_moved g = false ->
  shows sz N w f xs c o -> shows sz N w g ys d p ->
  exists w' f' g', x_step sz al N chk nd clone (XSwap i j) w = Some (AUnit, w') /\
    fw_h w' = fw_h w /\ fw_drops w' = fw_drops w /\
    fw_objs w' !! i = Some f' /\ fw_objs w' !! j = Some g' /\
    (forall k, k <> i -> k <> j -> fw_objs w' !! k = fw_objs w !! k) /\
    as_slice sz (f_state w' f') = Ok ys (f_state w' f') /\ capacity sz (f_state w' f') = Ok d (f_state w' f') /\
    as_slice sz (f_state w' g') = Ok xs (f_state w' g') /\ capacity sz (f_state w' g') = Ok c (f_state w' g') /\
    (o = false -> has_overflowed N g' = Some true) /\ (p = false -> has_overflowed N f' = Some true).
Proof.
  intros T sz al N chk nd clone cl h os l w i j f g xs c o ys d p Hsz Hal HN HNs Hcl Hh Hnd HK ER Nij Hf Mf Hg Mg (F1 & F2 & F3) (G1 & G2 & G3).
  pose proof (FWRep_start sz al Hsz Hal N h Hh) as W0.
  destruct (f_run_reached sz al Hsz Hal N HN HNs chk nd clone cl Hcl _ os _ _ _ _ W0 Hnd HK ER) as (dd & ss & HS & W & _).
  destruct (live_spec sz al Hsz Hal N HN _ _ _ _ _ W Hf Mf) as (sf & Hsf & _ & _).
  destruct (live_spec sz al Hsz Hal N HN _ _ _ _ _ W Hg Mg) as (sg & Hsg & _ & _).
  assert (NB : f_buf f <> f_buf g).
  { intros E. apply (fw_disj _ _ _ _ _ _ _ _ W i j f g sf sg Nij Hf Hg Hsf Hsg (f_buf f)); [by left|left; done]. }
  pose proof (lookup_lt_Some _ _ _ Hf) as Li. pose proof (lookup_lt_Some _ _ _ Hg) as Lj.
  assert (IN : forall (f g : fixed), f_buf f <> f_buf g -> has_overflowed N f = Some false -> has_overflowed N (with_base g f) = Some true).
  { clear -HN. intros f g NB. unfold has_overflowed. destruct (Nat.eqb_spec N 0); [lia|]. intros [= E].
    apply negb_false_iff, bool_decide_eq_true in E. cbn [with_base f_vec f_buf]. rewrite E. rewrite bool_decide_false; [done|]. congruence. }
  eexists _, (with_base f g), (with_base g f). cbn [x_step]. rewrite Hf, Hg, Mf, Mg. split; [reflexivity|].
  cbn [fw_h fw_drops fw_objs]. split; [done|]. split; [done|].
  split; [rewrite list_lookup_insert_ne by done; by rewrite list_lookup_insert|].
  split; [rewrite list_lookup_insert by (by rewrite insert_length); done|].
  split; [intros k K1 K2; by rewrite !list_lookup_insert_ne by done|].
  split; [exact G1|]. split; [exact G2|]. split; [exact F1|]. split; [exact F2|].
  split; intros ->; apply IN; done.
Qed.

Lemma L_C107_swap_refuted :
  forall (T : Type) (sz al : Z) (N : nat) (chk nd : bool) clone (cl : T -> T) (x : T),
  (0 < sz)%Z -> (0 < al)%Z -> 0 < N -> (Z.of_nat N * sz <= isize_max)%Z ->
  (forall x, clone x = Some (cl x)) ->
  exists l w f, x_run sz al N chk nd clone
      [XOp FNew; XOp FNew; XOp (FCall 0 (CPush x)); XOp (FOverflowed 0); XOp (FOverflowed 1); XSwap 0 1; XDrop 0]
      (FWorld [] (Heap 0 ∅) []) = Some (l, w) /\
    l = [AUnit; AUnit; AUnit; ABool false; ABool false; AUnit; AUnit] /\
    fw_objs w !! 1 = Some f /\ f_moved f = false /\ len sz (f_state w f) = Ok 1 (f_state w f) /\
    exec (FixedAlloc T) sz al chk nd clone CPop (f_state w f) = UB /\
    as_slice sz (f_state w f) = UB.
Proof.
  intros T sz al N chk nd clone cl x Hsz Hal HN HNs Hcl.
  assert (HS : spec_fops (default_fits sz al) cl N [FNew; FNew; FCall 0 (CPush x); FOverflowed 0; FOverflowed 1] []
    = Some ([AUnit; AUnit; AUnit; ABool false; ABool false], [], [Some (SFixed (SVec [x] N) false); Some (SFixed (SVec [] N) false)])).
  { destruct N as [|n]; [lia|]. cbn -[default_fits]. unfold with_room. cbn -[default_fits]. rewrite Nat.eqb_refl. cbn -[default_fits].
    rewrite Nat.eqb_refl. done. }
  assert (MD : forallb (f_modest sz) [FNew; FNew; FCall 0 (CPush x); FOverflowed 0; FOverflowed 1] = true).
  { assert (M1 : modest sz (CPush x) = true) by (unfold modest; apply Z.leb_le; cbn [named]; nia).
    cbn [forallb f_modest]. by rewrite !M1. }
  assert (Hh : heap_wf (Heap 0 (∅ : gmap nat (block T)))) by (intros b [? Hb]; cbn in Hb; by rewrite lookup_empty in Hb).
  pose proof (FWRep_start sz al Hsz Hal N _ Hh) as W0.
  destruct ((fun H => f_run_refines sz al Hsz Hal N HN HNs chk nd clone cl Hcl _ _ _ _ _ _ _ W0 H (or_intror MD) HS) ltac:(by right)) as (w & E & W & _).
  assert (EX : forall os w0 l w1, f_run sz al N chk nd clone os w0 = Some (l, w1) -> forall os2,
    x_run sz al N chk nd clone (map XOp os ++ os2) w0 = match x_run sz al N chk nd clone os2 w1 with Some (l2, w2) => Some (l ++ l2, w2) | None => None end).
  { clear. induction os as [|o os IH]; intros w0 l w1 E os2; cbn [f_run map app x_run x_step] in *.
    - simplify_eq. cbn [app]. by destruct (x_run _ _ _ _ _ _ os2 w1) as [[? ?]|].
    - destruct (f_step _ _ _ _ _ _ o w0) as [[a w']|]; [|done]. destruct (f_run _ _ _ _ _ _ os w') as [[l' w'']|] eqn:E2; [|done].
      simplify_eq. rewrite (IH _ _ _ E2). by destruct (x_run _ _ _ _ _ _ os2 w1) as [[? ?]|]. }
  specialize (EX _ _ _ _ E [XSwap 0 1; XDrop 0]). cbn [map app] in EX. rewrite EX. clear EX.
  destruct (shows_ok sz al Hsz Hal N HN _ _ _ 0 _ W eq_refl) as (f & Hf & Mf & _ & Rf).
  destruct (shows_ok sz al Hsz Hal N HN _ _ _ 1 _ W eq_refl) as (g & Hg & Mg & _ & Rg).
  assert (NB : f_buf f <> f_buf g).
  { intros E2. apply (fw_disj _ _ _ _ _ _ _ _ W 0 1 f g _ _ ltac:(done) Hf Hg eq_refl eq_refl (f_buf f)); [by left|left; done]. }
  assert (EO : fw_objs w = [f; g]).
  { pose proof (fw_len _ _ _ _ _ _ _ _ W) as L. destruct (fw_objs w) as [|f0 [|g0 [|]]]; try done. cbn in Hf, Hg. congruence. }
  destruct (step_modest (FixedAlloc T) sz al chk nd Hsz (FixedSpec sz al Hsz Hal) clone cl Hcl CClear (f_state w g) [] N AUnit [] [] 0
    (fr_rep _ _ _ _ _ _ _ _ _ Rg) ltac:(by right) eq_refl (or_intror eq_refl)) as (s' & Es & HP).
  unfold step, exec in Es. unfold bind in Es.
  destruct (clear (FixedAlloc T) sz al chk nd (f_state w g)) as [[] s1|s1|] eqn:EC; [|done|done].
  unfold ret in Es. injection Es as <-.
  cbn [x_run x_step]. rewrite EO. cbn [lookup list_lookup]. rewrite Mf, Mg. cbn [fw_objs fw_h fw_drops].
  change (<[1:=with_base g f]> (<[0:=with_base f g]> [f; g])) with [with_base f g; with_base g f]. cbn [lookup list_lookup].
  cbn [with_base f_moved]. rewrite Mf. fold (with_base f g) (with_base g f).
  change (f_state {| fw_objs := [with_base f g; with_base g f]; fw_h := fw_h w; fw_drops := fw_drops w |} (with_base f g)) with (f_state w g).
  rewrite EC. eexists _, _, (with_base g f). split; [reflexivity|]. split; [done|]. split; [done|]. split; [done|].
  destruct (fr_in _ _ _ _ _ _ _ _ _ Rf eq_refl) as (BF & _ & _).
  pose proof (fr_rep _ _ _ _ _ _ _ _ _ Rf) as (_ & _ & [(_ & ? & _)|(b & bk & j & EV & _)]); [done|].
  cbn [st_v] in EV. assert (b = f_buf f) as -> by (rewrite EV in BF; cbn in BF; by simplify_eq).
  cbn [sf_vec items length] in EV.
  set (w' := FWorld _ _ _). assert (DEAD : h_blk (fw_h w') !! f_buf f = None) by (cbn; apply lookup_delete).
  assert (SV : st_v (f_state w' (with_base g f)) = Vec (Ptr (f_buf f) 0) (Ptr (f_buf f) 1) (Ptr (f_buf f) N)) by exact EV.
  assert (SH : st_h (f_state w' (with_base g f)) = fw_h w') by done.
  set (s2 := f_state w' (with_base g f)) in *. clearbody s2.
  assert (LEN : len sz s2 = Ok 1 s2).
  { unfold len, bind, gets, offset_from. rewrite SV. cbn [v_end v_begin]. destruct (Z.eqb_spec sz 0); [lia|]. rewrite pdiff_ok by lia. done. }
  split; [exact LEN|]. split.
  - cbn [exec]. unfold bind at 1, pop. unfold bind at 1, is_empty. unfold bind at 1. rewrite LEN. cbn [Nat.eqb]. unfold ret at 1.
    unfold bind at 1, decrement_size. unfold bind at 1, gets at 1. unfold bind at 1, from_heap. unfold bind at 1, gets at 1.
    rewrite SV, SH. cbn [v_end]. unfold hsub, cells_of. rewrite DEAD. done.
  - unfold as_slice. unfold bind at 1, gets at 1. rewrite SV. cbn [v_begin is_null]. unfold bind at 1. rewrite LEN.
    unfold from_heap. unfold bind, gets. rewrite SH. unfold hslice, hraw, cells_of. rewrite DEAD. done.
Qed.
