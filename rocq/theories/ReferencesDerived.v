(** Proofs of the properties stated in ReferencesProps.v. *)
From Verif Require Import Base Heap HeapLemmas Alloc AllocContract Vector VectorSpec IterSpec References.

From Verif Require Import VectorProofs VectorMore VectorIter VectorFindings VectorDerived.
Local Open Scope nat_scope.

Lemma bind_ext {S B C} (m : M S B) (f g : B -> M S C) s :
  (forall a s', m s = Ok a s' -> f a s' = g a s') -> bind m f s = bind m g s.
Proof. intros H. unfold bind. destruct (m s) as [a s'|s'|] eqn:E; [by apply H|done|done]. Qed.

Section refs.
Context {A T : Type}.
Variable AI : AllocImpl A T.
Variables sz al : Z.
Hypothesis Hsz : (0 < sz)%Z.
Variable AS : AllocSpec AI sz al.

Notation st := (vstate A T).
Notation ist := (istate A T).
Notation Rep := (Rep AI sz al AS).
Notation IRep := (IRep AI sz al AS).

Lemma slice_refs_null R (s : st) : st_v s = Vec Null Null Null -> slice_refs sz R s = Ok tt s.
Proof using. intros E. unfold slice_refs, bind, gets. rewrite E. done. Qed.

Lemma slice_refs_eval R (s : st) b n c : st_v s = Vec (Ptr b 0) (Ptr b n) c ->
  slice_refs sz R s =
    (if refers R (st_h s) (Ptr b 0) && negb (ru_reach R && (1 <? n)) && forallb (fun i => refers R (st_h s) (Ptr b i)) (seq 0 n)
     then Ok tt s else UB).
Proof using Hsz.
  intros E. unfold slice_refs. unfold bind at 1, gets at 1. rewrite E. cbn [v_begin].
  unfold as_ref. cbn [is_null]. unfold bind at 1, bind at 1, gets at 1.
  destruct (refers R (st_h s) (Ptr b 0)); [|done]. unfold ret at 1. cbn [andb].
  unfold bind at 1, len. unfold bind at 1, gets at 1. rewrite E. cbn [v_begin v_end].
  unfold offset_from. destruct (Z.eqb_spec sz 0); [lia|]. rewrite pdiff_ok by lia. rewrite Nat.sub_0_r.
  unfold or_ub, ret at 1. unfold slice_at, bind, gets. cbn [Nat.add].
  destruct (ru_reach R && (1 <? n)); [done|]. cbn [negb andb].
  by destruct (forallb _ _).
Qed.

Lemma refers_in r (h : heap T) b bk i : h_blk h !! b = Some bk -> i < length (bk_cells bk) ->
  refers (Rules false r) h (Ptr b i) = true.
Proof using.
  intros Hb Hi. unfold refers. rewrite (cells_of_some _ _ _ Hb).
  destruct (lookup_lt_is_Some_2 _ _ Hi) as [[x|] ->]; done.
Qed.

Lemma refers_out R (h : heap T) b bk i : h_blk h !! b = Some bk -> length (bk_cells bk) <= i ->
  refers R h (Ptr b i) = false.
Proof using.
  intros Hb Hi. unfold refers. rewrite (cells_of_some _ _ _ Hb). by rewrite lookup_ge_None_2.
Qed.

Lemma refers_some R (h : heap T) b bk i x : h_blk h !! b = Some bk -> bk_cells bk !! i = Some (Some x) ->
  refers R h (Ptr b i) = true.
Proof using. intros Hb Hi. unfold refers. by rewrite (cells_of_some _ _ _ Hb), Hi. Qed.

Lemma slice_refs_basic (s : st) b bk n c : st_v s = Vec (Ptr b 0) (Ptr b n) c ->
  h_blk (st_h s) !! b = Some bk -> 0 < length (bk_cells bk) -> n <= length (bk_cells bk) ->
  slice_refs sz (Rules false false) s = Ok tt s.
Proof using Hsz.
  intros E Hb H0 Hn. rewrite (slice_refs_eval _ _ _ _ _ E).
  rewrite (refers_in _ _ _ _ _ Hb H0). cbn [ru_reach andb negb].
  replace (forallb _ _) with true; [done|]. symmetry. apply forallb_forall. intros i [_ Hi]%in_seq.
  apply (refers_in _ _ _ _ _ Hb). lia.
Qed.

Lemma slice_refs_rep s xs cap : Rep s xs cap -> slice_refs sz (Rules false false) s = Ok tt s.
Proof using Hsz.
  intros (_ & _ & [(E & _)|(b & bk & j & E & C0 & Cl & Cz & Hb & Hc & Hl & _)]).
  - by apply slice_refs_null.
  - apply (slice_refs_basic _ _ _ _ _ E Hb); lia.
Qed.

(** With the rule for initialised elements, and with the rule for the reach. *)
Lemma slice_refs_init s xs cap : Rep s xs cap -> xs <> [] -> slice_refs sz (Rules true false) s = Ok tt s.
Proof using Hsz.
  intros (_ & _ & [(E & -> & _)|(b & bk & j & E & C0 & Cl & Cz & Hb & Hc & Hl & _)]) NE; [done|].
  rewrite (slice_refs_eval _ _ _ _ _ E). cbn [ru_reach andb negb].
  assert (I : forall i, i < length xs -> refers (Rules true false) (st_h s) (Ptr b i) = true).
  { intros i Hi. destruct (lookup_lt_is_Some_2 _ _ Hi) as [x Hx].
    apply (refers_some _ _ _ _ _ x Hb). rewrite Hc. apply lookup_app_l_Some.
    by rewrite list_lookup_fmap, Hx. }
  rewrite I by (destruct xs; [done|cbn; lia]).
  replace (forallb _ _) with true; [done|]. symmetry. apply forallb_forall. intros i [_ Hi]%in_seq.
  apply I. lia.
Qed.

Lemma slice_refs_reach s xs cap : Rep s xs cap ->
  slice_refs sz (Rules false true) s = if 1 <? length xs then UB else Ok tt s.
Proof using Hsz.
  intros (_ & _ & [(E & -> & _)|(b & bk & j & E & C0 & Cl & Cz & Hb & Hc & Hl & _)]).
  - rewrite slice_refs_null; done.
  - rewrite (slice_refs_eval _ _ _ _ _ E). rewrite (refers_in _ _ _ _ _ Hb) by lia. cbn [ru_reach andb].
    destruct (1 <? length xs); [done|]. cbn [negb andb].
    replace (forallb _ _) with true; [done|]. symmetry. apply forallb_forall. intros i [_ Hi]%in_seq.
    apply (refers_in _ _ _ _ _ Hb). lia.
Qed.

Variable chk : bool.

(** The stage that makes room. *)
Lemma room_stage s xs cap n s1 :
  Rep s xs cap -> chk = true \/ (Z.of_nat (n - cap) * sz <= isize_max)%Z ->
  (if cap <? n then
      do c <- capacity sz; do d <- usize chk (Z.of_nat n - Z.of_nat c); reserve AI sz al chk d
    else ret tt) s = Ok tt s1 ->
  Rep s1 xs (Nat.max cap n).
Proof using Hsz.
  intros R K E. destruct ((Nat.max cap n =? cap) || as_fits AS (Nat.max cap n)) eqn:F.
  - assert (HU : (Z.of_nat n < usize_lim)%Z).
    { destruct (Nat.eqb_spec (Nat.max cap n) cap) as [E0|E0]; cbn in F.
      - pose proof (cap_usize AI sz al Hsz AS _ _ _ R). lia.
      - pose proof (fits_usize AI sz al Hsz AS _ F). lia. }
    destruct (reserve_to_ok AI sz al chk false Hsz AS s xs cap n R F HU) as (s' & E' & P).
    rewrite E in E'. injection E' as <-. by destruct P.
  - rewrite (reserve_to_panic AI sz al chk Hsz AS s xs cap n R F K) in E. done.
Qed.

(** After the end has been moved within the capacity. *)
Lemma moved_end s1 xs cap1 e n : Rep s1 xs cap1 -> n <= cap1 ->
  (forall b, st_v s1 = Vec (Ptr b 0) (Ptr b (length xs)) (Ptr b cap1) -> e = Ptr b n) ->
  (st_v s1 = Vec Null Null Null -> e = Null) ->
  let s2 := VState (Vec (v_begin (st_v s1)) e (v_cap (st_v s1))) (st_a s1) (st_h s1) (st_drops s1) in
  slice_refs sz (Rules false false) s2 = Ok tt s2.
Proof using Hsz.
  intros (_ & _ & [(E & -> & ->)|(b & bk & j & E & C0 & Cl & Cz & Hb & Hc & Hl & _)]) Hn He H0.
  - intros s2. apply slice_refs_null. unfold s2. cbn [st_v]. rewrite E, (H0 E). done.
  - intros s2. apply (slice_refs_basic _ b bk n (Ptr b cap1)).
    + unfold s2. cbn [st_v]. rewrite E, (He b E). done.
    + done.
    + lia.
    + lia.
Qed.

Lemma hadd_inv {C} (h : heap C) b o n e : hadd h (Ptr b o) n = Some e -> e = Ptr b (o + n).
Proof using.
  unfold hadd. destruct (cells_of h b); [|done]. destruct (_ <=? _); [|done]. by intros [= <-].
Qed.

Lemma from_heap_inv {B} (f : heap T -> option B) (s : st) e s' :
  from_heap f s = Ok e s' -> s' = s /\ f (st_h s) = Some e.
Proof using. unfold from_heap, bind, gets, or_ub. by destruct (f (st_h s)); intros [= <- <-]. Qed.

Lemma r_append_eq nd clone s xs cap buf : Rep s xs cap ->
  chk = true \/ (Z.of_nat (length buf) * sz <= isize_max)%Z ->
  r_append AI sz al chk nd clone (Rules false false) buf s = append AI sz al chk nd clone buf s.
Proof using Hsz.
  intros R K. pose proof (Rep_len _ _ _ _ _ _ _ R) as HL. pose proof (Rep_cap _ _ _ _ _ _ _ R) as HC.
  unfold r_append, append. apply bind_ext. intros n s' E.
  rewrite (len_ok AI sz al Hsz AS _ _ _ R) in E. injection E as <- <-.
  apply bind_ext. intros n s' E. unfold usize in E.
  destruct ((0 <=? _) && _)%Z eqn:U;
    [|destruct K as [->|K]; [done|exfalso; unfold usize_lim, isize_max in *; nia]].
  injection E as <- <-.
  replace (Z.to_nat (Z.of_nat (length xs) + Z.of_nat (length buf))) with (length xs + length buf) by lia.
  apply bind_ext. intros c s' E. rewrite (capacity_ok AI sz al Hsz AS _ _ _ R) in E. injection E as <- <-.
  apply bind_ext. intros [] s1 E.
  apply (room_stage _ _ _ _ _ R) in E; [|destruct K as [K|K]; [by left|right; nia]].
  apply bind_ext. intros v s' [= <- <-].
  apply bind_ext. intros e s' (-> & He)%from_heap_inv.
  apply bind_ext. intros [] s' [= <-].
  unfold bind at 1. rewrite (moved_end _ _ _ e (length xs + length buf) E); [done|lia| |].
  - intros b Ev. rewrite Ev in He. cbn [v_end] in He. by apply hadd_inv in He.
  - intros Ev. rewrite Ev in He. cbn [v_end] in He. unfold hadd in He.
    destruct (length buf); [by injection He|done].
Qed.

Lemma r_assign_eq nd clone s xs cap buf : Rep s xs cap ->
  chk = true \/ (Z.of_nat (length buf) * sz <= isize_max)%Z ->
  r_assign AI sz al chk nd clone (Rules false false) buf s = assign AI sz al chk nd clone buf s.
Proof using Hsz.
  intros R K. unfold r_assign, assign.
  apply bind_ext. intros c s' E. rewrite (capacity_ok AI sz al Hsz AS _ _ _ R) in E. injection E as <- <-.
  apply bind_ext. intros [] s1 E.
  apply (room_stage _ _ _ _ _ R) in E; [|destruct K as [K|K]; [by left|right; nia]].
  apply bind_ext. intros v s' [= <- <-].
  apply bind_ext. intros e s' (-> & He)%from_heap_inv.
  apply bind_ext. intros [] s' [= <-].
  unfold bind at 1. rewrite (moved_end _ _ _ e (length buf) E); [done|lia| |].
  - intros b Ev. rewrite Ev in He. cbn [v_begin] in He. by apply hadd_inv in He.
  - intros Ev. rewrite Ev in He. cbn [v_begin] in He. unfold hadd in He.
    destruct (length buf); [by injection He|done].
Qed.

Lemma r_exec_eq nd clone c s xs cap : Rep s xs cap -> chk = true \/ modest sz c = true ->
  r_exec AI sz al chk nd clone (Rules false false) c s = exec AI sz al chk nd clone c s.
Proof using Hsz.
  intros R HK. assert (HK' : chk = true \/ (Z.of_nat (named c) * sz <= isize_max)%Z).
  { destruct HK as [HK|HK]; [by left|right]. unfold modest in HK. lia. }
  pose proof (slice_refs_rep _ _ _ R) as SR.
  destruct c; cbn [r_exec exec named] in *; try done; unfold bind at 1; try by rewrite SR.
  - rewrite (r_append_eq nd clone _ _ _ _ R HK'). done.
  - rewrite (r_assign_eq nd clone _ _ _ _ R HK'). done.
Qed.

Lemma r_calls_eq nd clone cl (Hclone : forall x, clone x = Some (cl x)) cs : forall s xs cap,
  Rep s xs cap -> nd = false \/ forallb is_move cs = true -> chk = true \/ forallb (modest sz) cs = true ->
  r_calls AI sz al chk nd clone (Rules false false) cs s = run_calls AI sz al chk nd clone cs s.
Proof using Hsz.
  induction cs as [|c cs IH]; intros s xs cap R Hnd HK; [done|].
  cbn [r_calls run_calls forallb] in *.
  assert (HK1 : chk = true \/ modest sz c = true).
  { destruct HK as [HK|HK]; [by left|right]. by apply andb_prop in HK as [? _]. }
  assert (Hnd1 : nd = false \/ is_move c = true).
  { destruct Hnd as [Hnd|Hnd]; [by left|right]. by apply andb_prop in Hnd as [? _]. }
  assert (ES : r_step AI sz al chk nd clone (Rules false false) c s = step AI sz al chk nd clone c s).
  { unfold r_step, step. by rewrite (r_exec_eq nd clone c s xs cap R HK1). }
  rewrite ES. destruct (spec_call (as_fits AS) cl c (SVec xs cap)) as [[a d] [xs1 cap1]] eqn:E1.
  destruct (step_modest AI sz al chk nd Hsz AS clone cl Hclone c s xs cap a d xs1 cap1 R Hnd1 E1 HK1) as (s1 & -> & R1 & _).
  rewrite (IH s1 xs1 cap1 R1); [done| |].
  - destruct Hnd as [Hnd|Hnd]; [by left|right]. by apply andb_prop in Hnd as [_ ?].
  - destruct HK as [HK|HK]; [by left|right]. by apply andb_prop in HK as [_ ?].
Qed.

(** How far the front has come. *)
Definition front_off (s : ist) : nat := match ii_front (is_it s) with Ptr _ o => o | Null => 0 end.

Lemma on_st_heap {B} (f : heap T -> option B) (s : ist) e s' :
  on_st (from_heap f) s = Ok e s' -> s' = s /\ f (st_h (is_st s)) = Some e.
Proof using.
  unfold on_st. destruct (from_heap f (is_st s)) as [b s1|s1|] eqn:E; [|done|done].
  apply from_heap_inv in E as [-> E]. intros [= <- <-]. by destruct s.
Qed.

Lemma ii_len_off s0 k s xs : IRep s0 k s xs ->
  (is_it s = IntoIter Null Null Null Null /\ xs = [] /\ k = 0) \/
  (exists b bk, is_it s = IntoIter (Ptr b 0) (Ptr b k) (Ptr b (front_off s)) (Ptr b (front_off s + length xs)) /\
     0 < k /\ front_off s + length xs <= k /\ h_blk (st_h (is_st s)) !! b = Some bk /\ k <= length (bk_cells bk) /\
     (as_pool AS (st_a s0) = Some b \/ as_layout AS k bk)).
Proof using.
  intros (ES & [(E & -> & -> & _)|(b & bk & f & _ & E & K0 & Kf & _ & Hb & Hl & _ & HP)]); [by left|right].
  assert (front_off s = f) as -> by (unfold front_off; by rewrite E).
  exists b, bk. rewrite ES. done.
Qed.

Lemma next_off s o s' : ii_next sz s = Ok o s' ->
  front_off s' = front_off s + (match o with Some _ => 1 | None => 0 end).
Proof using.
  unfold ii_next, bind at 1. intros H. destruct (ii_is_empty sz s) as [e s1|s1|] eqn:E; [|done|done].
  assert (s1 = s) as ->.
  { revert E. unfold ii_is_empty, ii_len, bind, gets, on_st, offset_from, or_ub, panic, ub, ret.
    destruct (sz =? 0)%Z; [done|]. destruct (pdiff _ _); [|done]. intros [= _ <-]. by destruct s. }
  clear E. destruct e; [injection H as <- <-; lia|].
  unfold bind at 1, gets at 1 in H. unfold bind at 1 in H.
  destruct (on_st (from_heap (fun h => hload h _)) s) as [x s1|s1|] eqn:E1; [|done|done].
  apply on_st_heap in E1 as [-> E1]. unfold bind at 1 in H.
  destruct (on_st (from_heap (fun h => hadd h _ _)) s) as [f s1|s1|] eqn:E2; [|done|done].
  apply on_st_heap in E2 as [-> E2]. injection H as <- <-.
  unfold front_off. cbn [is_it ii_front]. destruct (ii_front (is_it s)) as [|b off]; [done|].
  by apply hadd_inv in E2 as ->.
Qed.

Lemma iexec_off s0 k s xs c a xs' s' : IRep s0 k s xs -> ispec_call k c xs = (a, xs') ->
  iexec sz c s = Ok a s' ->
  front_off s' = front_off s + (match c, a with INext, IAOpt (Some _) => 1 | _, _ => 0 end).
Proof using Hsz.
  intros R H E. destruct c; cbn [ispec_call] in H; injection H as <- <-; cbn [iexec] in E.
  - unfold bind in E. destruct (ii_next sz s) as [o s1|s1|] eqn:E1; [|done|done].
    injection E as <- <-. apply next_off in E1. done.
  - unfold bind at 1 in E. destruct (ii_next_back sz s) as [o s1|s1|] eqn:E1; [|done|done].
    injection E as E <-. clear E. unfold ii_next_back, bind at 1 in E1.
    rewrite (ii_is_empty_ok AI sz al Hsz AS _ _ _ _ R) in E1.
    destruct (length xs =? 0); [injection E1 as _ <-; lia|].
    unfold bind at 1, gets at 1 in E1. unfold bind at 1 in E1.
    destruct (on_st (from_heap (fun h => hsub h _ _)) s) as [p s2|s2|] eqn:E2; [|done|done].
    apply on_st_heap in E2 as [-> _]. unfold bind at 1, set_it, modify in E1. unfold bind at 1 in E1.
    destruct (on_st _ _) as [x s2|s2|] eqn:E2 in E1; [|done|done].
    apply on_st_heap in E2 as [-> _]. injection E1 as _ <-. unfold front_off. cbn [is_it ii_front]. lia.
  - unfold bind in E. rewrite (ii_len_ok AI sz al Hsz AS _ _ _ _ R) in E. injection E as <-. lia.
  - unfold bind in E. rewrite (ii_is_empty_ok AI sz al Hsz AS _ _ _ _ R) in E. injection E as <-. lia.
  - unfold bind in E. rewrite (ii_as_slice_ok AI sz al Hsz AS _ _ _ _ R) in E. injection E as <-. lia.
  - unfold bind in E. rewrite (ii_capacity_ok AI sz al Hsz AS _ _ _ _ R) in E. injection E as <-. lia.
Qed.

Lemma irun_off ics : forall s0 k s xs la rest s1, IRep s0 k s xs -> ispec_calls k ics xs = (la, rest) ->
  irun sz ics s = Ok la s1 -> front_off s1 = front_off s + length (from_front ics la).
Proof using Hsz.
  induction ics as [|c ics IH]; intros s0 k s xs la rest s1 R H E; cbn [ispec_calls irun] in *.
  - injection H as <- <-. injection E as <-. cbn. lia.
  - destruct (ispec_call k c xs) as [a xs1] eqn:E1.
    destruct (ispec_calls k ics xs1) as [l2 xs2] eqn:E2. injection H as <- <-.
    destruct (iexec_ok AI sz al Hsz AS c s0 k s xs a xs1 R E1) as (s' & Ei & R').
    unfold bind at 1 in E. rewrite Ei in E. unfold bind at 1 in E.
    destruct (irun sz ics s') as [l s2|s2|] eqn:Er; [|done|done]. injection E as -> ->.
    rewrite (IH _ _ _ _ _ _ _ R' E2 Er), (iexec_off _ _ _ _ _ _ _ _ R E1 Ei).
    destruct c; cbn [from_front]; try lia. destruct a as [[x|]| | |]; cbn [length]; lia.
Qed.

Lemma ii_slice_refs_eval s0 k s xs : IRep s0 k s xs ->
  (forall b bk, ii_begin (is_it s) = Ptr b 0 -> h_blk (st_h (is_st s)) !! b = Some bk -> length (bk_cells bk) = k) ->
  ii_slice_refs sz (Rules false false) s =
    (if (0 <? k) && (front_off s =? k) then UB else Ok tt s).
Proof using Hsz.
  intros R HX. pose proof (ii_len_ok AI sz al Hsz AS _ _ _ _ R) as HL.
  destruct (ii_len_off _ _ _ _ R) as [(E & -> & ->)|(b & bk & E & K0 & Kf & Hb & Hl & _)].
  - unfold ii_slice_refs, bind at 1, gets at 1. rewrite E. cbn. by destruct s.
  - rewrite E in HX. cbn [ii_begin] in HX. specialize (HX b bk eq_refl Hb).
    unfold ii_slice_refs. unfold bind at 1, gets at 1. rewrite E. cbn [ii_front].
    unfold bind at 1, on_st at 1, as_ref. cbn [is_null]. unfold bind at 1, gets at 1.
    destruct (Nat.ltb_spec 0 k); [|lia]. cbn [andb].
    destruct (Nat.eqb_spec (front_off s) k) as [Ek|Ek].
    { rewrite (refers_out _ _ _ _ _ Hb) by lia. done. }
    rewrite (refers_in _ _ _ _ _ Hb) by lia. unfold ret at 1.
    replace (IState (is_it s) (is_st s)) with s by (by destruct s).
    unfold bind at 1. rewrite HL. unfold on_st, slice_at, bind, gets. cbn [ru_reach andb].
    replace (forallb _ _) with true; [unfold ret; by destruct s|].
    symmetry. apply forallb_forall. intros i [_ Hi]%in_seq. apply (refers_in _ _ _ _ _ Hb). lia.
Qed.
End refs.

Section default.
Context {T : Type}.
Variables sz al : Z.
Hypothesis Hsz : (0 < sz)%Z.
Hypothesis Hal : (0 < al)%Z.
Notation AS := (DefaultSpec (C := T) sz al Hsz Hal).

(** A consumed vector of the default allocator. *)
Lemma consumed s xs k ics la rest : Rep _ sz al AS s xs k -> ispec_calls k ics xs = (la, rest) ->
  exists s1, irun sz ics (vec_into_iter s) = Ok la s1 /\ VectorIter.IRep _ sz al AS s k s1 rest /\
    ii_slice_refs sz (Rules false false) s1 =
      (if (0 <? k) && (length (from_front ics la) =? k) then UB else Ok tt s1).
Proof using.
  intros R HI. pose proof (IRep_start _ _ _ _ _ _ _ R) as R0.
  destruct (irun_refines (DefaultAllocator T) sz al Hsz AS ics s k _ xs la rest R0 HI) as (s1 & E1 & R1).
  exists s1. split; [done|]. split; [done|].
  rewrite (ii_slice_refs_eval _ _ _ Hsz AS _ _ _ _ R1).
  - rewrite (irun_off _ _ _ Hsz AS _ _ _ _ _ _ _ _ R0 HI E1).
    replace (front_off (vec_into_iter s)) with 0; [done|].
    destruct R as (_ & _ & [(E & _)|(b & bk & j & E & _)]); unfold front_off, vec_into_iter; by rewrite E.
  - intros b bk Eb Hb. destruct (ii_len_off _ _ _ _ _ _ _ _ R1) as [(E & _)|(b' & bk' & E & _ & _ & Hb' & _ & [HP|HP])];
      rewrite E in Eb; [done|done|]. injection Eb as ->. rewrite Hb in Hb'. injection Hb' as <-. by destruct HP as (_ & _ & _ & ?).
Qed.
End default.

Lemma L_C117_vector_references :
forall (T : Type) (sz al : Z) (chk nd : bool) (clone : T -> option T) (cl : T -> T) (h : heap T) (cs : list (call T)),
  (0 < sz)%Z -> (0 < al)%Z -> (forall x, clone x = Some (cl x)) -> heap_wf h ->
  nd = false \/ forallb is_move cs = true ->
  chk = true \/ forallb (modest sz) cs = true ->
  exists l s,
    r_calls (DefaultAllocator T) sz al chk nd clone (Rules false false) cs (VState new_in tt h []) = Some (l, s) /\
    run_calls (DefaultAllocator T) sz al chk nd clone cs (VState new_in tt h []) = Some (l, s).
Proof.
  intros T sz al chk nd clone cl h cs Hsz Hal Hcl Hh M K.
  destruct (spec_calls (default_fits sz al) cl cs (SVec [] 0)) as [[l d] [xs cap]] eqn:S.
  destruct (run_from_new sz al Hsz Hal chk nd clone cl Hcl h Hh cs l d xs cap M S K) as (s & E & _).
  exists l, s. split; [|done]. rewrite <- E.
  apply (r_calls_eq _ sz al Hsz (DefaultSpec sz al Hsz Hal) chk nd clone cl Hcl cs _ [] 0); [|done|done].
  by apply Rep_new.
Qed.

Lemma L_C117_into_iter_references_partial :
forall (T : Type) (sz al : Z) (chk nd : bool) (clone : T -> option T) (cl : T -> T) (h : heap T)
  (cs : list (call T)) l s xs k (ics : list icall) la rest,
  (0 < sz)%Z -> (0 < al)%Z -> (forall x, clone x = Some (cl x)) -> heap_wf h ->
  nd = false \/ forallb is_move cs = true ->
  chk = true \/ forallb (modest sz) cs = true ->
  run_calls (DefaultAllocator T) sz al chk nd clone cs (VState new_in tt h []) = Some (l, s) ->
  as_slice sz s = Ok xs s -> capacity sz s = Ok k s ->
  ispec_calls k ics xs = (la, rest) ->
  exists s1, irun sz ics (vec_into_iter s) = Ok la s1 /\
    (0 < k /\ length (from_front ics la) = k ->
       r_ii_as_slice sz (Rules false false) s1 = UB /\
       r_ii_drop (DefaultAllocator T) sz al chk nd (Rules false false) s1 = UB) /\
    (~ (0 < k /\ length (from_front ics la) = k) ->
       r_ii_as_slice sz (Rules false false) s1 = Ok rest s1 /\
       exists s2, r_ii_drop (DefaultAllocator T) sz al chk nd (Rules false false) s1 = Ok tt s2 /\
         ii_drop (DefaultAllocator T) sz al chk nd s1 = Ok tt s2).
Proof.
  intros T sz al chk nd clone cl h cs l s xs k ics la rest Hsz Hal Hcl Hh M K E EX EC HI.
  destruct (reached sz al Hsz Hal chk nd clone cl Hcl h Hh cs l s K M E) as (d & xs' & cap & S & R & F & D).
  erewrite as_slice_ok in EX by done. erewrite capacity_ok in EC by done. simplify_eq.
  destruct (consumed sz al Hsz Hal s xs k ics la rest R HI) as (s1 & E1 & R1 & SR).
  exists s1. split; [done|]. unfold r_ii_as_slice, r_ii_drop. split.
  - intros [K0 Kf]. rewrite Kf, Nat.eqb_refl in SR. destruct (Nat.ltb_spec 0 k); [|lia]. cbn [andb] in SR.
    unfold bind, gets. rewrite SR. split; [done|].
    destruct (ii_len_off _ _ _ _ _ _ _ _ R1) as [(_ & _ & ->)|(b & bk & -> & _)]; [lia|].
    cbn [ii_begin is_null]. by rewrite SR.
  - intros NE. replace ((0 <? k) && (length (from_front ics la) =? k)) with false in SR by lia.
    unfold bind at 1. rewrite SR. split; [by eapply ii_as_slice_ok|].
    destruct (ii_drop_ok (DefaultAllocator T) sz al chk nd Hsz (DefaultSpec sz al Hsz Hal) s k s1 rest) as (s2 & E2 & _).
    { by destruct R. } { done. } { done. }
    exists s2. split; [|done]. unfold bind at 1, gets at 1.
    destruct (is_null (ii_begin (is_it s1))) eqn:Nu.
    + rewrite <- E2. unfold ii_drop, bind at 1, gets at 1. by rewrite Nu.
    + unfold bind at 1. by rewrite SR.
Qed.

Lemma L_C117_into_iter_refuted :
forall (T : Type) (sz al : Z) (chk nd : bool) (clone : T -> option T) (cl : T -> T) (h : heap T)
  (cs : list (call T)) l s xs,
  (0 < sz)%Z -> (0 < al)%Z -> (forall x, clone x = Some (cl x)) -> heap_wf h ->
  nd = false \/ forallb is_move cs = true ->
  chk = true \/ forallb (modest sz) cs = true ->
  run_calls (DefaultAllocator T) sz al chk nd clone cs (VState new_in tt h []) = Some (l, s) ->
  as_slice sz s = Ok xs s -> capacity sz s = Ok (length xs) s -> xs <> [] ->
  exists s1, irun sz (repeat INext (length xs) ++ [INext]) (vec_into_iter s) =
      Ok (map (fun x => IAOpt (Some x)) xs ++ [IAOpt None]) s1 /\
    r_ii_drop (DefaultAllocator T) sz al chk nd (Rules false false) s1 = UB /\
    ii_drop (DefaultAllocator T) sz al chk nd s1 <> UB.
Proof.
  intros T sz al chk nd clone cl h cs l s xs Hsz Hal Hcl Hh M K E EX EC NE.
  destruct (reached sz al Hsz Hal chk nd clone cl Hcl h Hh cs l s K M E) as (d & xs' & cap & S & R & F & D).
  erewrite as_slice_ok in EX by done. erewrite capacity_ok in EC by done. simplify_eq.
  set (la := map (fun x : T => IAOpt (Some x)) xs ++ [IAOpt None]).
  assert (HI : forall k, ispec_calls k (repeat INext (length xs) ++ [INext]) xs = (la, [])).
  { intros k. unfold la. clear. induction xs as [|x xs IH]; [done|]. cbn. by rewrite IH. }
  assert (HF : from_front (repeat INext (length xs) ++ [INext]) la = xs).
  { unfold la. clear. induction xs as [|x xs IH]; [done|]. cbn. by rewrite IH. }
  destruct (consumed sz al Hsz Hal s xs (length xs) _ la [] R (HI _)) as (s1 & E1 & R1 & SR).
  exists s1. split; [done|]. rewrite HF, Nat.eqb_refl in SR.
  assert (0 < length xs) by (destruct xs; [done|cbn; lia]).
  destruct (Nat.ltb_spec 0 (length xs)); [|lia]. cbn [andb] in SR. split.
  - unfold r_ii_drop, bind, gets. destruct (ii_len_off _ _ _ _ _ _ _ _ R1) as [(_ & _ & ?)|(b & bk & -> & _)]; [lia|].
    cbn [ii_begin is_null]. by rewrite SR.
  - destruct (ii_drop_ok (DefaultAllocator T) sz al chk nd Hsz (DefaultSpec sz al Hsz Hal) s (length xs) s1 []) as (s2 & E2 & _).
    { by destruct R. } { done. } { done. } by rewrite E2.
Qed.

Lemma L_C118_nonempty_slices_partial :
forall (T : Type) (sz al : Z) (chk nd : bool) (clone : T -> option T) (cl : T -> T) (h : heap T)
  (cs : list (call T)) l s xs k,
  (0 < sz)%Z -> (0 < al)%Z -> (forall x, clone x = Some (cl x)) -> heap_wf h ->
  nd = false \/ forallb is_move cs = true ->
  chk = true \/ forallb (modest sz) cs = true ->
  run_calls (DefaultAllocator T) sz al chk nd clone cs (VState new_in tt h []) = Some (l, s) ->
  as_slice sz s = Ok xs s -> capacity sz s = Ok k s -> xs <> [] \/ k = 0 ->
  r_calls (DefaultAllocator T) sz al chk nd clone (Rules true false) [CAsSlice] s = Some ([ASlice xs], s).
Proof.
  intros T sz al chk nd clone cl h cs l s xs k Hsz Hal Hcl Hh M K E EX EC NE.
  destruct (reached sz al Hsz Hal chk nd clone cl Hcl h Hh cs l s K M E) as (d & xs' & cap & S & R & F & D).
  pose proof EX as EX'. pose proof EC as EC'.
  erewrite as_slice_ok in EX by done. erewrite capacity_ok in EC by done. simplify_eq.
  assert (SR : slice_refs sz (Rules true false) s = Ok tt s).
  { destruct NE as [NE| ->]; [by eapply (slice_refs_init _ _ _ Hsz)|].
    apply slice_refs_null. destruct R as (_ & _ & [(Ev & _)|(b & bk & j & _ & ? & _)]); [done|lia]. }
  cbn [r_calls]. unfold r_step, r_exec, exec. unfold bind at 1. rewrite SR. unfold bind at 1. by rewrite EX'.
Qed.

Lemma L_C118_empty_slice_refuted :
forall (T : Type) (sz al : Z) (chk nd : bool) (clone : T -> option T) (h : heap T) (n : nat),
  (0 < sz)%Z -> (0 < al)%Z -> heap_wf h -> 0 < n -> (Z.of_nat n * sz <= isize_max + 1 - al)%Z ->
  r_calls (DefaultAllocator T) sz al chk nd clone (Rules true false) [CReserve n; CAsSlice] (VState new_in tt h []) = None /\
  r_calls (DefaultAllocator T) sz al chk nd clone (Rules true false) [CReserve n; CClear] (VState new_in tt h []) = None /\
  exists s, run_calls (DefaultAllocator T) sz al chk nd clone [CReserve n; CAsSlice] (VState new_in tt h []) = Some ([AUnit; ASlice []], s).
Proof.
  intros T sz al chk nd clone h n Hsz Hal Hh Hn HF.
  destruct (reserve_new (DefaultAllocator T) sz al chk Hsz (DefaultSpec sz al Hsz Hal) tt h [] n Hh Hn) as (bk & ER & Hl & Ht & _).
  { cbn. unfold default_fits. lia. }
  set (s1 := VState (Vec (Ptr (h_next h) 0) (Ptr (h_next h) 0) (Ptr (h_next h) n)) tt (halloc h bk) ([] : list T)) in *.
  assert (SR : slice_refs sz (Rules true false) s1 = UB).
  { rewrite (slice_refs_eval sz Hsz _ s1 (h_next h) 0 _ eq_refl).
    replace (refers _ _ _) with false; [done|]. unfold refers. unfold s1. cbn [st_h].
    rewrite (cells_of_some _ _ bk) by (cbn; by rewrite lookup_insert).
    destruct n as [|n]; [lia|]. destruct (bk_cells bk) as [|c cs0]; [done|]. cbn in Ht. by injection Ht as -> _. }
  assert (E1 : r_step (DefaultAllocator T) sz al chk nd clone (Rules true false) (CReserve n) (VState new_in tt h []) = Some (AUnit, s1)).
  { unfold r_step, r_exec, exec, bind. by rewrite ER. }
  cbn [r_calls]. rewrite E1. split; [|split].
  - unfold r_step, r_exec, bind. by rewrite SR.
  - unfold r_step, r_exec, bind. by rewrite SR.
  - exists s1. cbn [run_calls]. unfold step, exec, bind. rewrite ER. unfold ret at 1.
    destruct (reserve_ok (DefaultAllocator T) sz al chk false Hsz (DefaultSpec sz al Hsz Hal) (VState new_in tt h []) [] 0 n) as (s' & E' & P).
    { by apply Rep_new. } { done. } { cbn. unfold default_fits. lia. }
    rewrite ER in E'. injection E' as <-. destruct P as (R & _). fold s1 in R.
    by rewrite (as_slice_ok _ _ _ Hsz _ _ _ _ R).
Qed.

Lemma L_C118_append_refuted :
forall (T : Type) (sz al : Z) (chk nd : bool) (clone : T -> option T) (h : heap T) (buf : list T),
  (0 < sz)%Z -> (0 < al)%Z -> heap_wf h -> buf <> [] -> (Z.of_nat (length buf) * sz <= isize_max + 1 - al)%Z ->
  r_calls (DefaultAllocator T) sz al chk nd clone (Rules true false) [CAppend buf] (VState new_in tt h []) = None /\
  r_calls (DefaultAllocator T) sz al chk nd clone (Rules true false) [CAssign buf] (VState new_in tt h []) = None.
Proof.
  intros T sz al chk nd clone h buf Hsz Hal Hh NE HF.
  set (n := length buf) in *. assert (0 < n) by (unfold n; destruct buf; [done|cbn; lia]).
  destruct (reserve_new (DefaultAllocator T) sz al chk Hsz (DefaultSpec sz al Hsz Hal) tt h [] n Hh ltac:(done)) as (bk & ER & Hl & Ht & _).
  { cbn. unfold default_fits. lia. }
  set (s2 := VState (Vec (Ptr (h_next h) 0) (Ptr (h_next h) n) (Ptr (h_next h) n)) tt (halloc h bk) ([] : list T)).
  assert (SR : slice_refs sz (Rules true false) s2 = UB).
  { rewrite (slice_refs_eval sz Hsz _ s2 (h_next h) n _ eq_refl).
    replace (refers _ _ (Ptr (h_next h) 0)) with false; [done|]. unfold refers. unfold s2. cbn [st_h].
    rewrite (cells_of_some _ _ bk) by (cbn; by rewrite lookup_insert).
    destruct n as [|n']; [lia|]. destruct (bk_cells bk) as [|c cs0]; [done|]. cbn in Ht. by injection Ht as -> _. }
  assert (CAP : capacity sz (VState new_in tt h ([] : list T)) = Ok 0 (VState new_in tt h [])).
  { unfold capacity, offset_from, bind, gets. destruct (Z.eqb_spec sz 0); [lia|]. done. }
  assert (RS : (if 0 <? n then
      do c <- capacity sz; do d <- usize chk (Z.of_nat n - Z.of_nat c); reserve (DefaultAllocator T) sz al chk d
    else ret tt) (VState new_in tt h []) = Ok tt (VState (Vec (Ptr (h_next h) 0) (Ptr (h_next h) 0) (Ptr (h_next h) n)) tt (halloc h bk) [])).
  { destruct (Nat.ltb_spec 0 n); [|lia]. unfold bind at 1. rewrite CAP. unfold bind at 1.
    rewrite (usize_ok' chk _ n) by (unfold usize_lim, isize_max in *; nia). unfold ret at 1. exact ER. }
  assert (HA : forall i, i <= n -> hadd (halloc h bk) (Ptr (h_next h) 0) i = Some (Ptr (h_next h) i)).
  { intros i Hi. rewrite (hadd_ok _ _ _ _ bk); [done|cbn; by rewrite lookup_insert|lia]. }
  cbn [r_calls]. split; unfold r_step, r_exec; unfold bind at 1.
  - unfold r_append. unfold bind at 1. unfold len at 1. unfold bind at 1, gets at 1, offset_from at 1.
    destruct (Z.eqb_spec sz 0); [lia|]. cbn [st_v new_in v_end v_begin pdiff]. unfold or_ub at 1, ret at 1.
    fold n. unfold bind at 1. rewrite (usize_ok' chk _ n) by (unfold usize_lim, isize_max in *; nia). unfold ret at 1.
    unfold bind at 1. change (Vec Null Null Null) with new_in. rewrite CAP. unfold bind at 1. rewrite RS.
    unfold bind at 1, gets at 1. cbn [st_v v_end v_begin v_cap]. unfold bind at 1, from_heap at 1, bind at 1, gets at 1. cbn [st_h].
    rewrite HA by lia. unfold or_ub at 1, ret at 1. unfold bind at 1, set_v at 1, modify at 1. cbn [st_a st_h st_drops].
    unfold bind at 1. fold s2. by rewrite SR.
  - unfold r_assign. fold n. unfold bind at 1. rewrite CAP. unfold bind at 1. rewrite RS.
    unfold bind at 1, gets at 1. cbn [st_v v_end v_begin v_cap]. unfold bind at 1, from_heap at 1, bind at 1, gets at 1. cbn [st_h].
    rewrite HA by lia. unfold or_ub at 1, ret at 1. unfold bind at 1, set_v at 1, modify at 1. cbn [st_a st_h st_drops].
    unfold bind at 1. fold s2. by rewrite SR.
Qed.

Lemma L_C119_slice_reach_partial :
forall (T : Type) (sz al : Z) (chk nd : bool) (clone : T -> option T) (cl : T -> T) (h : heap T)
  (cs : list (call T)) l s xs,
  (0 < sz)%Z -> (0 < al)%Z -> (forall x, clone x = Some (cl x)) -> heap_wf h ->
  nd = false \/ forallb is_move cs = true ->
  chk = true \/ forallb (modest sz) cs = true ->
  run_calls (DefaultAllocator T) sz al chk nd clone cs (VState new_in tt h []) = Some (l, s) ->
  as_slice sz s = Ok xs s ->
  (length xs <= 1 ->
    r_calls (DefaultAllocator T) sz al chk nd clone (Rules false true) [CAsSlice] s = Some ([ASlice xs], s)) /\
  (2 <= length xs ->
    r_calls (DefaultAllocator T) sz al chk nd clone (Rules false true) [CAsSlice] s = None).
Proof.
  intros T sz al chk nd clone cl h cs l s xs Hsz Hal Hcl Hh M K E EX.
  destruct (reached sz al Hsz Hal chk nd clone cl Hcl h Hh cs l s K M E) as (d & xs' & cap & S & R & F & D).
  pose proof EX as EX'. erewrite as_slice_ok in EX by done. simplify_eq.
  pose proof (slice_refs_reach _ _ _ Hsz _ _ _ _ R) as SR.
  cbn [r_calls]. unfold r_step, r_exec, exec. unfold bind at 1 3. rewrite SR. split; intros HL.
  - destruct (Nat.ltb_spec 1 (length xs)); [lia|]. unfold bind at 1. by rewrite EX'.
  - destruct (Nat.ltb_spec 1 (length xs)); [|lia]. done.
Qed.
