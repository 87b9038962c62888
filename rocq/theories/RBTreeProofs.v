(** Proofs about red-black trees: the packed word, lookup, iteration. *)
From Verif Require Import Base Alloc AddrMem FixedPool FixedPoolSpec FixedPoolProofs LinkedList LinkedListSpec RBTree RBTreeSpec.
Local Open Scope Z_scope.

(** ** The packed word *)
Lemma land1 x : Z.land x 1 = x mod 2.
Proof. change 1 with (Z.ones 1) at 1. rewrite Z.land_ones by lia. done. Qed.
Lemma not1_bits n : 0 <= n -> Z.testbit not1 n = (1 <=? n) && (n <? 64).
Proof.
  intros Hn. change not1 with (Z.shiftl (Z.ones 63) 1). rewrite Z.shiftl_spec by lia.
  destruct (Z.leb_spec 1 n); cbn [andb].
  - destruct (Z.ltb_spec n 64); [apply Z.ones_spec_low; lia|apply Z.ones_spec_high; lia].
  - apply Z.testbit_neg_r. lia.
Qed.
Lemma land_not1 x : 0 <= x < usize_lim -> Z.land x not1 = 2 * (x / 2).
Proof.
  intros Hx. apply Z.bits_inj'. intros n Hn. rewrite Z.land_spec, not1_bits by done.
  destruct (Z.eq_dec n 0) as [-> |N0].
  - rewrite Z.testbit_even_0. apply andb_false_r.
  - replace n with (Z.succ (n - 1)) at 4 by lia. rewrite Z.testbit_even_succ by lia.
    rewrite <- Z.div2_div, Z.div2_spec, Z.shiftr_spec by lia. replace (n - 1 + 1) with n by lia.
    replace (1 <=? n) with true by lia. destruct (Z.ltb_spec n 64); cbn [andb]; [apply andb_true_r|].
    rewrite andb_false_r. symmetry. destruct (Z.eq_dec x 0) as [-> |]; [apply Z.testbit_0_l|].
    apply Z.bits_above_log2; [lia|]. apply Z.log2_lt_pow2; [lia|]. unfold usize_lim in Hx.
    pose proof (Z.pow_le_mono_r 2 64 n). lia.
Qed.
Lemma lor_even e b : 0 <= b <= 1 -> Z.lor (2 * e) b = 2 * e + b.
Proof.
  intros Hb. assert (Z.land (2 * e) b = 0) as E.
  { assert (b = 0 \/ b = 1) as [-> | ->] by lia; [apply Z.land_0_r|]. rewrite land1. rewrite Z.mul_comm. apply Z.mod_mul. lia. }
  rewrite Z.add_nocarry_lxor by done. symmetry. by apply Z.lxor_lor.
Qed.
Lemma color_bit c : 0 <= color_as_usize c <= 1.
Proof. destruct c; cbn; lia. Qed.
Lemma color_from_ok {S} c (s : S) : color_from (color_as_usize c) s = Ok c s.
Proof. by destruct c. Qed.

Lemma pc_ptr_at up c : 0 <= up < usize_lim -> (2 | up) -> pc_ptr (up + color_as_usize c) = up.
Proof.
  intros H [u ->]. pose proof (color_bit c). unfold pc_ptr, usize_lim in *. rewrite land_not1 by (unfold usize_lim; lia).
  rewrite Z.add_comm, Z.div_add by lia. rewrite (Z.div_small (color_as_usize c)) by lia. lia.
Qed.
Lemma pc_color_at {S} up c (s : S) : (2 | up) -> pc_color (up + color_as_usize c) s = Ok c s.
Proof.
  intros [u ->]. unfold pc_color. rewrite land1, Z.add_comm, Z.mod_add by lia. rewrite Z.mod_small by (pose proof (color_bit c); lia).
  apply color_from_ok.
Qed.
Lemma pc_set_color_at raw c : 0 <= raw < usize_lim -> pc_set_color raw c = 2 * (raw / 2) + color_as_usize c.
Proof. intros H. unfold pc_set_color. rewrite land_not1 by done. apply lor_even, color_bit. Qed.
Lemma pc_set_ptr_at raw p : (2 | p) -> pc_set_ptr raw p = p + raw mod 2.
Proof.
  intros [u ->]. unfold pc_set_ptr. rewrite land1, Z.lor_comm, Z.mul_comm. rewrite lor_even; [done|].
  pose proof (Z.mod_pos_bound raw 2). lia.
Qed.
Lemma raw_split raw : 0 <= raw < usize_lim -> exists p c, raw = p + color_as_usize c /\ (2 | p) /\ 0 <= p < usize_lim.
Proof.
  intros H. exists (2 * (raw / 2)), (if decide (raw mod 2 = 0) then Red else Black).
  pose proof (Z.mod_pos_bound raw 2). pose proof (Z.div_mod raw 2). 
  split; [case_decide; cbn; lia|]. split; [apply Z.divide_factor_l|]. lia.
Qed.
Lemma even8 p : (8 | p) -> (2 | p).
Proof. intros [k ->]. exists (k * 4). lia. Qed.

(** ** Shapes *)
Section shapes.
Context {K V : Type}.

Lemma addrs_entries (t : tree K V) : length (addrs t) = length (entries t).
Proof. induction t; cbn; [done|]. rewrite !app_length. cbn. lia. Qed.
Lemma addr_in (t : tree K V) : t <> Leaf -> addr t ∈ addrs t.
Proof. destruct t; [done|]. intros _. cbn. set_solver. Qed.
Lemma addr_0_or (t : tree K V) : (t = Leaf /\ addr t = 0) \/ addr t ∈ addrs t.
Proof. destruct t; [by left|]. right. by apply addr_in. Qed.

Fixpoint height (t : tree K V) : nat :=
  match t with Leaf => O | Bin _ l _ _ _ r => S (Nat.max (height l) (height r)) end.
Lemma height_le (t : tree K V) : (height t <= length (addrs t))%nat.
Proof. induction t; cbn; [done|]. rewrite app_length. cbn. lia. Qed.

Lemma skeleton_addrs (t t' : tree K V) : skeleton t' = skeleton t -> addrs t' = addrs t.
Proof.
  revert t'. induction t as [|c l IHl a k v r IHr]; intros [|c' l' a' k' v' r'] E; cbn in *; try done.
  injection E as -> El -> -> Er. by rewrite (IHl _ El), (IHr _ Er).
Qed.
Lemma skeleton_addr (t t' : tree K V) : skeleton t' = skeleton t -> addr t' = addr t.
Proof. destruct t, t'; cbn; try done. by intros [= -> _ -> _ _]. Qed.
Lemma skeleton_keys (t t' : tree K V) : skeleton t' = skeleton t -> keys t' = keys t.
Proof.
  unfold keys. revert t'. induction t as [|c l IHl a k v r IHr]; intros [|c' l' a' k' v' r'] E; cbn in *; try done.
  injection E as -> El -> -> Er. rewrite !map_app. cbn. by rewrite (IHl _ El), (IHr _ Er).
Qed.

(** The same shape with other values. *)
Lemma refill (t : tree K V) es : map fst es = keys t -> exists t' : tree K V, skeleton t' = skeleton t /\ entries t' = es.
Proof.
  unfold keys. revert es. induction t as [|c l IHl a k v r IHr]; intros es E; cbn in E.
  - destruct es; [|done]. by exists Leaf.
  - rewrite map_app in E. cbn in E. apply map_eq_app in E as (e1 & e2 & -> & E1 & E2).
    destruct e2 as [|[k' v'] e2]; [done|]. injection E2 as -> E2.
    destruct (IHl _ E1) as (l' & L1 & <-). destruct (IHr _ E2) as (r' & R1 & <-).
    exists (Bin c l' a k v' r'). cbn. by rewrite L1, R1.
Qed.

Fixpoint wplaced (nsz : Z) (m : mem (K * V)) (up : Z) (t : tree K V) : Prop :=
  match t with
  | Leaf => True
  | Bin c l a k v r =>
    0 < a < usize_lim /\ (8 | a) /\
    load_word m a = Some (addr r) /\
    load_word m (a + 8) = Some (addr l) /\
    load_word m (a + 16) = Some (up + color_as_usize c) /\
    accessible m a nsz = true /\
    wplaced nsz m a l /\ wplaced nsz m a r
  end.
Definition vals (m : mem (K * V)) (ps : list Z) (es : list (K * V)) : Prop := Forall2 (fun a e => m_val m !! a = Some e) ps es.

Lemma placed_iff nsz m up (t : tree K V) : placed nsz m up t <-> wplaced nsz m up t /\ vals m (addrs t) (entries t).
Proof.
  revert up. induction t as [|c l IHl a k v r IHr]; intros up; cbn [placed wplaced addrs entries].
  - split; [|done]. intros _. split; [done|constructor].
  - rewrite IHl, IHr. unfold load_val, vals. split.
    + intros (H1 & H2 & H3 & H4 & H5 & H6 & (W1 & F1) & (W2 & F2)). destruct (accessible m a nsz) eqn:EA; [|done].
      split; [done|]. apply Forall2_app; [done|]. by constructor.
    + intros ((H1 & H2 & H3 & H4 & H5 & H6 & W1 & W2) & F). rewrite H6.
      apply Forall2_app_inv in F as [F1 F2]; [|apply addrs_entries]. apply Forall2_cons_1 in F2 as [F2 F3]. done.
Qed.
Lemma wplaced_same nsz m m' up (t t' : tree K V) : m_live m' = m_live m -> m_word m' = m_word m -> skeleton t' = skeleton t ->
  wplaced nsz m up t -> wplaced nsz m' up t'.
Proof.
  intros EL EW. assert (LW : forall x, load_word m' x = load_word m x) by (intros x; unfold load_word, word_at, accessible; by rewrite EL, EW).
  revert up t'. induction t as [|c l IHl a k v r IHr]; intros up [|c' l' a' k' v' r'] E H; cbn in *; try done.
  injection E as -> El -> -> Er. destruct H as (H1 & H2 & H3 & H4 & H5 & H6 & W1 & W2). rewrite !LW.
  unfold accessible in *. rewrite EL, (skeleton_addr _ _ El), (skeleton_addr _ _ Er). repeat (split; [done|]). split; [by apply IHl|by apply IHr].
Qed.
Lemma wplaced_node nsz m up (t : tree K V) a : wplaced nsz m up t -> a ∈ addrs t ->
  0 < a < usize_lim /\ (8 | a) /\ is_Some (m_word m !! a) /\ accessible m a nsz = true.
Proof.
  revert up. induction t as [|c l IHl x k v r IHr]; intros up H Ha; cbn in *; [by apply elem_of_nil in Ha|].
  destruct H as (H1 & H2 & H3 & H4 & H5 & H6 & W1 & W2). apply elem_of_app in Ha as [Ha|Ha]; [by eapply IHl|].
  apply elem_of_cons in Ha as [-> |Ha]; [|by eapply IHr]. split; [done|]. split; [done|]. split; [|done].
  unfold load_word in H3. destruct (word_at m x); [|done]. by eexists.
Qed.
Lemma count_words nsz m up (t : tree K V) : wplaced nsz m up t -> NoDup (addrs t) -> (length (addrs t) <= size (m_word m))%nat.
Proof.
  intros W ND. rewrite <- size_dom. rewrite <- (size_list_to_set (C:=gset Z)) by done.
  apply subseteq_size. intros a Ha. apply elem_of_list_to_set in Ha. apply elem_of_dom.
  by destruct (wplaced_node _ _ _ _ _ W Ha) as (_ & _ & ? & _).
Qed.
End shapes.
