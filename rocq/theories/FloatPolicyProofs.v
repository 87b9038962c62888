From Coq Require Import SpecFloat.
From Verif Require Import Base VectorMap RehashPolicy RehashPolicyProofs FloatPolicy FloatPolicySpec.
Local Open Scope Z_scope.

Lemma digits_log2 p : Zdigits2 (Zpos p) = Z.log2 (Zpos p) + 1.
Proof.
  cbn [Zdigits2]. induction p as [p IH|p IH|]; cbn [digits2_pos]; [| |done].
  - rewrite Pos2Z.inj_succ, IH. rewrite (Pos2Z.inj_xI p), Z.log2_succ_double by lia. lia.
  - rewrite Pos2Z.inj_succ, IH. rewrite (Pos2Z.inj_xO p), Z.log2_double by lia. lia.
Qed.
Lemma digits_range m d : 0 < d -> 2 ^ (d - 1) <= m < 2 ^ d -> Zdigits2 m = d.
Proof.
  intros Hd B. assert (0 < m) by (pose proof (Z.pow_pos_nonneg 2 (d - 1)); lia). destruct m as [|p|]; try lia. rewrite digits_log2.
  rewrite (Z.log2_unique (Zpos p) (d - 1)); [lia|lia|]. replace (Z.succ (d - 1)) with d by lia. lia.
Qed.

Lemma nat_iter_add {A} (f : A -> A) n m x : Nat.iter (n + m) f x = Nat.iter n f (Nat.iter m f x).
Proof. induction n as [|n IH]; cbn [Nat.iter Nat.add nat_rect]; [done|]. by f_equal. Qed.
(** Shifting right keeps the quotient, the bit just lost, and whether any other was. *)
Lemma iter_pos_nat {A} (f : A -> A) p x : SpecFloat.iter_pos f p x = Nat.iter (Pos.to_nat p) f x.
Proof.
  revert x. induction p as [p IH|p IH|]; intros x; cbn [SpecFloat.iter_pos].
  - rewrite !IH, <- nat_iter_add, Pos2Nat.inj_xI. replace (S (2 * Pos.to_nat p))%nat with (Pos.to_nat p + Pos.to_nat p + 1)%nat by lia.
    by rewrite (nat_iter_add _ (Pos.to_nat p + Pos.to_nat p) 1).
  - rewrite !IH, <- nat_iter_add, Pos2Nat.inj_xO. f_equal. lia.
  - done.
Qed.
Definition shifted (m : Z) (n : nat) : shr_record :=
  let u := 2 ^ Z.of_nat n in let x := m mod u in
  Build_shr_record (m / u) (u <=? 2 * x) (negb (2 * x =? 0) && negb (2 * x =? u)).
Lemma shift_once m r s : 0 <= m -> shr_1 (Build_shr_record m r s) = Build_shr_record (m / 2) (Z.odd m) (r || s).
Proof.
  intros H. rewrite <- Z.div2_div. destruct m as [|p|]; [done| |lia]. by destruct p.
Qed.
Lemma shift_many m n : 0 <= m -> Nat.iter n shr_1 (Build_shr_record m false false) = shifted m n.
Proof.
  intros Hm. induction n as [|n IH]; [|change (Nat.iter (S n) shr_1 {| shr_m := m; shr_r := false; shr_s := false |}) with (shr_1 (Nat.iter n shr_1 {| shr_m := m; shr_r := false; shr_s := false |}))].
  - unfold shifted. cbn [Z.of_nat]. change (2 ^ 0) with 1. rewrite Z.mod_1_r, Z.div_1_r. done.
  - rewrite IH. unfold shifted. rewrite Nat2Z.inj_succ, Z.pow_succ_r by lia. set (u := 2 ^ Z.of_nat n). assert (Hu : 0 < u) by (subst u; lia).
    rewrite shift_once by (apply Z.div_pos; lia).
    rewrite Zdiv_Zdiv by lia. pose proof (Z.div_mod m u ltac:(lia)) as D. pose proof (Z.mod_pos_bound m u Hu) as X.
    set (q := m / u) in *. set (x := m mod u) in *.
    assert (E : m mod (2 * u) = x + Z.b2z (Z.odd q) * u).
    { symmetry. apply (Z.mod_unique m (2 * u) (q / 2)).
      - left. destruct (Z.odd q); cbn; lia.
      - pose proof (Z.div_mod q 2 ltac:(lia)) as D2. rewrite Zmod_odd in D2. rewrite D. set (q2 := q / 2) in *. clearbody q q2 x u. clear -D2. destruct (Z.odd q); cbn; subst q; lia. }
    rewrite E. rewrite (Z.mul_comm u 2). f_equal.
    + destruct (Z.odd q); cbn; lia.
    + destruct (Z.odd q); cbn; lia.
Qed.

(** Rounding. *)
Definition rounded (m : Z) (n : nat) : Z :=
  let u := 2 ^ Z.of_nat n in let q := m / u in let x := m mod u in
  if (u <? 2 * x) || ((2 * x =? u) && Z.odd q) then q + 1 else q.
Lemma round_shifted m n : round_nearest_even (shr_m (shifted m n)) (loc_of_shr_record (shifted m n)) = rounded m n.
Proof.
  unfold shifted, rounded. cbv zeta. set (u := 2 ^ Z.of_nat n). assert (Hu : 0 < u) by (subst u; lia). set (q := m / u). pose proof (Z.mod_pos_bound m u Hu) as X.
  set (x := m mod u) in *. cbn [shr_m loc_of_shr_record].
  destruct (u <=? 2 * x) eqn:R, (2 * x =? 0) eqn:Z0, (2 * x =? u) eqn:T, (u <? 2 * x) eqn:G; cbn; try lia; rewrite <- Z.negb_odd; by destruct (Z.odd q).
Qed.

Lemma shr_nat m e n : 0 <= m -> 0 <= n -> shr (Build_shr_record m false false) e n = (shifted m (Z.to_nat n), e + n).
Proof.
  intros Hm Hn. destruct n as [|p|]; [| |lia]; cbn [shr].
  - change (Z.to_nat 0) with 0%nat. rewrite <- (shift_many m 0) by done. cbn. by rewrite Z.add_0_r.
  - rewrite iter_pos_nat, shift_many by done. done.
Qed.

Definition finite (m e : Z) : spec_float := S754_finite false (Z.to_pos m) e.
Lemma round_aux m e k : 0 <= k -> 2 ^ (23 + k) <= m < 2 ^ (24 + k) -> -149 <= e + k < 104 ->
  binary_round_aux 24 128 false m e loc_Exact =
  if rounded m (Z.to_nat k) =? 2 ^ 24 then finite (2 ^ 23) (e + k + 1) else finite (rounded m (Z.to_nat k)) (e + k).
Proof.
  intros Hk B He. unfold binary_round_aux. unfold shr_fexp at 1. cbn [shr_record_of_loc].
  assert (Hm : 0 < m) by (pose proof (Z.pow_pos_nonneg 2 (23 + k)); lia).
  rewrite (digits_range m (24 + k)) by (replace (24 + k - 1) with (23 + k) by lia; lia).
  assert (FE : fexp 24 128 (24 + k + e) - e = k) by (unfold fexp, emin; lia). rewrite FE. rewrite shr_nat by lia. rewrite round_shifted.
  assert (Q : 2 ^ 23 <= rounded m (Z.to_nat k) <= 2 ^ 24).
  { unfold rounded. cbv zeta. rewrite Z2Nat.id by lia. rewrite !Z.pow_add_r in B by lia. assert (0 < 2 ^ k) by lia. set (u := 2 ^ k) in *.
    assert (2 ^ 23 <= m / u) by (apply Z.div_le_lower_bound; lia). assert (m / u < 2 ^ 24) by (apply Z.div_lt_upper_bound; lia). case_match; lia. }
  set (q := rounded m (Z.to_nat k)) in *. clearbody q. unfold shr_fexp. cbn [shr_record_of_loc].
  destruct (q =? 2 ^ 24) eqn:T.
  - apply Z.eqb_eq in T. subst q. rewrite (digits_range (2 ^ 24) 25) by lia.
    replace (fexp 24 128 (25 + (e + k)) - (e + k)) with 1 by (unfold fexp, emin; lia). cbn [shr SpecFloat.iter_pos]. change (shr_1 {| shr_m := 2 ^ 24; shr_r := false; shr_s := false |}) with (Build_shr_record (2 ^ 23) false false).
    cbn [shr_m]. change (2 ^ 23) with (Zpos 8388608). cbn match. replace (Zle_bool (e + k + 1) (128 - 24)) with true by (symmetry; apply Zle_imp_le_bool; lia). done.
  - rewrite (digits_range q 24) by (cbn; lia). replace (fexp 24 128 (24 + (e + k)) - (e + k)) with 0 by (unfold fexp, emin; lia). cbn [shr shr_m].
    destruct q as [|p|]; try lia. replace (Zle_bool (e + k) (128 - 24)) with true by (symmetry; apply Zle_imp_le_bool; lia). done.
Qed.
Lemma round_exact m e k : 0 <= k -> 2 ^ 23 <= m < 2 ^ 24 -> -149 <= e < 104 ->
  binary_round_aux 24 128 false (m * 2 ^ k) (e - k) loc_Exact = finite m e.
Proof.
  intros Hk B He. assert (0 < 2 ^ k) by lia. rewrite (round_aux _ _ k) by (rewrite ?Z.pow_add_r by lia; try nia; lia).
  assert (R : rounded (m * 2 ^ k) (Z.to_nat k) = m).
  { unfold rounded. cbv zeta. rewrite Z2Nat.id by lia. rewrite Z.mod_mul, Z.div_mul by lia. case_match; lia. }
  rewrite R. destruct (m =? 2 ^ 24) eqn:E; [lia|]. f_equal. lia.
Qed.

(** ** The floats of the policy are integers below 2^34 *)
Definition int_float (v : Z) (f : spec_float) : Prop :=
  (v = 0 /\ f = S754_zero false) \/
  (exists m e, f = finite m e /\ 2 ^ 23 <= m < 2 ^ 24 /\ -23 <= e <= 10 /\ v * 2 ^ 23 = m * 2 ^ (e + 23)).

Lemma pow_shift e : -23 <= e -> 0 <= e -> 2 ^ (e + 23) = 2 ^ e * 2 ^ 23.
Proof. intros. rewrite Z.pow_add_r by lia. done. Qed.

Ltac goal_if := match goal with |- context [if ?b then _ else _] => destruct b eqn:? end.
Lemma int_of_u32 n : 0 <= n < u32_lim -> int_float (f32 n) (u32_as_f32 n).
Proof.
  intros Hn. unfold u32_as_f32. destruct (decide (n = 0)) as [->|N0]; [by left|]. right. destruct n as [|p|]; try lia. cbn [binary_normalize]. unfold binary_round.
  set (d := Z.log2 (Zpos p)). assert (Hd : 0 <= d < 32).
  { subst d. split; [apply Z.log2_nonneg|]. apply Z.log2_lt_pow2; [lia|]. unfold u32_lim in Hn. lia. }
  pose proof (Z.log2_spec (Zpos p) ltac:(lia)) as LS. fold d in LS. rewrite Z.pow_succ_r in LS by lia.
  pose proof (digits_log2 p) as DG. cbn [Zdigits2] in DG. rewrite DG. fold d.
  replace (fexp 24 128 (d + 1 + 0)) with (d - 23) by (unfold fexp, emin; lia). unfold shl_align. rewrite Z.sub_0_r.
  destruct (decide (d < 23)) as [L|L].
  - destruct (d - 23) as [|q|q] eqn:Eq; try lia. cbn match. rewrite shift_pos_correct, Z.pow_pos_fold. replace (Zpos q) with (23 - d) by lia. rewrite (Z.mul_comm _ (Zpos p)). rewrite <- Eq. unfold f32. fold d. cbv zeta. rewrite (proj2 (Z.leb_le (d - 23) 0)) by lia.
    assert (P : 2 ^ 23 = 2 ^ d * 2 ^ (23 - d)) by (rewrite <- Z.pow_add_r by lia; f_equal; lia).
    assert (B : 2 ^ 23 <= Zpos p * 2 ^ (23 - d) < 2 ^ 24).
    { change (2 ^ 24) with (2 * 2 ^ 23). rewrite P. assert (0 < 2 ^ (23 - d)) by lia. set (u := 2 ^ (23 - d)) in *. clearbody u. nia. }
    pose proof (round_exact (Zpos p * 2 ^ (23 - d)) (d - 23) 0 ltac:(lia) B ltac:(lia)) as R. rewrite Z.pow_0_r, Z.mul_1_r, Z.sub_0_r in R.
    rewrite R. eexists _, _. split; [done|]. split; [done|]. split; [lia|]. replace (d - 23 + 23) with d by lia. rewrite P. lia.
  - assert (AL : match d - 23 with Zneg dd => (shift_pos dd p, d - 23) | _ => (p, 0) end = (p, 0)) by (destruct (d - 23) eqn:?; try done; lia).
    rewrite AL. rewrite (round_aux _ _ (d - 23)); [|lia| |lia].
    2:{ replace (23 + (d - 23)) with d by lia. replace (24 + (d - 23)) with (Z.succ d) by lia. rewrite Z.pow_succ_r by lia. lia. }
    assert (RD : f32 (Zpos p) = rounded (Zpos p) (Z.to_nat (d - 23)) * 2 ^ (d - 23)).
    { unfold rounded, f32. fold d. cbv zeta. rewrite Z2Nat.id by lia. destruct (d - 23 <=? 0) eqn:E0; [|by goal_if].
      replace (d - 23) with 0 by lia. change (2 ^ 0) with 1. rewrite Z.mod_1_r, Z.div_1_r. goal_if; lia. }
    rewrite RD. clear RD.
    assert (Q : 2 ^ 23 <= rounded (Zpos p) (Z.to_nat (d - 23)) <= 2 ^ 24).
    { unfold rounded. cbv zeta. rewrite Z2Nat.id by lia. assert (P : 2 ^ d = 2 ^ 23 * 2 ^ (d - 23)) by (rewrite <- Z.pow_add_r by lia; f_equal; lia).
      assert (0 < 2 ^ (d - 23)) by lia. set (u := 2 ^ (d - 23)) in *. clearbody u.
      assert (2 ^ 23 <= Zpos p / u) by (apply Z.div_le_lower_bound; lia). assert (Zpos p / u < 2 ^ 24) by (apply Z.div_lt_upper_bound; lia). goal_if; lia. }
    set (q := rounded (Zpos p) (Z.to_nat (d - 23))) in *. clearbody q. destruct (q =? 2 ^ 24) eqn:T.
    + apply Z.eqb_eq in T. subst q. eexists _, _. split; [done|]. split; [lia|]. split; [lia|]. replace (0 + (d - 23) + 1 + 23) with (24 + (d - 23)) by lia. rewrite (Z.pow_add_r 2 24) by lia. lia.
    + eexists _, _. split; [done|]. split; [lia|]. split; [lia|]. rewrite pow_shift by lia. rewrite Z.add_0_l. lia.
Qed.

Lemma int_div_one v f : int_float v f -> SFdiv 24 128 f (u32_as_f32 1) = f.
Proof.
  change (u32_as_f32 1) with (S754_finite false 8388608 (-23)). intros [[-> ->]|(m & e & -> & B & He & V)]; [done|]. unfold finite. cbn [SFdiv xorb].
  unfold SFdiv_core_binary. rewrite (digits_range (Zpos (Z.to_pos m)) 24) by (rewrite ?Z2Pos.id by lia; cbn; lia). change (Zdigits2 8388608) with 24.
  replace (Z.min (fexp 24 128 (24 + e - (24 + -23))) (e - -23)) with (e - 1) by (unfold fexp, emin; lia).
  replace (e - -23 - (e - 1)) with 24 by lia. cbv zeta. cbn match. rewrite Z.shiftl_mul_pow2 by lia. rewrite Z2Pos.id by lia.
  pose proof (Z_div_mod (m * 2 ^ 24) 8388608 ltac:(lia)) as D. destruct (Z.div_eucl (m * 2 ^ 24) 8388608) as [q r]. destruct D as [D R].
  assert (r = 0 /\ q = m * 2 ^ 1) as [-> ->] by lia. change (new_location 8388608 0) with loc_Exact.
  apply (round_exact m e 1); lia.
Qed.
Lemma int_mul_one v f : int_float v f -> SFmul 24 128 f (u32_as_f32 1) = f.
Proof.
  change (u32_as_f32 1) with (S754_finite false 8388608 (-23)). intros [[-> ->]|(m & e & -> & B & He & V)]; [done|]. unfold finite at 1. cbn [SFmul xorb].
  rewrite Pos2Z.inj_mul, Z2Pos.id by lia. apply (round_exact m e 23); lia.
Qed.
Lemma int_mul_two v f : v <= u32_lim -> int_float v f -> int_float (2 * v) (SFmul 24 128 (u32_as_f32 2) f).
Proof.
  change (u32_as_f32 2) with (S754_finite false 8388608 (-22)). intros HV [[-> ->]|(m & e & -> & B & He & V)]; [by left|]. right. unfold finite at 1. cbn [SFmul xorb].
  rewrite Pos2Z.inj_mul, Z2Pos.id by lia. rewrite (Z.mul_comm 8388608).
  assert (e <= 9). { destruct (decide (e = 10)) as [->|]; [|lia]. unfold u32_lim in HV. cbn in V. lia. }
  pose proof (round_exact m (e + 1) 23 ltac:(lia) B ltac:(lia)) as R. replace (-22 + e) with (e + 1 - 23) by lia. change 8388608 with (2 ^ 23) at 1. rewrite R.
  eexists _, _. split; [done|]. split; [done|]. split; [lia|]. replace (e + 1 + 23) with (Z.succ (e + 23)) by lia. rewrite Z.pow_succ_r by lia. lia.
Qed.

Lemma int_compare v w f g : int_float v f -> int_float w g -> SFcompare f g = Some (v ?= w).
Proof.
  intros [[-> ->]|(m & e & -> & B & He & V)] [[-> ->]|(m' & e' & -> & B' & He' & V')]; cbn [SFcompare finite]; [done| | |].
  - assert (0 < w). { assert (0 < 2 ^ (e' + 23)) by lia. nia. } f_equal. symmetry. by apply Z.compare_lt_iff.
  - assert (0 < v). { assert (0 < 2 ^ (e + 23)) by lia. nia. } f_equal. symmetry. by apply Z.compare_gt_iff.
  - unfold finite. f_equal. symmetry.
    assert (LT : forall v w m m' e e', -23 <= e -> 2 ^ 23 <= m < 2 ^ 24 -> 2 ^ 23 <= m' < 2 ^ 24 -> v * 2 ^ 23 = m * 2 ^ (e + 23) -> w * 2 ^ 23 = m' * 2 ^ (e' + 23) -> e < e' -> v < w).
    { clear. intros v w m m' e e' He B B' V V' L. replace (e' + 23) with ((e + 23) + 1 + (e' - e - 1)) in V' by lia.
      rewrite (Z.pow_add_r 2 (e + 23 + 1)), (Z.pow_add_r 2 (e + 23)) in V' by lia. change (2 ^ 1) with 2 in V'. assert (0 < 2 ^ (e + 23)) by lia. assert (0 < 2 ^ (e' - e - 1)) by lia.
      set (a := 2 ^ (e + 23)) in *. set (b := 2 ^ (e' - e - 1)) in *. clearbody a b. assert (a <= a * b) by nia. assert (m * a < m' * (a * 2 * b)) by nia. lia. }
    destruct (Z.compare_spec e e') as [<-|L|L].
    + assert (0 < 2 ^ (e + 23)) by lia. change (Pos.compare_cont Eq (Z.to_pos m) (Z.to_pos m')) with (Zpos (Z.to_pos m) ?= Zpos (Z.to_pos m')). rewrite !Z2Pos.id by lia.
      set (a := 2 ^ (e + 23)) in *. clearbody a. destruct (Z.compare_spec m m') as [<-|L|L].
      * apply Z.compare_eq_iff. lia.
      * apply Z.compare_lt_iff. nia.
      * apply Z.compare_gt_iff. nia.
    + apply Z.compare_lt_iff. apply (LT v w m m' e e'); done || lia.
    + apply Z.compare_gt_iff. apply (LT w v m' m e' e); done || lia.
Qed.
Lemma int_less v w f g : int_float v f -> int_float w g -> SFltb f g = (v <? w).
Proof. intros F G. unfold SFltb. rewrite (int_compare v w f g F G). unfold Z.ltb. by destruct (v ?= w). Qed.
Lemma int_max v w f g : int_float v f -> int_float w g -> int_float (Z.max v w) (f32_max f g).
Proof.
  intros F G. unfold f32_max. rewrite (int_compare v w f g F G). destruct (Z.compare_spec v w) as [->|L|L].
  - by rewrite Z.max_id.
  - by rewrite Z.max_r by lia.
  - by rewrite Z.max_l by lia.
Qed.
Lemma int_value v m e : 2 ^ 23 <= m < 2 ^ 24 -> -23 <= e -> v * 2 ^ 23 = m * 2 ^ (e + 23) -> if 0 <=? e then v = m * 2 ^ e else v * 2 ^ (- e) = m.
Proof.
  intros B He V. destruct (Z.leb_spec 0 e) as [P|P].
  - rewrite pow_shift in V by lia. lia.
  - assert (2 ^ 23 = 2 ^ (e + 23) * 2 ^ (- e)) as E by (rewrite <- Z.pow_add_r by lia; f_equal; lia). rewrite E in V. assert (0 < 2 ^ (e + 23)) by lia. nia.
Qed.
Lemma int_as_u32 v f : int_float v f -> f32_as_u32 f = as_u32 v.
Proof.
  unfold as_u32. intros [[-> ->]|(m & e & -> & B & He & V)]; [done|]. unfold finite. cbn [f32_as_u32]. rewrite Z2Pos.id by lia. f_equal.
  pose proof (int_value v m e B ltac:(lia) V) as E. destruct (Z.leb_spec 0 e) as [P|P].
  - by rewrite Z.shiftl_mul_pow2 by lia.
  - rewrite Z.shiftl_div_pow2 by lia. rewrite <- E. apply Z.div_mul. lia.
Qed.
Lemma int_unique v f g : int_float v f -> int_float v g -> f = g.
Proof.
  intros F G. pose proof (int_compare v v f g F G) as C. rewrite Z.compare_refl in C.
  destruct F as [[-> ->]|(m & e & -> & B & He & V)], G as [[W ->]|(m' & e' & -> & B' & He' & V')]; try done.
  unfold finite in *. cbn [SFcompare] in C. destruct (Z.compare_spec e e') as [<-|L|L]; [|done|done].
  f_equal. injection C as C. by apply Pos.compare_eq in C.
Qed.
Lemma int_f32 v f : v < u32_lim -> int_float v f -> f32 v = v.
Proof.
  intros VL [[-> ->]|(m & e & -> & B & He & V)]; [done|]. pose proof (int_value v m e B ltac:(lia) V) as E. destruct (Z.leb_spec 0 e) as [P|P].
  - unfold f32. assert (0 < 2 ^ e) by lia. assert (Z.log2 v = 23 + e) as ->.
    { apply Z.log2_unique; [lia|]. rewrite E. replace (Z.succ (23 + e)) with (24 + e) by lia. rewrite !Z.pow_add_r by lia. nia. }
    replace (23 + e - 23) with e by lia. case_match; [done|]. subst v. rewrite Z.mod_mul, Z.div_mul by lia. case_match; lia.
  - apply f32_small. assert (1 <= 2 ^ (- e)) by lia. nia.
Qed.
Lemma int_ceil v f : int_float v f -> f32_ceil f = f.
Proof.
  intros F. destruct F as [[-> ->]|(m & e & -> & B & He & V)]; [done|]. unfold finite. cbn [f32_ceil cond_Zopp].
  pose proof (int_value v m e B ltac:(lia) V) as E. destruct (Z.leb_spec 0 e) as [P|P]; [done|]. rewrite Z2Pos.id by lia.
  assert (0 < 2 ^ (- e)) by lia. replace (- m) with (- v * 2 ^ (- e)) by lia. rewrite Z.div_mul, Z.opp_involutive by lia.
  assert (0 < v < 2 ^ 24) by nia. change (u32_as_f32 v = finite m e). eapply int_unique.
  - pose proof (int_of_u32 v) as I. rewrite f32_small in I by lia. apply I. unfold u32_lim. lia.
  - right. eauto 10.
Qed.

(** The policy on floats is the policy on integers. *)
Lemma policy_rounded chk bc ec add nr : 0 <= bc < u32_lim ->
  policy_rehash_required chk bc ec add (Policy (u32_as_f32 1) (u32_as_f32 2) nr) =
  match get_rehash_required chk bc ec add nr with
  | Ok a nr' => Ok a (Policy (u32_as_f32 1) (u32_as_f32 2) nr')
  | Panic nr' => Panic (Policy (u32_as_f32 1) (u32_as_f32 2) nr')
  | UB => UB
  end.
Proof.
  intros Hb. unfold policy_rehash_required, get_rehash_required.
  assert (U : (exists n, 0 <= n < u32_lim /\ (forall S (s : S), u32 chk (ec + add) s = Ok n s)) \/ (forall S (s : S), u32 chk (ec + add) s = Panic s)).
  { unfold u32. destruct ((0 <=? ec + add) && (ec + add <? u32_lim)) eqn:E; [left; exists (ec + add); split; [lia|done]|].
    destruct chk; [by right|]. left. eexists. split; [|done]. apply Z.mod_pos_bound. done. }
  destruct U as [(n & Hn & U)|U]; [|by unfold bind at 1; rewrite U; unfold bind at 1; rewrite U].
  unfold bind, gets, modify, id, ret. rewrite !U. cbn [p_next_resize p_max_load p_growth]. destruct (nr <? n); [|done]. rewrite U.
  set (b := if bc =? 1 then 0 else bc). assert (Hb' : 0 <= b < u32_lim) by (subst b; case_match; unfold u32_lim in *; lia). clearbody b.
  pose proof (int_of_u32 n Hn) as IN. pose proof (int_of_u32 b Hb') as IB. rewrite (int_div_one _ _ IN). rewrite (int_less _ _ _ _ IB IN).
  destruct (f32 b <? f32 n).
  - assert (F2 : int_float (Z.max (f32 n) (2 * f32 b)) (f32_max (u32_as_f32 n) (SFmul 24 128 (u32_as_f32 2) (u32_as_f32 b)))).
    { apply int_max; [done|]. apply int_mul_two; [|done]. pose proof (f32_mono b u32_lim ltac:(lia)) as FM. by change (f32 u32_lim) with u32_lim in FM. }
    rewrite (int_as_u32 _ _ F2). destruct (lower_bound_by _ PRIMES) as [r|]; [|done]. unfold or_ub, ret, panic. destruct (PRIMES !! r.1) as [np|] eqn:LP; [|done].
    assert (Hp : 0 <= np < u32_lim).
    { apply elem_of_list_lookup_2 in LP. assert (A : forallb (fun p => (0 <=? p) && (p <? u32_lim)) PRIMES = true) by by vm_compute.
      rewrite forallb_forall in A. specialize (A np). rewrite <- elem_of_list_In in A. specialize (A LP). lia. }
    pose proof (int_of_u32 np Hp) as IP. rewrite (int_mul_one _ _ IP), (int_ceil _ _ IP), (int_as_u32 _ _ IP). done.
  - rewrite (int_mul_one _ _ IB), (int_ceil _ _ IB), (int_as_u32 _ _ IB). done.
Qed.
