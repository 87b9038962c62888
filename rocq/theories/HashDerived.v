(** Proofs of the properties stated in HashProps.v. *)
From Coq Require Import SpecFloat QArith Qround Qpower.
From Verif Require Import Base Hash.
#[local] Open Scope Z_scope.

(** The values of an integer type of [bits] bits. *)
Definition int_range (signed : bool) (bits : Z) (x : Z) : Prop :=
  if signed then - 2 ^ (bits - 1) <= x < 2 ^ (bits - 1) else 0 <= x < 2 ^ bits.
Definition byte (b : Z) : Prop := 0 <= b < 256.

Lemma lxor_range a b k : 0 <= k -> 0 <= a < 2 ^ k -> 0 <= b < 2 ^ k -> 0 <= Z.lxor a b < 2 ^ k.
Proof.
  intros Hk Ha Hb. split.
  - apply Z.lxor_nonneg. lia.
  - destruct (Z.eq_dec (Z.lxor a b) 0) as [->|N]; [lia|].
    apply Z.log2_lt_pow2; [pose proof (proj2 (Z.lxor_nonneg a b)); lia|].
    eapply Z.le_lt_trans; [apply Z.log2_lxor; lia|].
    assert (L : forall x, 0 <= x < 2 ^ k -> Z.log2 x < Z.max 1 k).
    { intros x Hx. destruct (Z.eq_dec x 0) as [->|]; [cbn; lia|].
      assert (Z.log2 x < k) by (apply Z.log2_lt_pow2; lia). lia. }
    destruct (Z.eq_dec k 0) as [->|].
    { assert (a = 0) by lia. assert (b = 0) by lia. subst. done. }
    pose proof (L a Ha). pose proof (L b Hb). lia.
Qed.

Lemma step_range r c : byte c -> 0 <= fnv1_step r c < u32_lim.
Proof.
  intros Hc. unfold fnv1_step, u32_lim. apply lxor_range; [lia|apply Z.mod_pos_bound; lia|].
  unfold byte in Hc. change (2 ^ 32) with 4294967296. lia.
Qed.

Lemma fold_range bs : forall r, 0 <= r < u32_lim -> Forall byte bs ->
  0 <= fold_left fnv1_step bs r < u32_lim.
Proof.
  induction bs as [|b bs IH]; intros r Hr Hb; [done|]. apply Forall_cons in Hb as [Hb Hbs].
  cbn [fold_left]. apply IH; [by apply step_range|done].
Qed.

Lemma step_inj r r' c : 0 <= r < u32_lim -> 0 <= r' < u32_lim ->
  fnv1_step r c = fnv1_step r' c -> r = r'.
Proof.
  unfold fnv1_step, u32_lim. change (2 ^ 32) with 4294967296. intros Hr Hr' E.
  assert (E1 : (r * 16777619) mod 4294967296 = (r' * 16777619) mod 4294967296).
  { apply (f_equal (fun x => Z.lxor x c)) in E.
    rewrite !Z.lxor_assoc, Z.lxor_nilpotent, !Z.lxor_0_r in E. exact E. }
  apply (f_equal (fun x => (x * 899433627) mod 4294967296)) in E1.
  rewrite !Z.mul_mod_idemp_l in E1 by lia.
  rewrite <- !Z.mul_assoc in E1.
  rewrite (Z.mul_mod r), (Z.mul_mod r') in E1 by lia.
  change ((16777619 * 899433627) mod 4294967296) with 1 in E1.
  rewrite !Z.mul_1_r, !Z.mod_mod in E1 by lia.
  rewrite !Z.mod_small in E1 by lia. done.
Qed.

Lemma fold_inj bs : forall r r', Forall byte bs -> 0 <= r < u32_lim -> 0 <= r' < u32_lim ->
  fold_left fnv1_step bs r = fold_left fnv1_step bs r' -> r = r'.
Proof.
  induction bs as [|b bs IH]; intros r r' Hb Hr Hr' E; [done|].
  apply Forall_cons in Hb as [Hb Hbs]. cbn [fold_left] in E.
  apply (step_inj r r' b); [done|done|].
  apply IH in E; [done|done|by apply step_range|by apply step_range].
Qed.

Lemma L_C22_integer_hash_is_injective :
forall signed bits x y, 0 < bits <= 64 -> int_range signed bits x -> int_range signed bits y ->
  0 <= hash_int x < usize_lim /\ (hash_int x = hash_int y <-> x = y) /\ (0 <= x -> hash_int x = x) /\
  (forall b, hash_bool b = if b then 1 else 0).
Proof.
  intros signed bits x y Hb Hx Hy. unfold hash_int, int_range, usize_lim in *.
  assert (P : 2 ^ bits <= 2 ^ 64) by (apply Z.pow_le_mono_r; lia).
  assert (P1 : 2 ^ (bits - 1) <= 2 ^ 63) by (apply Z.pow_le_mono_r; lia).
  change (2 ^ 64) with 18446744073709551616 in *. change (2 ^ 63) with 9223372036854775808 in *.
  assert (Bx : -9223372036854775808 <= x < 18446744073709551616) by (destruct signed; lia).
  split; [apply Z.mod_pos_bound; lia|]. split; [|split; [|done]].
  - split; [|by intros ->]. intros E.
    assert (D : (x - y) mod 18446744073709551616 = 0) by (rewrite Zminus_mod, E, Z.sub_diag; done).
    apply Z.mod_divide in D; [|lia]. destruct D as [q D].
    assert (-18446744073709551616 < x - y < 18446744073709551616) by (destruct signed; lia).
    assert (q = 0) by lia. lia.
  - intros H0. apply Z.mod_small. lia.
Qed.

Lemma L_C23_fnv1_is_a_32_bit_fold :
forall bs b, Forall byte bs -> byte b ->
  0 <= fnv1 bs < 2 ^ 32 /\ fnv1 [] = 2166136261 /\
  fnv1 (bs ++ [b]) = Z.lxor ((fnv1 bs * 16777619) mod 2 ^ 32) b.
Proof.
  intros bs b Hbs Hb. split; [|split; [done|]].
  - apply (fold_range bs); [|done]. vm_compute. done.
  - unfold fnv1. by rewrite fold_left_app.
Qed.

Lemma L_C77_fnv1_detects_single_byte_changes :
forall s t a b, Forall byte s -> Forall byte t -> byte a -> byte b ->
  (fnv1 (s ++ a :: t) = fnv1 (s ++ b :: t) <-> a = b) /\
  (forall s', Forall byte s' -> fnv1 (s ++ t) = fnv1 (s' ++ t) <-> fnv1 s = fnv1 s').
Proof.
  intros s t a b Hs Ht Ha Hb.
  assert (R : forall u, Forall byte u -> 0 <= fold_left fnv1_step u 2166136261 < u32_lim).
  { intros u Hu. apply fold_range; [vm_compute; done|done]. }
  split.
  - split; [|by intros ->]. unfold fnv1. rewrite !fold_left_app. cbn [fold_left]. intros E.
    apply fold_inj in E; [|done|by apply step_range|by apply step_range].
    unfold fnv1_step in E. set (x := _ mod _) in E.
    apply (f_equal (Z.lxor x)) in E. rewrite <- !Z.lxor_assoc, Z.lxor_nilpotent, !Z.lxor_0_l in E. done.
  - intros s' Hs'. unfold fnv1. rewrite !fold_left_app. split; [|by intros ->].
    intros E. apply fold_inj in E; [done|done|by apply R|by apply R].
Qed.

Lemma L_C24_equal_floats_hash_equally :
forall f g, SFeqb f g = true -> hash_float f = hash_float g /\ 0 <= hash_float f < usize_lim /\
  forall m e, f = S754_finite false m e -> (inject_Z (Zpos m) * Qpower 2 e < inject_Z usize_lim)%Q ->
    (inject_Z (hash_float f) <= inject_Z (Zpos m) * Qpower 2 e)%Q /\
    (inject_Z (Zpos m) * Qpower 2 e < inject_Z (hash_float f + 1))%Q.
Proof.
  intros f g E. split; [|split].
  - unfold SFeqb, SFcompare in E.
    destruct f as [s|s| |s m e], g as [s'|s'| |s' m' e']; try done;
      destruct s; try destruct s'; try done.
    destruct (Z.compare_spec e e') as [He|?|?]; try done. subst.
    change (Pos.compare_cont Eq m m') with (m ?= m')%positive in E.
    destruct (Pos.compare_spec m m') as [Hm|?|?]; try done. by subst.
  - unfold hash_float. assert (1 < usize_lim) by done.
    destruct f as [s|s| |s m e]; try destruct s; try lia.
    split; [|lia]. apply Z.min_glb; [|lia]. apply Z.shiftl_nonneg. lia.
  - intros m e -> HL. cbn [hash_float].
    assert (FL : Z.shiftl (Zpos m) e = Qround.Qfloor (inject_Z (Zpos m) * Qpower 2 e)).
    { destruct (Z.le_gt_cases 0 e) as [He|He].
      - rewrite Z.shiftl_mul_pow2 by done.
        rewrite <- (Qround.Qfloor_Z (Zpos m * 2 ^ e)). apply Qround.Qfloor_comp.
        rewrite inject_Z_mult. apply Qmult_comp; [done|]. rewrite Qpower.Zpower_Qpower by done. done.
      - rewrite Z.shiftl_div_pow2 by lia.
        assert (Hp : 0 < 2 ^ (- e)) by (apply Z.pow_pos_nonneg; lia).
        rewrite (Qround.Zdiv_Qdiv (Zpos m) (2 ^ (- e))). apply Qround.Qfloor_comp. unfold Qdiv. apply Qmult_comp; [done|].
        rewrite Qpower.Zpower_Qpower by lia. rewrite <- Qpower.Qpower_opp. by rewrite Z.opp_involutive. }
    rewrite FL. set (q := (inject_Z _ * _)%Q) in *.
    assert (Qround.Qfloor q < usize_lim).
    { apply Z.nle_gt. intros Hn. apply (Qlt_not_le _ _ HL).
      eapply Qle_trans; [|apply Qround.Qfloor_le]. by rewrite <- Zle_Qle. }
    rewrite Z.min_l by lia. split; [apply Qround.Qfloor_le|apply Qround.Qlt_floor].
Qed.

Lemma L_C24_other_floats_saturate :
forall f,
  match f with
  | S754_infinity false => hash_float f = usize_lim - 1
  | S754_finite false m e =>
      (inject_Z usize_lim <= inject_Z (Zpos m) * Qpower 2 e)%Q -> hash_float f = usize_lim - 1
  | _ => hash_float f = 0
  end.
Proof.
  intros f. destruct f as [s|s| |s m e]; try destruct s; try done.
  intros HL. cbn [hash_float].
  assert (usize_lim <= Z.shiftl (Zpos m) e); [|rewrite Z.min_r; lia].
  assert (FL : Z.shiftl (Zpos m) e = Qround.Qfloor (inject_Z (Zpos m) * Qpower 2 e)).
  { destruct (Z.le_gt_cases 0 e) as [He|He].
    - rewrite Z.shiftl_mul_pow2 by done.
      rewrite <- (Qround.Qfloor_Z (Zpos m * 2 ^ e)). apply Qround.Qfloor_comp.
      rewrite inject_Z_mult. apply Qmult_comp; [done|]. rewrite Qpower.Zpower_Qpower by done. done.
    - rewrite Z.shiftl_div_pow2 by lia.
      assert (Hp : 0 < 2 ^ (- e)) by (apply Z.pow_pos_nonneg; lia).
      rewrite (Qround.Zdiv_Qdiv (Zpos m) (2 ^ (- e))). apply Qround.Qfloor_comp. unfold Qdiv. apply Qmult_comp; [done|].
      rewrite Qpower.Zpower_Qpower by lia. rewrite <- Qpower.Qpower_opp. by rewrite Z.opp_involutive. }
  rewrite FL, <- (Qround.Qfloor_Z usize_lim). by apply Qround.Qfloor_resp_le.
Qed.
