(** Proofs of the properties stated in FloatPolicyProps.v. *)
From Coq Require Import SpecFloat.
From Verif Require Import Base VectorMap RehashPolicy FloatPolicy FloatPolicySpec.
Local Open Scope Z_scope.

From Verif Require Import RehashPolicyProofs FloatPolicyProofs.

Lemma f32_exact n : n <= 2 ^ 24 -> f32 n = n.
Proof. intros H. destruct (decide (n = 2 ^ 24)) as [->|]; [done|]. apply f32_small. lia. Qed.
Lemma f32_exact_double n : n <= 2 ^ 24 -> 2 * f32 n = 2 * n.
Proof. intros H. by rewrite f32_exact. Qed.
Lemma primes_near p : p ∈ PRIMES -> p <= 33712729 -> p - 1 <= f32 p <= p + 1.
Proof.
  intros H. assert (A : forallb (fun p => (33712729 <? p) || ((p - 1 <=? f32 p) && (f32 p <=? p + 1))) PRIMES = true) by by vm_compute.
  rewrite forallb_forall in A. specialize (A p). rewrite <- elem_of_list_In in A. specialize (A H). lia.
Qed.

Lemma L_C96_policy_exact :
forall chk bc ec add next, 0 <= bc <= 2 ^ 24 -> 0 <= ec + add <= 2 ^ 24 ->
  exists a next', policy_rehash_required chk bc ec add (Policy (p_max_load default_policy) (p_growth default_policy) next) =
      Ok a (Policy (p_max_load default_policy) (p_growth default_policy) next') /\
    exact_answer (if bc =? 1 then 0 else bc) (ec + add) next a next'.
Proof.
intros chk bc ec add next Hb Hn. cbn [default_policy p_max_load p_growth]. rewrite policy_rounded by (unfold u32_lim; lia).
set (n := ec + add) in *. unfold get_rehash_required. fold n. unfold bind, gets, modify, id, ret. rewrite u32_ok by (unfold u32_lim; lia).
unfold exact_answer. destruct (Z.ltb_spec next n) as [L|L]; [|exists None, next; split; [done|]; by left].
set (b := if bc =? 1 then 0 else bc). assert (Hb' : 0 <= b <= 2 ^ 24) by (subst b; case_match; lia). clearbody b.
rewrite (f32_exact n) by lia. rewrite (f32_exact b) by lia. destruct (Z.ltb_spec b n) as [G|G].
- assert (AU : as_u32 (Z.max n (2 * b)) = Z.max n (2 * b)) by (unfold as_u32, u32_lim; lia). rewrite AU.
  destruct (least_prime (Z.max n (2 * b))) as (i & c & -> & LP). unfold or_ub, ret, panic. cbn [fst].
  assert (KB : 39460231 ∈ PRIMES) by (apply elem_of_list_In; vm_compute; tauto).
  destruct (PRIMES !! i) as [p|] eqn:LI; [|exfalso; specialize (LP _ KB); lia]. destruct LP as [LP1 LP2].
  assert (IP : p ∈ PRIMES) by (eapply elem_of_list_lookup_2; eauto).
  assert (K2 : 33712729 ∈ PRIMES) by (apply elem_of_list_In; vm_compute; tauto).
  assert (PB : p <= 33712729) by (apply LP2; [done|lia]).
  eexists _, _. split; [done|]. right. right. split; [done|]. split; [done|]. exists p. split; [done|]. split; [by split|].
  assert (NR : p - 1 <= f32 p <= p + 1) by by apply primes_near.
  assert (AP : as_u32 (f32 p) = f32 p) by (unfold as_u32, u32_lim; lia). rewrite AP. split; [|done]. apply f32_exact.
- eexists _, _. split; [done|]. right. left. split; [done|]. split; [done|]. split; [done|]. unfold as_u32, u32_lim. lia.
Qed.

Lemma L_C96_policy_rounded :
forall chk bc ec add next, 0 <= bc < u32_lim ->
  let with_limit := Policy (p_max_load default_policy) (p_growth default_policy) in
  policy_rehash_required chk bc ec add (with_limit next) =
  match get_rehash_required chk bc ec add next with
  | Ok a next' => Ok a (with_limit next')
  | Panic next' => Panic (with_limit next')
  | UB => UB
  end.
Proof.
intros chk bc ec add next Hb. by apply policy_rounded.
Qed.

Lemma L_C96_counts_as_floats :
forall n, 0 <= n < u32_lim -> exists v, stands_for (u32_as_f32 n) v /\ (n <= 2 ^ 24 -> v = n) /\ 2 ^ 24 * Z.abs (v - n) <= n /\ v = f32 n.
Proof.
intros n Hn. exists (f32 n). split; [|split; [apply f32_exact|split; [|done]]].
- destruct (int_of_u32 n Hn) as [[-> ->]|(m & e & -> & B & He & V)]; [done|]. unfold finite. cbn [stands_for cond_Zopp]. rewrite Z2Pos.id by lia. apply int_value; [done|lia|done].
- destruct (decide (n < 2 ^ 24)) as [L|L]; [rewrite f32_small by lia; lia|].
  destruct (f32_big n ltac:(lia)) as (e & q & E0 & Q & Bd & R). assert (0 < 2 ^ e) by lia. set (u := 2 ^ e) in *. clearbody u.
  destruct R as [(-> & R & _)|(-> & R & _)]; nia.
Qed.
