(** Property theorems.  Each is closed by the lemma of the same content in
    FloatPolicyDerived.v; examples show the hypotheses can be met. *)
From Coq Require Import SpecFloat.
From Verif Require Import Base VectorMap RehashPolicy FloatPolicy FloatPolicySpec.
Local Open Scope Z_scope.
From Verif Require Import FloatPolicyDerived.

(** C96.  The growth policy computes with single-precision floats, but up to 2^24 elements
    and buckets it answers exactly what exact arithmetic answers, from any limit. *)
Theorem C96_policy_exact :
forall chk bc ec add next, 0 <= bc <= 2 ^ 24 -> 0 <= ec + add <= 2 ^ 24 ->
  exists a next', policy_rehash_required chk bc ec add (Policy (p_max_load default_policy) (p_growth default_policy) next) =
      Ok a (Policy (p_max_load default_policy) (p_growth default_policy) next') /\
    exact_answer (if bc =? 1 then 0 else bc) (ec + add) next a next'.
Proof. exact L_C96_policy_exact. Qed.
Print Assumptions C96_policy_exact.

Example C96_policy_exact_case :
  match policy_rehash_required true 1 0 1 default_policy with
  | Ok a p => a = Some 2 /\ p_next_resize p = 2 /\ val (policy_rehash_required true 2 2 1 p) = Some (Some 5)
  | _ => False
  end.
Proof. vm_compute. done. Qed.

(** Beyond that, and in every case, it answers what integer arithmetic answers on counts
    rounded to 24 bits: the policy of RehashPolicy.v, on which C44 to C47 are proved. *)
Theorem C96_policy_rounded :
forall chk bc ec add next, 0 <= bc < u32_lim ->
  let with_limit := Policy (p_max_load default_policy) (p_growth default_policy) in
  policy_rehash_required chk bc ec add (with_limit next) =
  match get_rehash_required chk bc ec add next with
  | Ok a next' => Ok a (with_limit next')
  | Panic next' => Panic (with_limit next')
  | UB => UB
  end.
Proof. exact L_C96_policy_rounded. Qed.
Print Assumptions C96_policy_rounded.

Example C96_policy_rounded_case :
  match policy_rehash_required true 1164186217 1164186240 1 (Policy (u32_as_f32 1) (u32_as_f32 2) 1164186240) with
  | Ok a p => a = None /\ p_next_resize p = 1164186240
  | _ => False
  end /\ policy_rehash_required true 2557710269 2557710464 1 (Policy (u32_as_f32 1) (u32_as_f32 2) 2557710336) = Panic (Policy (u32_as_f32 1) (u32_as_f32 2) 2557710336).
Proof. vm_compute. done. Qed.

(** A count cast to a float stands for the nearest integer of 24 bits: the count itself up
    to 2^24, and never further off than one part in 2^24. *)
Theorem C96_counts_as_floats :
forall n, 0 <= n < u32_lim -> exists v, stands_for (u32_as_f32 n) v /\ (n <= 2 ^ 24 -> v = n) /\ 2 ^ 24 * Z.abs (v - n) <= n /\ v = f32 n.
Proof. exact L_C96_counts_as_floats. Qed.
Print Assumptions C96_counts_as_floats.

Example C96_counts_as_floats_case :
  u32_as_f32 16777217 = S754_finite false 8388608 1 /\ u32_as_f32 16777219 = S754_finite false 8388610 1 /\ u32_as_f32 3 = S754_finite false 12582912 (-22) /\ u32_as_f32 4294967295 = S754_finite false 8388608 9.
Proof. vm_compute. done. Qed.
