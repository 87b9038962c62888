(** Property theorems.  Each is closed by the lemma of the same content in
    HashDerived.v; examples show the hypotheses can be met. *)
From Coq Require Import SpecFloat QArith Qround Qpower.
From Verif Require Import Base Hash.
#[local] Open Scope Z_scope.
From Verif Require Import HashDerived.

(** The values of an integer type of [bits] bits. *)
Definition int_range (signed : bool) (bits : Z) (x : Z) : Prop :=
  if signed then - 2 ^ (bits - 1) <= x < 2 ^ (bits - 1) else 0 <= x < 2 ^ bits.
Definition byte (b : Z) : Prop := 0 <= b < 256.

(** C22. For every integer type of up to 64 bits, signed or not: the hash fits
    in a [usize], distinct values hash differently, and non-negative values
    hash to themselves; [false] and [true] hash to 0 and 1. *)
Theorem C22_integer_hash_is_injective :
forall signed bits x y, 0 < bits <= 64 -> int_range signed bits x -> int_range signed bits y ->
  0 <= hash_int x < usize_lim /\ (hash_int x = hash_int y <-> x = y) /\ (0 <= x -> hash_int x = x) /\
  (forall b, hash_bool b = if b then 1 else 0).
Proof. exact L_C22_integer_hash_is_injective. Qed.
Print Assumptions C22_integer_hash_is_injective.

Example C22_example : int_range true 32 (-5) /\ hash_int (-5) = 18446744073709551611 /\ hash_int 7 = 7.
Proof. vm_compute. repeat split; done. Qed.

(** C23. The hash of any byte string is a 32-bit number; the empty string gives
    the FNV offset basis; appending a byte multiplies by the FNV prime modulo
    2^32 and then xors the byte in (this determines the function). *)
Theorem C23_fnv1_is_a_32_bit_fold :
forall bs b, Forall byte bs -> byte b ->
  0 <= fnv1 bs < 2 ^ 32 /\ fnv1 [] = 2166136261 /\
  fnv1 (bs ++ [b]) = Z.lxor ((fnv1 bs * 16777619) mod 2 ^ 32) b.
Proof. exact L_C23_fnv1_is_a_32_bit_fold. Qed.
Print Assumptions C23_fnv1_is_a_32_bit_fold.

(** The test vectors of src/hash.rs:136-145. *)
Example C23_example :
  fnv1 [84; 101; 115; 116] = 556965705 /\
  fnv1 [84;104;101;32;98;105;103;32;98;114;111;119;110;32;102;111;120;32;106;117;109;112;101;100;32;111;118;101;114;32;116;104;101;32;108;97;122;121;32;100;111;103] = 3003320415.
Proof. vm_compute. done. Qed.

(** C77. Two strings that differ in exactly one byte never collide, wherever
    the byte is and however long the strings are; and two strings of any
    lengths keep colliding or not when the same suffix is appended. *)
Theorem C77_fnv1_detects_single_byte_changes :
forall s t a b, Forall byte s -> Forall byte t -> byte a -> byte b ->
  (fnv1 (s ++ a :: t) = fnv1 (s ++ b :: t) <-> a = b) /\
  (forall s', Forall byte s' -> fnv1 (s ++ t) = fnv1 (s' ++ t) <-> fnv1 s = fnv1 s').
Proof. exact L_C77_fnv1_detects_single_byte_changes. Qed.
Print Assumptions C77_fnv1_detects_single_byte_changes.

Example C77_example : fnv1 ([1; 2] ++ 3 :: [4; 5]) <> fnv1 ([1; 2] ++ 7 :: [4; 5]).
Proof. vm_compute. done. Qed.

(** C24. For every float format and all values: floats that compare equal
    (including 0.0 and -0.0) hash equally; the hash fits in a [usize]; and a
    non-negative finite float below 2^64 hashes to its integer part. *)
Theorem C24_equal_floats_hash_equally :
forall f g, SFeqb f g = true -> hash_float f = hash_float g /\ 0 <= hash_float f < usize_lim /\
  forall m e, f = S754_finite false m e -> (inject_Z (Zpos m) * Qpower 2 e < inject_Z usize_lim)%Q ->
    (inject_Z (hash_float f) <= inject_Z (Zpos m) * Qpower 2 e)%Q /\
    (inject_Z (Zpos m) * Qpower 2 e < inject_Z (hash_float f + 1))%Q.
Proof. exact L_C24_equal_floats_hash_equally. Qed.
Print Assumptions C24_equal_floats_hash_equally.

(** -0.0 equals 0.0; 3.75 hashes to 3; 2^80 saturates. *)
Example C24_example : SFeqb (S754_zero true) (S754_zero false) = true /\
  hash_float (S754_finite false 15 (-2)) = 3 /\ hash_float (S754_finite false 1 80) = 18446744073709551615 /\
  valid_binary 24 128 (S754_finite false 15728640 (-22)) = true /\
  SFeqb (S754_finite false 15728640 (-22)) (S754_finite false 15728640 (-22)) = true.
Proof. vm_compute. repeat split. Qed.

(** C24. Outside that range the hash saturates: a float that is at least 2^64,
    or plus infinity, hashes to the largest [usize]; a NaN, a zero, minus
    infinity or a negative float hashes to 0. *)
Theorem C24_other_floats_saturate :
forall f,
  match f with
  | S754_infinity false => hash_float f = usize_lim - 1
  | S754_finite false m e =>
      (inject_Z usize_lim <= inject_Z (Zpos m) * Qpower 2 e)%Q -> hash_float f = usize_lim - 1
  | _ => hash_float f = 0
  end.
Proof. exact L_C24_other_floats_saturate. Qed.
Print Assumptions C24_other_floats_saturate.

(** 2^80 and plus infinity saturate; -3.75 and NaN hash to 0. *)
Example C24_saturation_example :
  (inject_Z usize_lim <= inject_Z 1 * Qpower 2 80)%Q /\
  hash_float (S754_finite false 1 80) = 18446744073709551615 /\
  hash_float (S754_infinity false) = 18446744073709551615 /\
  hash_float (S754_finite true 15 (-2)) = 0 /\ hash_float S754_nan = 0.
Proof. vm_compute. repeat split; done. Qed.
