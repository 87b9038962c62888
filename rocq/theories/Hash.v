(** Model of src/hash.rs.  Integers are [Z]; bytes are [Z] in [0, 256). *)
From Coq Require Import SpecFloat.
From Verif Require Import Base.

(** src/hash.rs:18-76: [*val as usize] for an integer type.  The cast of a
    negative value sign-extends, i.e. reduces modulo 2^64; for the unsigned
    types and [usize] it is the identity. *)
Definition hash_int (val : Z) : Z := (val mod usize_lim)%Z.

(** src/hash.rs:90-94. *)
Definition hash_bool (val : bool) : Z := if val then 1%Z else 0%Z.

(** src/hash.rs:78-88: [*val as usize] for [f32] and [f64].  The cast truncates
    towards zero and saturates; NaN gives 0.  The float is an IEEE datum
    (sign, mantissa m, exponent e, value m * 2^e). *)
Definition hash_float (val : spec_float) : Z :=
  match val with
  | S754_zero _ => 0%Z
  | S754_nan => 0%Z
  | S754_infinity true => 0%Z
  | S754_infinity false => (usize_lim - 1)%Z
  | S754_finite true m e => 0%Z
  | S754_finite false m e => Z.min (Z.shiftl (Zpos m) e) (usize_lim - 1)
  end.

(** src/hash.rs:105, the loop body of [fnv1]. *)
Definition fnv1_step (res c : Z) : Z := Z.lxor ((res * 16777619) mod u32_lim) c.

(** src/hash.rs:101-107, [fnv1]; 109-119, [Hash<str>] and [Hash<&str>]. *)
Definition fnv1 (bytes : list Z) : Z := fold_left fnv1_step bytes 2166136261%Z.
