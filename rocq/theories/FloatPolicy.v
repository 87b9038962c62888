(** Model of src/internal/hash_table/rehash_policy.rs with its floats: [f32] is IEEE
    binary32 (24 bits of precision, largest exponent 127), rounding to nearest, ties to
    even, as specified by Coq's SpecFloat.  RehashPolicy.v is the same code with the
    floats kept as integers. *)
From Coq Require Import SpecFloat.
From Verif Require Import Base VectorMap RehashPolicy.
Local Open Scope Z_scope.

(** [n as f32] for a [u32]. *)
Definition u32_as_f32 (n : Z) : spec_float := binary_normalize 24 128 n 0 false.
(** [x as u32]: truncates towards zero and saturates; NaN gives 0. *)
Definition f32_as_u32 (x : spec_float) : Z :=
  match x with
  | S754_infinity false => u32_lim - 1
  | S754_finite false m e => Z.min (Z.shiftl (Zpos m) e) (u32_lim - 1)
  | _ => 0
  end.
(** [a.max(b)]: the larger, or the other one if one is NaN. *)
Definition f32_max (a b : spec_float) : spec_float :=
  match SFcompare a b with
  | Some Lt => b
  | Some _ => a
  | None => match a with S754_nan => b | _ => a end
  end.
(** [x.ceil()]: the least integer that is not below, with the sign of [x]. *)
Definition f32_ceil (x : spec_float) : spec_float :=
  match x with
  | S754_finite s m e =>
    if 0 <=? e then x
    else
      let c := - ((- cond_Zopp s (Zpos m)) / 2 ^ (- e)) in
      binary_normalize 24 128 c 0 s
  | _ => x
  end.

(** Lines 6-10, [PrimeRehashPolicy]. *)
Record policy : Type := Policy { p_max_load : spec_float; p_growth : spec_float; p_next_resize : Z }.
(** Lines 12-20, [default]: 1.0, 2.0 and 0. *)
Definition default_policy : policy := Policy (u32_as_f32 1) (u32_as_f32 2) 0.

(** Lines 61-87, [get_rehash_required]; the table [PRIMES] and its search are those of
    RehashPolicy.v.  Lines 67 and 72 add the counts twice. *)
Definition policy_rehash_required (chk : bool) (bucket_count element_count element_add : Z) : M policy (option Z) :=
  do n <- u32 chk (element_count + element_add);
  do self <- gets id;
  if p_next_resize self <? n then
    let bucket_count := if bucket_count =? 1 then 0 else bucket_count in
    do n <- u32 chk (element_count + element_add);
    let min_bucket_count := SFdiv 24 128 (u32_as_f32 n) (p_max_load self) in
    if SFltb (u32_as_f32 bucket_count) min_bucket_count then
      let min_bucket_count := f32_max min_bucket_count (SFmul 24 128 (p_growth self) (u32_as_f32 bucket_count)) in
      do r <- or_ub (lower_bound_by (fun p => p <? f32_as_u32 min_bucket_count) PRIMES);
      match PRIMES !! fst r with
      | None => panic
      | Some next_prime =>
        run modify (fun p => Policy (p_max_load p) (p_growth p)
                               (f32_as_u32 (f32_ceil (SFmul 24 128 (u32_as_f32 next_prime) (p_max_load self)))));
        ret (Some next_prime)
      end
    else
      run modify (fun p => Policy (p_max_load p) (p_growth p)
                             (f32_as_u32 (f32_ceil (SFmul 24 128 (u32_as_f32 bucket_count) (p_max_load self)))));
      ret None
  else ret None.
