(** What the growth policy should answer, in exact arithmetic. *)
From Coq Require Import SpecFloat.
From Verif Require Import Base RehashPolicy FloatPolicy.
Local Open Scope Z_scope.

(** The number a float stands for is the integer [v]. *)
Definition stands_for (f : spec_float) (v : Z) : Prop :=
  match f with
  | S754_zero _ => v = 0
  | S754_finite s m e => if 0 <=? e then v = cond_Zopp s (Zpos m) * 2 ^ e else v * 2 ^ (- e) = cond_Zopp s (Zpos m)
  | _ => False
  end.

(** The first bucket count of the table that is not below [n]. *)
Definition first_prime_from (n p : Z) : Prop :=
  p ∈ PRIMES /\ n <= p /\ forall q, q ∈ PRIMES -> n <= q -> p <= q.

(** Asked about [n] elements in [b] buckets (none, for an empty table), with the next
    resize due above [next]: nothing to do if not yet due; nothing but a new limit if the
    buckets suffice; otherwise the first prime that holds the elements and at least
    doubles the buckets. *)
Definition exact_answer (b n next : Z) (a : option Z) (next' : Z) : Prop :=
  (n <= next /\ a = None /\ next' = next) \/
  (next < n /\ n <= b /\ a = None /\ next' = b) \/
  (next < n /\ b < n /\ exists p, a = Some p /\ first_prime_from (Z.max n (2 * b)) p /\
     (p <= 2 ^ 24 -> next' = p) /\ p - 1 <= next' <= p + 1).
