(** Specification vocabulary of the hash containers with any hash function and equality. *)
From Verif Require Import Base Heap Alloc HashTable HashTableSpec HashAny.

(** Evaluating the hash function never panics. *)
Definition hash_calm {K} (ho : nat -> K -> option Z) : Prop := forall n k, ho n k <> None.
(** Programs in which the value of [or_insert_with] need not be accounted for. *)
Definition no_closure {K V} (c : hcall K V) : bool := match c with HEntryWith _ _ _ => false | _ => true end.

(** For examples: the hash function panics at the [bad]-th evaluation. *)
Definition ax_run (bad : nat) (prog : list (hcall Z Z)) : option (list (option (hanswer Z Z)) * astate Z Z) :=
  a_run 24 8 0 true (fun n k => if n =? bad then None else Some (hx_hash k)) (fun _ a b => Some (a =? b)%Z) prog (ht_new 0 hx_heap [], 0).
(** The hash function answers 4, 9, 14, .. whatever the key; every third comparison
    answers yes and every seventh evaluation of the equality panics. *)
Definition ax_odd (prog : list (hcall Z Z)) : option (list (option (hanswer Z Z)) * astate Z Z) :=
  a_run 24 8 0 true (fun n k => Some (Z.of_nat (5 * n + 4))) (fun n a b => if n mod 7 =? 0 then None else Some (n mod 3 =? 0)) prog (ht_new 0 hx_heap [], 0).
