(** Model of src/compare.rs and src/equals.rs.  A [PartialOrd] implementation is its
    [partial_cmp]; the operators [<] and [>] are those it provides by default. *)
From Verif Require Import Base.

Section compare.
Context {T : Type}.
Variable partial_cmp : T -> T -> option comparison.
Definition lt_op (a b : T) : bool := match partial_cmp a b with Some Lt => true | _ => false end.
Definition gt_op (a b : T) : bool := match partial_cmp a b with Some Gt => true | _ => false end.
(** src/compare.rs:48-52, [Less::compare]; 17-21, [Greater::compare]. *)
Definition less_compare (left right : T) : bool := lt_op left right.
Definition greater_compare (left right : T) : bool := gt_op left right.
(** src/equals.rs:20-24, [EqualTo::equals], for a [PartialEq] [eq]. *)
Definition equal_to (eq : T -> T -> bool) (lhs rhs : T) : bool := eq lhs rhs.
End compare.
