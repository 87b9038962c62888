(** Independent specification of orders, as the documentation of [PartialOrd] and [Ord]
    states them. *)
From Verif Require Import Base.

(** What [PartialOrd] demands: duality and transitivity of [<]. *)
Record partial_order {T} (cmp : T -> T -> option comparison) : Prop := {
  po_dual : forall a b, cmp b a = option_map CompOpp (cmp a b);
  po_trans : forall a b c, cmp a b = Some Lt -> cmp b c = Some Lt -> cmp a c = Some Lt;
  po_eq : forall a b c o, cmp a b = Some Eq -> cmp b c = Some o -> cmp a c = Some o
}.
(** What [Ord] adds: any two values compare, a value with itself as equal. *)
Record total_order {T} (cmp : T -> T -> option comparison) : Prop := {
  to_partial : partial_order cmp;
  to_total : forall a b, cmp a b <> None;
  to_refl : forall a, cmp a a = Some Eq
}.

(** Floats with NaN, reduced to integers and one value that compares with nothing. *)
Definition float_like (a b : option Z) : option comparison :=
  match a, b with Some x, Some y => Some (Z.compare x y) | _, _ => None end.
