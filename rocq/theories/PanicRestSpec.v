(** What the properties about panicking destructors refer to. *)
From Verif Require Import Base.

(** The elements up to the first whose destructor panics, that one included. *)
Fixpoint up_to_bad {T} (bad : T -> bool) (xs : list T) : list T :=
  match xs with
  | [] => []
  | x :: xs' => x :: (if bad x then [] else up_to_bad bad xs')
  end.
