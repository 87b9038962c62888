(** Reading printed containers (C102).  A reader knows the brackets and the separator of a
    container, and nothing of how it is printed. *)
From Verif Require Import Base Print.
Local Open Scope nat_scope.

(** What stands between the opening and the closing bracket. *)
Definition between (l r : text) (t : text) : option text :=
  let n := length t - length l - length r in
  if bool_decide (t = l ++ take n (drop (length l) t) ++ r) then Some (take n (drop (length l) t)) else None.

(** The pieces between the commas. *)
Fixpoint pieces (t : text) : list text :=
  match t with
  | [] => [[]]
  | c :: t' =>
    if (c =? 44)%Z then [] :: pieces t'
    else match pieces t' with p :: ps => (c :: p) :: ps | [] => [[c]] end
  end.
(** A piece without the space that follows the comma. *)
Definition unspaced (t : text) : text := match t with 32%Z :: t' => t' | _ => t end.

(** The items of a list printed with [", "], and with [","]. *)
Definition spaced_items (t : text) : list text :=
  match t with
  | [] => []
  | _ => match pieces t with p :: ps => p :: map unspaced ps | [] => [] end
  end.
Definition plain_items (t : text) : list text := match t with [] => [] | _ => pieces t end.

(** An item with its colon: what stands before the first colon, and what stands after it
    and the space that follows. *)
Fixpoint key_value (t : text) : option (text * text) :=
  match t with
  | [] => None
  | c :: t' =>
    if (c =? 58)%Z then match t' with 32%Z :: v => Some ([], v) | _ => None end
    else match key_value t' with Some (k, v) => Some (c :: k, v) | None => None end
  end.

(** Elements that print something, without commas; and without colons. *)
Definition no_commas {T} (dbg : T -> text) : Prop := forall x, dbg x <> [] /\ 44%Z ∉ dbg x.
Definition no_colons {T} (dbg : T -> text) : Prop := forall x, 58%Z ∉ dbg x.

(** Unsigned numbers in decimal, for examples. *)
Fixpoint digits (fuel : nat) (n : Z) : text :=
  match fuel with
  | O => []
  | S f => (if (n <? 10)%Z then [] else digits f (n / 10)%Z) ++ [48 + n mod 10]%Z
  end.
Definition number (n : Z) : text := digits 20 n.
