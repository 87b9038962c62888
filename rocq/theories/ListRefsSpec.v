(** Which calls on a list use the pointers it stores for more than these are made for. *)
From Verif Require Import Base LinkedList LinkedListSpec.
Local Open Scope Z_scope.

Definition none {T} (xs : list T) : bool := match xs with [] => true | _ => false end.

(** Calls on a list with the elements [xs] that change a link of the list object which they reach
    through a stored link: adding at the front, adding a first element, and taking one out.  (Adding
    another element at the back reaches the object directly.) *)
Definition relinks_object {T} (c : lcall T) (xs : list T) : bool :=
  match c with
  | LPushFront _ => true
  | LPushBack _ => none xs
  | LExtend ys => none xs && negb (none ys)
  | LPopBack | LPopFront => negb (none xs)
  | _ => false
  end.

(** Calls that read, change or drop an element in place: [whole] of its node is referred to, or the [element] only. *)
Definition uses_element {T} (whole element : bool) (c : lcall T) (xs : list T) : bool :=
  negb (none xs) &&
  match c with
  | LFront | LIter_ | LIterMut_ _ => whole
  | LBack | LFrontMut _ | LBackMut _ | LPopBack | LPopFront | LClear => element
  | _ => false
  end.

(** Does a program make such a call, starting from [xs]? *)
Fixpoint some_call {T} (f : lcall T -> list T -> bool) (prog : list (lcall T)) (xs : list T) : bool :=
  match prog with
  | [] => false
  | c :: prog' => f c xs || some_call f prog' (snd (spec_call c xs))
  end.
