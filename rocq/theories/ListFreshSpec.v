(** Which calls on a list make a node. *)
From Verif Require Import Base LinkedList.

(** Adding one element, at either end, or several. *)
Definition adds {T} (c : lcall T) : bool :=
  match c with
  | LPushFront _ | LPushBack _ | LExtend (_ :: _) => true
  | _ => false
  end.
