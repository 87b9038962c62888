(** Which calls need a slot of the table for a new key. *)
From Verif Require Import Base HashTable HashTableSpec.

(** An insertion, or an entry (on a table without the key). *)
Definition takes_slot {K V} (c : hcall K V) : bool :=
  match c with
  | HInsert _ _ | HEntryOr _ _ _ | HEntryWith _ _ _ | HEntryDrop _ _ => true
  | HExtend kvs => match kvs with [] => false | _ => true end
  | _ => false
  end.

(** A call that goes through the whole table. *)
Definition iterates {K V} (c : hcall K V) : bool :=
  match c with HIter | HIterMut _ => true | _ => false end.

(** Does a program put a third key into a table with the entries [m], or iterate over it after a key has
    been put into it ([held]: one has)? *)
Fixpoint over_reaches {K V} (eqb : K -> K -> bool) (held : bool) (m : list (K * V)) (prog : list (hcall K V)) : bool :=
  match prog with
  | [] => false
  | c :: prog' =>
    let m' := snd (spec_call eqb c m) in
    ((held && iterates c) || (3 <=? length m')) || over_reaches eqb (held || negb (keys_in c =? 0)) m' prog'
  end.
