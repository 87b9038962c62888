(** What C115 counts. *)
From Verif Require Import Base VectorMap.

(** The number of keys a call looks up. *)
Definition looks_up {K V} (c : mcall K V) : nat :=
  match c with
  | MInsert _ _ | MGet _ | MGetMutSet _ _ | MContains _ | MRemove _ | MRemoveEntry _ | MEntryGet _ | MEntrySet _ _ => 1
  | MExtend kvs => length kvs
  | _ => 0
  end.
