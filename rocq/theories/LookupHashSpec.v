(** What C115 counts of a hash map. *)
From Verif Require Import Base HashTable.

(** The key a call looks up, if it is one. *)
Definition seeks {K V} (c : hcall K V) : option K :=
  match c with
  | HInsert k _ | HGet k | HContains k | HGetMutSet k _ | HRemove k | HRemoveEntry k
  | HEntryOr k _ _ | HEntryWith k _ _ | HEntryDrop k _ => Some k
  | _ => None
  end.

(** The number of entries seen on the way to the key [k], itself included. *)
Fixpoint seen {K V} (eqb : K -> K -> bool) (k : K) (es : list (K * V)) : nat :=
  match es with
  | [] => 0
  | e :: es' => if eqb (fst e) k then 1 else S (seen eqb k es')
  end.

(** The entries whose key is in the same bucket as [k]. *)
Definition beside {K V} (hash : K -> Z) (buckets : Z) (k : K) (es : list (K * V)) : list (K * V) :=
  List.filter (fun e => hash (fst e) mod buckets =? hash k mod buckets)%Z es.
