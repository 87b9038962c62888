(** Property theorems.  Each is closed by the lemma of the same content in
    HashWorldDerived.v; examples show the hypotheses can be met. *)
From Verif Require Import Base Heap Alloc HashTable HashTableSpec HashWorld HashWorldSpec.
Local Open Scope nat_scope.
From Verif Require Import HashWorldDerived.



(** C116.  Any number of hash tables in one memory, created, used in any order, exchanged
    with [mem::swap] and dropped, behave as so many separate maps: no step is undefined;
    the answers, and what is destroyed, are those of the specification, in
    which a call concerns only the map at its place and a swap exchanges two maps; at the end
    iterating each table shows its map; and no memory that was there before
    is touched, the static array of the tables without entries included. *)
Theorem C116_tables_apart :
forall (K V : Type) nsz nal eb chk hash eqb (h0 : heap (tcell K V)), Setup nsz nal eb hash eqb h0 ->
  forall n os l d ms, all_steps eqb os (replicate n None) = Some (l, d, ms) ->
  exists l' w, hw_run nsz nal eb chk hash eqb os (hw_start n h0) = Some (l', w) /\
    Forall2 same_answer l' l /\ hw_drops w ≡ₚ d /\ hw_shows w ms /\
    (forall b, is_Some (h_blk h0 !! b) -> h_blk (hw_heap w) !! b = h_blk h0 !! b).
Proof. exact L_C116_tables_apart. Qed.
Print Assumptions C116_tables_apart.

Example C116_tables_apart_case :
  let os := [TNew 0; TNew 1; TCall 0 (HInsert 1 10); TCall 1 (HInsert 1 71); TCall 0 (HInsert 2 20); TCall 1 (HInsert 3 73); TSwap 0 1;
      TCall 0 (HGet 1); TCall 1 (HGet 3); TCall 1 (HInsert 5 50); TDrop 0; TCall 1 (HGet 2); TNew 0; TCall 0 HLen; TCall 1 HLen]%Z in
  option_map fst (hw_run 24 8 0 true hx_hash Z.eqb os (hw_start 2 hx_heap)) =
    Some [Some HUnit; Some HUnit; Some (HVal None); Some (HVal None); Some (HVal None); Some (HVal None); Some HUnit;
      Some (HPair (Some (1, 71))); Some (HPair None); Some (HVal None); Some HUnit; Some (HPair (Some (2, 20))); Some HUnit; Some (HNat 0); Some (HNat 3)]%Z /\
  (exists l d ms, all_steps Z.eqb os (replicate 2 None) = Some (l, d, ms)).
Proof. split; [vm_compute; reflexivity|]. cbv. by eexists _, _, _. Qed.
