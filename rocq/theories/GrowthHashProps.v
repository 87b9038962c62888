(** Property theorems.  Each is closed by the lemma of the same content in
    GrowthHashDerived.v; examples show the hypotheses can be met. *)
From Verif Require Import Base Heap Alloc HashTable HashTableSpec GrowthSpec.
From Verif Require Import GrowthHashDerived.

(** Single insertions, rather than a batch. *)
Definition no_extend {K V} (c : hcall K V) : bool := match c with HExtend _ => false | _ => true end.

(** C101, hash maps and sets.  However a new table is used, all its rehashes together put at
    most two entries into new buckets for every key it was given.  (A batch is the same as
    its insertions one after the other, see C39.) *)
Theorem C101_hash_table :
forall (K V : Type) nsz nal eb chk hash eqb (h0 : heap (tcell K V)), Setup nsz nal eb hash eqb h0 ->
  forall prog : list (hcall K V), forallb no_extend prog = true ->
  (redistributed nsz nal eb chk hash eqb prog (ht_new eb h0 []) <= 2 * Z.of_nat (keys_given prog))%Z.
Proof. exact L_C101_hash_table. Qed.
Print Assumptions C101_hash_table.

Example C101_hash_table_case :
  let prog := map (fun i => HInsert (Z.of_nat i) 0%Z) (seq 0 30) in
  Setup 24 8 0 hx_hash Z.eqb (hx_heap (V := Z)) /\ forallb no_extend prog = true /\
  redistributed 24 8 0 true hx_hash Z.eqb prog (ht_new 0 hx_heap []) = 41%Z.
Proof. split; [apply HashTableDerived.hx_setup|by vm_compute]. Qed.
