(** Proofs of the properties stated in GrowthHashProps.v. *)
From Verif Require Import Base Heap Alloc HashTable HashTableSpec GrowthSpec.

From Verif Require Import HashTableDerived GrowthProofs.

(** Single insertions, rather than a batch. *)
Definition no_extend {K V} (c : hcall K V) : bool := match c with HExtend _ => false | _ => true end.

Lemma L_C101_hash_table :
forall (K V : Type) nsz nal eb chk hash eqb (h0 : heap (tcell K V)), Setup nsz nal eb hash eqb h0 ->
  forall prog : list (hcall K V), forallb no_extend prog = true ->
  (redistributed nsz nal eb chk hash eqb prog (ht_new eb h0 []) <= 2 * Z.of_nat (keys_given prog))%Z.
Proof.
  intros K V nsz nal eb chk hash eqb h0 SU prog _. by apply redistributed_linear.
Qed.
