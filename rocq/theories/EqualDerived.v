(** Proofs of the properties stated in EqualProps.v. *)
From Verif Require Import Base Heap Alloc RehashPolicy HashTable HashTableSpec Compare.
Local Open Scope nat_scope.

From Verif Require Import HashTableDerived.

Lemma L_C74_tables_over_equal_to :
forall (K V : Type) nsz nal eb chk hash (eq : K -> K -> bool) (h0 : heap (tcell K V)), Setup nsz nal eb hash eq h0 ->
  forall prog : list (hcall K V),
  let '(answers, dropped, m) := spec_run eq prog [] in
  exists l s, built nsz nal eb chk hash (equal_to eq) h0 prog l s /\ Forall2 same_answer l answers /\
    t_drops s ≡ₚ dropped /\ holds hash (equal_to eq) s (fun k => look eq k m).
Proof.
  exact L_C39_hash_map_refines_finite_map.
Qed.
