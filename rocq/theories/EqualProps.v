(** Property theorems.  Each is closed by the lemma of the same content in
    EqualDerived.v; examples show the hypotheses can be met. *)
From Verif Require Import Base Heap Alloc RehashPolicy HashTable HashTableSpec Compare.
Local Open Scope nat_scope.
From Verif Require Import EqualDerived.

(** C74, hash tables.  A table that compares its keys with [EqualTo] is the finite map over
    the keys' own [==], for every [==] that is an equivalence and every hash that respects
    it: same answers for every program of calls, and [get] finds what that map holds. *)
Theorem C74_tables_over_equal_to :
forall (K V : Type) nsz nal eb chk hash (eq : K -> K -> bool) (h0 : heap (tcell K V)), Setup nsz nal eb hash eq h0 ->
  forall prog : list (hcall K V),
  let '(answers, dropped, m) := spec_run eq prog [] in
  exists l s, built nsz nal eb chk hash (equal_to eq) h0 prog l s /\ Forall2 same_answer l answers /\
    t_drops s ≡ₚ dropped /\ holds hash (equal_to eq) s (fun k => look eq k m).
Proof. exact L_C74_tables_over_equal_to. Qed.
Print Assumptions C74_tables_over_equal_to.

(** Keys that are equal when they agree in the last decimal. *)
Example C74_tables_over_equal_to_case :
  let eq a b := (a mod 10 =? b mod 10)%Z in let hash k := (k mod 10)%Z in
  Setup (V := Z) 24 8 0 hash eq hx_heap /\
  match h_run 24 8 0 true hash (equal_to eq) [HInsert 7 70; HInsert 17 71; HGet 27; HInsert 8 80; HLen]%Z (ht_new 0 hx_heap []) with
  | Some (l, _) => l = [Some (HVal None); Some (HVal (Some 70)); Some (HPair (Some (7, 71))); Some (HVal None); Some (HNat 2)]%Z
  | None => False
  end.
Proof.
  split; [|by vm_compute]. destruct (HashTableDerived.hx_setup Z) as [H1 H2 _ H4 H5]. split; try done. split; intros; lia.
Qed.
