(** Property theorems.  Each is closed by the lemma of the same content in
    RefusalHashDerived.v; examples show the hypotheses can be met. *)
From Verif Require Import Base Heap Alloc HashTable HashTableSpec OutOfMemory Refusal RefusalSpec.
Local Open Scope nat_scope.
From Verif Require Import RefusalHashDerived.

(** C104.  On a hash table, whatever the allocator refuses during a call: the call does as
    usual, or it panics, the entry that needed the memory is not in the table and what the
    caller handed over is dropped once; from then on all calls that bring no new keys in
    answer as usual, and the destructor drops just the entries that are in it. *)
Theorem C104_hash_table :
forall (K V : Type) nsz nal eb chk hash eqb (h0 : heap (tcell K V)), Setup nsz nal eb hash eqb h0 ->
  forall prog l s es, built nsz nal eb chk hash eqb h0 prog l s ->
  h_call nsz nal eb chk hash eqb HIter s = Ok (HPairs es) s ->
  forall c refuse,
  match h_call_in (Refusing refuse) nsz nal eb chk hash eqb c s with
  | Ok a s' => h_call nsz nal eb chk hash eqb c s = Ok a s'
  | Panic s' =>
    exists d es', refused eqb c es d es' /\ t_drops s' ≡ₚ t_drops s ++ d /\
      forall later, forallb (fun c => negb (brings_in c)) later = true ->
      let '(l, d1, es1) := spec_run eqb later es' in
      exists l' s1 s2, h_run nsz nal eb chk hash eqb later s' = Some (l', s1) /\ Forall2 same_answer l' l /\
        t_drops s1 ≡ₚ t_drops s' ++ d1 /\ ht_drop nsz nal eb s1 = Ok tt s2 /\ t_drops s2 ≡ₚ t_drops s1 ++ parts es1
  | UB => False
  end.
Proof. exact L_C104_hash_table. Qed.
Print Assumptions C104_hash_table.

(** Entries 1 and 2; there is no memory for nodes while (2, 21), (3, 30) and (1, 11) are
    inserted: the first needs none, the second is refused and the third not reached. *)
Example C104_hash_table_case :
  Setup (V := Z) 24 8 0 hx_hash Z.eqb hx_heap /\
  match hx_run [HInsert 1 10; HInsert 2 20]%Z with
  | Some (_, s) =>
    match h_call_in (Refusing (fun _ bytes => (bytes =? 24)%Z)) 24 8 0 true hx_hash Z.eqb (HExtend [(2, 21); (3, 30); (1, 11)]%Z) s with
    | Panic s' => t_drops s' = [inl 2; inr 20; inr 30; inl 3; inl 1; inr 11]%Z /\
        option_map fst (h_run 24 8 0 true hx_hash Z.eqb [HIter; HRemove 1; HGet 2; HGet 3; HLen]%Z s')
          = Some [Some (HPairs [(1, 10); (2, 21)]); Some (HVal (Some 10)); Some (HPair (Some (2, 21))); Some (HPair None); Some (HNat 1)]%Z
    | _ => False
    end
  | None => False
  end.
Proof. split; [exact (HashTableDerived.hx_setup Z)|]. by vm_compute. Qed.

(** After the allocator has refused the first array of a table, the next insertion believes
    that the array was had, although there is memory now: it takes the slot to write to from
    the static empty array, which all empty tables share and which is not for writing. *)
Theorem C104_refused_first_insert_refuted :
exists s nr, h_call_in (Refusing (fun _ _ => true)) 24 8 0 true hx_hash Z.eqb (HInsert 1 10)%Z (ht_new 0 hx_heap []) = Panic s /\
  rehash_required true s = Ok None nr /\ t_arr s = Ptr 0 0 /\ t_bc s = 1%Z /\
  (exists s1, bucket_for_key_mut hx_hash 2%Z s = Ok (Ptr 0 0) s1) /\
  (forall q (s1 : tstate Z Z), write_slot 0 (Ptr 0 0) q s1 = UB) /\
  h_call 24 8 0 true hx_hash Z.eqb (HInsert 2 20)%Z s = UB.
Proof. exact L_C104_refused_first_insert_refuted. Qed.
Print Assumptions C104_refused_first_insert_refuted.
