(** Property theorems.  Each is closed by the lemma of the same content in
    RefusalLaterDerived.v; examples show the hypotheses can be met. *)
From Verif Require Import Base Heap Alloc HashTable HashTableSpec OutOfMemory Refusal RefusalSpec.
Local Open Scope nat_scope.
From Verif Require Import RefusalLaterDerived.

(** C104.  A hash table that has ever held an entry may be used on after a refusal like
    any other: whatever the allocator refuses during each of the calls, every call answers as
    usual or panics having done what [refused] says, it panics only if the allocator does
    refuse something, and at the end the destructor drops just the entries that are left.
    (For at most 2^31 entries.) *)
Theorem C104_hash_table_goes_on :
forall (K V : Type) nsz nal eb chk hash eqb (h0 : heap (tcell K V)), Setup nsz nal eb hash eqb h0 ->
  forall prog l s es, built nsz nal eb chk hash eqb h0 prog l s ->
  h_call nsz nal eb chk hash eqb HIter s = Ok (HPairs es) s ->
  (exists p1 p2, prog = p1 ++ p2 /\ snd (spec_run eqb p1 []) <> []) ->
  forall later : list (hcall K V * (heap (tcell K V) -> Z -> bool)),
  (Z.of_nat (length es + keys_given (map fst later)) <= 2147483648)%Z ->
  exists l' s1 s2 d es', h_run_in nsz nal eb chk hash eqb later s = Some (l', s1) /\ withstands eqb later l' d es es' /\
    t_drops s1 ≡ₚ t_drops s ++ d /\ ht_drop nsz nal eb s1 = Ok tt s2 /\ t_drops s2 ≡ₚ t_drops s1 ++ parts es'.
Proof. exact L_C104_hash_table_goes_on. Qed.
Print Assumptions C104_hash_table_goes_on.

(** A table with the entries 1 and 2.  There is no memory at all while 3 and 4 come in: the
    call panics at 3.  While 5 to 9 are inserted there is memory for nodes but not for larger
    arrays: 8 is refused.  Then there is memory again. *)
Example C104_hash_table_goes_on_case :
  let all := fun (_ : heap (tcell Z Z)) (_ : Z) => true in
  let big := fun (_ : heap (tcell Z Z)) (bytes : Z) => (24 <? bytes)%Z in
  let none := fun (_ : heap (tcell Z Z)) (_ : Z) => false in
  let later := ([(HExtend [(3, 30); (4, 40)], all)] ++ map (fun k : Z => (HInsert k (10 * k), big)) [5; 6; 7; 8; 9]
    ++ [(HLen, all); (HInsert 10 100, none); (HGet 9, none); (HLen, none)])%Z in
  Setup (V := Z) 24 8 0 hx_hash Z.eqb hx_heap /\
  (Z.of_nat (2 + keys_given (map fst later)) <= 2147483648)%Z /\
  match hx_run [HInsert 1 10; HInsert 2 20]%Z with
  | Some (_, s) => option_map (fun r => (fst r, t_drops (snd r))) (h_run_in 24 8 0 true hx_hash Z.eqb later s)
      = Some ([None; Some (HVal None); Some (HVal None); Some (HVal None); None; Some (HVal None);
               Some (HNat 6); Some (HVal None); Some (HPair (Some (9, 90))); Some (HNat 7)],
              [inr 30; inl 3; inl 4; inr 40; inr 80; inl 8])%Z
  | None => False
  end.
Proof. intros all big none later. split; [exact (HashTableDerived.hx_setup Z)|]. split; [by vm_compute|]. by vm_compute. Qed.
