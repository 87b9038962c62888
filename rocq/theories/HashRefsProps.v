(** Property theorems.  Each is closed by the lemma of the same content in
    HashRefsDerived.v; examples show the hypotheses can be met. *)
From Verif Require Import Base Heap Alloc HashTable HashTableSpec HashRefs HashRefsSpec.
Local Open Scope nat_scope.
From Verif Require Import HashRefsDerived.

(** C121, the static array, exactly: the calls that keep the rule are those that put nothing into the table and take no entry.  In
    every program with any other call, a mutable reference to the read-only array that all
    empty tables share is made. *)
Theorem C121_static_array_refuted :
forall (K V : Type) nsz nal eb chk hash eqb (h0 : heap (tcell K V)), Setup nsz nal eb hash eqb h0 ->
  forall prog, h_run_r nsz nal eb chk hash eqb (HRules true false false) prog (ht_new eb h0 []) =
    if existsb takes_slot prog then None else h_run nsz nal eb chk hash eqb prog (ht_new eb h0 []).
Proof. exact L_C121_static_array_refuted. Qed.
Print Assumptions C121_static_array_refuted.

Example C121_static_case :
  option_map fst (h_run_r 24 8 0 true hx_hash Z.eqb (HRules true false false) [HGet 1; HRemove 2; HIter; HClear]%Z (ht_new (V := Z) 0 hx_heap [])) =
    Some [Some (HPair None); Some (HVal None); Some (HPairs []); Some HUnit] /\
  h_run_r 24 8 0 true hx_hash Z.eqb (HRules true false false) [HGet 1; HInsert 1 10]%Z (ht_new 0 hx_heap []) = None.
Proof. vm_compute. done. Qed.

(** C121, the slices of buckets, exactly: a program keeps the rule as long as the table never holds a third key and is not iterated
    over once a key has been put into it.  Missing: all other programs, which break the rule. *)
Theorem C121_reach_partial :
forall (K V : Type) nsz nal eb chk hash eqb (h0 : heap (tcell K V)), Setup nsz nal eb hash eqb h0 ->
  forall prog, h_run_r nsz nal eb chk hash eqb (HRules false true false) prog (ht_new eb h0 []) =
    if over_reaches eqb false [] prog then None else h_run nsz nal eb chk hash eqb prog (ht_new eb h0 []).
Proof. exact L_C121_reach_partial. Qed.
Print Assumptions C121_reach_partial.

Example C121_reach_exact_case :
  let go p := option_map fst (h_run_r 24 8 0 true hx_hash Z.eqb (HRules false true false) p (ht_new 0 hx_heap [])) in
  go [HIter; HExtend [(1, 10); (2, 20); (1, 30)]; HRemove 1; HEntryOr 5 None 50; HLen]%Z =
    Some [Some (HPairs []); Some HUnit; Some (HVal (Some 30)); Some (HRef true 50); Some (HNat 2)]%Z /\
  go [HExtend [(1, 10); (2, 20); (1, 30)]; HEntryWith 5 None 50]%Z = None /\
  over_reaches (V := Z) Z.eqb false [] [HExtend [(1, 10); (2, 20); (1, 30)]; HEntryWith 5 None 50]%Z = true.
Proof. vm_compute. done. Qed.

(** C121 is false of the slices of buckets: in every program that puts a key into the table and later
    iterates over it, a slice of all buckets is made from a reference to the first one. *)
Theorem C121_reach_refuted :
forall (K V : Type) nsz nal eb chk hash eqb (h0 : heap (tcell K V)), Setup nsz nal eb hash eqb h0 ->
  forall p1 c p2, keys_given p1 <> 0 -> iterates c = true ->
  h_run_r nsz nal eb chk hash eqb (HRules false true false) (p1 ++ c :: p2) (ht_new eb h0 []) = None.
Proof. exact L_C121_reach_refuted. Qed.
Print Assumptions C121_reach_refuted.

Example C121_reach_case :
  is_Some (h_run_r 24 8 0 true hx_hash Z.eqb (HRules false true false) [HIter; HInsert 1 10; HRemove 1]%Z (ht_new 0 hx_heap [])) /\
  h_run_r 24 8 0 true hx_hash Z.eqb (HRules false true false) [HIter; HInsert 1 10; HRemove 1; HIter]%Z (ht_new 0 hx_heap []) = None.
Proof. split; [vm_compute; eexists; reflexivity|vm_compute; done]. Qed.

(** C121, freeing the nodes, exactly: a program keeps the rule if and only if the table is empty whenever it is cleared.  Otherwise, a
    node is freed while it is behind the mutable reference that the freeing function has been given. *)
Theorem C121_held_reference :
forall (K V : Type) nsz nal eb chk hash eqb (h0 : heap (tcell K V)), Setup nsz nal eb hash eqb h0 ->
  forall prog, let run_held := h_run_r nsz nal eb chk hash eqb (HRules false false true) prog (ht_new eb h0 []) in
  ((forall p1 p2, prog = p1 ++ HClear :: p2 -> snd (spec_run eqb p1 []) = []) ->
    run_held = h_run nsz nal eb chk hash eqb prog (ht_new eb h0 [])) /\
  (forall p1 p2, prog = p1 ++ HClear :: p2 -> snd (spec_run eqb p1 []) <> [] -> run_held = None).
Proof. exact L_C121_held_reference. Qed.
Print Assumptions C121_held_reference.

Example C121_held_case :
  option_map fst (h_run_r 24 8 0 true hx_hash Z.eqb (HRules false false true) [HInsert 1 10; HRemove 1; HClear; HLen]%Z (ht_new 0 hx_heap [])) =
    Some [Some (HVal None); Some (HVal (Some 10%Z)); Some HUnit; Some (HNat 0)] /\
  h_run_r 24 8 0 true hx_hash Z.eqb (HRules false false true) [HInsert 1 10; HClear]%Z (ht_new 0 hx_heap []) = None.
Proof. vm_compute. done. Qed.

(** C121 is false of dropping: every table that has elements when it is dropped breaks the rule; one without does not. *)
Theorem C121_drop_refuted :
forall (K V : Type) nsz nal eb chk hash eqb (h0 : heap (tcell K V)), Setup nsz nal eb hash eqb h0 ->
  forall prog l s es, built nsz nal eb chk hash eqb h0 prog l s ->
  h_call nsz nal eb chk hash eqb HIter s = Ok (HPairs es) s ->
  ht_drop_r nsz nal eb (HRules false false true) s = match es with [] => ht_drop nsz nal eb s | _ => UB end.
Proof. exact L_C121_drop_refuted. Qed.
Print Assumptions C121_drop_refuted.

Example C121_drop_case :
  match hx_run [HInsert 1 10; HInsert 3 30]%Z, hx_run [HInsert 1 10; HRemove 1]%Z with
  | Some (_, s), Some (_, s') => is_ub (ht_drop_r 24 8 0 (HRules false false true) s) = true /\ is_ok (ht_drop_r 24 8 0 (HRules false false true) s') = true
  | _, _ => False
  end.
Proof. vm_compute. done. Qed.
