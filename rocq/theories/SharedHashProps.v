(** Property theorems.  Each is closed by the lemma of the same content in
    SharedHashDerived.v; examples show the hypotheses can be met. *)
From Verif Require Import Base Heap Alloc HashTable HashTableSpec SharedRefs SharedRefsSpec.
Local Open Scope nat_scope.
From Verif Require Import SharedHashDerived.

(** C120 for hash tables (which the hash maps and sets are), exactly when it holds.  Any number of shared iterators
    over a table and calls of [get], in any order: each reference handed out is to the value at its
    place, and it is still good if and only if no iterator has passed that value after it.  Missing: the
    case that one has, in which it is false. *)
Theorem C120_hash_shared_references_partial :
forall (K V : Type) nsz nal eb chk hash eqb (h0 : heap (tcell K V)), Setup nsz nal eb hash eqb h0 ->
  forall prog l s es (m : nat) (ops : list (sop K)), built nsz nal eb chk hash eqb h0 prog l s ->
  h_call nsz nal eb chk hash eqb HIter s = Ok (HPairs es) s ->
  let hs := h_handed eqb es ops (replicate m 0) in
  exists rs, h_shared hash eqb m ops s = Ok rs s /\ length rs = length hs /\
    forall r i b, hs !! r = Some (i, b) ->
    exists p good k v nx, rs !! r = Some (p, good) /\ es !! i = Some (k, v) /\ node_at p s = Ok (k, v, nx) s /\
      (good = true <-> (i, true) ∉ drop (S r) hs).
Proof. exact L_C120_hash_shared_references_partial. Qed.
Print Assumptions C120_hash_shared_references_partial.

Example C120_hash_case :
  match hx_run [HInsert 1 10; HInsert 3 30; HInsert 2 20]%Z with
  | Some (_, s) =>
    h_handed Z.eqb [(1, 10); (2, 20); (3, 30)]%Z [SGet 1; SNext 0; SGet 3; SGet 1; SNext 0]%Z [0] =
      [(0, false); (0, true); (2, false); (0, false); (1, true)] /\
    option_map (map snd) (val (h_shared hx_hash Z.eqb 1 [SGet 1; SNext 0; SGet 3; SGet 1; SNext 0]%Z s)) =
      Some [false; true; true; true; true]
  | None => False
  end.
Proof. vm_compute. done. Qed.

(** C120 for hash tables on which nothing but [get] is called: all references stay good. *)
Theorem C120_hash_gets_only :
forall (K V : Type) nsz nal eb chk hash eqb (h0 : heap (tcell K V)), Setup nsz nal eb hash eqb h0 ->
  forall prog l s (ks : list K), built nsz nal eb chk hash eqb h0 prog l s ->
  exists rs, h_shared hash eqb 0 (map SGet ks) s = Ok rs s /\ Forall (fun r => snd r = true) rs.
Proof. exact L_C120_hash_gets_only. Qed.
Print Assumptions C120_hash_gets_only.

Example C120_hash_gets_case :
  match hx_run [HInsert 1 10; HInsert 3 30; HInsert 2 20]%Z with
  | Some (_, s) => option_map (map snd) (val (h_shared hx_hash Z.eqb 0 (map SGet [1; 3; 1; 7]%Z) s)) = Some [true; true; true]
  | None => False
  end.
Proof. vm_compute. done. Qed.

(** C120 is false of hash tables: for every key of every table, getting its value and then iterating over the
    table leaves the reference from [get] no longer good. *)
Theorem C120_hash_shared_references_refuted :
forall (K V : Type) nsz nal eb chk hash eqb (h0 : heap (tcell K V)), Setup nsz nal eb hash eqb h0 ->
  forall prog l s es k, built nsz nal eb chk hash eqb h0 prog l s ->
  h_call nsz nal eb chk hash eqb HIter s = Ok (HPairs es) s -> (exists e, e ∈ es /\ eqb (fst e) k = true) ->
  exists p rs, h_shared hash eqb 1 (SGet k :: repeat (SNext 0) (length es)) s = Ok ((p, false) :: rs) s /\
    length rs = length es.
Proof. exact L_C120_hash_shared_references_refuted. Qed.
Print Assumptions C120_hash_shared_references_refuted.

Example C120_hash_refuted_case :
  match hx_run [HInsert 1 10; HInsert 3 30; HInsert 2 20]%Z with
  | Some (_, s) => option_map (map snd) (val (h_shared hx_hash Z.eqb 1 (SGet 2%Z :: repeat (SNext 0) 3) s)) = Some [false; true; true; true]
  | None => False
  end.
Proof. vm_compute. done. Qed.
