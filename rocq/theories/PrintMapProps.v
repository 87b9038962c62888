(** Property theorems.  Each is closed by the lemma of the same content in
    PrintMapDerived.v; examples show the hypotheses can be met. *)
From Verif Require Import Base Heap Alloc AllocContract Print PrintSpec.
From Verif Require Vector VectorSpec VectorMap VectorMapSpec HashTable HashTableSpec RBTree RBTreeSpec.
Local Open Scope nat_scope.
From Verif Require Import PrintMapDerived.

(** C102, hash maps.  After any program a map prints every entry once: the printed keys and
    values read back as those of a list of entries in which no key occurs twice and which
    holds exactly what lookup finds. *)
Theorem C102_hash_map :
forall (K V : Type) nsz nal eb chk hash eqb (h0 : heap (HashTable.tcell K V)) (dk : K -> text) (dv : V -> text),
  HashTableSpec.Setup nsz nal eb hash eqb h0 -> no_commas dk -> no_commas dv -> no_colons dk ->
  forall prog l s, HashTableSpec.built nsz nal eb chk hash eqb h0 prog l s ->
  exists t es, hash_map_fmt dk dv s = Ok t s /\ HashTableSpec.distinct eqb es /\
    (forall k e, (e ∈ es /\ eqb (fst e) k = true) <-> HashTable.get hash eqb k s = Ok (Some e) s) /\
    option_map (fun b => map key_value (plain_items b)) (between (lit "{") (lit "}") t) =
      Some (map (fun e => Some (dk (fst e), dv (snd e))) es).
Proof. exact L_C102_hash_map. Qed.
Print Assumptions C102_hash_map.

Example C102_hash_map_case :
  match HashTableSpec.hx_run [HashTable.HInsert 1 10; HashTable.HInsert 3 30; HashTable.HInsert 2 20]%Z with
  | Some (_, s) => val (hash_map_fmt number number s) = Some (lit "{1: 10,2: 20,3: 30}")
  | None => False
  end.
Proof. by vm_compute. Qed.

(** Hash sets print every key once. *)
Theorem C102_hash_set :
forall (K : Type) nsz nal eb chk hash eqb (h0 : heap (HashTable.tcell K unit)) (dk : K -> text),
  HashTableSpec.Setup nsz nal eb hash eqb h0 -> no_commas dk ->
  forall prog l s, HashTableSpec.built nsz nal eb chk hash eqb h0 prog l s ->
  exists t es, hash_set_fmt dk s = Ok t s /\ HashTableSpec.distinct eqb es /\
    (forall k e, (e ∈ es /\ eqb (fst e) k = true) <-> HashTable.get hash eqb k s = Ok (Some e) s) /\
    option_map plain_items (between (lit "{") (lit "}") t) = Some (map (fun e => dk (fst e)) es).
Proof. exact L_C102_hash_set. Qed.
Print Assumptions C102_hash_set.

Example C102_hash_set_case :
  match HashTable.set_run 16 8 0 true HashTableSpec.hx_hash Z.eqb [HashTable.SInsert 11; HashTable.SInsert 3; HashTable.SInsert 11]%Z (HashTable.ht_new 0 HashTableSpec.hx_heap []) with
  | Some (_, s) => val (hash_set_fmt number s) = Some (lit "{3,11}")
  | None => False
  end.
Proof. by vm_compute. Qed.

(** Maps print their entries in ascending order. *)
Theorem C102_map :
forall (A K V : Type) (lt : K -> K -> bool) (nsz : Z) (s : RBTree.tstate A K V) (t : RBTreeSpec.tree K V) (dk : K -> text) (dv : V -> text),
  RBTreeSpec.strict_weak_order lt -> (24 <= nsz)%Z -> RBTreeSpec.holds nsz s t -> RBTreeSpec.sorted lt t ->
  no_commas dk -> no_commas dv -> no_colons dk ->
  exists p, tree_map_fmt nsz dk dv s = Ok p s /\
    option_map (fun b => map key_value (plain_items b)) (between (lit "{") (lit "}") p) =
      Some (map (fun e => Some (dk (fst e), dv (snd e))) (RBTreeSpec.entries t)).
Proof. exact L_C102_map. Qed.
Print Assumptions C102_map.

Example C102_map_case :
  val (tree_map_fmt 40 number number (RBTreeSpec.rx_state 2048 2176)) = Some (lit "{10: 100,20: 200,30: 300}").
Proof. by vm_compute. Qed.

(** Vector maps print their entries, each once. *)
Theorem C102_vector_map :
forall (K V : Type) (sz al : Z) (chk nd : bool) (cmp eqb : K -> K -> bool) (h : heap (K * V))
  (cs : list (VectorMap.mcall K V)) l d e m (dk : K -> text) (dv : V -> text),
  (0 < sz)%Z -> (0 < al)%Z -> VectorMapSpec.KeyOrder cmp eqb -> heap_wf h ->
  VectorMapSpec.spec_mcalls eqb (default_fits sz al) cs (VectorMapSpec.SMap [] 0) = (l, d, e, m) ->
  chk = true \/ forallb (VectorMapSpec.m_modest sz) cs = true -> no_commas dk -> no_commas dv -> no_colons dk ->
  exists s xs t, VectorMap.m_run (DefaultAllocator (K * V)) sz al chk nd cmp eqb cs (VectorMap.new_map h) = Some (l, s) /\
    xs ≡ₚ VectorMapSpec.entries m /\ vector_map_fmt sz dk dv (VectorMap.ms_v s) = Ok t (VectorMap.ms_v s) /\
    option_map (fun b => map key_value (plain_items b)) (between (lit "{") (lit "}") t) =
      Some (map (fun e => Some (dk (fst e), dv (snd e))) xs).
Proof. exact L_C102_vector_map. Qed.
Print Assumptions C102_vector_map.

Example C102_vector_map_case :
  match VectorMap.m_run (DefaultAllocator (Z * Z)) 16 8 true true Z.ltb Z.eqb [VectorMap.MInsert 7 70; VectorMap.MInsert 5 50; VectorMap.MInsert 6 60]%Z (VectorMap.new_map (Heap 0 ∅)) with
  | Some (_, s) => val (vector_map_fmt 16 number number (VectorMap.ms_v s)) = Some (lit "{5: 50,6: 60,7: 70}")
  | None => False
  end.
Proof. by vm_compute. Qed.
