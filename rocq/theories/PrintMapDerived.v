(** Proofs of the properties stated in PrintMapProps.v. *)
From Verif Require Import Base Heap Alloc AllocContract Print PrintSpec.
From Verif Require Vector VectorSpec VectorMap VectorMapSpec HashTable HashTableSpec RBTree RBTreeSpec.
Local Open Scope nat_scope.

From Verif Require Import PrintProofs.
From Verif Require ReadersSpec ReadersProofs VectorMapDerived HashTableDerived RBTreeDerived.

Lemma L_C102_hash_map :
forall (K V : Type) nsz nal eb chk hash eqb (h0 : heap (HashTable.tcell K V)) (dk : K -> text) (dv : V -> text),
  HashTableSpec.Setup nsz nal eb hash eqb h0 -> no_commas dk -> no_commas dv -> no_colons dk ->
  forall prog l s, HashTableSpec.built nsz nal eb chk hash eqb h0 prog l s ->
  exists t es, hash_map_fmt dk dv s = Ok t s /\ HashTableSpec.distinct eqb es /\
    (forall k e, (e ∈ es /\ eqb (fst e) k = true) <-> HashTable.get hash eqb k s = Ok (Some e) s) /\
    option_map (fun b => map key_value (plain_items b)) (between (lit "{") (lit "}") t) =
      Some (map (fun e => Some (dk (fst e), dv (snd e))) es).
Proof.
  intros K V nsz nal eb chk hash eqb h0 dk dv H1 N1 N2 C prog l s B.
  destruct (HashTableDerived.L_C40_iteration_yields_each_once K V nsz nal eb chk hash eqb h0 H1 prog l s B) as (es & E & D & G & _).
  cbn [HashTable.h_call] in E. unfold bind in E.
  destruct (HashTable.iter s) as [it s1|s1|] eqn:E1; [|done|done]. unfold gets in E.
  destruct (HashTable.iter_all (HashTable.fuel s1) it s1) as [es' s2|s2|] eqn:E2; [|done|done]. injection E as -> ->.
  eexists _, es. unfold hash_map_fmt, bind, gets. rewrite E1, E2. split; [done|]. split; [done|]. split; [done|]. by apply map_reads.
Qed.

Lemma L_C102_hash_set :
forall (K : Type) nsz nal eb chk hash eqb (h0 : heap (HashTable.tcell K unit)) (dk : K -> text),
  HashTableSpec.Setup nsz nal eb hash eqb h0 -> no_commas dk ->
  forall prog l s, HashTableSpec.built nsz nal eb chk hash eqb h0 prog l s ->
  exists t es, hash_set_fmt dk s = Ok t s /\ HashTableSpec.distinct eqb es /\
    (forall k e, (e ∈ es /\ eqb (fst e) k = true) <-> HashTable.get hash eqb k s = Ok (Some e) s) /\
    option_map plain_items (between (lit "{") (lit "}") t) = Some (map (fun e => dk (fst e)) es).
Proof.
  intros K nsz nal eb chk hash eqb h0 dk H1 N1 prog l s B.
  destruct (HashTableDerived.L_C40_iteration_yields_each_once K unit nsz nal eb chk hash eqb h0 H1 prog l s B) as (es & E & D & G & _).
  cbn [HashTable.h_call] in E. unfold bind in E.
  destruct (HashTable.iter s) as [it s1|s1|] eqn:E1; [|done|done]. unfold gets in E.
  destruct (HashTable.iter_all (HashTable.fuel s1) it s1) as [es' s2|s2|] eqn:E2; [|done|done]. injection E as -> ->.
  eexists _, es. unfold hash_set_fmt, HashTable.set_iter, bind, gets. rewrite E1, E2. split; [done|]. split; [done|]. split; [done|].
  rewrite between_ok. cbn [option_map]. rewrite plain_ok by done. by rewrite map_map.
Qed.

Lemma L_C102_map :
forall (A K V : Type) (lt : K -> K -> bool) (nsz : Z) (s : RBTree.tstate A K V) (t : RBTreeSpec.tree K V) (dk : K -> text) (dv : V -> text),
  RBTreeSpec.strict_weak_order lt -> (24 <= nsz)%Z -> RBTreeSpec.holds nsz s t -> RBTreeSpec.sorted lt t ->
  no_commas dk -> no_commas dv -> no_colons dk ->
  exists p, tree_map_fmt nsz dk dv s = Ok p s /\
    option_map (fun b => map key_value (plain_items b)) (between (lit "{") (lit "}") p) =
      Some (map (fun e => Some (dk (fst e), dv (snd e))) (RBTreeSpec.entries t)).
Proof.
  intros A K V lt nsz s t dk dv H1 H2 H3 H4 N1 N2 C.
  pose proof (RBTreeDerived.L_C66_programs_match_sorted_entries A K V lt nsz s t [RBTree.TIterAll] H1 H2 H3 H4) as X. cbn in X.
  destruct X as (s' & t' & R & _). cbn in R.
  pose proof (ReadersProofs.ro_t_call (A := A) nsz lt (RBTree.TIterAll : RBTree.tcall K V) eq_refl s) as Q. cbn [RBTree.t_call] in Q.
  unfold bind in R, Q. destruct (RBTree.t_iter_all nsz s) as [es s1|s1|] eqn:E; [|done|done]. cbn in R, Q. injection R as -> ->. subst s'.
  eexists. unfold tree_map_fmt, bind. rewrite E. split; [done|by apply map_reads].
Qed.

Lemma L_C102_vector_map :
forall (K V : Type) (sz al : Z) (chk nd : bool) (cmp eqb : K -> K -> bool) (h : heap (K * V))
  (cs : list (VectorMap.mcall K V)) l d e m (dk : K -> text) (dv : V -> text),
  (0 < sz)%Z -> (0 < al)%Z -> VectorMapSpec.KeyOrder cmp eqb -> heap_wf h ->
  VectorMapSpec.spec_mcalls eqb (default_fits sz al) cs (VectorMapSpec.SMap [] 0) = (l, d, e, m) ->
  chk = true \/ forallb (VectorMapSpec.m_modest sz) cs = true -> no_commas dk -> no_commas dv -> no_colons dk ->
  exists s xs t, VectorMap.m_run (DefaultAllocator (K * V)) sz al chk nd cmp eqb cs (VectorMap.new_map h) = Some (l, s) /\
    xs ≡ₚ VectorMapSpec.entries m /\ vector_map_fmt sz dk dv (VectorMap.ms_v s) = Ok t (VectorMap.ms_v s) /\
    option_map (fun b => map key_value (plain_items b)) (between (lit "{") (lit "}") t) =
      Some (map (fun e => Some (dk (fst e), dv (snd e))) xs).
Proof.
  intros K V sz al chk nd cmp eqb h cs l d e m dk dv H1 H2 H3 H4 H5 H6 N1 N2 C.
  destruct (VectorMapDerived.L_C25_map_refinement K V sz al chk nd cmp eqb h cs l d e m H1 H2 H3 H4 H5 H6) as (s & xs & E & S & P & _).
  exists s, xs. eexists. split; [done|]. split; [done|]. unfold vector_map_fmt, bind. rewrite S. split; [done|]. by apply map_reads.
Qed.
