(** Hash tables whose [Hash] and [Equals] answer anything or panic: what remains of
    the representation invariant, and the effect of each function on it. *)
From Verif Require Import Base Heap Alloc HeapLemmas VectorMap VectorMapProofs RehashPolicy RehashPolicyProofs HashTable HashTableSpec HashTableProofs HashAny.

Section any_proofs.
Context {K V : Type}.
Variables (nsz nal : Z) (eb : nat) (chk : bool).
Variable ho : nat -> K -> option Z.
Variable eo : nat -> K -> K -> option bool.
Hypothesis Hnsz : (0 < nsz)%Z.
Hypothesis Hlay : layout_ok nsz nal = true.

Notation tstate := (tstate K V).
Notation astate := (astate K V).
Notation thp := (heap (tcell K V)).
Notation enode := (nat * (K * V))%type.
Notation chain := (@chain K V nsz nal).
Notation nodeblk := (@nodeblk K V nsz nal).
Notation entries cs := (map (@snd nat (K * V)) (concat cs)).

Variable h0 : thp.
Hypothesis Hstat : static_ok eb h0.

(** The hash function never panics. *)
Definition total : Prop := forall n k, ho n k <> None.

(** ** Outcomes *)
Definition post {A} (o : outcome astate A) (Q : A -> tstate -> Prop) (P : tstate -> Prop) : Prop :=
  match o with Ok a s => Q a (fst s) | Panic s => P (fst s) | UB => False end.

Lemma post_bind {A B} (m : M astate A) (k : A -> M astate B) s Q' (Q : B -> tstate -> Prop) P :
  post (m s) Q' P -> (forall a s', Q' a (fst s') -> post (k a s') Q P) -> post (bind m k s) Q P.
Proof. unfold bind. destruct (m s); cbn; auto. Qed.

Lemma post_mono {A} (o : outcome astate A) (Q Q' : A -> tstate -> Prop) (P P' : tstate -> Prop) :
  post o Q P -> (forall a s, Q a s -> Q' a s) -> (forall s, P s -> P' s) -> post o Q' P'.
Proof. destruct o; cbn; auto. Qed.

Lemma post_lift {A B} (m : M tstate A) (k : A -> M astate B) s n a s1 Q P :
  m s = Ok a s1 -> post (k a (s1, n)) Q P -> post (bind (lift m) k (s, n)) Q P.
Proof. intros E H. unfold bind, lift. cbn [fst snd]. by rewrite E. Qed.

Lemma post_lift_last {A} (m : M tstate A) s n a s1 (Q : A -> tstate -> Prop) P : m s = Ok a s1 -> Q a s1 -> post (lift m (s, n)) Q P.
Proof. intros E H. unfold lift. cbn [fst snd]. by rewrite E. Qed.

Lemma post_gets {A B} (f : astate -> A) (k : A -> M astate B) s Q P : post (k (f s) s) Q P -> post (bind (gets f) k s) Q P.
Proof. done. Qed.

Lemma post_unwind {A} (m : M astate A) l s Q (P : tstate -> Prop) :
  post (m s) Q (fun s' => P (logged l s')) -> post (on_unwind (alogged l) m s) Q P.
Proof. unfold on_unwind. destruct (m s); done. Qed.

Lemma post_or_ub {A B} (o : option A) (k : A -> M astate B) s x Q P : o = Some x -> post (k x s) Q P -> post (bind (or_ub o) k s) Q P.
Proof. intros ->. done. Qed.

(** ** The invariant *)
Record WRep (s : tstate) (cs : list (list enode)) : Prop := {
  w_wf : heap_wf (t_h s);
  w_keep : forall b, is_Some (h_blk h0 !! b) -> h_blk (t_h s) !! b = h_blk h0 !! b;
  w_bc : t_bc s = Z.of_nat (length cs);
  w_ec : (0 <= t_ec s < u32_lim)%Z;
  w_arr : exists a ps by_, t_arr s = Ptr a 0 /\ Slots by_ (t_h s) a ps /\ Forall2 (chain (t_h s)) ps cs /\ a ∉ map fst (concat cs) /\
    ((a = eb /\ t_bc s = 1%Z /\ t_ec s = 0%Z /\ t_nr s = 0%Z /\ concat cs = []) \/ (h_blk h0 !! a = None /\ (1 < t_bc s)%Z));
  w_nodup : NoDup (map fst (concat cs));
  w_fresh : forall b, b ∈ map fst (concat cs) -> h_blk h0 !! b = None;
  w_total : total -> t_ec s = Z.of_nat (length (concat cs)) /\ exists g, in_stage g (t_bc s) (t_nr s) (t_ec s)
}.

Lemma W_eb s cs : WRep s cs -> eb ∉ map fst (concat cs).
Proof. intros R H. apply (w_fresh _ _ R) in H. unfold static_ok in Hstat. congruence. Qed.

Lemma W_pos s cs : WRep s cs -> 0 < length cs.
Proof. intros R. pose proof (w_bc _ _ R). destruct (w_arr _ _ R) as (? & ? & ? & _ & _ & _ & _ & [(_ & ? & _)|(_ & ?)]); lia. Qed.

Lemma W_logged s cs l : WRep s cs -> WRep (logged l s) cs.
Proof. intros []. by split. Qed.

Lemma W_NoDup s cs i c : WRep s cs -> cs !! i = Some c -> NoDup (map fst c).
Proof.
  intros R Hc. pose proof (w_nodup _ _ R) as ND.
  rewrite <- (take_drop_middle cs i c Hc), concat_app in ND. cbn [concat] in ND. rewrite !map_app in ND.
  apply NoDup_app in ND as (_ & _ & ND). by apply NoDup_app in ND as (ND & _).
Qed.

Lemma W_in s cs i c b : WRep s cs -> cs !! i = Some c -> b ∈ map fst c -> b ∈ map fst (concat cs).
Proof.
  intros R Hc Hb. apply elem_of_list_fmap in Hb as (e & -> & He). apply elem_of_list_fmap. exists e. split; [done|].
  by eapply chain_in_concat.
Qed.

Lemma W_new : heap_wf h0 -> WRep (ht_new eb h0 []) [[]].
Proof.
  intros W. unfold ht_new. split; cbn.
  - done.
  - done.
  - done.
  - unfold u32_lim. lia.
  - exists eb, [Null], (-1)%Z. split; [done|]. split; [exact Hstat|]. split; [by repeat constructor|]. split; [apply not_elem_of_nil|]. by left.
  - constructor.
  - intros b Hb. by apply elem_of_nil in Hb.
  - intros _. split; [done|]. exists (Stage 1 0 0). apply stage_start.
Qed.

(** A slot of the table. *)
Definition slot_in (s : tstate) (cs : list (list enode)) (p : ptr) : Prop :=
  exists a i, t_arr s = Ptr a 0 /\ p = Ptr a i /\ i < length cs.

Lemma hash_now_post k s : post (hash_now ho k s) (fun _ s' => s' = fst s) (fun s' => s' = fst s /\ ~ total).
Proof.
  unfold hash_now. destruct (ho (snd s) k) eqn:E; cbn; [done|]. split; [done|]. intros T. by apply (T _ _ E).
Qed.

Lemma bucket_index_post n k s : 0 < n ->
  post (a_bucket_index ho (Z.of_nat n) k s) (fun i s' => s' = fst s /\ i < n) (fun s' => s' = fst s /\ ~ total).
Proof.
  intros Hn. unfold a_bucket_index. eapply post_bind; [apply hash_now_post|]. intros z s' E.
  rewrite (proj2 (Z.eqb_neq _ _)) by lia. cbn. split; [done|]. pose proof (Z.mod_pos_bound z (Z.of_nat n)). lia.
Qed.

Lemma bucket_post s cs k n : WRep s cs ->
  post (a_bucket_for_key ho k (s, n)) (fun p s' => s' = s /\ slot_in s cs p) (fun s' => s' = s /\ ~ total) /\
  post (a_bucket_for_key_mut ho k (s, n)) (fun p s' => s' = s /\ slot_in s cs p) (fun s' => s' = s /\ ~ total).
Proof.
  intros R. pose proof (W_pos _ _ R) as Pos. destruct (w_arr _ _ R) as (a & ps & by_ & EA & E & F & _).
  pose proof (Forall2_length _ _ _ F) as L. pose proof (w_bc _ _ R) as EB.
  assert (HA : forall i, i < length cs -> hadd (t_h s) (t_arr s) i = Some (Ptr a i)).
  { intros i Hi. rewrite EA. apply (hadd_slots nsz nal Hlay _ _ _ _ _ E). lia. }
  split.
  - unfold a_bucket_for_key. apply post_gets. cbn [fst].
    assert (HS : hslice (t_h s) (t_arr s) (Z.to_nat (t_bc s)) = Some (map TSlot ps)).
    { rewrite EA, EB, Nat2Z.id, <- L, <- (map_length (@TSlot K V) ps). apply (hslice_ok _ _ _ _ _ E).
      - cbn. rewrite (slots_length nsz nal Hlay), map_length. lia.
      - rewrite drop_0. cbn [bk_cells]. unfold slots. rewrite take_app_alt by (by rewrite !map_length).
        unfold fmap, list_fmap. fold (map (@Some (tcell K V)) (map TSlot ps)). by rewrite map_map. }
    eapply post_or_ub; [exact HS|]. eapply post_bind; [rewrite EB; by apply bucket_index_post|].
    intros i s' [E' Hi]. cbn [fst] in E'. rewrite map_length, (proj2 (Nat.ltb_lt _ _)) by lia. rewrite HA by done. cbn.
    split; [done|]. by exists a, i.
  - unfold a_bucket_for_key_mut. apply post_gets. cbn [fst]. eapply post_bind; [rewrite EB; by apply bucket_index_post|].
    intros i s' [E' Hi]. cbn [fst] in E'. rewrite HA by done. cbn. split; [done|]. by exists a, i.
Qed.

Lemma equals_now_post a b s : post (equals_now eo a b s) (fun _ s' => s' = fst s) (fun s' => s' = fst s).
Proof. unfold equals_now. by destruct (eo (snd s) a b). Qed.

Lemma find_in_bucket_post k : forall l f p s n, chain (t_h s) p l -> length l < f ->
  post (a_find_in_bucket eo f p k (s, n))
    (fun o s' => s' = s /\ match o with None => True | Some q => exists l1 e l2, l = l1 ++ e :: l2 /\ q = Ptr (fst e) 0 end)
    (fun s' => s' = s).
Proof.
  induction l as [|e l IH]; intros f p s n C L; (destruct f as [|f]; [cbn in L; lia|]).
  - cbn in C. subst. done.
  - destruct C as (nx & -> & E & C). cbn [a_find_in_bucket]. eapply post_lift; [by apply (node_at_ok nsz nal)|].
    eapply post_bind; [apply equals_now_post|]. intros b [s' n'] Es. cbn [fst] in Es. subst s'. destruct b.
    + cbn. split; [done|]. by exists [], e, l.
    + eapply post_mono; [apply (IH f nx s n' C); cbn in L; lia| |done].
      intros o s' [-> H]. split; [done|]. destruct o as [q|]; [|done]. destruct H as (l1 & e' & l2 & -> & ->). by exists (e :: l1), e', l2.
Qed.

(** A node of the table, with its place. *)
Definition node_in (cs : list (list enode)) (p : ptr) : Prop :=
  exists i c1 b k v c2, cs !! i = Some (c1 ++ (b, (k, v)) :: c2) /\ p = Ptr b 0.

Lemma find_from_post s cs k p n : WRep s cs -> slot_in s cs p ->
  post (a_find_from eo p k (s, n)) (fun o s' => s' = s /\ match o with None => True | Some q => node_in cs q end) (fun s' => s' = s).
Proof.
  intros R (a & i & EA & -> & Li). destruct (w_arr _ _ R) as (a2 & ps & by_ & EA2 & E & F & _).
  rewrite EA in EA2. injection EA2 as <-. destruct (lookup_lt_is_Some_2 cs i Li) as [c Hc].
  destruct (Forall2_lookup_r _ _ _ _ _ F Hc) as (q & Hq & C).
  unfold a_find_from. eapply post_lift; [by eapply read_slot_ok|]. apply post_gets. cbn [fst].
  eapply post_mono; [apply find_in_bucket_post; [exact C|]| |done].
  - eapply chain_fuel; [done|apply (w_wf _ _ R)|exact C|]. by eapply W_NoDup.
  - intros o s' [-> H]. split; [done|]. destruct o as [x|]; [|done]. destruct H as (l1 & [b [k0 v]] & l2 & -> & ->).
    by exists i, l1, b, k0, v, l2.
Qed.

(** ** Replacing one bucket *)
Lemma W_bucket s cs (s' : tstate) i c c' ps ps' by_ a :
  WRep s cs -> cs !! i = Some c -> t_arr s = Ptr a 0 -> Slots by_ (t_h s) a ps -> Forall2 (chain (t_h s)) ps cs ->
  a ∉ map fst (concat cs) -> h_blk h0 !! a = None -> (1 < t_bc s)%Z ->
  t_arr s' = t_arr s -> t_bc s' = t_bc s ->
  heap_wf (t_h s') -> Slots by_ (t_h s') a ps' -> length ps' = length ps -> (forall j, j <> i -> ps' !! j = ps !! j) ->
  (exists p', ps' !! i = Some p' /\ chain (t_h s') p' c') ->
  (forall b, b ∉ a :: map fst c ++ map fst c' -> h_blk (t_h s') !! b = h_blk (t_h s) !! b) ->
  (forall b, b ∈ map fst c' -> b ∉ map fst c -> h_blk h0 !! b = None /\ b <> a /\ b ∉ map fst (concat cs)) ->
  NoDup (map fst c') -> (0 <= t_ec s' < u32_lim)%Z ->
  (total -> t_ec s' = Z.of_nat (length (concat (<[i := c']> cs))) /\ exists g, in_stage g (t_bc s') (t_nr s') (t_ec s')) ->
  WRep s' (<[i := c']> cs).
Proof.
  intros R Hc EA E F Ia Ha0 B1 EA' EB' W' S' Lp' Op (p' & Hp' & Cp') FR NEW NDc' EC TOT.
  pose proof (w_nodup _ _ R) as NDi.
  pose proof (fun x => W_in _ _ _ _ x R Hc) as INC.
  pose proof (lookup_lt_Some _ _ _ Hc) as Li.
  assert (CD : forall x, x ∈ map fst c' -> x <> a).
  { intros x Hx ->. destruct (decide (a ∈ map fst c)) as [I|I]; [by apply Ia, INC|]. by destruct (NEW a Hx I) as (_ & ? & _). }
  assert (MEM : forall x, x ∈ map fst (concat (<[i := c']> cs)) -> x ∈ map fst c' \/ exists j cj, j <> i /\ cs !! j = Some cj /\ x ∈ map fst cj).
  { intros x Hx. apply elem_of_list_fmap in Hx as (e & -> & He). destruct (concat_insert_mem _ _ _ _ _ Hc He) as [H|(j & cj & N & Hj & He')].
    - left. apply elem_of_list_fmap. eauto.
    - right. exists j, cj. split; [done|]. split; [done|]. apply elem_of_list_fmap. eauto. }
  assert (OTH : forall j cj x, j <> i -> cs !! j = Some cj -> x ∈ map fst cj -> x ∈ map fst (concat cs) /\ x ∉ map fst c /\ x ∉ map fst c').
  { intros j cj x N Hj Hx. assert (X : x ∈ map fst (concat cs)) by (by eapply (W_in _ _ j)).
    assert (Y : x ∉ map fst c) by (intros H; by eapply (other_bucket nsz nal Hlay cs i j)).
    split; [done|]. split; [done|]. intros H. by destruct (NEW x H Y) as (_ & _ & Z). }
  split.
  - done.
  - intros b Hb. rewrite FR; [by apply (w_keep _ _ R)|]. destruct Hb as [bk Hb].
    rewrite not_elem_of_cons, not_elem_of_app. split; [congruence|].
    assert (N : b ∉ map fst c) by (intros H; apply INC, (w_fresh _ _ R) in H; congruence).
    split; [done|]. intros H. destruct (NEW b H N) as (Z & _). congruence.
  - rewrite EB', insert_length. apply (w_bc _ _ R).
  - done.
  - exists a, ps', by_. split; [congruence|]. split; [done|]. split; [|split].
    + apply Forall2_same_length_lookup_2.
      * rewrite insert_length, Lp'. by eapply Forall2_length.
      * intros j x y Hx Hy. destruct (decide (j = i)) as [->|Nj].
        -- rewrite list_lookup_insert in Hy by done. simplify_eq. done.
        -- rewrite list_lookup_insert_ne in Hy by done. rewrite Op in Hx by done.
           pose proof (Forall2_lookup_lr _ _ _ _ _ _ F Hx Hy) as Cj. eapply chain_frame; [exact Cj|].
           intros z Hz. destruct (OTH j y z Nj Hy Hz) as (O1 & O2 & O3). apply FR.
           rewrite not_elem_of_cons, not_elem_of_app. split; [|done]. intros ->. done.
    + intros H. destruct (MEM a H) as [H'|(j & cj & N & Hj & H')]; [by apply (CD a)|]. by destruct (OTH j cj a N Hj H').
    + right. split; [done|]. lia.
  - rewrite insert_take_drop by done. rewrite concat_app. cbn [concat]. rewrite !map_app.
    assert (map fst (concat (take i cs)) ++ map fst c' ++ map fst (concat (drop (S i) cs)) ≡ₚ map fst c' ++ map fst (concat (take i cs) ++ concat (drop (S i) cs))) as ->
      by (rewrite map_app; solve_Permutation).
    rewrite <- concat_app.
    assert (SUB : forall x, x ∈ map fst (concat (take i cs ++ drop (S i) cs)) -> exists j cj, j <> i /\ cs !! j = Some cj /\ x ∈ map fst cj).
    { intros x Hx. apply elem_of_list_fmap in Hx as (e & -> & He). apply elem_of_list_In, in_concat in He as (cj & Hj & He).
      rewrite <- !elem_of_list_In in *. apply elem_of_app in Hj as [Hj|Hj]; apply elem_of_list_lookup in Hj as [j Hj].
      - assert (j < i) by (apply lookup_lt_Some in Hj; rewrite take_length in Hj; lia).
        rewrite lookup_take in Hj by done. exists j, cj. split; [lia|]. split; [done|]. apply elem_of_list_fmap. eauto.
      - rewrite lookup_drop in Hj. exists (S i + j), cj. split; [lia|]. split; [done|]. apply elem_of_list_fmap. eauto. }
    apply NoDup_app. split; [done|]. split.
    + intros x Hx Hx'. destruct (SUB x Hx') as (j & cj & Nj & Hj & Hxj). by destruct (OTH j cj x Nj Hj Hxj) as (_ & _ & ?).
    + rewrite <- (take_drop_middle cs i c Hc), concat_app in NDi. cbn [concat] in NDi. rewrite !map_app in NDi.
      rewrite concat_app, map_app.
      apply NoDup_app in NDi as (N1 & N2 & N3). apply NoDup_app in N3 as (_ & _ & N4).
      apply NoDup_app. split; [done|]. split; [|done]. intros x Hx Hx'. apply (N2 x Hx). rewrite elem_of_app. by right.
  - intros x Hx. destruct (MEM x Hx) as [H|(j & cj & Nj & Hj & H)].
    + destruct (decide (x ∈ map fst c)) as [I|I]; [by apply (w_fresh _ _ R), INC|]. by apply (NEW x H I).
    + apply (w_fresh _ _ R). by destruct (OTH j cj x Nj Hj H) as (? & _).
  - exact TOT.
Qed.

(** A table with a node owns its array. *)
Lemma W_own s cs i c e : WRep s cs -> cs !! i = Some c -> e ∈ c ->
  exists a ps by_, t_arr s = Ptr a 0 /\ Slots by_ (t_h s) a ps /\ Forall2 (chain (t_h s)) ps cs /\ a ∉ map fst (concat cs) /\
    h_blk h0 !! a = None /\ (1 < t_bc s)%Z.
Proof.
  intros R Hc He. destruct (w_arr _ _ R) as (a & ps & by_ & EA & E & F & Ia & [(_ & _ & _ & _ & Z)|(H1 & H2)]).
  - exfalso. pose proof (chain_in_concat _ _ _ _ Hc He) as H. rewrite Z in H. by apply elem_of_nil in H.
  - by exists a, ps, by_.
Qed.

Lemma W_update s cs i c1 b k0 v c2 : WRep s cs -> cs !! i = Some (c1 ++ (b, (k0, v)) :: c2) ->
  exists nx, node_at (Ptr b 0) s = Ok (k0, v, nx) s /\ forall v',
    let s' := with_h s (hset (t_h s) b (nodeblk k0 v' nx)) in
    store eb (Ptr b 0) (TNode k0 v' nx) s = Ok tt s' /\
    WRep s' (<[i := c1 ++ (b, (k0, v')) :: c2]> cs) /\ node_at (Ptr b 0) s' = Ok (k0, v', nx) s' /\
    concat cs = (concat (take i cs) ++ c1) ++ (b, (k0, v)) :: (c2 ++ concat (drop (S i) cs)) /\
    concat (<[i := c1 ++ (b, (k0, v')) :: c2]> cs) = (concat (take i cs) ++ c1) ++ (b, (k0, v')) :: (c2 ++ concat (drop (S i) cs)).
Proof.
  intros R Hc. set (c := c1 ++ (b, (k0, v)) :: c2) in *.
  assert (Ie : (b, (k0, v)) ∈ c) by (unfold c; rewrite elem_of_app; right; left).
  destruct (W_own _ _ _ _ _ R Hc Ie) as (a & ps & by_ & EA & E & F & Ia & Ha0 & B1).
  destruct (Forall2_lookup_r _ _ _ _ _ F Hc) as (p & Hp & C).
  pose proof (W_NoDup _ _ _ _ R Hc) as NDc.
  destruct (chain_upd _ _ _ _ _ _ _ _ _ C NDc) as (nx & Eb & CH).
  exists nx. split; [by apply (node_at_ok nsz nal)|]. intros v' s'.
  assert (Ib0 : b ∈ map fst c) by (apply elem_of_list_fmap; by exists (b, (k0, v))).
  assert (Ib : b ∈ map fst (concat cs)) by (by eapply W_in).
  assert (Nb : b <> eb) by (intros ->; by apply (W_eb _ _ R)).
  assert (Na : b <> a) by (intros ->; done).
  pose proof (lookup_lt_Some _ _ _ Hc) as Li.
  assert (C0 : concat cs = (concat (take i cs) ++ c1) ++ (b, (k0, v)) :: (c2 ++ concat (drop (S i) cs))).
  { rewrite <- (take_drop_middle cs i c Hc) at 1. rewrite concat_app. cbn [concat]. unfold c. rewrite <- !app_assoc. done. }
  assert (C1 : concat (<[i := c1 ++ (b, (k0, v')) :: c2]> cs) = (concat (take i cs) ++ c1) ++ (b, (k0, v')) :: (c2 ++ concat (drop (S i) cs))).
  { rewrite insert_take_drop by done. rewrite concat_app. cbn [concat]. rewrite <- !app_assoc. done. }
  assert (OB : forall x, x <> b -> h_blk (t_h s') !! x = h_blk (t_h s) !! x).
  { intros x Hx. cbn. by rewrite lookup_insert_ne. }
  assert (IDS : map fst (c1 ++ (b, (k0, v')) :: c2) = map fst c) by (unfold c; by rewrite !map_app).
  split; [by apply (store_node_ok nsz nal eb Hlay s b _ _ _ _ Eb)|]. split; [|split; [|done]].
  2: { apply (node_at_ok nsz nal). cbn. by rewrite lookup_insert. }
  eapply (W_bucket s cs s' i c _ ps ps by_ a); try done.
  - apply wf_hset; [apply (w_wf _ _ R)|by eexists].
  - unfold Slots. rewrite OB by done. exact E.
  - exists p. split; [done|]. apply CH.
  - intros x Hx. apply OB. intros ->. apply Hx. rewrite elem_of_cons, elem_of_app. tauto.
  - rewrite IDS. done.
  - rewrite IDS. done.
  - apply (w_ec _ _ R).
  - intros T. destruct (w_total _ _ R T) as (TE & TG). cbn [t_ec t_bc t_nr with_h s']. split; [|done]. rewrite TE, C1, C0, !app_length. done.
Qed.

(** ** Adding a node *)
Lemma W_push s cs p k v ec : WRep s cs -> (1 < t_bc s)%Z -> slot_in s cs p -> u32 chk (t_ec s + 1) (tt : unit) = Ok ec tt ->
  (total -> exists g, in_stage g (t_bc s) (t_nr s) (t_ec s + 1)) ->
  exists b sA s' cs', allocate nsz nal 1 s = Ok (Ptr b 0) sA /\
    (do nx <- read_slot p;
     run store eb (Ptr b 0) (TNode k v nx);
     run write_slot eb p (Ptr b 0);
     do s <- gets id;
     do ec <- u32 chk (t_ec s + 1);
     run set_ec ec;
     ret (Ptr b 0)) sA = Ok (Ptr b 0) s' /\
    WRep s' cs' /\ concat cs' ≡ₚ (b, (k, v)) :: concat cs /\ t_drops s' = t_drops s /\
    exists nx, node_at (Ptr b 0) s' = Ok (k, v, nx) s'.
Proof.
  intros R B1 (a & i & EA & -> & Li) UE G.
  destruct (w_arr _ _ R) as (a2 & ps & by_ & EA2 & E & F & Da & [(_ & ? & _)|(Ha0 & _)]); [lia|].
  rewrite EA in EA2. injection EA2 as <-.
  destruct (lookup_lt_is_Some_2 cs i Li) as [c Hc].
  destruct (Forall2_lookup_r _ _ _ _ _ F Hc) as (p & Hp & C).
  pose proof (w_wf _ _ R) as W.
  set (b := h_next (t_h s)).
  assert (Fb : h_blk (t_h s) !! b = None) by (by apply wf_fresh).
  assert (Nab : a <> b) by (intros ->; unfold Slots in E; congruence).
  assert (Ncb : b ∉ map fst (concat cs)).
  { intros H. destruct (chains_live _ _ _ _ _ _ F H) as [x Hx]. congruence. }
  assert (Fb0 : h_blk h0 !! b = None).
  { destruct (h_blk h0 !! b) eqn:Q; [|done]. rewrite (w_keep _ _ R) in Fb by eauto. congruence. }
  assert (Neb : b <> eb) by (intros Q; unfold static_ok in Hstat; rewrite <- Q in Hstat; congruence).
  assert (Naeb : a <> eb) by (intros Q; unfold static_ok in Hstat; rewrite <- Q in Hstat; congruence).
  pose proof (lookup_lt_Some _ _ _ Hp) as Lip.
  set (h1 := halloc (t_h s) (Block nsz nal [None])).
  set (h2 := hset h1 b (nodeblk k v p)).
  set (h3 := hset h2 a (Block by_ 8 (slots (<[i := Ptr b 0]> ps)))).
  set (sA := with_h s h1).
  set (s' := TState (t_arr s) (t_bc s) ec (t_nr s) h3 (t_drops s)).
  assert (E1 : Slots by_ h1 a ps).
  { unfold Slots, h1. cbn. rewrite lookup_insert_ne by done. exact E. }
  assert (E2 : Slots by_ h2 a ps).
  { unfold Slots, h2. cbn. rewrite lookup_insert_ne by done. exact E1. }
  assert (Lb : forall x, x <> a -> x <> b -> h_blk h3 !! x = h_blk (t_h s) !! x).
  { intros x X1 X2. unfold h3, h2, h1. cbn. by rewrite !lookup_insert_ne. }
  assert (Bb : h_blk h3 !! b = Some (nodeblk k v p)).
  { unfold h3, h2. cbn. rewrite lookup_insert_ne by done. by rewrite lookup_insert. }
  assert (UE' : forall {T} (x : T), u32 chk (t_ec s + 1) x = Ok ec x).
  { intros T x. revert UE. unfold u32. repeat case_match; unfold ret, panic; intros; by simplify_eq. }
  assert (UB : (0 <= ec < u32_lim)%Z /\ (t_ec s + 1 < u32_lim -> ec = t_ec s + 1)%Z).
  { pose proof (w_ec _ _ R). revert UE. unfold u32. destruct ((0 <=? t_ec s + 1)%Z && (t_ec s + 1 <? u32_lim)%Z) eqn:Q.
    - unfold ret. intros [=<-]. lia.
    - destruct chk; [done|]. unfold ret. intros [=<-]. split; [apply Z.mod_pos_bound; unfold u32_lim; lia|]. lia. }
  destruct UB as [U1 U2].
  exists b, sA, s', (<[i := (b, (k, v)) :: c]> cs). split; [by apply alloc_node_ok|]. split.
  { unfold bind at 1. rewrite (read_slot_ok by_ sA a ps i p E1 Hp).
    unfold bind at 1. rewrite (store_node_ok nsz nal eb Hlay sA b nsz nal None (TNode k v p)); [|unfold sA, h1; cbn; by rewrite lookup_insert|done].
    unfold bind at 1. rewrite (write_slot_ok nsz nal eb Hlay by_ _ a ps i (Ptr b 0)); [|exact E2|done|done].
    unfold bind at 1, gets at 1. cbn [id t_ec with_h]. unfold bind at 1.
    assert (t_ec sA = t_ec s) as -> by done.
    rewrite UE'. done. }
  assert (PM2 : concat (<[i := (b, (k, v)) :: c]> cs) ≡ₚ (b, (k, v)) :: concat cs).
  { rewrite <- (take_drop_middle cs i c Hc) at 2. rewrite insert_take_drop by done. rewrite !concat_app. cbn [concat app].
    solve_Permutation. }
  assert (NEWb : b ∉ map fst c) by (intros H; apply Ncb; by eapply W_in).
  split.
  { eapply (W_bucket s cs s' i c ((b, (k, v)) :: c) ps (<[i := Ptr b 0]> ps) by_ a).
    - done.
    - done.
    - done.
    - done.
    - done.
    - done.
    - done.
    - done.
    - done.
    - done.
    - intros x Hx. cbn. destruct (decide (x = b)) as [->|X1]; [unfold b; lia|].
      destruct (decide (x = a)) as [->|X2].
      + assert (a < h_next (t_h s)) by (apply W; unfold Slots in E; by rewrite E). lia.
      + unfold s' in Hx. cbn [t_h] in Hx. rewrite Lb in Hx by done. apply W in Hx. lia.
    - unfold Slots. cbn. by rewrite lookup_insert.
    - by rewrite insert_length.
    - intros j Nj. by rewrite list_lookup_insert_ne.
    - exists (Ptr b 0). split; [by rewrite list_lookup_insert|]. exists p. split; [done|]. split; [exact Bb|].
      eapply chain_frame; [exact C|]. intros x Hx. apply Lb.
      + intros ->. apply Da. by eapply W_in.
      + intros ->. done.
    - intros x Hx. rewrite not_elem_of_cons, not_elem_of_app in Hx. destruct Hx as (X1 & X2 & X3).
      cbn in X3. rewrite not_elem_of_cons in X3. apply Lb; tauto.
    - intros x Hx Hn. cbn in Hx. apply elem_of_cons in Hx as [->|Hx]; done.
    - cbn. apply NoDup_cons. split; [done|]. by eapply W_NoDup.
    - done.
    - intros T. destruct (w_total _ _ R T) as [TE _]. destruct (G T) as [g Gg]. cbn [s' t_ec t_bc t_nr].
      assert (ec = t_ec s + 1)%Z as ->.
      { apply U2. pose proof (stage_limit _ _ _ _ Gg). unfold grow_limit, u32_lim in *. lia. }
      split; [|by exists g]. rewrite (Permutation_length PM2). cbn [length]. lia. }
  split; [exact PM2|]. split; [done|]. exists p. by apply (node_at_ok nsz nal).
Qed.

(** ** Removing a node *)
Lemma find_place_post k : forall l f a p s n, chain (t_h s) p l -> read_place a s = Ok p s -> length l < f ->
  post (a_find_place eo f a k (s, n))
    (fun pl s' => s' = s /\ exists c1 c2 q, pl = last_place a c1 /\ l = c1 ++ c2 /\ read_place pl s = Ok q s /\ chain (t_h s) q c2)
    (fun s' => s' = s).
Proof.
  induction l as [|e l IH]; intros f a p s n C RP L; (destruct f as [|f]; [cbn in L; lia|]); cbn [a_find_place].
  - cbn in C. subst. eapply post_lift; [exact RP|]. cbn. split; [done|]. by exists [], [], Null.
  - pose proof C as C'. destruct C as (nx & -> & E & C). eapply post_lift; [exact RP|].
    eapply post_lift; [by apply (node_at_ok nsz nal)|].
    eapply post_bind; [apply equals_now_post|]. intros b [s' n'] Es. cbn [fst] in Es. subst s'. destruct b.
    + cbn. split; [done|]. by exists [], (e :: l), (Ptr (fst e) 0).
    + eapply post_mono; [apply (IH f (ANext (Ptr (fst e) 0)) nx s n' C)| |done].
      * cbn. unfold bind at 1. by rewrite (node_at_ok nsz nal _ _ _ _ _ E).
      * cbn in L. lia.
      * intros pl s' (-> & c1 & c2 & q & -> & -> & RP' & C2). split; [done|]. exists (e :: c1), c2, q.
        assert (LP : last_place a (e :: c1) = last_place (ANext (Ptr (fst e) 0)) c1).
        { unfold last_place. rewrite last_cons. by destruct (last c1). }
        rewrite LP. done.
Qed.

Lemma W_unlink s cs i c1 b k v c2 a ps by_ : WRep s cs ->
  Slots by_ (t_h s) a ps -> Forall2 (chain (t_h s)) ps cs -> a ∉ map fst (concat cs) -> a <> eb ->
  cs !! i = Some (c1 ++ (b, (k, v)) :: c2) ->
  exists nx h1 ps1, node_at (Ptr b 0) s = Ok (k, v, nx) s /\
    write_place eb (last_place (ASlot (Ptr a i)) c1) nx s = Ok tt (with_h s h1) /\
    h_blk h1 !! b = Some (nodeblk k v nx) /\
    frame (a :: map fst c1) (t_h s) h1 /\ Slots by_ h1 a ps1 /\ length ps1 = length ps /\ (forall j, j <> i -> ps1 !! j = ps !! j) /\
    exists p1, ps1 !! i = Some p1 /\ chain h1 p1 (c1 ++ c2).
Proof.
  intros R E F Da Na Hc.
  destruct (Forall2_lookup_r _ _ _ _ _ F Hc) as (p & Hp & C).
  pose proof (W_NoDup _ _ _ _ R Hc) as NDc.
  pose proof (lookup_lt_Some _ _ _ Hp) as Lip.
  pose proof (fun x => W_in _ _ _ _ x R Hc) as INC.
  destruct c1 as [|d c1' _] using rev_ind.
  - cbn [app] in *. destruct C as (nx & -> & Eb & C). cbn [fst snd] in Eb.
    exists nx, (hset (t_h s) a (Block by_ 8 (slots (<[i := nx]> ps)))), (<[i := nx]> ps).
    split; [by apply (node_at_ok nsz nal)|]. split.
    { cbn. by apply (write_slot_ok nsz nal eb Hlay). }
    assert (Nba : b <> a) by (intros ->; apply Da, INC; left).
    split; [cbn; by rewrite lookup_insert_ne|]. split; [apply frame_hset; left|].
    split; [unfold Slots; cbn; by rewrite lookup_insert|]. split; [by rewrite insert_length|].
    split; [intros j Nj; by rewrite list_lookup_insert_ne|]. exists nx. split; [by rewrite list_lookup_insert|].
    eapply chain_frame; [exact C|]. intros x Hx. cbn. rewrite lookup_insert_ne; [done|].
    intros <-. apply Da, INC. cbn. by right.
  - rewrite <- app_assoc in C, NDc. cbn [app] in C, NDc.
    destruct (chain_unlink _ _ _ _ _ _ _ _ _ _ C NDc) as (nx & Eb & Ed & C').
    assert (Id : fst d ∈ map fst (concat cs)).
    { apply INC. rewrite map_app, map_app, !elem_of_app. left. right. left. }
    assert (Nde : fst d <> eb) by (intros H; apply (W_eb _ _ R); by rewrite <- H).
    assert (Nda : fst d <> a) by (intros H; rewrite H in Id; done).
    assert (Ndb : fst d <> b).
    { intros H. rewrite map_app in NDc. apply NoDup_app in NDc as (_ & _ & N). cbn in N. apply NoDup_cons in N as [N _]. apply N. rewrite H. left. }
    exists nx, (hset (t_h s) (fst d) (nodeblk (fst (snd d)) (snd (snd d)) nx)), ps.
    split; [by apply (node_at_ok nsz nal)|]. split.
    { unfold last_place. rewrite last_snoc. cbn [write_place]. unfold bind at 1. rewrite (node_at_ok nsz nal _ _ _ _ _ Ed).
      by rewrite (store_node_ok nsz nal eb Hlay _ _ _ _ _ _ Ed Nde). }
    split; [cbn; by rewrite lookup_insert_ne|]. split; [apply frame_hset; rewrite map_app; right; rewrite elem_of_app; right; left|].
    split; [unfold Slots; cbn; by rewrite lookup_insert_ne|]. split; [done|]. split; [done|]. exists p. split; [done|].
    by rewrite <- app_assoc.
Qed.

Lemma u32_cases {S} (r : Z) (s : S) :
  u32 chk r s = Panic s \/ exists e, u32 chk r s = Ok e s /\ (0 <= e < u32_lim)%Z /\ ((0 <= r < u32_lim)%Z -> e = r).
Proof.
  unfold u32. destruct ((0 <=? r)%Z && (r <? u32_lim)%Z) eqn:Q.
  - right. exists r. split; [done|]. split; [lia|done].
  - destruct chk; [by left|]. right. exists (r mod u32_lim)%Z. split; [done|].
    split; [apply Z.mod_pos_bound; unfold u32_lim; lia|]. lia.
Qed.

(** What [remove_entry] does: a panic while the key is sought changes nothing. *)
Lemma remove_entry_post s cs k n : WRep s cs ->
  post (a_remove_entry nsz nal eb chk ho eo k (s, n))
    (fun o s' => match o with
       | None => s' = s
       | Some kv => exists b cs', WRep s' cs' /\ concat cs ≡ₚ (b, kv) :: concat cs' /\ t_drops s' = t_drops s
       end)
    (fun s' => s' = s \/ exists b kv cs', ~ total /\ WRep s' cs' /\ concat cs ≡ₚ (b, kv) :: concat cs' /\
       t_drops s' = t_drops s ++ [inr (snd kv); inl (fst kv)]).
Proof.
  intros R. unfold a_remove_entry.
  eapply post_bind; [eapply post_mono; [exact (proj2 (bucket_post s cs k n R))|intros ? ? H; exact H|]|].
  { intros s' [-> _]. by left. }
  intros p [s1 n1] [E1 (a & i & EA & -> & Li)]. cbn [fst] in E1. subst s1. apply post_gets. cbn [fst].
  destruct (w_arr _ _ R) as (a2 & ps & by_ & EA2 & E & F & Da & OR). rewrite EA in EA2. injection EA2 as <-.
  destruct (lookup_lt_is_Some_2 cs i Li) as [c Hc].
  destruct (Forall2_lookup_r _ _ _ _ _ F Hc) as (q & Hq & C).
  pose proof (W_NoDup _ _ _ _ R Hc) as NDc.
  eapply post_bind; [eapply post_mono; [apply (find_place_post k c (fuel s) (ASlot (Ptr a i)) q s n1 C)|intros ? ? H; exact H|]|].
  { cbn. by eapply read_slot_ok. }
  { eapply chain_fuel; [done|apply (w_wf _ _ R)|exact C|done]. }
  { intros s' ->. by left. }
  intros pl [s1 n2] (E1 & c1 & c2 & x & -> & -> & RP & C2). cbn [fst] in E1. subst s1.
  destruct c2 as [|[b [k0 v]] c2].
  { cbn in C2. subst x. eapply (post_lift_last _ _ _ None s); [|done]. unfold bind at 1. by rewrite RP. }
  assert (Ie : (b, (k0, v)) ∈ c1 ++ (b, (k0, v)) :: c2) by (rewrite elem_of_app; right; left).
  destruct OR as [(_ & _ & _ & _ & Z)|(Ha0 & B1)].
  { exfalso. pose proof (chain_in_concat _ _ _ _ Hc Ie) as H. rewrite Z in H. by apply elem_of_nil in H. }
  assert (Na : a <> eb) by (intros ->; unfold static_ok in Hstat; congruence).
  destruct (W_unlink _ _ _ _ _ _ _ _ _ _ _ R E F Da Na Hc) as (nx & h1 & ps1 & NAT & WP & Eb1 & FR & S1 & L1 & O1 & p1 & Hp1 & C1).
  assert (Ib : b ∈ map fst (concat cs)) by (eapply (W_in _ _ i); [done|exact Hc|]; apply elem_of_list_fmap; by exists (b, (k0, v))).
  assert (Nab : a <> b) by (intros ->; done).
  pose proof (concat_delete_perm _ _ _ _ _ Hc) as PM.
  assert (Nb12 : b ∉ map fst (c1 ++ c2)).
  { rewrite map_app. rewrite map_app in NDc. cbn in NDc.
    assert (map fst c1 ++ b :: map fst c2 ≡ₚ b :: map fst c1 ++ map fst c2) as X by solve_Permutation.
    rewrite X in NDc. apply NoDup_cons in NDc as [N _]. exact N. }
  assert (WR : forall ec d, (0 <= ec < u32_lim)%Z -> (total -> ec = t_ec s - 1)%Z ->
    WRep (TState (t_arr s) (t_bc s) ec (t_nr s) (hdel h1 b) d) (<[i := c1 ++ c2]> cs)).
  { intros ec d EC TE. set (s' := TState _ _ _ _ _ _).
    eapply (W_bucket s cs s' i _ (c1 ++ c2) ps ps1 by_ a).
    - done.
    - done.
    - done.
    - done.
    - done.
    - done.
    - done.
    - done.
    - done.
    - done.
    - intros y Hx. cbn. unfold s' in Hx. cbn [t_h hdel h_blk] in Hx.
      destruct (decide (y = b)) as [->|X]; [rewrite lookup_delete in Hx; by destruct Hx|]. rewrite lookup_delete_ne in Hx by done.
      assert (W1 : heap_wf h1); [|by apply W1].
      eapply frame_wf; [apply (w_wf _ _ R)|exact FR|]. intros z [->|Hy]%elem_of_cons.
      + unfold Slots in E. rewrite E. eauto.
      + eapply chains_live; [exact F|]. eapply (W_in _ _ i); [done|exact Hc|]. rewrite map_app, elem_of_app. by left.
    - unfold Slots, s'. cbn. by rewrite lookup_delete_ne.
    - done.
    - done.
    - exists p1. split; [done|]. eapply chain_frame; [exact C1|]. intros y Hx. cbn. rewrite lookup_delete_ne; [done|]. intros <-. done.
    - intros y Hx. rewrite not_elem_of_cons, not_elem_of_app in Hx. destruct Hx as (X1 & X2 & X3). cbn.
      rewrite map_app, not_elem_of_app in X2. cbn in X2. rewrite not_elem_of_cons in X2.
      rewrite lookup_delete_ne by (intros ->; tauto). apply FR. rewrite not_elem_of_cons. tauto.
    - intros y Hx Hn. exfalso. apply Hn. rewrite map_app, elem_of_app in Hx. rewrite map_app, elem_of_app. cbn. rewrite elem_of_cons. tauto.
    - rewrite map_app in NDc |- *. cbn in NDc. apply NoDup_app in NDc as (A1 & A2 & A3). apply NoDup_cons in A3 as [_ A3].
      apply NoDup_app. split; [done|]. split; [|done]. intros y Hx Hx'. apply (A2 y Hx). by right.
    - done.
    - intros T. destruct (w_total _ _ R T) as (EC1 & g & G). cbn [s' t_ec t_bc t_nr]. rewrite (TE T).
      rewrite (Permutation_length PM) in EC1. cbn [length] in EC1. split; [lia|]. exists g. apply (stage_down nsz nal Hlay); [exact G|lia]. }
  rewrite (chain_head _ _ _ _ _ _ C2) in *. cbn [fst] in *.
  unfold lift. cbn [fst snd]. unfold bind at 1. rewrite RP. unfold bind at 1. rewrite NAT. unfold bind at 1. rewrite WP.
  unfold bind at 1. rewrite (free_node_ok nsz nal Hlay (with_h s h1) _ _ _ _ Eb1).
  unfold bind at 1, gets at 1. cbn [id]. unfold bind at 1. cbn [t_ec with_h]. unfold on_unwind.
  assert (TEC : total -> (0 < t_ec s)%Z).
  { intros T. destruct (w_total _ _ R T) as (EC1 & _). rewrite (Permutation_length PM) in EC1. cbn in EC1. lia. }
  destruct (u32_cases (t_ec s - 1) (with_h (with_h s h1) (hdel h1 b))) as [U|(ec & U & UR & UE)]; cbn [t_h with_h] in U; cbn [t_h with_h]; rewrite U.
  - cbn. right. exists b, (k0, v), (<[i := c1 ++ c2]> cs).
    assert (NT : ~ total).
    { intros T. pose proof (TEC T). pose proof (w_ec _ _ R). rewrite u32_ok in U by lia. done. }
    split; [done|]. split; [|done]. unfold logged. cbn. apply WR; [apply (w_ec _ _ R)|done].
  - cbn. exists b, (<[i := c1 ++ c2]> cs). split; [|done]. apply WR; [done|]. intros T. apply UE. pose proof (TEC T). pose proof (w_ec _ _ R). lia.
Qed.

(** ** Emptying and iterating *)
Lemma W_free s cs : WRep s cs ->
  exists h', free_buckets nsz nal eb s = Ok tt (with_hd s h' (t_drops s ++ dropped cs)) /\
    WRep (TState (t_arr s) (t_bc s) 0 (t_nr s) h' (t_drops s ++ dropped cs)) (replicate (length cs) []).
Proof.
  intros R. destruct (w_arr _ _ R) as (a & ps & by_ & EA & E & F & Da & OR).
  pose proof (Forall2_length _ _ _ F) as L. pose proof (w_bc _ _ R) as EB.
  destruct OR as [(-> & B1 & B2 & B3 & Z)|(Ha0 & B1)].
  - exists (t_h s). assert (LC : length cs = 1) by lia. destruct cs as [|c [|? ?]]; try done. cbn in Z. rewrite app_nil_r in Z. subst c.
    cbn. rewrite app_nil_r. split.
    { unfold free_buckets. unfold bind at 1, gets at 1. cbn [id]. rewrite B1. by destruct s. }
    rewrite <- B2. by destruct s.
  - assert (Na : a <> eb) by (intros ->; unfold static_ok in Hstat; congruence).
    destruct (free_buckets_ok nsz nal eb Hnsz Hlay by_ a ps cs s) as (h' & FB & FR & DEL & S'); try done.
    { lia. } { lia. } { apply (w_wf _ _ R). } { apply (w_nodup _ _ R). }
    exists h'. split; [exact FB|]. split; cbn [t_h t_arr t_bc t_ec t_nr].
    + eapply frame_wf; [apply (w_wf _ _ R)|exact FR|]. intros y [->|Hy]%elem_of_cons.
      * unfold Slots in E. rewrite E. eauto.
      * by eapply chains_live.
    + intros b Hb. rewrite (proj2 FR); [by apply (w_keep _ _ R)|]. destruct Hb as [bk Hb].
      rewrite not_elem_of_cons. split; [congruence|]. intros H. apply (w_fresh _ _ R) in H. congruence.
    + by rewrite replicate_length.
    + unfold u32_lim. lia.
    + exists a, (replicate (length ps) Null), by_. split; [done|]. split; [done|]. split; [rewrite L; apply empty_chains|].
      split; [rewrite concat_empty; apply not_elem_of_nil|]. by right.
    + rewrite concat_empty. constructor.
    + rewrite concat_empty. intros b Hb. by apply elem_of_nil in Hb.
    + intros T. rewrite concat_empty. split; [done|]. destruct (w_total _ _ R T) as (_ & g & G). exists g.
      eapply stage_less; [exact G|]. pose proof (w_ec _ _ R). lia.
Qed.

Lemma W_iter s cs : WRep s cs ->
  exists a ps by_ it, Slots by_ (t_h s) a ps /\ iter s = Ok it s /\ IterAt nsz nal s a ps it (concat cs) /\ a ∉ map fst (concat cs).
Proof.
  intros R. destruct (w_arr _ _ R) as (a & ps & by_ & EA & E & F & Da & OR).
  destruct (next_bucket_ok nsz nal Hlay _ _ _ _ E cs 0) as (p & n & o & NB & IT); [by rewrite drop_0|lia|].
  exists a, ps, by_, (RawIter p n (or_null o)). split; [done|]. split; [|done].
  unfold iter. unfold bind at 1, gets at 1. cbn [id]. rewrite EA. cbn [is_null]. unfold bind at 1.
  rewrite (w_bc _ _ R), Nat2Z.id, <- (Forall2_length _ _ _ F). rewrite Nat.sub_0_r in NB. by rewrite NB.
Qed.

Lemma W_fuel s cs : WRep s cs -> length (concat cs) < fuel s.
Proof.
  intros R. destruct (w_arr _ _ R) as (a & ps & by_ & EA & E & F & _). unfold fuel.
  pose proof (NoDup_below nsz nal Hlay _ (h_next (t_h s)) (w_nodup _ _ R)) as B. rewrite map_length in B.
  enough (length (concat cs) <= h_next (t_h s)) by lia. apply B. intros b Hb. apply (w_wf _ _ R). by eapply chains_live.
Qed.

Lemma W_iter_all s cs : WRep s cs -> (do it <- iter; do f <- gets fuel; iter_all f it) s = Ok (entries cs) s.
Proof.
  intros R. destruct (W_iter _ _ R) as (a & ps & by_ & it & E & IT & AT & _).
  unfold bind at 1. rewrite IT. unfold bind at 1, gets at 1. eapply (iter_all_ok nsz nal Hlay); [exact E|exact AT|]. by apply W_fuel.
Qed.

Lemma W_iter_mut g by_ a ps : forall l D f it s cs, WRep s cs -> concat cs = D ++ l ->
  Slots by_ (t_h s) a ps -> a ∉ map fst (concat cs) -> IterAt nsz nal s a ps it l -> length l < f ->
  exists s' cs', iter_mut_all eb f g it s = Ok (map snd l) s' /\ WRep s' cs' /\
    entries cs' = map snd D ++ map (upd g) (map snd l) /\ t_drops s' = t_drops s.
Proof.
  induction l as [|e l IH]; intros D f it s cs R EC E NI IT L; (destruct f as [|f]; [cbn in L; lia|]); cbn [iter_mut_all].
  - exists s, cs. unfold bind at 1. rewrite (iter_next_ok nsz nal Hlay _ _ _ _ _ _ E IT). split; [done|]. split; [done|].
    rewrite EC, map_app. done.
  - destruct (iter_next_ok nsz nal Hlay _ _ _ _ _ _ E IT) as (it' & nx & N & IT' & NA).
    destruct e as [b [k v]]. cbn [fst snd] in *.
    pose proof (w_nodup _ _ R) as ND.
    assert (Ie : (b, (k, v)) ∈ concat cs) by (rewrite EC, elem_of_app; right; left).
    apply elem_of_list_In, in_concat in Ie as (c & Hc & He). rewrite <- !elem_of_list_In in *.
    apply elem_of_list_lookup in Hc as [i Hc]. apply elem_of_list_split in He as (c1 & c2 & ->).
    destruct (W_update _ _ _ _ _ _ _ _ R Hc) as (nx' & NAT & U). rewrite NA in NAT. injection NAT as <-.
    destruct (U (g k v)) as (ST & R' & _ & C0 & C1). clear U.
    rewrite C0 in EC. rewrite C0 in ND. destruct (split_unique _ _ _ _ _ ND EC) as [ED EL].
    rewrite ED, EL in C0, C1.
    set (s1 := with_h s (hset (t_h s) b (nodeblk k (g k v) nx))) in *.
    assert (Nb : b ∉ map fst l).
    { rewrite ED, EL in ND. rewrite map_app in ND. apply NoDup_app in ND as (_ & _ & ND). cbn in ND. by apply NoDup_cons in ND as [? _]. }
    assert (Nab : a <> b).
    { intros ->. apply NI. rewrite C0, map_app, elem_of_app. right. left. }
    destruct (IH (D ++ [(b, (k, g k v))]) f it' s1 _ R') as (s' & cs' & IM & R2 & EN & DR).
    { rewrite C1, <- app_assoc. done. }
    { unfold Slots, s1. cbn. by rewrite lookup_insert_ne. }
    { rewrite C1, map_app. rewrite C0, map_app in NI. exact NI. }
    { eapply IterAt_frame; [exact IT'|]. intros x Hx. unfold s1. cbn. rewrite lookup_insert_ne; [done|]. intros <-. done. }
    { cbn in L. lia. }
    exists s', cs'. split; [|split; [done|split]].
    + unfold bind at 1. rewrite N. cbn [fst snd]. unfold bind at 1. rewrite NA. unfold bind at 1. rewrite ST. unfold bind at 1. by rewrite IM.
    + rewrite EN, map_app, <- app_assoc. done.
    + by rewrite DR.
Qed.

(** ** Rehashing *)
Lemma policy_general bc ec nr :
  match get_rehash_required chk bc ec 1 nr with
  | UB => False
  | Panic nr' => nr' = nr
  | Ok o nr' => (exists e, u32 chk (ec + 1) tt = Ok e tt) /\ match o with Some p => p ∈ PRIMES | None => True end
  end.
Proof.
  destruct (get_rehash_required chk bc ec 1 nr) as [o nr'|nr'|] eqn:Q.
  - split.
    + revert Q. unfold get_rehash_required. unfold bind at 1. unfold u32. repeat case_match; unfold ret, panic; try done; eauto.
    + destruct o as [p|]; [|done]. by apply policy_answers in Q as [? _].
  - revert Q. unfold get_rehash_required. generalize PRIMES. intros PR. unfold bind at 1.
    destruct (u32_cases (ec + 1) nr) as [->|(e & -> & _)]; [by intros [=]|].
    unfold bind at 1, gets. cbn [id]. destruct (nr <? e)%Z; [|done].
    set (bc' := if (bc =? 1)%Z then 0%Z else bc). destruct (f32 bc' <? f32 e)%Z; [|done].
    unfold bind at 1. destruct (lower_bound_by _ PR) as [r|]; cbn; [|done]. destruct (PR !! fst r); [done|]. by intros [=].
  - revert Q. unfold get_rehash_required. pose proof least_prime as LP. revert LP. generalize PRIMES. intros PR LP. unfold bind at 1.
    destruct (u32_cases (ec + 1) nr) as [->|(e & -> & _)]; [done|].
    unfold bind at 1, gets. cbn [id]. destruct (nr <? e)%Z; [|done].
    set (bc' := if (bc =? 1)%Z then 0%Z else bc). destruct (f32 bc' <? f32 e)%Z; [|done].
    unfold bind at 1. destruct (LP (as_u32 (Z.max (f32 e) (2 * f32 bc')))) as (i & c & -> & _). cbn. by destruct (PR !! i).
Qed.

Lemma policy_stage g bc ec nr : in_stage g bc nr ec ->
  match get_rehash_required chk bc ec 1 nr with
  | Ok None nr' => nr' = nr /\ in_stage g bc nr (ec + 1)
  | Ok (Some p) nr' => exists g', in_stage g' p nr' (ec + 1)
  | _ => True
  end.
Proof.
  intros G. pose proof G as (Hg & -> & -> & B). destruct (decide (ec = g_lasts g)) as [->|N].
  - destruct (policy_turn _ _ _ _ chk G eq_refl) as [[_ ->]|(g' & G' & _ & _ & _ & ->)]; [done|]. by exists g'.
  - rewrite (policy_quiet _ _ _ _ chk G) by lia. split; [done|]. split; [done|]. split; [done|]. split; [done|]. lia.
Qed.

(** [s] with another resize mark. *)
Definition with_nr (s : tstate) (nr : Z) : tstate := TState (t_arr s) (t_bc s) (t_ec s) nr (t_h s) (t_drops s).

Lemma policy_post s cs : WRep s cs ->
  match rehash_required chk s with
  | UB => False
  | Panic s' => s' = s
  | Ok o s' => (exists e, u32 chk (t_ec s + 1) tt = Ok e tt) /\ exists nr, s' = with_nr s nr /\
    match o with
    | None => WRep s' cs /\ (1 < t_bc s')%Z /\ (total -> exists g, in_stage g (t_bc s) nr (t_ec s + 1))
    | Some p => exists m, p = Z.of_nat m /\ 1 < m /\ (p + 1 < u32_lim)%Z /\ (total -> exists g, in_stage g p nr (t_ec s + 1))
    end
  end.
Proof.
  intros R. unfold rehash_required.
  pose proof (policy_general (t_bc s) (t_ec s) (t_nr s)) as P1.
  assert (P2 : total -> exists g, match get_rehash_required chk (t_bc s) (t_ec s) 1 (t_nr s) with
    | Ok None nr' => nr' = t_nr s /\ in_stage g (t_bc s) (t_nr s) (t_ec s + 1)
    | Ok (Some p) nr' => exists g', in_stage g' p nr' (t_ec s + 1)
    | _ => True end).
  { intros T. destruct (w_total _ _ R T) as (_ & g & G). exists g. by apply policy_stage. }
  assert (P3 : t_bc s = 1%Z -> t_ec s = 0%Z -> t_nr s = 0%Z -> exists p nr, get_rehash_required chk (t_bc s) (t_ec s) 1 (t_nr s) = Ok (Some p) nr).
  { intros -> -> ->. destruct (policy_turn _ _ _ _ chk stage_start eq_refl) as [[? _]|(g' & _ & _ & _ & _ & ->)]; [done|eauto]. }
  destruct (get_rehash_required chk (t_bc s) (t_ec s) 1 (t_nr s)) as [o nr|nr|] eqn:Q; [|subst nr; by destruct s|done].
  destruct P1 as [U P1]. split; [done|]. exists nr. split; [done|]. destruct o as [p|].
  - assert (PB : (2 <= p <= 4294967291)%Z).
    { apply elem_of_list_In in P1. assert (FA : forallb (fun p => (2 <=? p) && (p <=? 4294967291))%Z PRIMES = true) by (vm_compute; reflexivity).
      eapply forallb_forall in FA; [|exact P1]. lia. }
    exists (Z.to_nat p). split; [lia|]. split; [lia|]. split; [unfold u32_lim; lia|]. intros T. by destruct (P2 T) as [_ ?].
  - assert (B1 : (1 < t_bc s)%Z).
    { destruct (w_arr _ _ R) as (a & ps & by_ & _ & _ & _ & _ & [(_ & B & C & D & _)|(_ & ?)]); [|done].
      destruct (P3 B C D) as (? & ? & ?). done. }
    split; [|split; [done|]].
    + destruct R as [? ? ? ? (a & ps & by_ & Z1 & Z2 & Z3 & Z4 & Z5) ? ? WT]. split; try done.
      * exists a, ps, by_. split; [done|]. split; [done|]. split; [done|]. split; [done|]. right. destruct Z5 as [(_ & ? & _)|?]; [lia|done].
      * intros T. destruct (WT T) as (? & G). destruct (P2 T) as (g & -> & ?). done.
    + intros T. destruct (P2 T) as (g & -> & G). by exists g.
Qed.

(** Moving the nodes of one bucket: when the hash panics, the old slot keeps a chain
    of its own. *)
Lemma rehash_bucket_post by_ nb n : 0 < n -> nb <> eb -> forall l f (s : tstate) m p ps cs,
  chain (t_h s) p l -> length l < f -> Slots by_ (t_h s) nb ps -> length ps = n -> Forall2 (chain (t_h s)) ps cs ->
  NoDup (map fst l ++ map fst (concat cs) ++ [nb]) -> eb ∉ map fst l ->
  post (a_rehash_bucket eb ho f (Ptr nb 0) (Z.of_nat n) p (s, m))
    (fun _ s' => exists h' ps' cs', s' = with_h s h' /\ frame (nb :: map fst l) (t_h s) h' /\ length ps' = n /\ Slots by_ h' nb ps' /\
       Forall2 (chain h') ps' cs' /\ concat cs' ≡ₚ l ++ concat cs)
    (fun s' => ~ total /\ exists h' kept lost, s' = with_h s h' /\ frame (nb :: map fst l) (t_h s) h' /\ chain h' p kept /\
       kept ++ lost ≡ₚ l ++ concat cs).
Proof.
  intros Hn Nb. induction l as [|e l IH]; intros f s m p ps cs C L E Lp F ND NE; (destruct f as [|f]; [cbn in L; lia|]).
  - cbn in C. subst p. cbn. exists (t_h s), ps, cs. split; [by destruct s|]. done.
  - pose proof C as C00. destruct C as (nx & -> & EN & C). cbn [a_rehash_bucket].
    eapply post_lift; [by apply (node_at_ok nsz nal)|].
    eapply post_bind; [eapply post_mono; [by apply bucket_index_post|intros ? ? H; exact H|]|].
    { intros s' [-> NT]. cbn [fst]. split; [done|]. exists (t_h s), (e :: l), (concat cs). split; [by destruct s|]. split; [done|]. done. }
    intros i [s1 m1] [E1 Hi]. cbn [fst] in E1. subst s1. apply post_gets. cbn [fst].
    rewrite (proj2 (Z.ltb_lt _ _)) by lia.
    eapply post_or_ub; [apply (hadd_slots nsz nal Hlay _ _ _ _ i E); lia|].
    assert (is_Some (ps !! i)) as [q Hq] by (apply lookup_lt_is_Some; lia).
    eapply post_lift; [apply (read_slot_ok _ _ _ _ _ _ E Hq)|].
    cbn [map] in ND, NE. rewrite <- app_comm_cons in ND. apply NoDup_cons in ND as [NI ND].
    apply not_elem_of_cons in NE as [NE1 NE2].
    rewrite !elem_of_app, elem_of_list_singleton in NI.
    assert (Ne : fst e <> nb) by tauto. assert (NE3 : fst e ∉ map fst l) by tauto. assert (NE4 : fst e ∉ map fst (concat cs)) by tauto.
    assert (NB : nb ∉ map fst l /\ nb ∉ map fst (concat cs)).
    { apply NoDup_app in ND as (_ & N1 & N2). apply NoDup_app in N2 as (_ & N2 & _). split; intros H.
      - apply (N1 nb H), elem_of_app. right. left.
      - apply (N2 nb H). left. }
    destruct NB as [NB1 NB2].
    eapply post_lift; [by apply (store_node_ok nsz nal eb Hlay _ _ _ _ _ _ EN)|].
    set (h1 := hset (t_h s) (fst e) _).
    assert (E1 : Slots by_ (t_h (with_h s h1)) nb ps).
    { unfold Slots. cbn. rewrite lookup_insert_ne by done. exact E. }
    eapply post_lift; [apply (write_slot_ok nsz nal eb Hlay _ _ _ _ _ _ E1); [done|lia]|].
    set (h2 := hset (t_h (with_h s h1)) nb _).
    assert (FR : frame [fst e; nb] (t_h s) h2).
    { eapply frame_trans; [apply frame_hset; left|apply frame_hset; right; left]. }
    assert (exists c, cs !! i = Some c) as [c Hc].
    { eapply Forall2_lookup_l in F as (c & Hc & _); [|exact Hq]. eauto. }
    assert (CQ : chain (t_h s) q c) by (by eapply Forall2_lookup_lr in F).
    assert (INC : forall b, b ∈ map fst c -> b ∈ map fst (concat cs)).
    { intros b Hb. apply elem_of_list_fmap in Hb as (x & -> & Hx). apply elem_of_list_fmap. exists x. split; [done|].
      apply elem_of_list_In, in_concat. exists c. rewrite <- !elem_of_list_In. split; [by eapply elem_of_list_lookup_2|done]. }
    assert (NEW : chain h2 (Ptr (fst e) 0) (e :: c)).
    { exists q. split; [done|]. split.
      - cbn. rewrite lookup_insert_ne by done. by rewrite lookup_insert.
      - eapply chain_frame; [exact CQ|]. intros b Hb. apply INC in Hb. apply FR. apply not2; congruence. }
    pose proof (lookup_lt_Some _ _ _ Hc) as Lc.
    assert (P : concat (<[i := e :: c]> cs) ≡ₚ e :: concat cs).
    { rewrite <- (take_drop_middle cs i c Hc) at 2. rewrite insert_take_drop by done. rewrite !concat_app. cbn [concat app]. solve_Permutation. }
    eapply post_mono; [apply (IH f (with_h (with_h s h1) h2) m1 nx (<[i := Ptr (fst e) 0]> ps) (<[i := e :: c]> cs))| |].
    + eapply chain_frame; [exact C|]. intros b Hb. apply FR. apply not2; congruence.
    + cbn in L. lia.
    + unfold Slots. cbn. by rewrite lookup_insert.
    + by rewrite insert_length.
    + apply Forall2_insert; [|exact NEW].
      eapply chains_frame; [exact F|]. intros b Hb. apply FR. apply not2; congruence.
    + rewrite (Permutation_map fst P). cbn [map].
      assert (map fst l ++ (fst e :: map fst (concat cs)) ++ [nb] ≡ₚ fst e :: map fst l ++ map fst (concat cs) ++ [nb]) as -> by solve_Permutation.
      constructor; [|done]. rewrite !elem_of_app, elem_of_list_singleton. tauto.
    + done.
    + intros _ s' (h' & ps' & cs' & -> & FR' & L' & S' & F' & P'). exists h', ps', cs'. split; [done|]. split; [|split; [done|split; [done|split; [done|]]]].
      * eapply frame_trans; (eapply frame_mono; [eassumption|]); cbn [map]; intros b; rewrite !elem_of_cons, ?elem_of_nil; tauto.
      * rewrite P', P. solve_Permutation.
    + intros s' (NT & h' & kept & lost & -> & FR' & _ & _). split; [done|].
      assert (exists rest, concat cs ≡ₚ c ++ rest) as [rest PC].
      { exists (concat (take i cs) ++ concat (drop (S i) cs)). rewrite <- (take_drop_middle cs i c Hc) at 1. rewrite concat_app. cbn [concat]. solve_Permutation. }
      exists h', (e :: c), (l ++ rest). split; [done|]. split; [|split].
      * eapply frame_trans; (eapply frame_mono; [eassumption|]); cbn [map]; intros b; rewrite !elem_of_cons, ?elem_of_nil; tauto.
      * eapply chain_frame; [exact NEW|]. intros b Hb. apply FR'. cbn [map] in Hb. apply elem_of_cons in Hb as [->|Hb].
        -- rewrite not_elem_of_cons. done.
        -- apply INC in Hb. rewrite not_elem_of_cons. split; [congruence|]. intros Hl.
           apply NoDup_app in ND as (_ & N1 & _). apply (N1 b Hl). rewrite elem_of_app. by left.
      * rewrite PC. solve_Permutation.
Qed.

Lemma rehash_loop_post by0 by2 (hh : thp) a nb n : 0 < n -> nb <> eb -> a <> nb -> forall ps' cs' i ps ps2 cs2 (s : tstate) m,
  (forall j, j <= length ps -> hadd hh (Ptr a 0) j = Some (Ptr a j)) ->
  heap_wf (t_h s) -> Slots by0 (t_h s) a ps -> drop i ps = ps' -> i <= length ps -> Forall2 (chain (t_h s)) ps' cs' ->
  Slots by2 (t_h s) nb ps2 -> length ps2 = n -> Forall2 (chain (t_h s)) ps2 cs2 ->
  NoDup (map fst (concat cs') ++ map fst (concat cs2) ++ [nb]) ->
  a ∉ map fst (concat cs') -> a ∉ map fst (concat cs2) -> eb ∉ map fst (concat cs') ->
  (a = eb -> concat cs' = []) ->
  post (for_each (seq i (length ps')) (fun i =>
        do slot <- or_ub (hadd hh (Ptr a 0) i);
        do p <- lift (read_slot slot);
        if is_null p then ret tt
        else
          do f <- gets (fun s => fuel (fst s));
          run a_rehash_bucket eb ho f (Ptr nb 0) (Z.of_nat n) p;
          lift (write_slot eb slot Null)) (s, m))
    (fun _ s' => exists h' ps2' cs2', s' = with_h s h' /\ frame (nb :: a :: map fst (concat cs')) (t_h s) h' /\
       Slots by0 h' a (take i ps ++ replicate (length ps') Null) /\ (a = eb -> h_blk h' !! a = h_blk (t_h s) !! a) /\
       length ps2' = n /\ Slots by2 h' nb ps2' /\ Forall2 (chain h') ps2' cs2' /\ concat cs2' ≡ₚ concat cs' ++ concat cs2)
    (fun s' => ~ total /\ a <> eb /\ exists h' ps3 cs3 lost, s' = with_h s h' /\
       (forall b, b ∉ nb :: a :: map fst (concat cs') -> h_blk h' !! b = h_blk (t_h s) !! b) /\ heap_wf h' /\
       Slots by0 h' a (take i ps ++ ps3) /\ length ps3 = length ps' /\ Forall2 (chain h') ps3 cs3 /\
       concat cs3 ++ lost ≡ₚ concat cs' ++ concat cs2).
Proof.
  intros Hn Nb Nanb. induction ps' as [|p ps' IH]; intros cs' i ps ps2 cs2 s m A W E D Li F E2 L2 F2 ND Na1 Na2 Ne Static.
  - apply Forall2_nil_inv_l in F as ->. cbn. exists (t_h s), ps2, cs2. split; [by destruct s|]. split; [done|].
    split; [|done]. rewrite app_nil_r, firstn_all2; [exact E|].
    assert (length (drop i ps) = 0) as H by (by rewrite D). rewrite drop_length in H. lia.
  - apply Forall2_cons_inv_l in F as (c & cs & C & F & ->).
    cbn [concat] in *. rewrite map_app in *.
    assert (Hp : ps !! i = Some p).
    { rewrite <- (Nat.add_0_r i), <- lookup_drop, D. done. }
    assert (D' : drop (S i) ps = ps').
    { rewrite <- Nat.add_1_r, <- drop_drop, D. done. }
    assert (Li' : S i <= length ps) by (apply lookup_lt_Some in Hp; lia).
    assert (TK : take (S i) ps = take i ps ++ [p]) by (by apply take_S_r).
    cbn [length seq for_each].
    destruct c as [|e c].
    + eapply (post_bind _ _ _ (fun _ s' => s' = s)).
      { eapply post_or_ub; [apply A; lia|]. eapply post_lift; [apply (read_slot_ok _ _ _ _ _ _ E Hp)|]. cbn in C. subst p. done. }
      intros _ [s1 m1] E1. cbn [fst] in E1. subst s1. cbn in C. subst p.
      eapply post_mono; [apply (IH cs (S i) ps ps2 cs2 s m1 A W E D' Li' F E2 L2 F2 ND Na1 Na2 Ne Static)| |].
      * intros _ s' (h' & ps2' & cs2' & -> & FR & S1 & R2). exists h', ps2', cs2'. split; [done|]. split; [exact FR|]. split; [|exact R2].
        rewrite TK, <- app_assoc in S1. exact S1.
      * intros s' (NT & Nae & h' & ps3 & cs3 & lost & -> & FR & W' & S1 & L3 & F3 & P3). split; [done|]. split; [done|].
        exists h', (Null :: ps3), ([] :: cs3), lost. split; [done|]. split; [done|]. split; [done|]. split.
        { rewrite TK, <- app_assoc in S1. exact S1. }
        split; [cbn; lia|]. split; [by constructor|]. exact P3.
    + set (c1 := e :: c) in *.
      assert (NULL : is_null p = false) by (destruct C as (? & -> & _); done).
      assert (Neb : a <> eb) by (intros Hs; specialize (Static Hs); done).
      rewrite <- app_assoc in ND.
      apply not_elem_of_app in Na1 as [Na1 Na3]. apply not_elem_of_app in Ne as [Ne1 Ne2].
      assert (NDc : NoDup (map fst c1 ++ map fst (concat cs2) ++ [nb])).
      { apply NoDup_app in ND as (N1 & N2 & N3). apply NoDup_app. split; [done|]. split.
        - intros x Hx Hx'. apply (N2 x Hx). rewrite elem_of_app. by right.
        - by apply NoDup_app in N3 as (_ & _ & N3). }
      assert (NDc1 : NoDup (map fst c1)) by (by apply NoDup_app in ND as (N1 & _)).
      pose proof (chain_fuel nsz nal Hlay _ _ _ W C NDc1) as FU.
      assert (Nbc : nb ∉ map fst c1 /\ nb ∉ map fst (concat cs) /\ nb ∉ map fst (concat cs2)).
      { apply NoDup_app in ND as (_ & N1 & N2). apply NoDup_app in N2 as (_ & N2 & N3). apply NoDup_app in N3 as (_ & N3 & _).
        split; [|split]; intros H.
        - apply (N1 nb H). rewrite !elem_of_app. right. right. left.
        - apply (N2 nb H). rewrite elem_of_app. right. left.
        - apply (N3 nb H). left. }
      destruct Nbc as (Nb1 & Nb2 & Nb3).
      assert (Dj : forall b, b ∈ map fst (concat cs) -> b ∉ map fst c1).
      { apply NoDup_app in ND as (_ & N1 & _). intros b Hb Hb'. apply (N1 b Hb'). rewrite !elem_of_app. by left. }
      eapply (post_bind _ _ _ (fun _ s' => exists h2 ps2a cs2a, s' = with_h s h2 /\ frame (nb :: a :: map fst c1) (t_h s) h2 /\
        Slots by0 h2 a (<[i := Null]> ps) /\ length ps2a = n /\ Slots by2 h2 nb ps2a /\ Forall2 (chain h2) ps2a cs2a /\
        concat cs2a ≡ₚ c1 ++ concat cs2)).
      { eapply post_or_ub; [apply A; lia|]. eapply post_lift; [apply (read_slot_ok _ _ _ _ _ _ E Hp)|]. rewrite NULL.
        apply post_gets. cbn [fst].
        eapply post_bind; [eapply post_mono; [apply (rehash_bucket_post by2 nb n Hn Nb c1 (fuel s) s m p ps2 cs2 C FU E2 L2 F2 NDc Ne1)|intros ? ? H; exact H|]|].
        - intros s' (NT & h' & kept & lost & -> & FR & CK & PK). split; [done|]. split; [done|].
          exists h', (p :: ps'), (kept :: cs), lost. split; [done|]. split.
          { intros b Hb. apply FR. rewrite !not_elem_of_cons, not_elem_of_app in Hb. rewrite not_elem_of_cons. tauto. }
          split.
          { eapply frame_wf; [exact W|exact FR|]. intros b [->|Hb]%elem_of_cons; [by eexists|]. by eapply chain_live. }
          split.
          { rewrite <- D, take_drop. unfold Slots. rewrite (proj2 FR); [exact E|]. rewrite not_elem_of_cons. done. }
          split; [done|]. split.
          { constructor; [exact CK|]. eapply chains_frame; [exact F|]. intros b Hb. apply FR. rewrite not_elem_of_cons.
            split; [congruence|]. by apply Dj. }
          cbn [concat]. rewrite <- app_assoc, (Permutation_app_comm (concat cs) lost), app_assoc, PK. solve_Permutation.
        - intros _ [s1 m1] (h1 & ps2a & cs2a & E1 & FR1 & L1 & S1 & F1 & P1). cbn [fst] in E1. subst s1.
          assert (Ea1 : Slots by0 (t_h (with_h s h1)) a ps).
          { unfold Slots. cbn. rewrite (proj2 FR1); [exact E|]. rewrite not_elem_of_cons. done. }
          eapply post_lift_last; [apply (write_slot_ok nsz nal eb Hlay _ _ _ _ _ Null Ea1 Neb); lia|].
          set (h2 := hset _ a _). exists h2, ps2a, cs2a. split; [done|]. split.
          { eapply frame_trans; [eapply frame_mono; [exact FR1|]|apply frame_hset].
            - intros b. rewrite !elem_of_cons. tauto.
            - rewrite !elem_of_cons. tauto. }
          assert (FR3 : forall b, b <> a -> h_blk h2 !! b = h_blk h1 !! b).
          { intros b Hb. cbn. by rewrite lookup_insert_ne. }
          split; [unfold Slots; cbn; by rewrite lookup_insert|]. split; [done|]. split.
          { unfold Slots. rewrite FR3 by done. exact S1. }
          split; [|done]. eapply chains_frame; [exact F1|]. intros b Hb. apply FR3. intros ->.
          rewrite (Permutation_map fst P1), map_app, elem_of_app in Hb. tauto. }
      intros _ [s1 m1] (h2 & ps2a & cs2a & E1 & FR2 & Sa & L1 & S1 & F1 & P1). cbn [fst] in E1. subst s1.
      eapply post_mono; [apply (IH cs (S i) (<[i := Null]> ps) ps2a cs2a (with_h s h2))| |].
      * intros j Hj. apply A. rewrite insert_length in Hj. lia.
      * eapply frame_wf; [exact W|exact FR2|]. intros b [->|[->|Hb]%elem_of_cons]%elem_of_cons; [by eexists|by eexists|].
        by eapply chain_live.
      * exact Sa.
      * rewrite drop_insert_gt by lia. done.
      * rewrite insert_length. lia.
      * eapply chains_frame; [exact F|]. intros b Hb. apply FR2. rewrite !not_elem_of_cons.
        split; [congruence|]. split; [congruence|]. by apply Dj.
      * exact S1.
      * done.
      * exact F1.
      * rewrite (Permutation_map fst P1), map_app.
        assert (map fst (concat cs) ++ (map fst c1 ++ map fst (concat cs2)) ++ [nb] ≡ₚ map fst c1 ++ map fst (concat cs) ++ map fst (concat cs2) ++ [nb]) as -> by solve_Permutation.
        done.
      * done.
      * rewrite (Permutation_map fst P1), map_app, elem_of_app. tauto.
      * done.
      * done.
      * intros _ s' (h' & ps2' & cs2' & -> & FR & S1' & _ & L2' & S2' & F2' & P2'). exists h', ps2', cs2'. split; [done|].
        split; [|split; [|split; [done|split; [done|split; [done|split; [done|]]]]]].
        -- eapply frame_trans; (eapply frame_mono; [eassumption|]); intros b; rewrite !elem_of_cons, ?elem_of_app; tauto.
        -- rewrite (take_S_r _ i Null) in S1' by (rewrite list_lookup_insert by lia; done).
           rewrite take_insert in S1' by lia. rewrite <- app_assoc in S1'. exact S1'.
        -- rewrite P2', P1. solve_Permutation.
      * intros s' (NT & Nae & h' & ps3 & cs3 & lost & -> & FR & W' & S1' & L3 & F3 & P3). split; [done|]. split; [done|].
        exists h', (Null :: ps3), ([] :: cs3), lost. split; [done|]. split.
        { intros b Hb. rewrite !not_elem_of_cons, not_elem_of_app in Hb. destruct Hb as (X1 & X2 & X3 & X4).
          rewrite FR by (rewrite !not_elem_of_cons; done). apply FR2. rewrite !not_elem_of_cons. done. }
        split; [done|]. split.
        { rewrite (take_S_r _ i Null) in S1' by (rewrite list_lookup_insert by lia; done).
          rewrite take_insert in S1' by lia. rewrite <- app_assoc in S1'. exact S1'. }
        split; [cbn; lia|]. split; [by constructor|]. cbn [concat app]. rewrite P3, P1. solve_Permutation.
Qed.

Lemma rehash_post s cs nr n m : WRep s cs -> 1 < n -> (Z.of_nat n + 1 < u32_lim)%Z ->
  (total -> exists g, in_stage g (Z.of_nat n) nr (t_ec s + 1)) ->
  post (a_rehash nsz nal eb chk ho (Z.of_nat n) (with_nr s nr, m))
    (fun _ s' => exists cs', WRep s' cs' /\ concat cs' ≡ₚ concat cs /\ t_bc s' = Z.of_nat n /\ t_ec s' = t_ec s /\ t_nr s' = nr /\
       t_drops s' = t_drops s)
    (fun s' => exists cs' lost, ~ total /\ WRep s' cs' /\ concat cs' ++ lost ≡ₚ concat cs /\ t_drops s' = t_drops s).
Proof.
  intros R Hn Hn2 TG. destruct (w_arr _ _ R) as (a & ps & by0 & EA & E & F & NI & OR).
  pose proof (w_bc _ _ R) as EB. rewrite <- (Forall2_length _ _ _ F) in EB. pose proof (w_wf _ _ R) as W. pose proof (w_nodup _ _ R) as ND.
  pose proof (W_eb _ _ R) as Ne.
  set (s0 := with_nr s nr). set (nb := h_next (t_h s)).
  assert (Fr : h_blk (t_h s) !! nb = None) by (by apply wf_fresh).
  assert (Fr0 : h_blk h0 !! nb = None).
  { destruct (h_blk h0 !! nb) eqn:Q; [|done]. rewrite (w_keep _ _ R) in Fr by eauto. congruence. }
  assert (Nb : nb <> eb) by (intros Q; unfold static_ok in Hstat; rewrite <- Q in Hstat; congruence).
  assert (Nanb : a <> nb) by (intros HH; unfold Slots in E; rewrite HH in E; congruence).
  assert (Nbi : nb ∉ map fst (concat cs)).
  { intros H. destruct (chains_live _ _ _ _ _ _ F H) as [? X]. congruence. }
  unfold a_rehash. eapply (post_bind _ _ _ (fun x s' => x = (Z.of_nat n + 1)%Z /\ s' = s0)).
  { rewrite u32_ok by lia. done. }
  intros x [s1 m1] [-> E1]. cbn [fst] in E1. subst s1.
  set (blk0 := Block ((Z.of_nat n + 1) * 8) 8 (replicate (S n) (@None (tcell K V)))).
  set (h1 := halloc (t_h s) blk0).
  eapply (post_lift _ _ _ _ (Ptr nb 0) (with_h s0 h1)).
  { unfold allocate, default_alloc.
    rewrite (proj2 (Z.eqb_neq _ _)) by lia. unfold layout_ok. rewrite (proj2 (Z.leb_le _ _)) by (unfold isize_max, u32_lim in *; lia).
    cbn [fst snd]. rewrite Z.div_mul by lia.
    replace (Z.to_nat (Z.of_nat n + 1)) with (S n) by lia. done. }
  apply post_gets. cbn [fst t_h with_h].
  assert (E1 : h_blk h1 !! nb = Some blk0) by (cbn; by rewrite lookup_insert).
  assert (O1 : forall b, b <> nb -> h_blk h1 !! b = h_blk (t_h s) !! b) by (intros b Hb; cbn; by rewrite lookup_insert_ne).
  assert (A1 : forall j, j <= S n -> hadd h1 (Ptr nb 0) j = Some (Ptr nb j)).
  { intros j Hj. apply (hadd_ok h1 nb 0 j blk0 E1). cbn. rewrite replicate_length. lia. }
  destruct (fill_null_ok nsz nal eb Hlay h1 nb ((Z.of_nat n + 1) * 8) 8 Nb (S n) 0 (with_h s0 h1) (replicate (S n) None)) as (h2 & R2 & F2 & B2).
  { exact E1. }
  { rewrite replicate_length. lia. }
  { intros j Hj. rewrite replicate_length in Hj. by apply A1. }
  replace (Z.to_nat (Z.of_nat n + 1)) with (S n) by lia.
  eapply post_lift; [exact R2|]. rewrite (proj2 (Z.ltb_lt _ _)) by lia.
  rewrite take_0, drop_ge in B2 by (rewrite replicate_length; lia). rewrite app_nil_r in B2. cbn [app] in B2.
  set (s2 := with_h (with_h s0 h1) h2).
  assert (Sl : <[n:=Some TOnes]> (replicate (S n) (Some (TSlot Null))) = slots (K := K) (V := V) (replicate n Null)).
  { unfold slots. rewrite replicate_S_end. rewrite insert_app_r_alt by (rewrite replicate_length; lia).
    rewrite replicate_length, Nat.sub_diag. cbn. f_equal. symmetry. apply (fmap_replicate (fun p => Some (TSlot p))). }
  set (h3 := hset h2 nb (Block ((Z.of_nat n + 1) * 8) 8 (slots (replicate n Null)))).
  eapply (post_lift _ _ _ _ tt (with_h s2 h3)).
  { rewrite Nat2Z.id. unfold bind at 1. rewrite A1 by lia. cbn [or_ub]. unfold ret at 1.
    rewrite (store_ok nsz nal eb Hlay s2 nb _ _ _ n TOnes B2 Nb) by (rewrite replicate_length; lia). by rewrite Sl. }
  assert (S3 : Slots ((Z.of_nat n + 1) * 8) h3 nb (replicate n Null)) by (unfold Slots; cbn; by rewrite lookup_insert).
  assert (O3 : forall b, b <> nb -> h_blk h3 !! b = h_blk (t_h s) !! b).
  { intros b Hb. cbn. rewrite lookup_insert_ne by done. rewrite (proj2 F2) by (by rewrite elem_of_list_singleton). by apply O1. }
  assert (N3 : h_next h3 = S nb) by (cbn; by rewrite (proj1 F2)).
  assert (W3 : heap_wf h3).
  { intros b Hb. rewrite N3. destruct (decide (b = nb)) as [->|N]; [lia|]. rewrite O3 in Hb by done. specialize (W b Hb). lia. }
  apply post_gets. cbn [fst t_arr t_bc t_h with_h s2 s0 with_nr].
  rewrite EA, EB. cbn [is_null]. rewrite !Nat2Z.id.
  assert (Ea3 : Slots by0 h3 a ps) by (unfold Slots; rewrite O3 by done; exact E).
  assert (F3 : Forall2 (chain h3) ps cs).
  { eapply chains_frame; [exact F|]. intros b Hb. apply O3. intros ->. done. }
  set (s3 := with_h (with_h (with_h s0 h1) h2) h3).
  change (TState (t_arr s) (t_bc s) (t_ec s) nr h3 (t_drops s)) with s3.
  assert (WT : forall h, with_h s3 h = TState (Ptr a 0) (Z.of_nat (length ps)) (t_ec s) nr h (t_drops s)).
  { intros h. unfold with_h, s3. cbn. by rewrite EA, EB. }
  assert (KEEP : forall b, is_Some (h_blk h0 !! b) -> b <> nb /\ b ∉ map fst (concat cs) /\ (a <> eb -> b <> a)).
  { intros b [bk Hb]. split; [congruence|]. split; [intros H; apply (w_fresh _ _ R) in H; congruence|].
    intros Nae ->. destruct OR as [(-> & _)|(Ha0 & _)]; [done|congruence]. }
  eapply post_bind; [eapply post_mono; [apply (rehash_loop_post by0 ((Z.of_nat n + 1) * 8) h3 a nb n ltac:(lia) Nb Nanb ps cs 0 ps (replicate n Null) (replicate n []) s3)|intros ? ? H; exact H|]|].
  { intros j Hj. apply (hadd_slots nsz nal Hlay _ _ _ _ _ Ea3). lia. }
  { exact W3. }
  { exact Ea3. }
  { done. }
  { lia. }
  { exact F3. }
  { exact S3. }
  { apply replicate_length. }
  { apply empty_chains. }
  { rewrite concat_empty. cbn [map app]. apply NoDup_app. split; [done|]. split; [|apply NoDup_singleton].
    intros x Hx ->%elem_of_list_singleton. done. }
  { done. }
  { rewrite concat_empty. apply not_elem_of_nil. }
  { done. }
  { intros ->. destruct OR as [(_ & _ & _ & _ & Z)|(Ha0 & _)]; [done|]. unfold static_ok in Hstat. congruence. }
  - intros s' (NT & Nae & h' & ps3 & cs3 & lost & -> & FR & W' & S1 & L3 & F3' & P3). rewrite concat_empty, app_nil_r in P3.
    cbn [take app] in S1. destruct OR as [(-> & _)|(Ha0 & B1)]; [done|].
    assert (SUB : forall b, b ∈ map fst (concat cs3) -> b ∈ map fst (concat cs)).
    { intros b Hb. rewrite <- (Permutation_map fst P3), map_app, elem_of_app. by left. }
    exists cs3, lost. split; [done|]. split; [|done]. rewrite WT. split; cbn [t_h t_arr t_bc t_ec t_nr].
    + done.
    + intros b Hb. destruct (KEEP b Hb) as (X1 & X2 & X3). rewrite FR by (rewrite !not_elem_of_cons; auto). cbn [t_h with_h s3].
      rewrite O3 by done. by apply (w_keep _ _ R).
    + by rewrite <- L3, (Forall2_length _ _ _ F3').
    + apply (w_ec _ _ R).
    + exists a, ps3, by0. split; [done|]. split; [done|]. split; [done|]. split; [intros H; by apply NI, SUB|]. right. split; [done|]. lia.
    + rewrite <- (Permutation_map fst P3), map_app in ND. by apply NoDup_app in ND as (? & _).
    + intros b Hb. by apply (w_fresh _ _ R), SUB.
    + done.
  - intros _ [s1 m2] (h4 & ps' & cs' & E4 & F4 & S4 & ST4 & L4 & S4' & C4 & P4). cbn [fst] in E4. subst s1.
    rewrite concat_empty, app_nil_r in P4. cbn [take app] in S4.
    assert (FB : exists h5, free_buckets nsz nal eb (with_h s3 h4) = Ok tt (with_h s3 h5) /\ frame [a] h4 h5 /\
        (a = eb -> h_blk h5 !! a = h_blk h4 !! a)).
    { destruct OR as [(Hae & B1 & _)|(Ha0 & B1)].
      - exists h4. split; [|done]. unfold free_buckets. unfold bind at 1, gets at 1. cbn [id]. rewrite WT. cbn [t_bc].
        rewrite <- EB, B1. done.
      - assert (Nae : a <> eb) by (intros ->; unfold static_ok in Hstat; congruence).
        destruct (free_buckets_ok nsz nal eb Hnsz Hlay by0 a (replicate (length ps) Null) (replicate (length ps) []) (with_h s3 h4)) as (h5 & R5 & F5 & _ & S5).
        + by rewrite WT.
        + rewrite WT, replicate_length. done.
        + rewrite replicate_length. lia.
        + done.
        + eapply frame_wf; [exact W3|exact F4|]. intros b [->|[->|Hb]%elem_of_cons]%elem_of_cons; [by eexists|by eexists|].
          by eapply chains_live.
        + exact S4.
        + apply empty_chains.
        + rewrite concat_empty. constructor.
        + rewrite concat_empty. apply not_elem_of_nil.
        + exists h5. rewrite dropped_empty, app_nil_r in R5. split; [exact R5|].
          rewrite concat_empty in F5. split; [exact F5|]. done. }
    destruct FB as (h5 & R5 & F5 & ST5). eapply post_lift; [exact R5|].
    eapply (post_lift_last _ _ _ tt (TState (Ptr nb 0) (Z.of_nat n) (t_ec s) nr h5 (t_drops s))); [reflexivity|].
    assert (O5 : forall b, b <> a -> h_blk h5 !! b = h_blk h4 !! b).
    { intros b Hb. apply F5. by rewrite elem_of_list_singleton. }
    pose proof (Forall2_length _ _ _ C4) as LC.
    exists cs'. split; [|done]. split; cbn [t_h t_arr t_bc t_ec t_nr].
    + eapply frame_wf; [|exact F5|].
      * eapply frame_wf; [exact W3|exact F4|]. intros b [->|[->|Hb]%elem_of_cons]%elem_of_cons; [by eexists|by eexists|].
        by eapply chains_live.
      * intros b ->%elem_of_list_singleton. by eexists.
    + intros b Hb. destruct (KEEP b Hb) as (X1 & X2 & X3). rewrite <- (w_keep _ _ R) by done.
      destruct (decide (b = a)) as [->|N].
      * assert (Hae : a = eb) by (destruct (decide (a = eb)); [done|]; by destruct (X3 n0)).
        rewrite (ST5 Hae), (ST4 Hae). cbn [t_h with_h s3]. by rewrite O3.
      * rewrite O5 by done. rewrite (proj2 F4) by (rewrite !not_elem_of_cons; done). cbn [t_h with_h s3]. by rewrite O3.
    + lia.
    + apply (w_ec _ _ R).
    + exists nb, ps', ((Z.of_nat n + 1) * 8)%Z. split; [done|]. split; [unfold Slots; rewrite O5 by done; exact S4'|]. split.
      { eapply chains_frame; [exact C4|]. intros b Hb. apply O5. intros ->. rewrite (Permutation_map fst P4) in Hb. done. }
      split; [by rewrite (Permutation_map fst P4)|]. right. split; [done|]. lia.
    + by rewrite (Permutation_map fst P4).
    + intros b. rewrite (Permutation_map fst P4). apply (w_fresh _ _ R).
    + intros T. destruct (w_total _ _ R T) as (TE & _). destruct (TG T) as [g G]. rewrite (Permutation_length P4). split; [done|].
      exists g. eapply stage_less; [exact G|]. pose proof (w_ec _ _ R). lia.
Qed.

(** ** Inserting a new node *)
(** Nodes that no bucket reaches any more; none when the hash does not panic. *)
Definition fewer (cs cs' : list (list enode)) : Prop :=
  exists lost, concat cs' ++ lost ≡ₚ concat cs /\ (total -> lost = []).

Lemma fewer_refl cs : fewer cs cs.
Proof. exists []. by rewrite app_nil_r. Qed.

Lemma insert_impl_post s cs p k v m : WRep s cs -> slot_in s cs p ->
  post (a_insert_impl nsz nal eb chk ho p k v (s, m))
    (fun q s' => exists b cs' nx, q = Ptr b 0 /\ WRep s' cs' /\ concat cs' ≡ₚ (b, (k, v)) :: concat cs /\ t_drops s' = t_drops s /\
       node_at q s' = Ok (k, v, nx) s')
    (fun s' => exists cs', WRep s' cs' /\ fewer cs cs' /\ t_drops s' = t_drops s ++ [inr v; inl k]).
Proof.
  intros R SI. unfold a_insert_impl.
  eapply (post_bind _ _ _ (fun tn sA => exists s1 cs1 b, snd tn = Ptr b 0 /\ WRep s1 cs1 /\ (1 < t_bc s1)%Z /\ slot_in s1 cs1 (fst tn) /\
    concat cs1 ≡ₚ concat cs /\ t_drops s1 = t_drops s /\ (exists e, u32 chk (t_ec s1 + 1) tt = Ok e tt) /\
    (total -> exists g, in_stage g (t_bc s1) (t_nr s1) (t_ec s1 + 1)) /\ allocate nsz nal 1 s1 = Ok (Ptr b 0) sA)).
  - apply post_unwind. pose proof (policy_post _ _ R) as PP.
    eapply (post_bind _ _ _ (fun o s' => rehash_required chk s = Ok o s')).
    { unfold lift. cbn [fst snd]. destruct (rehash_required chk s) as [o s'|s'|]; [done| |done]. cbn. subst s'.
      exists cs. split; [by apply W_logged|]. split; [apply fewer_refl|]. done. }
    intros o [s1 m1] E1. cbn [fst] in E1. rewrite E1 in PP. destruct PP as ((e & U) & nr & -> & PP).
    eapply (post_bind _ _ _ (fun t s1 => exists cs1, WRep s1 cs1 /\ (1 < t_bc s1)%Z /\ slot_in s1 cs1 t /\
      concat cs1 ≡ₚ concat cs /\ t_drops s1 = t_drops s /\ t_ec s1 = t_ec s /\
      (total -> exists g, in_stage g (t_bc s1) (t_nr s1) (t_ec s1 + 1)))).
    + destruct o as [bc|].
      * destruct PP as (n & -> & Hn & Hn2 & TG).
        eapply post_bind; [eapply post_mono; [apply (rehash_post s cs nr n m1 R Hn Hn2 TG)|intros ? ? H; exact H|]|].
        -- intros s' (cs' & lost & NT & R' & P' & D'). exists cs'. split; [by apply W_logged|]. split; [by exists lost|].
           unfold logged. cbn. by rewrite D'.
        -- intros _ [s2 m2] (cs' & R' & P' & B' & EC' & NR' & D'). cbn [fst] in *.
           eapply post_mono; [exact (proj2 (bucket_post s2 cs' k m2 R'))| |].
           ++ intros t s3 [-> SI']. exists cs'. split; [done|]. split; [lia|]. split; [done|]. split; [done|]. split; [done|]. split; [done|].
              intros T. destruct (TG T) as [g G]. exists g. by rewrite B', NR', EC'.
           ++ intros s3 [-> NT]. exists cs'. split; [by apply W_logged|]. split.
              { exists []. rewrite app_nil_r. done. }
              unfold logged. cbn. by rewrite D'.
      * destruct PP as (R' & B1 & TG). cbn. exists cs. split; [done|]. split; [done|]. split; [exact SI|]. done.
    + intros t [s2 m2] (cs1 & R1 & B1 & SI1 & P1 & D1 & EC1 & TG1). cbn [fst] in *.
      eapply post_lift; [by apply alloc_node_ok|]. cbn. exists s2, cs1, (h_next (t_h s2)). split; [done|]. split; [done|]. split; [done|]. split; [done|].
      split; [done|]. split; [done|]. split; [exists e; by rewrite EC1|]. split; [done|]. by apply alloc_node_ok.
  - intros [t q] [sA mA] (s1 & cs1 & b & Eq & R1 & B1 & SI1 & P1 & D1 & (e & U) & TG & AL). cbn [fst snd] in *. subst q.
    destruct (W_push s1 cs1 t k v e R1 B1 SI1 U TG) as (b' & sA' & s' & cs' & AL' & RUN & R' & P' & D' & nx & NAT).
    rewrite AL in AL'. injection AL' as <- <-. eapply post_lift_last; [exact RUN|].
    exists b, cs', nx. split; [done|]. split; [done|]. split; [by rewrite P', P1|]. split; [congruence|done].
Qed.
End any_proofs.
