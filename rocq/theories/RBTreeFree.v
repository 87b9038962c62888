(** Proofs about freeing red-black trees, and about linking nodes. *)
From Verif Require Import Base Alloc AddrMem FixedPool FixedPoolSpec FixedPoolProofs LinkedList LinkedListSpec RBTree RBTreeSpec RBTreeProofs RBTreeCalls.
Local Open Scope Z_scope.

(** What freeing needs of the allocator; [I a m L]: it has handed out the nodes [L]. *)
Record TFree {A T} (aa : AddrAlloc A T) (chk : bool) (nsz nal : Z) (I : A -> mem T -> list Z -> Prop) : Prop := {
  tf_node : forall a m L p, I a m L -> p ∈ L -> accessible m p nsz = true;
  tf_perm : forall a m L L', I a m L -> L ≡ₚ L' -> I a m L';
  tf_free : forall a m p L, I a m (p :: L) ->
    exists a' m', deallocate aa chk nsz nal p 1 (a, m) = Ok tt (a', m') /\ I a' m' L /\
      (forall x, x ∈ L -> m_word m' !! x = m_word m !! x /\ m_word m' !! (x + 8) = m_word m !! (x + 8))
}.

Section free.
Context {A K V : Type}.
Variables (aa : AddrAlloc A (K * V)) (chk : bool) (nsz nal : Z) (I : A -> mem (K * V) -> list Z -> Prop).
Hypothesis H24 : 24 <= nsz.
Hypothesis TF : TFree aa chk nsz nal I.
Local Notation tstate := (tstate A K V).

(** The child pointers. *)
Fixpoint kids (w : gmap Z Z) (t : tree K V) : Prop :=
  match t with
  | Leaf => True
  | Bin _ l a _ _ r => a <> 0 /\ (8 | a) /\ w !! a = Some (addr r) /\ w !! (a + 8) = Some (addr l) /\ kids w l /\ kids w r
  end.
Lemma kids_frame w w' t : (forall x, x ∈ addrs t -> w' !! x = w !! x /\ w' !! (x + 8) = w !! (x + 8)) -> kids w t -> kids w' t.
Proof using.
  induction t as [|c l IHl a k v r IHr]; intros F H; [done|]. cbn in *. destruct H as (H1 & H2 & H3 & H4 & H5 & H6).
  destruct (F a (in_root l r c a k v)) as [-> ->]. repeat (split; [done|]).
  split; [apply IHl; [|done]; intros x Hx; by apply F, (in_left l r c a k v)|apply IHr; [|done]; intros x Hx; by apply F, (in_right l r c a k v)].
Qed.
Lemma wplaced_kids m up t : wplaced nsz m up t -> kids (m_word m) t.
Proof using.
  revert up. induction t as [|c l IHl a k v r IHr]; intros up W; cbn in *; [done|].
  destruct W as (H1 & H2 & H3 & H4 & H5 & H6 & W1 & W2). unfold load_word in *.
  destruct (word_at m a); [|done]. destruct (word_at m (a + 8)); [|done]. 
  split; [lia|]. repeat (split; [done|]). split; [by eapply IHl|by eapply IHr].
Qed.

Lemma addr_0 w t : kids w t -> (addr t =? 0) = match t with Leaf => true | _ => false end.
Proof using. destruct t; [done|]. cbn. intros (? & _). by apply Z.eqb_neq. Qed.

Lemma free_tree_ok t : forall f (s : tstate) R, t <> Leaf -> (height t <= f)%nat -> kids (m_word (t_mem s)) t ->
  I (t_alloc s) (t_mem s) (addrs t ++ R) ->
  exists s', free_tree aa chk nsz nal f (addr t) s = Ok tt s' /\ I (t_alloc s') (t_mem s') R /\
    t_obj s' = t_obj s /\ t_size s' = t_size s /\ t_drops s' = t_drops s /\
    (forall x, x ∈ R -> m_word (t_mem s') !! x = m_word (t_mem s) !! x /\ m_word (t_mem s') !! (x + 8) = m_word (t_mem s) !! (x + 8)).
Proof using H24 TF.
  assert (W : forall (s : tstate) L a w, I (t_alloc s) (t_mem s) L -> a ∈ L -> (8 | a) ->
    (m_word (t_mem s) !! a = Some w -> t_word a s = Ok w s) /\ (m_word (t_mem s) !! (a + 8) = Some w -> t_word (a + 8) s = Ok w s)).
  { intros s L a w HI Ha D. pose proof (tf_node _ _ _ _ _ TF _ _ _ _ HI Ha) as AC.
    split; intros E; apply t_word_ok; rewrite load_word_ok; try done.
    - eapply word_at_ok; [exact AC|lia|lia|done].
    - eapply word_at_ok; [exact AC|lia|lia|]. apply Z.divide_add_r; [done|by exists 1]. }
  induction t as [|c l IHl a k v r IHr]; intros f s R NL HF KD HI; [done|].
  destruct f as [|f]; [cbn in HF; lia|]. cbn [height addr addrs] in *. cbn [kids] in KD. destruct KD as (H1 & H2 & H3 & H4 & K1 & K2).
  cbn [free_tree]. unfold get_left, get_right.
  assert (IN : a ∈ (addrs l ++ a :: addrs r) ++ R) by (apply elem_of_app; left; apply elem_of_app; right; constructor).
  rewrite (bind_ok _ _ _ _ _ (proj2 (W s _ a _ HI IN H2) H4)).
  assert (exists s1, (if addr l =? 0 then ret tt else free_tree aa chk nsz nal f (addr l)) s = Ok tt s1 /\
    I (t_alloc s1) (t_mem s1) (a :: addrs r ++ R) /\ t_obj s1 = t_obj s /\ t_size s1 = t_size s /\ t_drops s1 = t_drops s /\
    (forall x, x ∈ a :: addrs r ++ R -> m_word (t_mem s1) !! x = m_word (t_mem s) !! x /\ m_word (t_mem s1) !! (x + 8) = m_word (t_mem s) !! (x + 8)))
    as (s1 & E1 & I1 & O1 & Z1 & D1 & F1).
  { rewrite (addr_0 _ _ K1). destruct l as [|c' l' a' k' v' r'] eqn:EL; [by exists s|]. rewrite <- EL in *.
    apply (IHl f s (a :: addrs r ++ R)); [by rewrite EL|lia|done|]. by rewrite <- app_assoc in HI. }
  rewrite (bind_ok _ _ _ _ _ E1).
  destruct (F1 a ltac:(constructor)) as [Fa Fb].
  rewrite (bind_ok _ _ _ _ _ (proj1 (W s1 _ a (addr r) I1 ltac:(constructor) H2) ltac:(by rewrite Fa))).
  assert (exists s2, (if addr r =? 0 then ret tt else free_tree aa chk nsz nal f (addr r)) s1 = Ok tt s2 /\
    I (t_alloc s2) (t_mem s2) (a :: R) /\ t_obj s2 = t_obj s /\ t_size s2 = t_size s /\ t_drops s2 = t_drops s /\
    (forall x, x ∈ a :: R -> m_word (t_mem s2) !! x = m_word (t_mem s) !! x /\ m_word (t_mem s2) !! (x + 8) = m_word (t_mem s) !! (x + 8)))
    as (s2 & E2 & I2 & O2 & Z2 & D2 & F2).
  { assert (K2' : kids (m_word (t_mem s1)) r).
    { eapply kids_frame; [|exact K2]. intros x Hx. apply F1. constructor. apply elem_of_app. by left. }
    rewrite (addr_0 _ _ K2). destruct r as [|c' l' a' k' v' r'] eqn:ER.
    - exists s1. cbn in I1. done.
    - rewrite <- ER in *. destruct (IHr f s1 (a :: R)) as (s2 & E2 & I2 & O2 & Z2 & D2 & F2); [by rewrite ER|lia|done| |].
      + eapply (tf_perm _ _ _ _ _ TF); [exact I1|]. solve_Permutation.
      + exists s2. split; [done|]. split; [done|]. split; [congruence|]. split; [congruence|]. split; [congruence|].
        intros x Hx. destruct (F2 x Hx) as [-> ->]. apply F1. apply elem_of_cons in Hx as [-> |Hx]; [constructor|]. constructor. apply elem_of_app. by right. }
  rewrite (bind_ok _ _ _ _ _ E2).
  destruct (tf_free _ _ _ _ _ TF _ _ _ _ I2) as (a3 & m3 & E3 & I3 & F3).
  unfold t_in_alloc. rewrite E3. eexists. split; [reflexivity|]. cbn. split; [done|]. split; [done|]. split; [done|]. split; [done|].
  intros x Hx. destruct (F3 x Hx) as [-> ->]. apply F2. by constructor.
Qed.

Lemma free_nodes_ok (s : tstate) t : holds nsz s t -> I (t_alloc s) (t_mem s) (addrs t) ->
  exists s', free_nodes aa chk nsz nal s = Ok tt s' /\ I (t_alloc s') (t_mem s') [] /\
    t_obj s' = t_obj s /\ t_size s' = t_size s /\ t_drops s' = t_drops s.
Proof using H24 TF.
  intros H HI. destruct (holds_walk _ _ _ H) as (b & W & F & _). pose proof (wplaced_kids _ _ _ (wk_placed _ _ _ _ W)) as KD.
  unfold free_nodes, t_parent. unfold bind at 1. unfold bind at 1, gets at 1. rewrite (t_word_ok _ _ _ (wk_root _ _ _ _ W)).
  unfold bind at 1, gets at 1. rewrite (addr_0 _ _ KD). destruct t as [|c l a k v r] eqn:ET; [by exists s|]. rewrite <- ET in *.
  destruct (free_tree_ok t (size (m_word (t_mem s))) s []) as (s' & E & I' & ? & ? & ? & _); [by rewrite ET| |done|by rewrite app_nil_r|by exists s'].
  pose proof (height_le t). pose proof (walk_count _ _ _ _ W). lia.
Qed.
End free.

(** ** The default allocator *)
Section default.
Context {K V : Type}.
Variables (pick : mem (K * V) -> Z -> Z -> Z) (strict chk : bool) (nsz nal : Z) (rest : list region) (w0 : gmap Z Z).
Hypothesis TL : tree_layout nsz nal.
Hypothesis WF : forall r, r ∈ rest -> 0 < r_bytes r.
Local Notation aa := (DefaultAddrAlloc pick strict).

Definition TDI (u : unit) (m : mem (K * V)) (L : list Z) : Prop :=
  (NoDup L /\ m_word m = w0) /\ m_live m ≡ₚ map (node_block nsz nal) L ++ rest /\ (forall a r, a ∈ L -> r ∈ rest -> meets a nsz r = false).

Lemma default_tfree : TFree aa chk nsz nal TDI.
Proof using All.
  destruct TL as [NL H24]. pose proof (node_layout_pos _ _ NL) as (? & ? & ? & ?).
  split.
  - intros u m L p (ND & P & AP) Hp. unfold accessible. apply existsb_exists. exists (node_block nsz nal p).
    split; [|unfold AddrMem.inside; cbn; lia]. apply elem_of_list_In. rewrite P. apply elem_of_app. left. by apply elem_of_list_fmap_1.
  - intros u m L L' ([ND EW] & P & AP) PL. split; [by rewrite <- PL|]. split; [by rewrite P, PL|]. intros a r Ha. apply AP. by rewrite PL.
  - intros u m p L ([ND EW] & P & AP). apply NoDup_cons in ND as [NI ND].
    unfold deallocate. unfold bind. rewrite Z.mul_1_l, usizeZ_ok by lia. cbn [aa_free DefaultAddrAlloc]. unfold default_free_raw. cbn [fst snd].
    rewrite (proj2 (proj2 (proj2 NL))).
    destruct (remove_block_ex p (m_live m) (node_block nsz nal p)) as (r & l' & E).
    { rewrite P. constructor. } { done. } { done. }
    destruct (remove_block_some _ _ _ _ E) as (P' & RB & RH).
    assert (r = node_block nsz nal p) as ->.
    { assert (r ∈ map (node_block nsz nal) (p :: L) ++ rest) as Hr by (rewrite <- P, P'; constructor).
      apply elem_of_app in Hr as [Hr|Hr].
      - apply elem_of_list_fmap in Hr as (q & -> & Hq). cbn in RB. by rewrite RB.
      - pose proof (AP p r ltac:(constructor) Hr) as ME. pose proof (WF _ Hr). unfold meets in ME. lia. }
    unfold mem_free. rewrite E. cbn [r_bytes r_align node_block]. rewrite !Z.eqb_refl, andb_false_r.
    exists tt, (Mem l' (m_word m) (m_val m) (S (m_time m))). split; [by destruct u|]. split; [|done].
    split; [done|]. split; [|intros a r' Ha; apply AP; by constructor]. cbn. apply (Permutation_cons_inv (a := node_block nsz nal p)). by rewrite <- P', P.
Qed.

Lemma free_default (s : tstate unit K V) t : m_word (t_mem s) = w0 -> holds nsz s t -> owns nsz nal (t_mem s) t rest ->
  exists s', free_nodes aa chk nsz nal s = Ok tt s' /\ m_live (t_mem s') ≡ₚ rest /\ m_word (t_mem s') = m_word (t_mem s) /\
    t_obj s' = t_obj s /\ t_size s' = t_size s /\ t_drops s' = t_drops s.
Proof using All.
  intros EW0 H [O1 O2 O3]. destruct (free_nodes_ok aa chk nsz nal TDI (proj2 TL) default_tfree s t H) as (s' & E & ([_ EW'] & P & _) & R).
  - split; [|done]. pose proof (h_distinct _ _ _ H) as ND. by apply NoDup_cons in ND as [_ ?].
  - exists s'. by rewrite EW', EW0.
Qed.

End default.

Section gone.
Context {K V : Type}.
Variables (nsz nal : Z) (rest : list region).
(** The object is not inside a node. *)
Lemma object_rest (m m' : mem (K * V)) t x : owns nsz nal m t rest -> m_live m' ≡ₚ rest -> accessible m x 8 = true ->
  (forall a, a ∈ addrs t -> x + 8 <= a \/ a + nsz <= x) -> accessible m' x 8 = true.
Proof using.
  intros [O1 _ _] P AC AP. unfold accessible in *. apply existsb_exists in AC as (r & Hr & HI). apply existsb_exists. exists r.
  split; [|done]. apply elem_of_list_In. apply elem_of_list_In in Hr. rewrite O1 in Hr. rewrite P. apply elem_of_app in Hr as [Hr|Hr]; [|done].
  apply elem_of_list_fmap in Hr as (a & -> & Ha). specialize (AP a Ha). unfold AddrMem.inside in HI. cbn in HI. lia.
Qed.

Lemma freed_gone (m m' : mem (K * V)) t a x n : owns nsz nal m t rest -> m_live m' ≡ₚ rest -> a ∈ addrs t -> a <= x -> x + n <= a + nsz -> 0 < n ->
  accessible m' x n = false.
Proof using.
  intros [_ O2 O3] P Ha L1 L2 L3. destruct (accessible m' x n) eqn:AC; [|done]. unfold accessible in AC.
  apply existsb_exists in AC as (r & Hr & HI). apply elem_of_list_In in Hr. rewrite P in Hr. specialize (O2 a r Ha Hr).
  unfold meets in O2. unfold AddrMem.inside in HI. lia.
Qed.
End gone.

(** ** Linking *)
Section linking.
Context {A K V : Type}.
Local Notation tstate := (tstate A K V).
Lemma t_put_ok (s : tstate) a w x : load_word (t_mem s) a = Some x ->
  t_put a w s = Ok tt (TState (t_obj s) (t_size s) (t_alloc s) (Mem (m_live (t_mem s)) (<[a := w]> (m_word (t_mem s))) (m_val (t_mem s)) (m_time (t_mem s))) (t_drops s)).
Proof. intros E. unfold t_put, bind, gets, store_word. unfold load_word in E. by destruct (word_at (t_mem s) a). Qed.
End linking.
