(** Proofs of the properties stated in TreeDepthProps.v. *)
From Verif Require Import Base Alloc AddrMem FixedPool LinkedList RBTree RBTreeSpec TreeDepth.
Local Open Scope Z_scope.

From Verif Require Import FixedPoolSpec FixedPoolProofs LinkedListSpec RBTreeProofs RBTreeCalls RBTreeFree RBTreeDerived.

Definition forget {S A} (o : outcome S A) : outcome S unit :=
  match o with Ok _ s => Ok tt s | Panic s => Panic s | UB => UB end.
Lemma forget_bind {S A B C} (m : M S A) (f : A -> M S B) (g : C -> M S unit) (m' : M S C) s (h : A -> C) :
  m' s = match m s with Ok a s' => Ok (h a) s' | Panic s' => Panic s' | UB => UB end ->
  (forall a s', forget (f a s') = g (h a) s') -> forget (bind m f s) = bind m' g s.
Proof. intros E F. unfold bind. rewrite E. destruct (m s); cbn; [apply F|done|done]. Qed.
Lemma forget_same {S A B} (m : M S A) (f : A -> M S B) (g : A -> M S unit) s :
  (forall a s', forget (f a s') = g a s') -> forget (bind m f s) = bind m g s.
Proof. intros F. apply (forget_bind m f g m s (fun a => a)); [by destruct (m s)|exact F]. Qed.
Lemma forget_count {S A B} (m : M S A) (f : A -> M S B) (g : unit -> M S unit) (m' : M S unit) s :
  forget (m s) = m' s -> (forall a s', forget (f a s') = g tt s') -> forget (bind m f s) = bind m' g s.
Proof. intros E F. apply (forget_bind m f g m' s (fun _ => tt)); [by rewrite <- E; destruct (m s)|exact F]. Qed.

Lemma free_tree_forget {A K V} (aa : AddrAlloc A (K * V)) chk nsz nal f : forall p (s : tstate A K V),
  forget (free_tree_depth aa chk nsz nal f p s) = free_tree aa chk nsz nal f p s.
Proof.
  induction f as [|f IH]; intros p s; [done|]. cbn [free_tree_depth free_tree].
  apply forget_same. intros l s1. apply forget_count.
  { destruct (l =? 0); [done|apply IH]. }
  intros dl s2. apply forget_same. intros r s3. apply forget_count.
  { destruct (r =? 0); [done|apply IH]. }
  intros dr s4. unfold bind, ret. by destruct (t_in_alloc _ s4) as [[]| |].
Qed.

Section depth.
Context {A K V : Type}.
Variables (aa : AddrAlloc A (K * V)) (chk : bool) (nsz nal : Z) (I : A -> mem (K * V) -> list Z -> Prop).
Hypothesis H24 : 24 <= nsz.
Hypothesis TF : TFree aa chk nsz nal I.
Local Notation tstate := (tstate A K V).

(** Follows [free_tree_ok]; the states come from there. *)
Lemma tree_depth (t : tree K V) : forall f (s : tstate) R, t <> Leaf -> (height t <= f)%nat -> kids (m_word (t_mem s)) t ->
  I (t_alloc s) (t_mem s) (addrs t ++ R) ->
  exists s', free_tree_depth aa chk nsz nal f (addr t) s = Ok (height t) s' /\ I (t_alloc s') (t_mem s') R /\
    (forall x, x ∈ R -> m_word (t_mem s') !! x = m_word (t_mem s) !! x /\ m_word (t_mem s') !! (x + 8) = m_word (t_mem s) !! (x + 8)).
Proof using H24 TF.
  assert (W : forall (s : tstate) L a w, I (t_alloc s) (t_mem s) L -> a ∈ L -> (8 | a) ->
    (m_word (t_mem s) !! a = Some w -> t_word a s = Ok w s) /\ (m_word (t_mem s) !! (a + 8) = Some w -> t_word (a + 8) s = Ok w s)).
  { intros s L a w HI Ha D. pose proof (tf_node _ _ _ _ _ TF _ _ _ _ HI Ha) as AC.
    split; intros E; apply t_word_ok; rewrite load_word_ok; try done.
    - eapply word_at_ok; [exact AC|lia|lia|done].
    - eapply word_at_ok; [exact AC|lia|lia|]. apply Z.divide_add_r; [done|by exists 1]. }
  induction t as [|c l IHl a k v r IHr]; intros f s R NL HF KD HI; [done|].
  destruct f as [|f]; [cbn in HF; lia|]. cbn [height addr addrs] in *. cbn [kids] in KD. destruct KD as (H1 & H2 & H3 & H4 & K1 & K2).
  cbn [free_tree_depth]. unfold get_left, get_right.
  assert (IN : a ∈ (addrs l ++ a :: addrs r) ++ R) by (apply elem_of_app; left; apply elem_of_app; right; constructor).
  rewrite (bind_ok _ _ _ _ _ (proj2 (W s _ a _ HI IN H2) H4)).
  assert (exists s1, (if addr l =? 0 then ret 0%nat else free_tree_depth aa chk nsz nal f (addr l)) s = Ok (height l) s1 /\
    I (t_alloc s1) (t_mem s1) (a :: addrs r ++ R) /\
    (forall x, x ∈ a :: addrs r ++ R -> m_word (t_mem s1) !! x = m_word (t_mem s) !! x /\ m_word (t_mem s1) !! (x + 8) = m_word (t_mem s) !! (x + 8)))
    as (s1 & E1 & I1 & F1).
  { rewrite (addr_0 _ _ K1). destruct l as [|c' l' a' k' v' r'] eqn:EL; [by exists s|]. rewrite <- EL in *.
    apply (IHl f s (a :: addrs r ++ R)); [by rewrite EL|lia|done|]. by rewrite <- app_assoc in HI. }
  rewrite (bind_ok _ _ _ _ _ E1).
  destruct (F1 a ltac:(constructor)) as [Fa Fb].
  rewrite (bind_ok _ _ _ _ _ (proj1 (W s1 _ a (addr r) I1 ltac:(constructor) H2) ltac:(by rewrite Fa))).
  assert (exists s2, (if addr r =? 0 then ret 0%nat else free_tree_depth aa chk nsz nal f (addr r)) s1 = Ok (height r) s2 /\
    I (t_alloc s2) (t_mem s2) (a :: R) /\
    (forall x, x ∈ a :: R -> m_word (t_mem s2) !! x = m_word (t_mem s) !! x /\ m_word (t_mem s2) !! (x + 8) = m_word (t_mem s) !! (x + 8)))
    as (s2 & E2 & I2 & F2).
  { assert (K2' : kids (m_word (t_mem s1)) r).
    { eapply kids_frame; [|exact K2]. intros x Hx. apply F1. constructor. apply elem_of_app. by left. }
    rewrite (addr_0 _ _ K2). destruct r as [|c' l' a' k' v' r'] eqn:ER.
    - exists s1. cbn in I1. done.
    - rewrite <- ER in *. destruct (IHr f s1 (a :: R)) as (s2 & E2 & I2 & F2); [by rewrite ER|lia|done| |].
      + eapply (tf_perm _ _ _ _ _ TF); [exact I1|]. solve_Permutation.
      + exists s2. split; [done|]. split; [done|].
        intros x Hx. destruct (F2 x Hx) as [-> ->]. apply F1. apply elem_of_cons in Hx as [-> |Hx]; [constructor|]. constructor. apply elem_of_app. by right. }
  rewrite (bind_ok _ _ _ _ _ E2).
  destruct (tf_free _ _ _ _ _ TF _ _ _ _ I2) as (a3 & m3 & E3 & I3 & F3).
  unfold bind at 1, t_in_alloc. rewrite E3. eexists. split; [reflexivity|]. cbn. split; [done|].
  intros x Hx. destruct (F3 x Hx) as [-> ->]. apply F2. by constructor.
Qed.

Lemma nodes_depth (s : tstate) t : holds nsz s t -> I (t_alloc s) (t_mem s) (addrs t) ->
  exists s', free_nodes_depth aa chk nsz nal s = Ok (height t) s'.
Proof using H24 TF.
  intros H HI. destruct (holds_walk _ _ _ H) as (b & W & F & _). pose proof (wplaced_kids _ _ _ _ (wk_placed _ _ _ _ W)) as KD.
  unfold free_nodes_depth, t_parent. unfold bind at 1. unfold bind at 1, gets at 1. rewrite (t_word_ok _ _ _ (wk_root _ _ _ _ W)).
  unfold bind at 1, gets at 1. rewrite (addr_0 _ _ KD). destruct t as [|c l a k v r] eqn:ET; [by exists s|]. rewrite <- ET in *.
  destruct (tree_depth t (size (m_word (t_mem s))) s []) as (s' & E & I' & _); [by rewrite ET| |done|by rewrite app_nil_r|by exists s'].
  pose proof (height_le t). pose proof (walk_count _ _ _ _ W). lia.
Qed.
End depth.

Lemma L_C99_tree_drop_depth :
forall (K V : Type) (pick : mem (K * V) -> Z -> Z -> Z) (strict chk : bool) (nsz nal : Z) (rest : list region)
    (s : tstate unit K V) (t : tree K V),
  tree_layout nsz nal -> holds nsz s t -> owns nsz nal (t_mem s) t rest -> red_black t ->
  exists d s', free_nodes_depth (DefaultAddrAlloc pick strict) chk nsz nal s = Ok d s' /\
    t_drop (DefaultAddrAlloc pick strict) chk nsz nal s = Ok tt s' /\ t_clear (DefaultAddrAlloc pick strict) chk nsz nal s = Ok tt s' /\
    (d <= 2 * Nat.log2 (length (entries t) + 1))%nat.
Proof.
  intros K V pick strict chk nsz nal rest s t TL H O RB.
  assert (FO : forall s', forget (free_nodes_depth (DefaultAddrAlloc pick strict) chk nsz nal s') = free_nodes (DefaultAddrAlloc pick strict) chk nsz nal s').
  { intros s'. unfold free_nodes_depth, free_nodes. apply forget_same. intros p s1. apply forget_same. intros m s2.
    destruct (p =? 0); [done|apply free_tree_forget]. }
  destruct (nodes_depth (DefaultAddrAlloc pick strict) chk nsz nal (TDI nsz nal rest (m_word (t_mem s))) (proj2 TL)
    (default_tfree pick strict chk nsz nal rest (m_word (t_mem s)) TL (ow_wf _ _ _ _ _ O)) s t H) as (s' & E).
  { destruct O as [O1 O2 O3]. split; [|done]. pose proof (h_distinct _ _ _ H) as ND. apply NoDup_cons in ND as [_ ?]. done. }
  exists (height t), s'. split; [done|]. unfold t_drop, t_clear. rewrite <- FO, E. split; [done|]. split; [done|]. by apply height_log.
Qed.
