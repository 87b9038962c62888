(** Proofs about red-black trees: lookup, iteration, and the calls. *)
From Verif Require Import Base Alloc AddrMem FixedPool FixedPoolSpec FixedPoolProofs LinkedList LinkedListSpec RBTree RBTreeSpec RBTreeProofs.
Local Open Scope Z_scope.

(** ** Orders *)
Section orders.
Context {K V : Type}.
Variable lt : K -> K -> bool.
Hypothesis SWO : strict_weak_order lt.

Lemma lt_equiv a b k : lt a b = true -> equivalent lt k b = true -> lt a k = true.
Proof using SWO.
  unfold equivalent. intros H E. apply andb_true_iff in E as [E1 E2]. apply negb_true_iff in E1, E2.
  destruct (lt a k) eqn:X; [done|]. destruct (lt k a) eqn:Y.
  - by rewrite (swo_trans _ SWO _ _ _ Y H) in E1.
  - destruct (swo_incomp _ SWO a k b X Y E1 E2) as [Z _]. by rewrite Z in H.
Qed.
Lemma lt_not_equiv_l k a : lt k a = true -> equivalent lt k a = false.
Proof. unfold equivalent. by intros ->. Qed.
Lemma lt_not_equiv_r k a : lt a k = true -> equivalent lt k a = false.
Proof. unfold equivalent. intros ->. apply andb_false_r. Qed.

Lemma sorted_app (l1 l2 : list K) x : StronglySorted (fun a b => lt a b = true) (l1 ++ x :: l2) ->
  StronglySorted (fun a b => lt a b = true) l1 /\ StronglySorted (fun a b => lt a b = true) l2 /\
  Forall (fun y => lt y x = true) l1 /\ Forall (fun y => lt x y = true) l2.
Proof using.
  induction l1 as [|a l1 IH]; cbn; intros H.
  - apply StronglySorted_inv in H as [H F]. repeat split; [constructor|done|constructor|done].
  - apply StronglySorted_inv in H as [H F]. destruct (IH H) as (S1 & S2 & F1 & F2).
    apply Forall_app in F as [G1 G2]. apply Forall_cons in G2 as [G2 G3].
    repeat split; [by constructor|done|by constructor|done].
Qed.

(** Where the entry found is. *)
Lemma find_at (es : list (K * V)) k i e : es !! i = Some e -> equivalent lt k (fst e) = true ->
  (forall j e', (j < i)%nat -> es !! j = Some e' -> equivalent lt k (fst e') = false) ->
  List.find (fun e => equivalent lt k (fst e)) es = Some e.
Proof using.
  revert i. induction es as [|x es IH]; intros [|i] E EQ B; try done; cbn in *.
  - injection E as ->. by rewrite EQ.
  - rewrite (B 0%nat x) by (done || lia). apply (IH i); try done. intros j e' Hj. apply (B (S j)). lia.
Qed.
Lemma set_at (es : list (K * V)) k v i e : es !! i = Some e -> equivalent lt k (fst e) = true ->
  (forall j e', (j < i)%nat -> es !! j = Some e' -> equivalent lt k (fst e') = false) ->
  spec_set lt k v es = <[i := (fst e, v)]> es.
Proof using.
  revert i. induction es as [|x es IH]; intros [|i] E EQ B; try done; cbn in *.
  - injection E as ->. by rewrite EQ.
  - rewrite (B 0%nat x) by (done || lia). f_equal. apply (IH i); try done. intros j e' Hj. apply (B (S j)). lia.
Qed.
Lemma find_none (es : list (K * V)) k : Forall (fun e => equivalent lt k (fst e) = false) es ->
  List.find (fun e => equivalent lt k (fst e)) es = None.
Proof using. induction 1 as [|e es H _ IH]; cbn; [done|]. by rewrite H. Qed.

(** ** Lookup in a tree *)
Fixpoint tfind (k : K) (t : tree K V) : option Z * nat :=
  match t with
  | Leaf => (None, O)
  | Bin _ l a x v r =>
    if lt k x then (fst (tfind k l), S (snd (tfind k l)))
    else if negb (lt x k) then (Some a, 1%nat)
    else (fst (tfind k r), S (snd (tfind k r)))
  end.
Lemma tfind_height k t : (snd (tfind k t) <= height t)%nat.
Proof using. induction t as [|c l IHl a x v r IHr]; cbn; [done|]. destruct (lt k x), (lt x k); cbn; lia. Qed.

Lemma tfind_ok k t : sorted lt t ->
  match fst (tfind k t) with
  | None => Forall (fun e => equivalent lt k (fst e) = false) (entries t)
  | Some p => exists i e, addrs t !! i = Some p /\ entries t !! i = Some e /\ equivalent lt k (fst e) = true /\
      (forall j e', (j < i)%nat -> entries t !! j = Some e' -> equivalent lt k (fst e') = false)
  end.
Proof using SWO.
  unfold sorted, keys. induction t as [|c l IHl a x v r IHr]; cbn [entries]; intros HS; [cbn; constructor|].
  rewrite map_app in HS. cbn in HS. apply sorted_app in HS as (S1 & S2 & F1 & F2). specialize (IHl S1). specialize (IHr S2).
  rewrite Forall_map in F1, F2. cbn [tfind addrs]. destruct (lt k x) eqn:E1; cbn [fst].
  - destruct (fst (tfind k l)) as [p|].
    + destruct IHl as (i & e & H1 & H2 & H3 & H4). exists i, e. 
      pose proof (lookup_lt_Some _ _ _ H1). pose proof (lookup_lt_Some _ _ _ H2).
      split; [by rewrite lookup_app_l|]. split; [by rewrite lookup_app_l|]. split; [done|].
      intros j e' Hj. rewrite lookup_app_l by lia. by apply H4.
    + apply Forall_app. split; [done|]. constructor; [cbn; by apply lt_not_equiv_l|].
      eapply Forall_impl; [exact F2|]. cbn. intros e He. apply lt_not_equiv_l. by eapply (swo_trans _ SWO).
  - destruct (lt x k) eqn:E2; cbn [negb fst].
    + destruct (fst (tfind k r)) as [p|].
      * destruct IHr as (i & e & H1 & H2 & H3 & H4). exists (length (entries l) + S i)%nat, e.
        split; [rewrite <- addrs_entries; by rewrite lookup_app_r, Nat.add_comm, Nat.add_sub by lia|].
        split; [by rewrite lookup_app_r, Nat.add_comm, Nat.add_sub by lia|]. split; [done|].
        intros j e' Hj He. destruct (decide (j < length (entries l))%nat).
        -- rewrite lookup_app_l in He by done. rewrite Forall_lookup in F1. apply lt_not_equiv_r.
           eapply (swo_trans _ SWO); [|done]. exact (F1 _ _ He).
        -- rewrite lookup_app_r in He by lia. destruct (j - length (entries l))%nat as [|j'] eqn:Ej.
           ++ injection He as <-. cbn. by apply lt_not_equiv_r.
           ++ apply (H4 j'); [lia|done].
      * apply Forall_app. split; [|constructor; [cbn; by apply lt_not_equiv_r|done]].
        eapply Forall_impl; [exact F1|]. cbn. intros e He. apply lt_not_equiv_r. by eapply (swo_trans _ SWO).
    + exists (length (entries l)), (x, v).
      split; [rewrite <- addrs_entries; by rewrite lookup_app_r, Nat.sub_diag by lia|].
      split; [by rewrite lookup_app_r, Nat.sub_diag by lia|]. split; [unfold equivalent; cbn; by rewrite E1, E2|].
      intros j e' Hj He. rewrite lookup_app_l in He by done. rewrite Forall_lookup in F1. apply lt_not_equiv_r.
      eapply lt_equiv; [exact (F1 _ _ He)|]. unfold equivalent. cbn. by rewrite E1, E2.
Qed.

End orders.

(** ** Balance *)
Section balance.
Context {K V : Type}.
Lemma black_count (t : tree K V) n : black_height t n -> (2 ^ n <= length (entries t) + 1)%nat.
Proof.
  revert n. induction t as [|c l IHl a k v r IHr]; intros n H; cbn in *; [by subst|].
  rewrite app_length. cbn. destruct c.
  - destruct H as [H1 H2]. specialize (IHl _ H1). lia.
  - destruct H as (n' & -> & H1 & H2). specialize (IHl _ H1). specialize (IHr _ H2). cbn. lia.
Qed.
Lemma height_black (t : tree K V) n : no_red_red t -> black_height t n ->
  (height t <= 2 * n + (if is_red t then 1 else 0))%nat.
Proof.
  revert n. induction t as [|c l IHl a k v r IHr]; intros n H B; cbn [height is_red] in *; [lia|].
  cbn in H. destruct H as (H & Hl & Hr). destruct c; cbn in B.
  - destruct B as [B1 B2]. destruct (H eq_refl) as [E1 E2]. specialize (IHl _ Hl B1). specialize (IHr _ Hr B2). rewrite E1 in IHl. rewrite E2 in IHr. lia.
  - destruct B as (n' & -> & B1 & B2). specialize (IHl _ Hl B1). specialize (IHr _ Hr B2). destruct (is_red l), (is_red r); lia.
Qed.
Lemma height_log (t : tree K V) : red_black t -> (height t <= 2 * Nat.log2 (length (entries t) + 1))%nat.
Proof.
  intros (R & N & n & B). pose proof (height_black _ _ N B) as H. rewrite R in H.
  pose proof (black_count _ _ B) as C. apply Nat.log2_le_mono in C. rewrite Nat.log2_pow2 in C by lia. lia.
Qed.
End balance.

Lemma in_left {K V} (l r : tree K V) c a k v x : x ∈ addrs l -> x ∈ addrs (Bin c l a k v r).
Proof. intros H. cbn. apply elem_of_app. by left. Qed.
Lemma in_right {K V} (l r : tree K V) c a k v x : x ∈ addrs r -> x ∈ addrs (Bin c l a k v r).
Proof. intros H. cbn. apply elem_of_app. right. by constructor. Qed.
Lemma in_root {K V} (l r : tree K V) c a k v : a ∈ addrs (Bin c l a k v r).
Proof. cbn. apply elem_of_app. right. constructor. Qed.
Lemma in_mid {A} (xs ys l : list A) y : l = xs ++ y :: ys -> y ∈ l.
Proof. intros ->. apply elem_of_app. right. constructor. Qed.

(** ** Walking *)
Section walk.
Context {A K V : Type}.
Variables (nsz : Z) (s : tstate A K V).
Hypothesis H24 : 24 <= nsz.
Local Notation m := (t_mem s).

Lemma t_word_ok a w : load_word m a = Some w -> t_word a s = Ok w s.
Proof using. intros E. unfold t_word, bind, gets. by rewrite E. Qed.
Lemma t_word_ok2 a w {R} (f : Z -> M (tstate A K V) R) : load_word m a = Some w -> bind (t_word a) f s = f w s.
Proof using. intros E. unfold bind. by rewrite (t_word_ok _ _ E). Qed.

Lemma leftmost_ok up t f x : wplaced nsz m up t -> head (addrs t) = Some x -> (height t <= S f)%nat ->
  leftmost f (addr t) s = Ok x s.
Proof using.
  revert up f x. induction t as [|c l IHl a k v r IHr]; intros up f x W E Hf; [done|].
  cbn [wplaced addr height addrs] in *. destruct W as (H1 & H2 & H3 & H4 & H5 & H6 & W1 & W2).
  destruct f as [|f]; cbn [leftmost]; unfold get_left; rewrite (t_word_ok2 _ _ _ H4); destruct l as [|c' l' a' k' v' r'].
  - cbn in E. injection E as ->. done.
  - cbn [height] in Hf. lia.
  - cbn in E. injection E as ->. done.
  - destruct W1 as (? & W1). pose proof (conj H W1) as W1'. replace (addr (Bin c' l' a' k' v' r') =? 0) with false by (cbn; lia).
    apply (IHl a); [exact W1'| |lia]. clear -E. cbn [addrs] in *. by destruct (addrs l').
Qed.

(** Climbing from the last node of a tree gets to its root. *)
Lemma climb_last up t x : wplaced nsz m up t -> last (addrs t) = Some x -> 0 <= up < usize_lim -> (8 | up) ->
  exists n pa, (n < length (addrs t))%nat /\ get_parent x s = Ok pa s /\ get_right x s = Ok 0 s /\
    forall f, climb (n + f) x pa s = climb f (addr t) up s.
Proof using.
  revert up. induction t as [|c l IHl a k v r IHr]; intros up W E U1 U2; [done|].
  cbn [wplaced addr addrs] in *. destruct W as (H1 & H2 & H3 & H4 & H5 & H6 & W1 & W2).
  rewrite last_app in E. destruct r as [|c' l' a' k' v' r'].
  - cbn in E. injection E as ->. exists O, up. split; [rewrite app_length; cbn; lia|].
    split; [|split; [by apply t_word_ok|done]]. unfold get_parent, get_pc. rewrite (t_word_ok2 _ _ _ H5).
    unfold ret. by rewrite pc_ptr_at by (done || by apply even8).
  - remember (Bin c' l' a' k' v' r') as r0. assert (last (addrs r0) = Some x) as E'.
    { rewrite last_cons in E. destruct (last (addrs r0)) eqn:X; [done|]. apply last_None in X. subst r0. cbn in X. by destruct (addrs l'). }
    destruct (IHr a W2 E' ltac:(lia) H2) as (n & pa & N1 & N2 & N3 & N4).
    exists (S n), pa. split; [rewrite app_length; cbn; lia|]. split; [done|]. split; [done|].
    intros f. replace (S n + f)%nat with (n + S f)%nat by lia. rewrite N4. cbn [climb].
    unfold get_right. rewrite (t_word_ok2 _ _ _ H3), Z.eqb_refl. unfold get_parent, get_pc, bind at 1.
    rewrite (t_word_ok2 _ _ _ H5). unfold ret at 1. by rewrite pc_ptr_at by (done || by apply even8).
Qed.
(** The right child of a node of a tree. *)
Lemma right_of up t : wplaced nsz m up t -> t <> Leaf -> exists y, get_right (addr t) s = Ok y s /\ (y = 0 \/ y ∈ addrs t) .
Proof using.
  destruct t as [|c l a k v r]; [done|]. intros W _. cbn in W. destruct W as (H1 & H2 & H3 & H4 & H5 & H6 & W1 & W2).
  exists (addr r). split; [by apply t_word_ok|]. destruct (addr_0_or r) as [[_ ->]|H]; [by left|]. right. cbn. apply elem_of_app. right. by constructor.
Qed.

Lemma node_next_right x y n : get_right x s = Ok y s -> y <> 0 -> leftmost (size (m_word m)) y s = Ok n s -> node_next x s = Ok n s.
Proof using.
  intros E1 E2 E3. unfold node_next, bind at 1, gets. cbv beta. unfold bind at 1. rewrite E1.
  replace (y =? 0) with false by lia. done.
Qed.
Lemma node_next_up x pa a b y : get_right x s = Ok 0 s -> get_parent x s = Ok pa s -> climb (size (m_word m)) x pa s = Ok (a, b) s ->
  get_right a s = Ok y s -> node_next x s = Ok (if y =? b then a else b) s.
Proof using.
  intros E1 E2 E3 E4. unfold node_next, bind at 1, gets. cbv beta. unfold bind at 1. rewrite E1. cbn [Z.eqb negb].
  unfold bind at 1. rewrite E2. unfold bind at 1. rewrite E3. unfold bind at 1. cbn [fst snd]. rewrite E4. by destruct (y =? b).
Qed.

(** Inside a tree, the next node is the next in order. *)
Lemma next_in up t xs x y ys : wplaced nsz m up t -> 0 <= up < usize_lim -> (8 | up) -> NoDup (addrs t) ->
  (length (addrs t) <= size (m_word m))%nat ->
  addrs t = xs ++ x :: y :: ys -> node_next x s = Ok y s.
Proof using H24.
  revert up xs ys. induction t as [|c l IHl a k v r IHr]; intros up xs ys W U1 U2 ND LE E; [by destruct xs|].
  cbn [wplaced addr addrs] in *. destruct W as (H1 & H2 & H3 & H4 & H5 & H6 & W1 & W2).
  rewrite app_length in LE. cbn in LE. pose proof (height_le l) as Hl. pose proof (height_le r) as Hr.
  pose proof ND as ND0. apply NoDup_app in ND as (NL & NX & NR). apply NoDup_cons in NR as [NA NR].
  apply app_eq_inv in E as [(k' & E1 & E2)|(k' & E1 & E2)].
  - (* the split lies in [l] or at its end *)
    destruct k' as [|z k'].
    + rewrite app_nil_r in E1. cbn in E2. injection E2 as -> E2.
      destruct r as [|c' l' a' k'' v' r']; [done|]. remember (Bin c' l' a' k'' v' r') as r0.
      apply (node_next_right _ (addr r0)); [by apply t_word_ok| |].
      * pose proof (addr_in r0 ltac:(by subst)) as HI. destruct (wplaced_node _ _ _ _ _ W2 HI) as (? & _). lia.
      * eapply leftmost_ok; [done|by (rewrite <- E2 || rewrite E2)|lia].
    + cbn in E2. injection E2 as <- E2. destruct k' as [|z' k'].
      * (* [x] is the last of [l] *) cbn in E2. injection E2 as -> E2.
        destruct (climb_last a l x W1 ltac:(rewrite E1; by rewrite last_snoc) ltac:(lia) H2) as (n & pa & N1 & N2 & N3 & N4).
        assert (l <> Leaf) as NLf by (intros ->; by destruct xs).
        destruct (right_of _ _ W1 NLf) as (z & Z1 & Z2).
        pose proof (addr_in l NLf) as AL.
        rewrite (node_next_up x pa (addr l) a z); try done.
        -- replace (z =? a) with false; [done|]. symmetry. apply Z.eqb_neq. intros ->. destruct Z2 as [-> |Z2]; [lia|]. apply (NX _ Z2). constructor.
        -- replace (size (m_word m)) with (n + (size (m_word m) - n))%nat by lia. rewrite N4.
           destruct (size (m_word m) - n)%nat eqn:EF; [lia|]. cbn [climb]. unfold get_right. rewrite (t_word_ok2 _ _ _ H3).
           replace (addr l =? addr r) with false; [done|]. symmetry. apply Z.eqb_neq. intros EQ. rewrite EQ in AL.
           destruct (addr_0_or r) as [[_ E0]|HR].
           ++ rewrite E0 in AL. destruct (wplaced_node _ _ _ _ _ W1 AL) as (? & _). lia.
           ++ apply (NX _ AL). by constructor.
      * cbn in E2. injection E2 as -> E2. apply (IHl a xs k'); [done|lia|done|done|lia|done].
  - destruct k' as [|z k'].
    + rewrite app_nil_r in E1. cbn in E2. injection E2 as -> E2.
      destruct r as [|c' l' a' k'' v' r']; [done|]. remember (Bin c' l' a' k'' v' r') as r0.
      apply (node_next_right _ (addr r0)); [by apply t_word_ok| |].
      * pose proof (addr_in r0 ltac:(by subst)) as HI. destruct (wplaced_node _ _ _ _ _ W2 HI) as (? & _). lia.
      * eapply leftmost_ok; [done|by (rewrite <- E2 || rewrite E2)|lia].
    + cbn in E2. injection E2 as -> E2. apply (IHr z k' ys); [done|lia|done|done|lia|done].
Qed.
(** The node after the last of the whole tree is the anchor, whichever node the first
    word of the anchor points to. *)
Lemma next_last o b t x : anchor o = o + 8 -> wplaced nsz m (anchor o) t -> 0 < o -> o + 32 < usize_lim -> (8 | o) ->
  NoDup (anchor o :: addrs t) -> (length (addrs t) <= size (m_word m))%nat ->
  load_word m (o + 8) = Some b -> load_word m (o + 24) = Some (addr t) ->
  last (addrs t) = Some x -> node_next x s = Ok (anchor o) s.
Proof using H24.
  intros EA W O1 O2 O3 ND LE EB ER EX. assert (8 | anchor o) as D8 by (rewrite EA; apply Z.divide_add_r; [done|by exists 1]).
  destruct (climb_last (anchor o) t x W EX ltac:(lia) D8) as (n & pa & N1 & N2 & N3 & N4).
  assert (t <> Leaf) as NLf by (intros ->; done). destruct (right_of _ _ W NLf) as (z & Z1 & Z2).
  pose proof (addr_in t NLf) as AL. destruct (wplaced_node _ _ _ _ _ W AL) as (A1 & A2 & _).
  apply NoDup_cons in ND as [NA ND].
  assert (anchor o <> z) as NZ by (intros <-; destruct Z2 as [? |Z2]; [lia|done]).
  assert (climb (size (m_word m)) x pa s = Ok (if addr t =? b then (anchor o, addr t) else (addr t, anchor o)) s) as EC.
  { replace (size (m_word m)) with (n + (size (m_word m) - n))%nat by lia. rewrite N4.
    destruct (size (m_word m) - n)%nat as [|f] eqn:EF; [lia|]. cbn [climb]. unfold get_right at 1. rewrite EA, (t_word_ok2 _ _ _ EB).
    destruct (Z.eqb_spec (addr t) b) as [E|E]; [|done].
    unfold get_parent, get_pc. unfold bind at 1. replace (o + 8 + 16) with (o + 24) by lia. rewrite (t_word_ok2 _ _ _ ER).
    unfold ret at 1. replace (addr t) with (addr t + color_as_usize Red) at 1 by (cbn; lia). rewrite pc_ptr_at by (lia || by apply even8).
    destruct f as [|f]; cbn [climb]; unfold bind at 1; rewrite Z1; replace (o + 8 =? z) with false by lia; done. }
  destruct (Z.eqb_spec (addr t) b) as [E|E].
  - rewrite (node_next_up x pa (anchor o) (addr t) b); try done; [|rewrite EA; by apply t_word_ok]. by rewrite E, Z.eqb_refl.
  - rewrite (node_next_up x pa (addr t) (anchor o) z); try done. by replace (z =? anchor o) with false by lia.
Qed.

End walk.

(** ** The object and its nodes *)
Section object.
Context {A K V : Type}.
Variable (nsz : Z).
Hypothesis H24 : 24 <= nsz.
Local Notation tstate := (tstate A K V).

(** The words that a walk uses; [b] is what [begin] holds. *)
Record walk (s : tstate) (t : tree K V) (b : Z) : Prop := {
  wk_obj : 0 < t_obj s /\ t_obj s + 32 < usize_lim /\ (8 | t_obj s);
  wk_begin : load_word (t_mem s) (t_obj s + 8) = Some b;
  wk_root : load_word (t_mem s) (t_obj s + 24) = Some (addr t);
  wk_placed : wplaced nsz (t_mem s) (anchor (t_obj s)) t;
  wk_distinct : NoDup (anchor (t_obj s) :: addrs t)
}.
(** Only values differ. *)
Definition same_words (s s' : tstate) : Prop :=
  t_obj s' = t_obj s /\ m_live (t_mem s') = m_live (t_mem s) /\ m_word (t_mem s') = m_word (t_mem s).

Lemma same_load s s' x : same_words s s' -> load_word (t_mem s') x = load_word (t_mem s) x.
Proof using. intros (_ & EL & EW). unfold load_word, word_at, accessible. by rewrite EL, EW. Qed.
Lemma walk_same s s' t t' b : same_words s s' -> skeleton t' = skeleton t -> walk s t b -> walk s' t' b.
Proof using.
  intros SW ES [W1 W2 W3 W4 W5]. pose proof SW as (E1 & E2 & E3).
  split; rewrite ?E1, ?(same_load _ _ _ SW), ?(skeleton_addr _ _ ES), ?(skeleton_addrs _ _ ES); try done.
  by eapply wplaced_same.
Qed.
Lemma walk_count s t b : walk s t b -> (length (addrs t) <= size (m_word (t_mem s)))%nat.
Proof using. intros W. eapply count_words; [apply W|]. pose proof (wk_distinct _ _ _ W) as ND. by apply NoDup_cons in ND as [_ ?]. Qed.

(** The node an iterator points at with the nodes [ys] to come. *)
Definition pos (o : Z) (ys : list Z) : Z := match ys with [] => anchor o | y :: _ => y end.
Lemma next_pos s t b xs y ys : walk s t b -> addrs t = xs ++ y :: ys -> node_next y s = Ok (pos (t_obj s) ys) s.
Proof using H24.
  intros W E. pose proof (walk_count _ _ _ W) as LE. destruct W as [(O1 & O2 & O3) W2 W3 W4 W5].
  assert (8 | anchor (t_obj s)) as D8 by (unfold anchor; apply Z.divide_add_r; [done|by exists 1]).
  destruct ys as [|z ys]; cbn [pos].
  - eapply next_last; try done. rewrite E. by rewrite last_snoc.
  - eapply (next_in nsz); try done; [unfold anchor; lia|by apply NoDup_cons in W5 as [_ ?]].
Qed.
Lemma iter_pos s t b xs ys : walk s t b -> addrs t = xs ++ ys ->
  titer_next (TIter (pos (t_obj s) ys) (anchor (t_obj s))) s =
  Ok (head ys, TIter (pos (t_obj s) (tail ys)) (anchor (t_obj s))) s.
Proof using H24.
  intros W E. unfold titer_next. cbn [ti_node ti_anchor]. destruct ys as [|y ys]; cbn [pos head tail].
  - by rewrite Z.eqb_refl.
  - assert (y ∈ addrs t) as Hy by exact (in_mid _ _ _ _ E).
    destruct (wplaced_node _ _ _ _ _ (wk_placed _ _ _ W) Hy) as (Y1 & _). 
    replace (y =? anchor (t_obj s)) with false.
    2: { symmetry. apply Z.eqb_neq. intros ->. pose proof (wk_distinct _ _ _ W) as ND. by apply NoDup_cons in ND as [? _]. }
    replace (y =? 0) with false by lia. unfold bind. by rewrite (next_pos _ _ _ _ _ _ W E).
Qed.
Lemma pair_ok s t b x e : walk s t b -> x ∈ addrs t -> m_val (t_mem s) !! x = Some e -> get_pair nsz x s = Ok e s.
Proof using.
  intros W Hx E. destruct (wplaced_node _ _ _ _ _ (wk_placed _ _ _ W) Hx) as (_ & _ & _ & AC).
  unfold get_pair, bind, gets, load_val. by rewrite AC, E.
Qed.

Lemma yields_pos s t b xs ys es : walk s t b -> addrs t = xs ++ ys -> vals (t_mem s) ys es ->
  yields nsz s (TIter (pos (t_obj s) ys) (anchor (t_obj s))) es.
Proof using H24.
  intros W E F k. revert xs ys es E F. induction k as [|k IH]; intros xs ys es E F.
  - exists (TIter (pos (t_obj s) ys) (anchor (t_obj s))). done.
  - cbn [titer_take]. unfold bind at 1. rewrite (iter_pos _ _ _ _ _ W E). cbn [fst snd].
    destruct F as [|y e ys es Hy F].
    + destruct (IH xs [] [] E ltac:(constructor)) as (i' & E'). exists i'. cbn [head tail]. unfold bind at 1, ret at 1.
      unfold bind at 1. rewrite E'. cbn [fst snd map length take app]. rewrite !take_nil, !Nat.sub_0_r. done.
    + destruct (IH (xs ++ [y]) ys es ltac:(by rewrite E, <- app_assoc) F) as (i' & E'). exists i'. cbn [head tail].
      unfold bind at 1. unfold bind at 1. rewrite (pair_ok _ _ _ _ _ W (in_mid _ _ _ _ E) Hy). unfold ret at 1.
      unfold bind at 1. rewrite E'. done.
Qed.
Lemma loop_pos s t b xs ys es f : walk s t b -> addrs t = xs ++ ys -> vals (t_mem s) ys es -> (length ys <= f)%nat ->
  titer_loop nsz f (TIter (pos (t_obj s) ys) (anchor (t_obj s))) s = Ok es s.
Proof using H24.
  intros W. revert xs ys es. induction f as [|f IH]; intros xs ys es E F L; cbn [titer_loop];
    unfold bind at 1; rewrite (iter_pos _ _ _ _ _ W E); cbn [fst snd]; destruct F as [|y e ys es Hy F]; cbn [head tail]; try done.
  - cbn in L. lia.
  - unfold bind at 1. rewrite (pair_ok _ _ _ _ _ W (in_mid _ _ _ _ E) Hy). unfold bind at 1.
    by rewrite (IH (xs ++ [y]) ys es ltac:(by rewrite E, <- app_assoc) F ltac:(cbn in L; lia)).
Qed.

(** Writing an entry. *)
Definition with_val (s : tstate) (x : Z) (e : K * V) : tstate :=
  TState (t_obj s) (t_size s) (t_alloc s) (Mem (m_live (t_mem s)) (m_word (t_mem s)) (<[x := e]> (m_val (t_mem s))) (m_time (t_mem s))) (t_drops s).
Lemma put_pair_ok s t b x e : walk s t b -> x ∈ addrs t -> put_pair nsz x e s = Ok tt (with_val s x e).
Proof using.
  intros W Hx. destruct (wplaced_node _ _ _ _ _ (wk_placed _ _ _ W) Hx) as (_ & _ & _ & AC).
  unfold put_pair, bind, gets, store_val. by rewrite AC.
Qed.
Lemma with_val_same s x e : same_words s (with_val s x e).
Proof using. done. Qed.
Lemma vals_insert (m : mem (K * V)) ps es i p e (w : gmap Z (K * V)) :
  vals m ps es -> NoDup ps -> ps !! i = Some p -> w = <[p := e]> (m_val m) ->
  Forall2 (fun a e => w !! a = Some e) ps (<[i := e]> es).
Proof using.
  intros F ND Hi ->. apply Forall2_same_length_lookup_2.
  - rewrite insert_length. by eapply Forall2_length.
  - intros j a e' Ha He. destruct (decide (j = i)) as [-> |NE].
    + rewrite list_lookup_insert in He; [|apply lookup_lt_Some in Hi; by erewrite <- (Forall2_length _ _ _ F)].
      injection He as <-. rewrite Hi in Ha. injection Ha as <-. apply lookup_insert.
    + rewrite list_lookup_insert_ne in He by done. rewrite lookup_insert_ne; [exact (Forall2_lookup_lr _ _ _ _ _ _ F Ha He)|].
      intros ->. apply NE. by eapply NoDup_lookup.
Qed.

Definition mapv (g : V -> V) (es : list (K * V)) : list (K * V) := map (fun e => (fst e, g (snd e))) es.
(** The state with the values at [ps] replaced. *)
Lemma mut_loop_pos g f s t b xs ys es : walk s t b -> addrs t = xs ++ ys -> vals (t_mem s) ys es -> (length ys <= f)%nat ->
  exists s', titer_mut_loop nsz f g (TIter (pos (t_obj s) ys) (anchor (t_obj s))) s = Ok es s' /\
    same_words s s' /\ t_size s' = t_size s /\ t_alloc s' = t_alloc s /\ t_drops s' = t_drops s /\
    vals (t_mem s') ys (mapv g es) /\ (forall x, x ∉ ys -> m_val (t_mem s') !! x = m_val (t_mem s) !! x).
Proof using H24.
  revert s xs ys es. induction f as [|f IH]; intros s xs ys es W E F L; cbn [titer_mut_loop];
    unfold bind at 1; rewrite (iter_pos _ _ _ _ _ W E); cbn [fst snd]; destruct F as [|y e ys es Hy F]; cbn [head tail].
  1,3: exists s; repeat (split; [done|]); split; [constructor|done].
  { cbn in L. lia. }
  assert (y ∈ addrs t) as HI by exact (in_mid _ _ _ _ E).
  assert (NoDup (y :: ys)) as ND.
  { pose proof (wk_distinct _ _ _ W) as ND. apply NoDup_cons in ND as [_ ND]. rewrite E in ND. by apply NoDup_app in ND as (_ & _ & ?). }
  apply NoDup_cons in ND as [NY ND].
  unfold bind at 1. rewrite (pair_ok _ _ _ _ _ W HI Hy). unfold bind at 1. rewrite (put_pair_ok _ _ _ _ _ W HI). 
  destruct (IH (with_val s y (fst e, g (snd e))) (xs ++ [y]) ys es) as (s' & E1 & SW & E2 & E3 & E4 & F' & O).
  - exact (walk_same _ _ _ _ _ (with_val_same _ _ _) eq_refl W).
  - by rewrite E, <- app_assoc.
  - apply Forall2_same_length_lookup_2; [by eapply Forall2_length|]. intros j a e' Ha He. cbn. rewrite lookup_insert_ne; [exact (Forall2_lookup_lr _ _ _ _ _ _ F Ha He)|].
    intros ->. apply NY. by eapply elem_of_list_lookup_2.
  - cbn in L. lia.
  - exists s'. cbn [with_val t_obj] in E1. unfold bind. rewrite E1. split; [done|]. split; [done|]. split; [done|]. split; [done|]. split; [done|].
    split.
    + constructor; [|done]. rewrite O by done. cbn. by rewrite lookup_insert.
    + intros x Hx. apply not_elem_of_cons in Hx as [NX Hx]. rewrite O by done. cbn. by rewrite lookup_insert_ne.
Qed.

(** Lookup. *)
Lemma find_loop_ok s t0 b (cmp : K -> K -> bool) k t f up : walk s t0 b -> wplaced nsz (t_mem s) up t ->
  vals (t_mem s) (addrs t) (entries t) -> (forall x, x ∈ addrs t -> x ∈ addrs t0) -> (height t <= f)%nat ->
  find_loop nsz cmp f k (addr t) s = Ok (tfind cmp k t) s.
Proof using.
  intros W0. revert f up. induction t as [|c l IHl a x v r IHr]; intros f up W F IN L; [by destruct f|].
  cbn [wplaced addr entries height] in *. cbn [addrs] in F. destruct W as (H1 & H2 & H3 & H4 & H5 & H6 & W1 & W2).
  apply Forall2_app_inv in F as [F1 F2]; [|apply addrs_entries]. apply Forall2_cons_1 in F2 as [F2 F3].
  destruct f as [|f]; [lia|]. cbn [find_loop]. replace (a =? 0) with false by lia.
  unfold bind at 1. rewrite (pair_ok _ _ _ a _ W0 (IN _ (in_root _ _ _ _ _ _)) F2). cbn [fst]. cbn [tfind].
  destruct (cmp k x).
  - unfold get_left. rewrite (t_word_ok2 _ _ _ _ H4). unfold bind. rewrite (IHl f a); [done|done|done|intros y Hy; by apply IN, in_left|lia].
  - destruct (cmp x k); cbn [negb]; [|done].
    unfold get_right. rewrite (t_word_ok2 _ _ _ _ H3). unfold bind. rewrite (IHr f a); [done|done|done|intros y Hy; by apply IN, in_right|lia].
Qed.
Lemma insertion_ok s t0 b (cmp : K -> K -> bool) k t f up pv : walk s t0 b -> wplaced nsz (t_mem s) up t ->
  vals (t_mem s) (addrs t) (entries t) -> (forall x, x ∈ addrs t -> x ∈ addrs t0) -> (height t <= f)%nat ->
  exists p, insertion_loop nsz cmp f k (addr t) pv s = Ok p s.
Proof using.
  intros W0. revert f up pv. induction t as [|c l IHl a x v r IHr]; intros f up pv W F IN L; [by destruct f; exists pv|].
  cbn [wplaced addr entries height] in *. cbn [addrs] in F. destruct W as (H1 & H2 & H3 & H4 & H5 & H6 & W1 & W2).
  apply Forall2_app_inv in F as [F1 F2]; [|apply addrs_entries]. apply Forall2_cons_1 in F2 as [F2 F3].
  destruct f as [|f]; [lia|]. cbn [insertion_loop]. replace (a =? 0) with false by lia.
  unfold bind at 1. rewrite (pair_ok _ _ _ a _ W0 (IN _ (in_root _ _ _ _ _ _)) F2). cbn [fst].
  destruct (cmp k x).
  - unfold get_left. rewrite (t_word_ok2 _ _ _ _ H4). apply (IHl f a); [done|done|intros y Hy; by apply IN, in_left|lia].
  - unfold get_right. rewrite (t_word_ok2 _ _ _ _ H3). apply (IHr f a); [done|done|intros y Hy; by apply IN, in_right|lia].
Qed.

Lemma find_counting_ok s t b cmp k : walk s t b -> vals (t_mem s) (addrs t) (entries t) ->
  find_counting nsz cmp k s = Ok (tfind cmp k t) s.
Proof using.
  intros W F. unfold find_counting, t_parent. unfold bind at 1. unfold bind at 1, gets at 1. rewrite (t_word_ok _ _ _ (wk_root _ _ _ W)).
  unfold bind, gets. eapply find_loop_ok; try done; [apply W|]. pose proof (height_le t). pose proof (walk_count _ _ _ W). lia.
Qed.

Lemma bind_ok {S R R'} (f : M S R) (g : R -> M S R') x s1 s2 : f s1 = Ok x s2 -> bind f g s1 = g x s2.
Proof using. intros E. unfold bind. by rewrite E. Qed.
Lemma find_in_tree_ok s t b cmp k : walk s t b -> vals (t_mem s) (addrs t) (entries t) ->
  find_in_tree nsz cmp k s = Ok (fst (tfind cmp k t)) s.
Proof using. intros W F. unfold find_in_tree. by rewrite (bind_ok _ _ _ _ _ (find_counting_ok _ _ _ _ _ W F)). Qed.
Lemma t_iter_ok s t b : walk s t b -> t_iter s = Ok (TIter b (anchor (t_obj s))) s.
Proof using. intros W. unfold t_iter, t_begin. unfold bind at 1. unfold bind at 1, gets at 1. by rewrite (t_word_ok _ _ _ (wk_begin _ _ _ W)). Qed.
Lemma empty_next s t b : walk s t b -> empty_end (t_obj s) b ->
  titer_next (TIter b (anchor (t_obj s))) s = Ok (None, TIter b (anchor (t_obj s))) s.
Proof using.
  intros [(? & ?) _ _ _ _] B. unfold titer_next. cbn [ti_node ti_anchor]. destruct B as [-> | ->]; [|by rewrite Z.eqb_refl].
  by destruct (0 =? anchor (t_obj s)).
Qed.

(** [holds] in these terms. *)
Lemma holds_walk s t : holds nsz s t -> exists b, walk s t b /\ vals (t_mem s) (addrs t) (entries t) /\
  (match head (addrs t) with Some a => b = a | None => empty_end (t_obj s) b end).
Proof using.
  intros [H1 (b & H2 & H2') H3 H4 H5 H6 H7]. apply placed_iff in H5 as [H5 F]. by exists b.
Qed.
Lemma holds_same s s' t t' : holds nsz s t -> same_words s s' -> skeleton t' = skeleton t -> t_size s' = t_size s ->
  vals (t_mem s') (addrs t) (entries t') -> holds nsz s' t'.
Proof using.
  intros [H1 (b & H2 & H2') (e & H3 & H3') H4 H5 H6 H7] SW ES EZ F. pose proof SW as (E1 & E2 & E3).
  rewrite <- (skeleton_addrs _ _ ES) in *. rewrite <- (skeleton_addr _ _ ES) in *.
  split; rewrite ?E1; try done.
  - exists b. by rewrite (same_load _ _ _ SW).
  - exists e. by rewrite (same_load _ _ _ SW).
  - by rewrite (same_load _ _ _ SW).
  - apply placed_iff. apply placed_iff in H5 as [H5 _]. split; [by eapply wplaced_same|done].
  - rewrite EZ, H7. rewrite <- !addrs_entries. by rewrite (skeleton_addrs _ _ ES).
Qed.

Variable cmp : K -> K -> bool.
Hypothesis SWO : strict_weak_order cmp.

Lemma get_ok (s : tstate) (t : tree K V) k : holds nsz s t -> sorted cmp t -> t_get nsz cmp k s = Ok (spec_get cmp k (entries t)) s.
Proof using SWO.
  intros H HS. destruct (holds_walk _ _ H) as (b & W & F & _). unfold t_get, find_in_tree. unfold bind at 1. unfold bind at 1.
  rewrite (find_counting_ok _ _ _ _ _ W F). unfold ret at 1. pose proof (tfind_ok _ SWO k t HS) as FO.
  unfold spec_get. destruct (fst (tfind cmp k t)) as [p|].
  - destruct FO as (i & e & I1 & I2 & I3 & I4). unfold bind. rewrite (pair_ok _ _ _ p e W).
    + by rewrite (find_at _ _ _ _ _ I2 I3 I4).
    + by eapply elem_of_list_lookup_2.
    + by eapply (Forall2_lookup_lr _ _ _ _ _ _ F).
  - by rewrite find_none.
Qed.

Lemma call_ok c (s : tstate) (t : tree K V) : holds nsz s t -> sorted cmp t ->
  let '(a, d, es) := tspec_call cmp c (entries t) in
  exists s' t', (match a with Some a => t_call nsz cmp c s = Ok a s' | None => t_call nsz cmp c s = Panic s' end) /\
    holds nsz s' t' /\ skeleton t' = skeleton t /\ entries t' = es /\ t_drops s' = t_drops s ++ d /\ t_alloc s' = t_alloc s /\ same_words s s'.
Proof using H24 SWO.
  intros H HS. pose proof H as H'. destruct (holds_walk _ _ H') as (b & W & F & B).
  assert (SR : same_words s s) by done.
  destruct c; cbn [tspec_call t_call].
  - exists s, t. rewrite app_nil_r. unfold bind. by rewrite (get_ok _ _ _ H HS).
  - unfold t_assign, t_get_mut. pose proof (tfind_ok _ SWO k t HS) as FO. unfold spec_get.
    pose proof (find_in_tree_ok _ _ _ cmp k W F) as EF.
    destruct (fst (tfind cmp k t)) as [p|].
    + destruct FO as (i & e & I1 & I2 & I3 & I4). rewrite (find_at _ _ _ _ _ I2 I3 I4). cbn [option_map].
      assert (p ∈ addrs t) as HI by (by eapply elem_of_list_lookup_2).
      destruct (refill t (spec_set cmp k v (entries t))) as (t' & ES & EE).
      { rewrite (set_at _ _ _ _ _ _ I2 I3 I4). rewrite list_fmap_insert. cbn [fst]. unfold keys. apply list_insert_id.
        change (map fst (entries t)) with (fst <$> entries t). by rewrite list_lookup_fmap, I2. }
      exists (t_logged [inr (snd e)] (with_val s p (fst e, v))), t'.
      split.
      { unfold bind at 1. rewrite (bind_ok _ _ _ _ _ EF).
        rewrite (bind_ok _ _ _ _ _ (pair_ok _ _ _ p e W HI (Forall2_lookup_lr _ _ _ _ _ _ F I1 I2))).
        by rewrite (bind_ok _ _ _ _ _ (put_pair_ok _ _ _ _ _ W HI)). }
      split; [|done]. apply (holds_same s _ t); try done. rewrite EE, (set_at _ _ _ _ _ _ I2 I3 I4).
      eapply vals_insert; [exact F| |exact I1|done]. pose proof (wk_distinct _ _ _ W) as ND. by apply NoDup_cons in ND as [_ ?].
    + rewrite find_none by done. cbn [option_map]. exists (t_logged [inr v] s), t.
      split. { unfold bind at 1. by rewrite (bind_ok _ _ _ _ _ EF). }
      split; [|done]. by apply (holds_same s _ t).
  - exists s, t. rewrite app_nil_r. unfold t_contains_key. unfold bind at 1. by rewrite (bind_ok _ _ _ _ _ (get_ok _ _ _ H HS)).
  - exists s, t. rewrite app_nil_r. unfold bind, t_len, gets. by rewrite (h_size _ _ _ H).
  - exists s, t. rewrite app_nil_r. unfold t_is_empty, t_len, gets. unfold bind. rewrite (h_size _ _ _ H). by destruct (entries t).
  - exists s, t. rewrite app_nil_r. unfold t_iter_all. split; [|done].
    unfold bind at 1. rewrite (bind_ok _ _ _ _ _ (t_iter_ok _ _ _ W)). unfold bind at 1, gets at 1.
    destruct (addrs t) as [|x l] eqn:EA.
    + assert (entries t = []) as EE by (apply nil_length_inv; by rewrite <- addrs_entries, EA). rewrite EE. cbn in B.
      destruct (size (m_word (t_mem s))); cbn [titer_loop]; by rewrite (bind_ok _ _ _ _ _ (empty_next _ _ _ W B)).
    + cbn in B. subst x. change b with (pos (t_obj s) (b :: l)). rewrite (loop_pos _ _ _ [] _ (entries t) _ W EA); try done.
      rewrite <- EA. by eapply walk_count.
  - unfold t_iter_mut_all.
    destruct (addrs t) as [|x l] eqn:EA.
    + assert (entries t = []) as EE by (apply nil_length_inv; by rewrite <- addrs_entries, EA). rewrite EE. cbn in B.
      exists s, t. rewrite app_nil_r. split; [|done].
      unfold bind at 1. rewrite (bind_ok _ _ _ _ _ (t_iter_ok _ _ _ W)). unfold bind at 1, gets at 1.
      destruct (size (m_word (t_mem s))); cbn [titer_mut_loop]; by rewrite (bind_ok _ _ _ _ _ (empty_next _ _ _ W B)).
    + cbn in B. subst x. destruct (mut_loop_pos g (size (m_word (t_mem s))) s t b [] (b :: l) (entries t) W EA) as (s' & E1 & SW & E2 & E3 & E4 & F' & _).
      { done. }
      { rewrite <- EA. by eapply walk_count. }
      destruct (refill t (mapv g (entries t))) as (t' & ES & EE). { unfold keys, mapv. by rewrite map_map. }
      exists s', t'. rewrite app_nil_r. split.
      { unfold bind at 1. rewrite (bind_ok _ _ _ _ _ (t_iter_ok _ _ _ W)). unfold bind at 1, gets at 1. cbn [pos] in E1. by rewrite E1. }
      split; [|done]. apply (holds_same s _ t); try done. by rewrite EE, EA.
  - exists (t_logged [inr v; inl k] s), t. split.
    { destruct (insertion_ok s t b cmp k t (size (m_word (t_mem s))) (anchor (t_obj s)) 0 W (wk_placed _ _ _ W) F ltac:(done)) as (p & EP).
      { pose proof (height_le t). pose proof (walk_count _ _ _ W). lia. }
      assert (find_insertion_position nsz cmp k s = Ok p s) as EQ.
      { unfold find_insertion_position, t_parent. unfold bind at 1. unfold bind at 1, gets at 1. rewrite (t_word_ok _ _ _ (wk_root _ _ _ W)). exact EP. }
      unfold t_insert, on_unwind. unfold bind at 1. by rewrite (bind_ok _ _ _ _ _ EQ). }
    split; [|done]. by apply (holds_same s _ t).
  - exists s, t. by rewrite app_nil_r.
  - exists s, t. by rewrite app_nil_r.
Qed.

Lemma run_ok cs (s : tstate) (t : tree K V) : holds nsz s t -> sorted cmp t ->
  let '(l, d, es) := tspec_run cmp cs (entries t) in
  exists s' t', t_run nsz cmp cs s = Some (l, s') /\
    holds nsz s' t' /\ skeleton t' = skeleton t /\ entries t' = es /\ t_drops s' = t_drops s ++ d /\ t_alloc s' = t_alloc s /\ same_words s s'.
Proof using H24 SWO.
  revert s t. induction cs as [|c cs IH]; intros s t H HS; cbn [tspec_run].
  - exists s, t. by rewrite app_nil_r.
  - pose proof (call_ok c s t H HS) as C. destruct (tspec_call cmp c (entries t)) as [[a d] es].
    destruct C as (s1 & t1 & E1 & H1 & K1 & <- & D1 & A1 & W1).
    assert (sorted cmp t1) as HS1 by (unfold sorted; by rewrite (skeleton_keys _ _ K1)).
    specialize (IH s1 t1 H1 HS1). destruct (tspec_run cmp cs (entries t1)) as [[l d'] es2].
    destruct IH as (s2 & t2 & E2 & H2 & K2 & E & D2 & A2 & W2). exists s2, t2. cbn [t_run].
    split; [destruct a; rewrite E1, E2; done|]. split; [done|]. split; [congruence|]. split; [done|].
    split; [by rewrite D2, D1, app_assoc|]. split; [congruence|]. destruct W1 as (? & ? & ?), W2 as (? & ? & ?). split; [congruence|]. split; congruence.
Qed.

End object.
