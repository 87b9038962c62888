(** Proofs of the properties stated in TreeAnyProps.v. *)
From Verif Require Import Base Alloc AddrMem FixedPool FixedPoolSpec LinkedList LinkedListSpec RBTree RBTreeSpec TreeAny TreeAnySpec.
Local Open Scope Z_scope.

From Verif Require Import RBTreeProofs RBTreeCalls RBTreeDerived.
From Verif Require Import VectorMapAnyProofs.
Local Open Scope Z_scope.

Section any.
Context {A K V : Type}.
Variable nsz : Z.
Variable co : nat -> K -> K -> option bool.
Notation ast := (tastate A K V).

Lemma post_lift {R} (m : M (tstate A K V) R) (s : ast) Q P :
  post (m (fst s)) (fun a s' => Q a (s', snd s)) (fun s' => P (s', snd s)) -> post (t_lift m s) Q P.
Proof. unfold t_lift. by destruct (m (fst s)). Qed.
Lemma post_word {R} a w (k : Z -> M ast R) (s : ast) Q P : load_word (t_mem (fst s)) a = Some w ->
  post (k w s) Q P -> post (bind (t_lift (t_word a)) k s) Q P.
Proof. intros E H. unfold bind, t_lift. rewrite (t_word_ok _ _ _ E). by destruct s. Qed.
Lemma post_ask {R} x y (k : bool -> M ast R) (s : ast) (Q : R -> ast -> Prop) (P : ast -> Prop) :
  P (fst s, S (snd s)) -> (forall b, post (k b (fst s, S (snd s))) Q P) -> post (bind (t_ask co x y) k s) Q P.
Proof. intros H1 H2. unfold bind, t_ask. destruct (co (snd s) x y); [apply H2|exact H1]. Qed.

Definition bounded (s : ast) (n : nat) (s' : ast) : Prop := fst s' = fst s /\ (snd s' <= snd s + n)%nat.

Lemma find_post t0 b k t : forall (s : ast) f up, walk nsz (fst s) t0 b -> wplaced nsz (t_mem (fst s)) up t ->
  vals (t_mem (fst s)) (addrs t) (entries t) -> (forall x, x ∈ addrs t -> x ∈ addrs t0) -> (height t <= f)%nat ->
  post (a_find_loop nsz co f k (addr t) s)
    (fun r s' => bounded s (2 * height t) s' /\ match r with None => True | Some p => p ∈ addrs t end)
    (bounded s (2 * height t)).
Proof using.
  induction t as [|c l IHl a x v r IHr]; intros s f up W0 W F IN L.
  { assert (a_find_loop nsz co f k (addr Leaf) s = Ok None s) as -> by (by destruct f). cbn. split; [|done]. split; [done|lia]. }
  cbn [wplaced addr entries height] in *. cbn [addrs] in F. destruct W as (H1 & H2 & H3 & H4 & H5 & H6 & W1 & W2).
  apply Forall2_app_inv in F as [F1 F2]; [|apply addrs_entries]. apply Forall2_cons_1 in F2 as [F2 F3].
  destruct f as [|f]; [lia|]. cbn [a_find_loop]. replace (a =? 0) with false by lia.
  assert (EP : t_lift (get_pair nsz a) s = Ok (x, v) s).
  { unfold t_lift. rewrite (pair_ok _ _ _ _ a _ W0 (IN _ (in_root _ _ _ _ _ _)) F2). by destruct s. }
  rewrite (bind_ok _ _ _ _ _ EP). cbn [fst]. apply post_ask; [split; [done|cbn; lia]|]. intros [].
  - unfold get_left. eapply post_word; [exact H4|].
    eapply post_mono; [apply (IHl (fst s, S (snd s)) f a W0 W1 F1)|..].
    + intros y Hy. by apply IN, in_left.
    + lia.
    + intros o s' [[B1 B2] B3]. cbn [fst snd] in *. split; [split; [done|lia]|]. destruct o; [by apply in_left|done].
    + intros s' [B1 B2]. cbn in *. split; [done|lia].
  - apply post_ask; [split; [done|cbn; lia]|]. cbn [fst snd]. intros []; cbn [negb].
    + unfold get_right. eapply post_word; [exact H3|].
      eapply post_mono; [apply (IHr (fst s, S (S (snd s))) f a W0 W2 F3)|..].
      * intros y Hy. by apply IN, in_right.
      * lia.
      * intros o s' [[B1 B2] B3]. cbn [fst snd] in *. split; [split; [done|lia]|]. destruct o; [by apply in_right|done].
      * intros s' [B1 B2]. cbn in *. split; [done|lia].
    + cbn [post ret]. split; [split; [done|cbn; lia]|]. apply in_root.
Qed.

Lemma insertion_post t0 b k t : forall (s : ast) f up pv, walk nsz (fst s) t0 b -> wplaced nsz (t_mem (fst s)) up t ->
  vals (t_mem (fst s)) (addrs t) (entries t) -> (forall x, x ∈ addrs t -> x ∈ addrs t0) -> (height t <= f)%nat ->
  post (a_insertion_loop nsz co f k (addr t) pv s) (fun _ => bounded s (2 * height t)) (bounded s (2 * height t)).
Proof using.
  induction t as [|c l IHl a x v r IHr]; intros s f up pv W0 W F IN L.
  { assert (a_insertion_loop nsz co f k (addr Leaf) pv s = Ok pv s) as -> by (by destruct f). cbn. split; [done|lia]. }
  cbn [wplaced addr entries height] in *. cbn [addrs] in F. destruct W as (H1 & H2 & H3 & H4 & H5 & H6 & W1 & W2).
  apply Forall2_app_inv in F as [F1 F2]; [|apply addrs_entries]. apply Forall2_cons_1 in F2 as [F2 F3].
  destruct f as [|f]; [lia|]. cbn [a_insertion_loop]. replace (a =? 0) with false by lia.
  assert (EP : t_lift (get_pair nsz a) s = Ok (x, v) s).
  { unfold t_lift. rewrite (pair_ok _ _ _ _ a _ W0 (IN _ (in_root _ _ _ _ _ _)) F2). by destruct s. }
  rewrite (bind_ok _ _ _ _ _ EP). cbn [fst]. apply post_ask; [split; [done|cbn; lia]|]. intros [].
  - unfold get_left. eapply post_word; [exact H4|].
    eapply post_mono; [apply (IHl (fst s, S (snd s)) f a a W0 W1 F1)|..].
    + intros y Hy. by apply IN, in_left.
    + lia.
    + intros o s' [B1 B2]. cbn in *. split; [done|lia].
    + intros s' [B1 B2]. cbn in *. split; [done|lia].
  - unfold get_right. eapply post_word; [exact H3|].
    eapply post_mono; [apply (IHr (fst s, S (snd s)) f a a W0 W2 F3)|..].
    + intros y Hy. by apply IN, in_right.
    + lia.
    + intros o s' [B1 B2]. cbn in *. split; [done|lia].
    + intros s' [B1 B2]. cbn in *. split; [done|lia].
Qed.

Lemma find_tree_post (s : ast) t k : holds nsz (fst s) t ->
  post (a_find_in_tree nsz co k s)
    (fun r s' => bounded s (2 * height t) s' /\ match r with None => True | Some p => p ∈ addrs t end)
    (bounded s (2 * height t)).
Proof using.
  intros H. destruct (holds_walk _ _ _ H) as (b & W & F & _). unfold a_find_in_tree.
  assert (E1 : t_lift t_parent s = Ok (addr t) s).
  { unfold t_lift, t_parent. unfold bind at 1, gets at 1. rewrite (t_word_ok _ _ _ (wk_root _ _ _ _ W)). by destruct s. }
  rewrite (bind_ok _ _ _ _ _ E1).
  assert (E2 : t_lift (gets t_mem) s = Ok (t_mem (fst s)) s) by (by destruct s).
  rewrite (bind_ok _ _ _ _ _ E2). eapply (find_post t b k t s); try done; [apply W|].
  pose proof (height_le t). pose proof (walk_count _ _ _ _ W). lia.
Qed.

Lemma tget_post (s : ast) t k : holds nsz (fst s) t ->
  post (a_t_get nsz co k s)
    (fun r s' => bounded s (2 * height t) s' /\ match r with None => True | Some v => exists k', In (k', v) (entries t) end)
    (bounded s (2 * height t)).
Proof using.
  intros H. destruct (holds_walk _ _ _ H) as (b & W & F & _). unfold a_t_get.
  eapply post_bind; [by apply find_tree_post|]. intros [p|] s1 [B X]; [|done].
  pose proof B as [B1 B2]. apply elem_of_list_lookup in X as [i I1]. destruct (Forall2_lookup_l _ _ _ _ _ F I1) as ([k' v'] & I2 & I3).
  assert (E : t_lift (get_pair nsz p) s1 = Ok (k', v') s1).
  { unfold t_lift. rewrite B1, (pair_ok _ _ _ _ p (k', v') W); [by destruct s1; cbn in *; subst|by eapply elem_of_list_lookup_2|done]. }
  rewrite (bind_ok _ _ _ _ _ E). cbn. split; [done|]. exists k'. by eapply elem_of_list_In, elem_of_list_lookup_2.
Qed.

Definition after (s s' : ast) (t t' : tree K V) (d : list (K + V)) : Prop :=
  holds nsz (fst s') t' /\ skeleton t' = skeleton t /\ t_drops (fst s') = t_drops (fst s) ++ d /\
  t_alloc (fst s') = t_alloc (fst s) /\ same_words (fst s) (fst s').

Lemma after_same (s s' : ast) t : holds nsz (fst s) t -> fst s' = fst s -> after s s' t t [].
Proof using. intros H E. unfold after. rewrite E, app_nil_r. done. Qed.
Lemma after_logged (s s' : ast) t d : holds nsz (fst s) t -> fst s' = t_logged d (fst s) -> after s s' t t d.
Proof using.
  intros H E. unfold after. rewrite E. destruct (holds_walk _ _ _ H) as (b & W & F & _). split; [|done]. by apply (holds_same nsz (fst s) _ t).
Qed.

Lemma assign_post (s : ast) t k v : holds nsz (fst s) t ->
  post (a_t_assign nsz co k v s)
    (fun r s' => if r : bool then exists old t', after s s' t t' [inr old] /\ value_replaced v old (entries t) (entries t')
                 else after s s' t t [inr v])
    (fun s' => after s s' t t [inr v]).
Proof using.
  intros H. destruct (holds_walk _ _ _ H) as (b & W & F & _). unfold a_t_assign. eapply post_bind.
  { eapply post_unwind; [by apply (find_tree_post s t k)|]. intros s1 [B _]. apply after_logged; [done|]. cbn. by rewrite B. }
  intros [p|] s1 [[B _] X]; apply post_lift; rewrite B.
  - apply elem_of_list_lookup in X as [i I1]. destruct (Forall2_lookup_l _ _ _ _ _ F I1) as ([k' old] & I2 & I3).
    assert (HI : p ∈ addrs t) by (by eapply elem_of_list_lookup_2).
    rewrite (bind_ok _ _ _ _ _ (pair_ok _ _ _ _ p (k', old) W HI I3)), (bind_ok _ _ _ _ _ (put_pair_ok _ _ _ _ _ _ W HI)). cbn.
    pose proof (take_drop_middle (entries t) i (k', old) I2) as EM.
    assert (EI : <[i := (k', v)]> (entries t) = take i (entries t) ++ (k', v) :: drop (S i) (entries t)).
    { apply insert_take_drop. by eapply lookup_lt_Some. }
    destruct (refill t (<[i := (k', v)]> (entries t))) as (t' & ES & EE).
    { rewrite EI. unfold keys. rewrite <- EM at 3. by rewrite !map_app. }
    exists old, t'. split.
    + split; [|done]. apply (holds_same nsz (fst s) _ t); try done. rewrite EE.
      eapply vals_insert; [exact F| |exact I1|done]. pose proof (wk_distinct _ _ _ _ W) as ND. by apply NoDup_cons in ND as [_ ?].
    + exists (take i (entries t)), k', (drop (S i) (entries t)). by rewrite EM, EE, EI.
  - cbn. by apply after_logged.
Qed.

Lemma insert_post' (s : ast) t k v : holds nsz (fst s) t ->
  post (a_t_insert nsz co k v s) (fun _ _ => False) (fun s' => after s s' t t [inr v; inl k]).
Proof using.
  intros H. destruct (holds_walk _ _ _ H) as (b & W & F & _). unfold a_t_insert.
  eapply (post_unwind _ _ _ _ (fun s' => fst s' = fst s)); [|intros s1 E; apply after_logged; [done|cbn; by rewrite E]].
  assert (E1 : t_lift t_parent s = Ok (addr t) s).
  { unfold t_lift, t_parent. unfold bind at 1, gets at 1. rewrite (t_word_ok _ _ _ (wk_root _ _ _ _ W)). by destruct s. }
  rewrite (bind_ok _ _ _ _ _ E1).
  assert (E2 : t_lift (gets t_mem) s = Ok (t_mem (fst s)) s) by (by destruct s).
  rewrite (bind_ok _ _ _ _ _ E2). eapply (post_bind _ _ _ _ _ (fun _ s' => fst s' = fst s)).
  - eapply post_mono; [eapply (insertion_post t b k t s); try done; [apply W|]|..].
    + pose proof (height_le t). pose proof (walk_count _ _ _ _ W). lia.
    + by intros ? ? [? _].
    + by intros ? [? _].
  - intros p s1 E. cbn. done.
Qed.

Hypothesis H24 : 24 <= nsz.
Lemma call_post c (s : ast) t : holds nsz (fst s) t ->
  post (ta_call nsz co c s)
    (fun a s' => exists d t', after s s' t t' d /\ t_edited c (Some a) d (entries t) (entries t'))
    (fun s' => exists d t', after s s' t t' d /\ t_edited c None d (entries t) (entries t')).
Proof using H24.
  intros H. pose proof H as H'. destruct (holds_walk _ _ _ H') as (b & W & F & B). destruct c; cbn [ta_call].
  - eapply post_bind.
    + eapply post_mono; [by apply tget_post|intros ? ? X; exact X|]. intros s' [E _]. exists [], t. split; [by apply after_same|]. split; [done|]. split; [done|]. by left.
    + intros o s' [[E _] X]. cbn. exists [], t. split; [by apply after_same|]. split; [done|]. split; [done|]. right.
      destruct o as [v|]; [right|by left]. destruct X as [k' X]. by exists k', v.
  - eapply post_bind.
    + eapply post_mono; [by apply assign_post|intros ? ? X; exact X|]. intros s' E. exists [inr v], t. split; [done|]. left. split; [by left|done].
    + intros [] s' X; cbn.
      * destruct X as (old & t' & X & Y). exists [inr old], t'. split; [done|]. right. split; [done|]. by exists old.
      * exists [inr v], t. split; [done|]. left. split; [by right|done].
  - unfold a_t_contains_key.
    eapply (post_bind _ _ _ _ _ (fun r s' => fst s' = fst s /\ (r = true -> entries t <> []))).
    + eapply post_bind.
      * eapply post_mono; [by apply tget_post|intros ? ? X; exact X|]. intros s' [E _]. exists [], t. split; [by apply after_same|]. split; [done|]. split; [done|]. by left.
      * intros o s' [[E _] X]. cbn. split; [done|]. destruct o as [v|]; [|done]. destruct X as [k' X]. intros _ E'. by rewrite E' in X.
    + intros r s' [E X]. cbn. exists [], t. split; [by apply after_same|]. split; [done|]. split; [done|]. right. destruct r; [right|by left]. split; [by apply X|done].
  - apply post_lift. cbn. exists [], t. split; [by apply after_same|]. by rewrite (h_size _ _ _ H).
  - apply post_lift. cbn. exists [], t. split; [by apply after_same|]. rewrite (h_size _ _ _ H). by destruct (entries t).
  - apply post_lift. cbn [t_call]. unfold t_iter_all.
    rewrite (bind_ok (bind _ _) _ (entries t) (fst s) (fst s)).
    { cbn. exists [], t. split; [by apply after_same|]. done. }
    rewrite (bind_ok _ _ _ _ _ (t_iter_ok _ _ _ _ W)). unfold bind at 1, gets at 1.
    destruct (addrs t) as [|x l] eqn:EA.
    + assert (entries t = []) as EE by (apply nil_length_inv; by rewrite <- addrs_entries, EA). rewrite EE. cbn in B.
      destruct (size (m_word (t_mem (fst s)))); cbn [titer_loop]; by rewrite (bind_ok _ _ _ _ _ (empty_next _ _ _ _ W B)).
    + cbn in B. subst x. change b with (pos (t_obj (fst s)) (b :: l)). rewrite (loop_pos nsz H24 _ _ _ [] _ (entries t) _ W EA); try done.
      rewrite <- EA. by eapply walk_count.
  - apply post_lift. cbn [t_call]. unfold t_iter_mut_all.
    destruct (addrs t) as [|x l] eqn:EA.
    + assert (entries t = []) as EE by (apply nil_length_inv; by rewrite <- addrs_entries, EA). cbn in B.
      rewrite (bind_ok (bind _ _) _ [] (fst s) (fst s)).
      { cbn. exists [], t. split; [by apply after_same|]. by rewrite EE. }
      rewrite (bind_ok _ _ _ _ _ (t_iter_ok _ _ _ _ W)). unfold bind at 1, gets at 1.
      destruct (size (m_word (t_mem (fst s)))); cbn [titer_mut_loop]; by rewrite (bind_ok _ _ _ _ _ (empty_next _ _ _ _ W B)).
    + cbn in B. subst x. destruct (mut_loop_pos nsz H24 g (size (m_word (t_mem (fst s)))) (fst s) t b [] (b :: l) (entries t) W EA) as (s' & E1 & SW & E2 & E3 & E4 & F' & _).
      { done. }
      { rewrite <- EA. by eapply walk_count. }
      destruct (refill t (mapv g (entries t))) as (t' & ES & EE). { unfold keys, mapv. by rewrite map_map. }
      rewrite (bind_ok (bind _ _) _ (entries t) (fst s) s').
      { cbn. exists [], t'. split; [|by rewrite EE]. unfold after. cbn. rewrite app_nil_r. split; [|done]. apply (holds_same nsz (fst s) _ t); try done. by rewrite EE, EA. }
      rewrite (bind_ok _ _ _ _ _ (t_iter_ok _ _ _ _ W)). unfold bind at 1, gets at 1. cbn [pos] in E1. by rewrite E1.
  - eapply post_bind; [|intros ? ? X; exact X]. eapply post_mono; [by apply insert_post'|done|].
    intros s' E. exists [inr v; inl k], t. done.
  - apply post_lift. cbn. exists [], t. split; [by apply after_same|done].
  - apply post_lift. cbn. exists [], t. split; [by apply after_same|done].
Qed.

(** Programs: the answers and drops call by call. *)
Lemma trun_post cs : forall (s : ast) t, holds nsz (fst s) t ->
  exists l s' ds t', ta_run nsz co cs s = Some (l, s') /\ after s s' t t' (concat ds) /\ t_edits cs l ds (entries t) (entries t').
Proof using H24.
  induction cs as [|c cs IH]; intros s t H.
  - exists [], s, [], t. split; [done|]. split; [by apply after_same|]. constructor.
  - pose proof (call_post c s t H) as P. cbn [ta_run].
    assert (X : exists oa s1 d t1, match ta_call nsz co c s with Ok a s' => (Some a, s') = (oa, s1) | Panic s' => (None, s') = (oa, s1) | UB => False end /\
      after s s1 t t1 d /\ t_edited c oa d (entries t) (entries t1)).
    { destruct (ta_call nsz co c s) as [a s1|s1|]; [..|done].
      - destruct P as (d & t1 & P & X). by exists (Some a), s1, d, t1.
      - destruct P as (d & t1 & P & X). by exists None, s1, d, t1. }
    destruct X as (a & s1 & d & t1 & E & P1 & X). pose proof P1 as (H1 & SK1 & D1 & A1 & W1).
    destruct (IH s1 t1 H1) as (l & s2 & ds & t2 & E2 & (H2 & SK2 & D2 & A2 & W2) & X2).
    exists (a :: l), s2, (d :: ds), t2. split; [|split].
    + destruct (ta_call nsz co c s) as [a' s1'|s1'|]; [..|done]; injection E as <- <-; by rewrite E2.
    + split; [done|]. split; [congruence|]. split; [rewrite D2, D1; cbn [concat]; by rewrite app_assoc|]. split; [congruence|].
      destruct W1 as (? & ? & ?), W2 as (? & ? & ?). split; [congruence|]. split; congruence.
    + by econstructor.
Qed.
End any.

(** With a pure comparator. *)
Section pure.
Context {A K V : Type}.
Variable nsz : Z.
Variable cmp : K -> K -> bool.
Let co (_ : nat) a b := Some (cmp a b).
Notation ast := (tastate A K V).
Definition tsame {R} (r : outcome ast R) (r0 : outcome (tstate A K V) R) : Prop :=
  match r, r0 with
  | Ok a s, Ok a0 s0 => a = a0 /\ fst s = s0
  | Panic s, Panic s0 => fst s = s0
  | UB, UB => True
  | _, _ => False
  end.
Lemma tsame_bind {B C} (m : M ast B) (k : B -> M _ C) (m0 : M _ B) k0 s s0 :
  tsame (m s) (m0 s0) -> (forall a s1, tsame (k a s1) (k0 a (fst s1))) -> tsame (bind m k s) (bind m0 k0 s0).
Proof. unfold bind. intros H1 H2. destruct (m s), (m0 s0); cbn in H1; try done. destruct H1 as [-> <-]. apply H2. Qed.
Lemma tsame_lift {B} (m : M (tstate A K V) B) s : tsame (t_lift m s) (m (fst s)).
Proof. unfold t_lift. by destruct (m (fst s)). Qed.
Lemma tsame_unwind {B} f f0 (m : M ast B) m0 s s0 : tsame (m s) (m0 s0) -> (forall s1, fst (f s1) = f0 (fst s1)) -> tsame (on_unwind f m s) (on_unwind f0 m0 s0).
Proof. unfold on_unwind. intros H1 H2. destruct (m s), (m0 s0); cbn in *; try done. by rewrite H2, H1. Qed.
Lemma tsame_ask {R} x y (k : bool -> M ast R) (m0 : bool -> M _ R) s :
  (forall s1, fst s1 = fst s -> tsame (k (cmp x y) s1) (m0 (cmp x y) (fst s))) -> tsame (bind (t_ask co x y) k s) (m0 (cmp x y) (fst s)).
Proof. intros H. unfold bind, t_ask, co. by apply H. Qed.

(** The loop of RBTree.v also counts the nodes. *)
Definition fsame (r : outcome ast (option Z)) (r0 : outcome (tstate A K V) (option Z * nat)) : Prop :=
  match r, r0 with
  | Ok a s, Ok a0 s0 => a = fst a0 /\ fst s = s0
  | Panic s, Panic s0 => fst s = s0
  | UB, UB => True
  | _, _ => False
  end.
Lemma fsame_bind {B} (m : M ast B) k (m0 : M _ B) k0 s s0 :
  tsame (m s) (m0 s0) -> (forall a s1, fsame (k a s1) (k0 a (fst s1))) -> fsame (bind m k s) (bind m0 k0 s0).
Proof. unfold bind. intros H1 H2. destruct (m s), (m0 s0); cbn in H1; try done. destruct H1 as [-> <-]. apply H2. Qed.
Lemma fsame_count r m0 s0 : fsame r (m0 s0) -> fsame r (bind m0 (fun r => ret (fst r, S (snd r))) s0).
Proof. unfold bind. by destruct (m0 s0). Qed.
Lemma find_loop_same k : forall f p s, fsame (a_find_loop nsz co f k p s) (find_loop nsz cmp f k p (fst s)).
Proof.
  induction f as [|f IH]; intros p s; cbn [a_find_loop find_loop]; destruct (p =? 0); [done..|].
  apply fsame_bind; [apply tsame_lift|]. intros e s1. unfold bind at 1, t_ask at 1, co at 1. destruct (cmp k (fst e)).
  - apply (fsame_bind _ _ (get_left p)); [apply (tsame_lift _ (fst s1, S (snd s1)))|]. intros l s2. apply fsame_count, IH.
  - unfold bind at 1, t_ask at 1, co at 1. destruct (cmp (fst e) k); cbn [negb fst snd]; [|done].
    apply (fsame_bind _ _ (get_right p)); [apply (tsame_lift _ (fst s1, S (S (snd s1))))|]. intros l s2. apply fsame_count, IH.
Qed.
Lemma find_same k s : tsame (a_find_in_tree nsz co k s) (find_in_tree nsz cmp k (fst s)).
Proof.
  assert (X : fsame (a_find_in_tree nsz co k s) (find_counting nsz cmp k (fst s))).
  { apply fsame_bind; [apply tsame_lift|]. intros p s1. apply fsame_bind; [apply tsame_lift|]. intros m s2. apply find_loop_same. }
  unfold find_in_tree, bind. by destruct (a_find_in_tree nsz co k s), (find_counting nsz cmp k (fst s)).
Qed.
Lemma tget_same k s : tsame (a_t_get nsz co k s) (t_get nsz cmp k (fst s)).
Proof. unfold a_t_get, t_get. apply tsame_bind; [apply find_same|]. intros [p|] s1; [|done]. apply tsame_bind; [apply tsame_lift|done]. Qed.

Lemma insertion_same k : forall f p q s, tsame (a_insertion_loop nsz co f k p q s) (insertion_loop nsz cmp f k p q (fst s)).
Proof.
  induction f as [|f IH]; intros p q s; cbn [a_insertion_loop insertion_loop]; destruct (p =? 0); [done..|].
  apply tsame_bind; [apply tsame_lift|]. intros e s1.
  apply (tsame_ask _ _ _ (fun b => bind (if b : bool then get_left p else get_right p) (fun nx => insertion_loop nsz cmp f k nx p))).
  intros s2 E. rewrite <- E. apply tsame_bind; [apply tsame_lift|]. intros nx s3. apply IH.
Qed.

Lemma tcall_same c s : (forall k v, c <> TGetMut k v) \/ (exists t, holds nsz (fst s) t) ->
  tsame (ta_call nsz co c s) (t_call nsz cmp c (fst s)).
Proof.
  intros HH. destruct c; cbn [ta_call t_call]; try apply tsame_lift.
  - apply tsame_bind; [apply tget_same|done].
  - destruct HH as [HH|[t H]]; [by destruct (HH k v)|]. apply tsame_bind; [|done]. unfold a_t_assign, t_assign, t_get_mut.
    apply tsame_bind; [|intros [p|] s1; apply tsame_lift].
    pose proof (find_same k s) as HF. unfold on_unwind. destruct (holds_walk _ _ _ H) as (b & W & F & _).
    rewrite (find_in_tree_ok _ _ _ _ cmp k W F) in *. by destruct (a_find_in_tree nsz co k s).
  - unfold a_t_contains_key, t_contains_key. apply tsame_bind; [|done]. apply tsame_bind; [apply tget_same|done].
  - apply tsame_bind; [|done]. unfold a_t_insert, t_insert. apply tsame_unwind; [|done].
    assert (X : tsame ((do p <- t_lift t_parent; do m <- t_lift (gets t_mem); a_insertion_loop nsz co (size (m_word m)) k p 0) s) (find_insertion_position nsz cmp k (fst s))).
    { apply tsame_bind; [apply tsame_lift|]. intros p s1. apply tsame_bind; [apply tsame_lift|]. intros m s2. apply insertion_same. }
    unfold bind in *. destruct (t_lift t_parent s) as [p s1|s1|]; [destruct (t_lift (gets t_mem) s1) as [m s2|s2|]; [destruct (a_insertion_loop nsz co (size (m_word m)) k p 0 s2)| |]| |];
      destruct (find_insertion_position nsz cmp k (fst s)); cbn in *; try done. by destruct X.
Qed.

Hypothesis H24 : 24 <= nsz.
Lemma trun_same cs : forall (s : ast) t, holds nsz (fst s) t ->
  option_map (fun r => (fst r, fst (snd r))) (ta_run nsz co cs s) = t_run nsz cmp cs (fst s).
Proof.
  induction cs as [|c cs IH]; intros s t H; [done|]. cbn [ta_run t_run].
  pose proof (tcall_same c s (or_intror (ex_intro _ t H))) as HC. pose proof (call_post nsz co H24 c s t H) as HP.
  destruct (ta_call nsz co c s) as [a s1|s1|], (t_call nsz cmp c (fst s)) as [a0 s0|s0|]; cbn in HC; try done.
  - destruct HC as [<- <-]. destruct HP as (d & t1 & (H1 & _) & _). rewrite <- (IH s1 t1 H1). by destruct (ta_run nsz co cs s1) as [[]|].
  - subst s0. destruct HP as (d & t1 & (H1 & _) & _). rewrite <- (IH s1 t1 H1). by destruct (ta_run nsz co cs s1) as [[]|].
Qed.
End pure.

Lemma L_C93_tree_any_comparator :
forall (A K V : Type) (nsz : Z) (co : nat -> K -> K -> option bool) (s : tstate A K V) (t : tree K V) (cs : list (tcall K V)),
  24 <= nsz -> holds nsz s t ->
  exists l s' ds t', ta_run nsz co cs (s, O) = Some (l, s') /\
    holds nsz (fst s') t' /\ skeleton t' = skeleton t /\ t_drops (fst s') = t_drops s ++ concat ds /\
    m_word (t_mem (fst s')) = m_word (t_mem s) /\ m_live (t_mem (fst s')) = m_live (t_mem s) /\
    t_edits cs l ds (entries t) (entries t').
Proof.
  intros A K V nsz co s t cs H24 H. destruct (trun_post nsz co H24 cs (s, O) t H) as (l & s' & ds & t' & E & (H1 & SK & D & _ & (_ & L & W)) & X).
  exists l, s', ds, t'. done.
Qed.

Lemma L_C93_tree_any_bounded :
forall (A K V : Type) (nsz : Z) (co : nat -> K -> K -> option bool) (s : tstate A K V) (t : tree K V) (k : K) (n : nat),
  24 <= nsz -> holds nsz s t -> red_black t ->
  exists r s' n', ta_call nsz co (TGet k) (s, n) = r /\ (r = Panic (s', n') \/ exists o, r = Ok (TVal o) (s', n')) /\
    s' = s /\ (n' <= n + 4 * Nat.log2 (length (entries t) + 1))%nat.
Proof.
  intros A K V nsz co s t k n H24 H RB. pose proof (tget_post nsz co (s, n) t k H) as P. pose proof (height_log t RB).
  cbn [ta_call]. unfold bind. destruct (a_t_get nsz co k (s, n)) as [o [s1 n1]|[s1 n1]|]; [..|done].
  - destruct P as [[P1 P2] _]. cbn in *. eexists _, s1, n1. split; [done|]. split; [right; by exists o|]. split; [done|lia].
  - destruct P as [P1 P2]. cbn in *. eexists _, s1, n1. split; [done|]. split; [by left|]. split; [done|lia].
Qed.

Lemma L_C93_tree_any_extends :
forall (A K V : Type) (nsz : Z) (cmp : K -> K -> bool) (s : tstate A K V) (t : tree K V) (cs : list (tcall K V)),
  24 <= nsz -> holds nsz s t ->
  option_map (fun r => (fst r, fst (snd r))) (ta_run nsz (fun _ a b => Some (cmp a b)) cs (s, O)) = t_run nsz cmp cs s.
Proof.
  intros A K V nsz cmp s t cs H24 H. exact (trun_same nsz cmp H24 cs (s, O) t H).
Qed.
