(** Proofs of the properties stated in RBTreeProps.v. *)
From Verif Require Import Base Alloc AddrMem FixedPool FixedPoolSpec LinkedList LinkedListSpec RBTree RBTreeSpec.
Local Open Scope Z_scope.

From Verif Require Import FixedPoolProofs RBTreeProofs RBTreeCalls RBTreeFree.

(** ** The tree of the examples *)
Lemma ltb_order : strict_weak_order Z.ltb.
Proof. split; intros; lia. Qed.
Lemma rx_sorted : sorted Z.ltb rx_tree.
Proof. unfold sorted. cbn. repeat constructor. Qed.
Lemma rx_red_black : red_black rx_tree.
Proof. split; [done|]. split; [cbn; repeat split; done|]. exists 1%nat. cbn. exists O. repeat split. Qed.
Lemma rx_placed f g : placed 40 (t_mem (rx_state f g)) (anchor 1024) rx_tree.
Proof.
  cbn [placed rx_tree addr color_as_usize]. unfold usize_lim.
  repeat match goal with
  | |- _ /\ _ => split
  | |- _ < _ => lia
  | |- _ <= _ => lia
  | |- True => exact I
  | |- (8 | 2048) => by exists 256
  | |- (8 | 2112) => by exists 264
  | |- (8 | 2176) => by exists 272
  | |- load_word _ _ = _ => by vm_compute
  | |- load_val _ _ _ = _ => by vm_compute
  end.
Qed.
Lemma rx_distinct : NoDup (anchor 1024 :: addrs rx_tree).
Proof. eapply bool_decide_unpack. by vm_compute. Qed.
Lemma rx_holds : holds 40 (rx_state 2048 2176) rx_tree.
Proof.
  split; [cbn; unfold usize_lim; split; [lia|]; split; [lia|by exists 128]|by exists 2048|by exists 2176|done|apply rx_placed|apply rx_distinct|done].
Qed.
Lemma rx_node_order : holds_node_order 40 (rx_state 2176 2048) rx_tree.
Proof.
  split; [cbn; unfold usize_lim; split; [lia|]; split; [lia|by exists 128]|done|done|done|apply rx_placed|apply rx_distinct|done].
Qed.
Lemma rx_owns f g : owns 40 8 (t_mem (rx_state f g)) rx_tree [rx_object].
Proof.
  split.
  - cbn. unfold node_block. solve_Permutation.
  - intros a r Ha Hr. apply elem_of_list_singleton in Hr as ->. cbn in Ha. unfold meets, rx_object. cbn.
    rewrite !elem_of_cons, elem_of_nil in Ha. destruct Ha as [-> |[-> |[-> |[]]]]; done.
  - intros r Hr. apply elem_of_list_singleton in Hr as ->. done.
Qed.
Lemma rx_layout : tree_layout 40 8.
Proof. split; [|lia]. split; [exists 3; lia|]. split; [lia|]. split; [by exists 5|done]. Qed.

(** ** Lookups *)
Lemma spec_get_iff {K V} (lt : K -> K -> bool) k v (t : tree K V) : strict_weak_order lt -> sorted lt t ->
  spec_get lt k (entries t) = Some v <-> exists k', (k', v) ∈ entries t /\ equivalent lt k k' = true.
Proof.
  intros [S1 S2 S3]. unfold sorted, keys, spec_get. induction (entries t) as [|[x w] es IH]; cbn [map fst List.find]; intros HS.
  - split; [done|]. intros (k' & H & _). by apply elem_of_nil in H.
  - apply StronglySorted_inv in HS as [HS HF]. specialize (IH HS). destruct (equivalent lt k x) eqn:E; cbn [option_map snd].
    + split; [intros [= ->]; exists x; split; [constructor|done]|]. intros (k' & H & E'). f_equal.
      apply elem_of_cons in H as [[= -> ->]|H]; [done|]. exfalso. rewrite Forall_forall in HF.
      specialize (HF k' ltac:(apply elem_of_list_fmap; by exists (k', v))). unfold equivalent in *.
      destruct (S3 x k k') as [F _]; [destruct (lt k x), (lt x k); done..| | |congruence]; destruct (lt k k'), (lt k' k); done.
    + rewrite IH. split; intros (k' & H & E').
      * exists k'. split; [by constructor|done].
      * apply elem_of_cons in H as [[= -> ->]|H]; [congruence|by exists k'].
Qed.

Lemma contains_ok {A K V} (nsz : Z) (lt : K -> K -> bool) k (s : tstate A K V) t : strict_weak_order lt -> 24 <= nsz ->
  holds nsz s t -> sorted lt t -> t_contains_key nsz lt k s = Ok (match spec_get lt k (entries t) with Some _ => true | None => false end) s.
Proof. intros SW H24 H HS. unfold t_contains_key. by rewrite (bind_ok _ _ _ _ _ (get_ok nsz lt SW s t k H HS)). Qed.

Lemma new_holds {A K V : Type} nsz obj (a : A) (m : mem (K * V)) : 0 < obj -> obj + 32 < usize_lim -> (8 | obj) -> accessible m (obj + 8) 24 = true ->
  exists s, tree_new obj a m = Ok tt s /\ holds nsz s (Leaf : tree K V) /\ t_alloc s = a /\ m_live (t_mem s) = m_live m /\ t_drops s = @nil (K + V).
Proof.
  intros H1 H2 H3 AC.
  assert (W : forall x, x = obj + 8 \/ x = obj + 16 \/ x = obj + 24 -> word_at m x = true).
  { intros x Hx. eapply word_at_ok; [exact AC|lia|lia|].
    destruct Hx as [-> |[-> | ->]]; (apply Z.divide_add_r; [done|]); [by exists 1|by exists 2|by exists 3]. }
  unfold tree_new, t_put, t_set_mem, bind, gets, modify, or_ub, store_word, word_at in *.
  unfold accessible in *. cbn [t_mem m_live].
  rewrite (W (obj + 8)) by auto. cbn. rewrite (W (obj + 16)) by auto. cbn. rewrite (W (obj + 24)) by auto. cbn.
  eexists. split; [reflexivity|]. split; [|done].
  split; cbn; unfold load_word, word_at, accessible; cbn; try done.
  - exists 0. rewrite W by auto. rewrite !lookup_insert_ne by lia. rewrite lookup_insert. split; [done|by left].
  - exists 0. rewrite W by auto. rewrite !lookup_insert_ne by lia. rewrite lookup_insert. split; [done|by left].
  - rewrite W by auto. by rewrite lookup_insert.
  - apply NoDup_singleton.
Qed.

(** ** Iteration *)
Lemma iter_yields {A K V} nsz (s : tstate A K V) t : 24 <= nsz -> holds nsz s t ->
  exists i, t_iter s = Ok i s /\ yields nsz s i (entries t).
Proof.
  intros H24 H. destruct (holds_walk _ _ _ H) as (b & W & F & B). exists (TIter b (anchor (t_obj s))).
  split; [by eapply t_iter_ok|]. destruct (head (addrs t)) as [x|] eqn:E.
  - subst b. destruct (addrs t) as [|y ys] eqn:EA; [done|]. cbn in E. injection E as ->.
    rewrite <- EA in F. assert (EP : x = pos (t_obj s) (addrs t)) by (by rewrite EA). rewrite EP at 1.
    eapply (yields_pos nsz H24 s t x []); [done|done|done].
  - destruct (addrs t) as [|y ys] eqn:EA; [|done]. apply Forall2_nil_inv_l in F. rewrite F. intros k.
    exists (TIter b (anchor (t_obj s))). induction k as [|k IH]; [done|]. cbn [titer_take].
    rewrite (bind_ok _ _ _ _ _ (empty_next nsz s t b W B)). cbn [fst snd]. unfold bind at 1, ret at 1.
    rewrite (bind_ok _ _ _ _ _ IH). cbn. destruct k; by rewrite ?Nat.sub_0_r.
Qed.
(** The node that the first pointer names is the last one. *)
Lemma node_order_yields {A K V} nsz (s : tstate A K V) t e : 24 <= nsz -> holds_node_order nsz s t -> last (entries t) = Some e ->
  exists i, t_iter s = Ok i s /\ yields nsz s i [e].
Proof.
  intros H24 [H1 H2 H3 H4 H5 H6 H7] EL. apply placed_iff in H5 as [H5 F].
  destruct (last (addrs t)) as [x|] eqn:EA.
  2:{ apply last_None in EA. rewrite EA in F. apply Forall2_nil_inv_l in F. by rewrite F in EL. }
  apply last_Some in EA as (xs & EA). apply last_Some in EL as (es & EL). rewrite EA, EL in F.
  assert (F' : vals (t_mem s) [x] [e]).
  { unfold vals in *. apply Forall2_app_inv in F as [_ F]; [done|]. apply Forall2_length in F. rewrite !app_length in F. cbn in F. lia. }
  assert (W : walk nsz s t x) by done. exists (TIter x (anchor (t_obj s))). split; [by eapply t_iter_ok|].
  by apply (yields_pos nsz H24 s t x xs [x] [e] W EA F').
Qed.

(** ** Clearing *)
Lemma gone_word {K V} (s : tstate unit K V) x : accessible (t_mem s) x 8 = false -> t_word x s = UB.
Proof. intros E. unfold t_word, bind, gets, or_ub, load_word, word_at. by rewrite E. Qed.
Lemma load_maybe {K V} (s s' : tstate unit K V) x w : load_word (t_mem s) x = Some w -> m_word (t_mem s') = m_word (t_mem s) ->
  t_word x s' = Ok w s' \/ t_word x s' = UB.
Proof.
  intros E EW. unfold t_word, bind, gets, or_ub, load_word in *. rewrite EW. destruct (word_at (t_mem s) x); [|done]. rewrite E.
  destruct (word_at (t_mem s') x); [by left|by right].
Qed.

Lemma bind_ub {S R R'} (f : M S R) (g : R -> M S R') s : f s = UB -> bind f g s = UB.
Proof. intros E. unfold bind. by rewrite E. Qed.

Section cleared.
Context {K V : Type}.
Variables (pick : mem (K * V) -> Z -> Z -> Z) (strict chk : bool) (nsz nal : Z) (rest : list region) (lt : K -> K -> bool).
Hypothesis TL : tree_layout nsz nal.
Variables (s s' : tstate unit K V) (t : tree K V).
Hypothesis H : holds nsz s t.
Hypothesis O : owns nsz nal (t_mem s) t rest.
Hypothesis NE : t <> Leaf.
Hypothesis P : m_live (t_mem s') ≡ₚ rest.
Hypothesis EW : m_word (t_mem s') = m_word (t_mem s).
Hypothesis EO : t_obj s' = t_obj s.

Lemma root_in : addr t ∈ addrs t /\ addr t <> 0.
Proof using All.
  pose proof (h_placed _ _ _ H) as PL. destruct t as [|c l a k v r]; [done|]. cbn in PL. cbn. split; [|lia].
  apply elem_of_app. right. constructor.
Qed.
Lemma parent_maybe : t_parent s' = Ok (addr t) s' \/ t_parent s' = UB.
Proof using All.
  unfold t_parent. unfold bind, gets. rewrite EO. by apply (load_maybe s); [apply H|].
Qed.
Lemma get_gone k : t_get nsz lt k s' = UB.
Proof using All.
  destruct root_in as [RI R0]. unfold t_get, find_in_tree, find_counting. apply bind_ub. apply bind_ub.
  destruct parent_maybe as [E|E]; [|by apply bind_ub]. rewrite (bind_ok _ _ _ _ _ E). unfold bind at 1, gets at 1.
  destruct (size _) as [|f]; cbn [find_loop]; rewrite (proj2 (Z.eqb_neq _ _) R0); [done|]. apply bind_ub.
  unfold get_pair, bind, gets, load_val. destruct TL as [_ H24].
  by rewrite (freed_gone nsz nal rest _ _ _ (addr t) (addr t) nsz O P RI) by lia.
Qed.
Lemma drop_gone : t_drop (DefaultAddrAlloc pick strict) chk nsz nal s' = UB.
Proof using All.
  destruct root_in as [RI R0]. destruct TL as [_ H24]. unfold t_drop, free_nodes.
  destruct parent_maybe as [E|E]; [|by apply bind_ub]. rewrite (bind_ok _ _ _ _ _ E). unfold bind at 1, gets at 1.
  rewrite (proj2 (Z.eqb_neq _ _) R0). destruct (size _) as [|f]; cbn [free_tree]; [done|]. apply bind_ub.
  unfold get_left. apply gone_word. by apply (freed_gone nsz nal rest _ _ _ (addr t) (addr t + 8) 8 O P RI); lia.
Qed.
Lemma iter_gone : t_iter_all nsz s' = UB.
Proof using All.
  destruct TL as [_ H24]. unfold t_iter_all. destruct (h_begin _ _ _ H) as (b & EB & HB).
  assert (exists xs, addrs t = b :: xs) as (xs & EA).
  { destruct root_in as [RI _]. destruct (addrs t) as [|y ys]; [by apply elem_of_nil in RI|]. cbn in HB. subst y. by exists ys. }
  assert (BI : b ∈ addrs t) by (rewrite EA; constructor).
  assert (B0 : b <> 0 /\ b <> anchor (t_obj s)).
  { pose proof (h_distinct _ _ _ H) as ND. apply NoDup_cons in ND as [NI _]. split; [|by intros ->].
    pose proof (h_placed _ _ _ H) as PL. apply placed_iff in PL as [PL _]. apply (wplaced_node _ _ _ _ _ PL) in BI. lia. }
  assert (t_iter s' = Ok (TIter b (anchor (t_obj s'))) s' \/ t_iter s' = UB) as [E|E].
  { unfold t_iter, t_begin, bind, gets. rewrite EO.
    destruct (load_maybe s s' _ _ EB EW) as [-> | ->]; [left; unfold ret; by rewrite EO|by right]. }
  2:{ by apply bind_ub. }
  rewrite (bind_ok _ _ _ _ _ E). unfold bind at 1, gets at 1.
  assert (titer_next (TIter b (anchor (t_obj s'))) s' = UB) as EN.
  { unfold titer_next. cbn [ti_node ti_anchor]. rewrite EO. rewrite !(proj2 (Z.eqb_neq _ _)) by tauto. apply bind_ub.
    unfold node_next. unfold bind at 1, gets at 1. apply bind_ub. apply gone_word.
    apply (freed_gone nsz nal rest _ _ _ b b 8 O P BI); lia. }
  destruct (size _); cbn [titer_loop]; by apply bind_ub.
Qed.
End cleared.

(** ** Linking *)
Lemma word_maybe {T} (m m' : mem T) x y w : m_live m' = m_live m -> m_word m' = <[y := w]> (m_word m) ->
  load_word m' x = if bool_decide (x = y) then (if word_at m x then Some w else None) else load_word m x.
Proof.
  intros EL EW. unfold load_word, word_at, accessible. rewrite EL, EW. case_bool_decide as E.
  - subst. rewrite lookup_insert. done.
  - by rewrite lookup_insert_ne.
Qed.
Lemma word_at_load {T} (m : mem T) x w : load_word m x = Some w -> word_at m x = true.
Proof. unfold load_word. by destruct (word_at m x). Qed.

Section link.
Context {A K V : Type}.
Implicit Types s : tstate A K V.
Lemma put_changes s a w x : load_word (t_mem s) a = Some x ->
  exists s', t_put a w s = Ok tt s' /\ changes_only s s' [a] /\ load_word (t_mem s') a = Some w.
Proof.
  intros E. eexists. split; [by eapply t_put_ok|]. cbn. split.
  - repeat (split; [done|]). cbn. intros y Hy. rewrite (word_maybe (t_mem s) _ y a w) by done. rewrite bool_decide_eq_false_2; [done|].
    intros ->. apply Hy. constructor.
  - rewrite (word_maybe (t_mem s) _ a a w) by done. rewrite bool_decide_eq_true_2 by done. by rewrite (word_at_load _ _ _ E).
Qed.
Lemma changes_trans s1 s2 s3 l1 l2 : changes_only s1 s2 l1 -> changes_only s2 s3 l2 -> changes_only s1 s3 (l1 ++ l2).
Proof.
  intros (A1 & A2 & A3 & A4 & A5 & A6 & A7) (B1 & B2 & B3 & B4 & B5 & B6 & B7). unfold changes_only.
  repeat (split; [congruence|]). intros x Hx. rewrite B7, A7; [done|intros C; apply Hx, elem_of_app; by left|intros C; apply Hx, elem_of_app; by right].
Qed.

Lemma set_parent_ok s a p w : load_word (t_mem s) (a + 16) = Some w -> 0 <= w < usize_lim -> 0 <= p < usize_lim -> (2 | p) ->
  exists s' c, set_parent a p s = Ok (pc_ptr w) s' /\ changes_only s s' [a + 16] /\ node_color a s = Ok c s /\
    node_color a s' = Ok c s' /\ get_parent a s' = Ok p s'.
Proof.
  intros E HW HP D. destruct (raw_split w HW) as (q & c & -> & Dq & Hq).
  destruct (put_changes s (a + 16) (pc_set_ptr (q + color_as_usize c) p) _ E) as (s' & E1 & CH & E2).
  assert (EP : pc_set_ptr (q + color_as_usize c) p = p + color_as_usize c).
  { rewrite pc_set_ptr_at by done. destruct Dq as [u ->]. rewrite (Z.add_comm (u * 2)), Z.mod_add by lia. rewrite Z.mod_small; [done|]. destruct c; cbn; lia. }
  rewrite EP in E2. exists s', c. split.
  { unfold set_parent, get_pc. rewrite (bind_ok _ _ _ _ _ (t_word_ok _ _ _ E)). by rewrite (bind_ok _ _ _ _ _ E1). }
  split; [done|]. unfold node_color, get_parent, get_pc. rewrite (bind_ok _ _ _ _ _ (t_word_ok _ _ _ E)), !(bind_ok _ _ _ _ _ (t_word_ok _ _ _ E2)).
  split; [by apply pc_color_at|]. split; [by apply pc_color_at|]. by rewrite pc_ptr_at.
Qed.
End link.

Lemma L_C66_programs_match_sorted_entries :
forall (A K V : Type) (lt : K -> K -> bool) (nsz : Z) (s : tstate A K V) (t : tree K V) (cs : list (tcall K V)),
  strict_weak_order lt -> 24 <= nsz -> holds nsz s t -> sorted lt t ->
  let '(answers, dropped, es) := tspec_run lt cs (entries t) in
  exists s' t', t_run nsz lt cs s = Some (answers, s') /\ t_drops s' = t_drops s ++ dropped /\
    holds nsz s' t' /\ sorted lt t' /\ entries t' = es /\ skeleton t' = skeleton t.
Proof.
  intros A K V lt nsz s t cs SW H24 H HS. pose proof (run_ok nsz H24 lt SW cs s t H HS) as R.
  destruct (tspec_run lt cs (entries t)) as [[l d] es]. destruct R as (s' & t' & E & H' & SK & EE & D & _).
  exists s', t'. repeat (split; [done|]). split; [|done]. unfold sorted. by rewrite (skeleton_keys _ _ SK).
Qed.

Lemma L_C66_lookup_finds_exactly_the_keys :
forall (A K V : Type) (lt : K -> K -> bool) (nsz : Z) (s : tstate A K V) (t : tree K V) (k : K),
  strict_weak_order lt -> 24 <= nsz -> holds nsz s t -> sorted lt t ->
  exists o b, t_get nsz lt k s = Ok o s /\ t_contains_key nsz lt k s = Ok b s /\
    (forall v, o = Some v <-> exists k', (k', v) ∈ entries t /\ equivalent lt k k' = true) /\
    (b = true <-> exists k', k' ∈ keys t /\ equivalent lt k k' = true).
Proof.
  intros A K V lt nsz s t k SW H24 H HS. exists (spec_get lt k (entries t)), (match spec_get lt k (entries t) with Some _ => true | None => false end).
  split; [by apply get_ok|]. split; [by apply contains_ok|]. split; [intros v; by apply spec_get_iff|].
  pose proof (fun v => spec_get_iff lt k v t SW HS) as G. destruct (spec_get lt k (entries t)) as [v|].
  - split; [intros _|done]. destruct (proj1 (G v) eq_refl) as (k' & H1 & H2). exists k'. split; [|done]. unfold keys. apply elem_of_list_fmap. by exists (k', v).
  - split; [done|]. intros (k' & H1 & H2). apply elem_of_list_fmap in H1 as ([x v] & -> & H1). specialize (proj2 (G v) ltac:(by exists x)). done.
Qed.

Lemma L_C66_new_map_is_empty :
forall (A K V : Type) (nsz obj : Z) (a : A) (m : mem (K * V)),
  0 < obj -> obj + 32 < usize_lim -> (8 | obj) -> accessible m (obj + 8) 24 = true ->
  exists s, tree_new obj a m = Ok tt s /\ holds nsz s (Leaf : tree K V) /\ t_alloc s = a /\
    m_live (t_mem s) = m_live m /\ t_drops s = [].
Proof.
  intros A K V nsz obj a m H1 H2 H3 H4. by apply new_holds.
Qed.

Lemma L_C67_iteration_ascending_and_complete :
forall (A K V : Type) (lt : K -> K -> bool) (nsz : Z) (s : tstate A K V) (t : tree K V),
  24 <= nsz -> holds nsz s t -> sorted lt t ->
  exists i, t_iter s = Ok i s /\ yields nsz s i (entries t) /\
    StronglySorted (fun e e' => lt (fst e) (fst e') = true) (entries t).
Proof.
  intros A K V lt nsz s t H24 H HS. destruct (iter_yields nsz s t H24 H) as (i & E & Y). exists i. split; [done|]. split; [done|].
  unfold sorted, keys in HS. clear -HS. induction (entries t) as [|e es IH]; [constructor|]. cbn in HS. apply StronglySorted_inv in HS as [HS HF].
  constructor; [by apply IH|]. by rewrite Forall_map in HF.
Qed.

Lemma L_C67_highest_node_first_refuted :
forall (A K V : Type) (nsz : Z) (s : tstate A K V) (t : tree K V) (e : K * V),
  24 <= nsz -> holds_node_order nsz s t -> last (entries t) = Some e ->
  exists i, t_iter s = Ok i s /\ yields nsz s i [e].
Proof.
  intros A K V nsz s t e H24 H EL. by apply (node_order_yields nsz s t e).
Qed.

Lemma L_C68_colour_packing_lossless :
forall (S : Type) (s : S) (raw p : Z) (c : color),
  0 <= raw < usize_lim -> 0 <= p < usize_lim -> (2 | p) ->
  pc_color (pc_set_color raw c) s = Ok c s /\ pc_ptr (pc_set_color raw c) = pc_ptr raw /\
  pc_ptr (pc_set_ptr raw p) = p /\ pc_color (pc_set_ptr raw p) s = pc_color raw s /\
  pc_color (pc_new c p) s = Ok c s /\ pc_ptr (pc_new c p) = p /\
  0 <= pc_set_color raw c < usize_lim /\ 0 <= pc_set_ptr raw p < usize_lim.
Proof.
  intros S s raw p c HR HP HD. destruct (raw_split raw HR) as (q & d & -> & Dq & Hq).
  assert (E1 : forall b, pc_set_color (q + color_as_usize b) c = q + color_as_usize c).
  { intros b. assert (0 <= q + color_as_usize b < usize_lim) by (destruct Dq as [u ->]; unfold usize_lim in *; destruct b; cbn; lia).
    rewrite pc_set_color_at by done. destruct Dq as [u ->]. rewrite (Z.add_comm (u * 2)), Z.div_add by lia. rewrite (Z.div_small (color_as_usize b)) by (destruct b; cbn; lia). lia. }
  assert (E2 : forall b r, (2 | r) -> pc_set_ptr (r + color_as_usize b) p = p + color_as_usize b).
  { intros b r [u ->]. rewrite pc_set_ptr_at by done. rewrite (Z.add_comm (u * 2)), Z.mod_add by lia. rewrite Z.mod_small; [done|]. destruct b; cbn; lia. }
  assert (E3 : pc_new c p = p + color_as_usize c).
  { unfold pc_new, pc_default. rewrite (pc_set_color_at 0 c) by (unfold usize_lim; lia). change (2 * (0 / 2)) with 0. apply (E2 c 0). by exists 0. }
  rewrite E1, (E2 d q Dq), E3. rewrite !pc_color_at by done. rewrite !pc_ptr_at by done.
  repeat (split; [done|]). destruct Dq as [u ->], HD as [u' ->]. unfold usize_lim in *. destruct c, d; cbn; lia.
Qed.

Lemma L_C68_linking_keeps_colours :
forall (A K V : Type) (s : tstate A K V) (a b wa wb : Z),
  0 <= a < usize_lim -> (2 | a) -> b <> 0 -> has_node s a wa -> has_node s b wb -> (a + 24 <= b \/ b + 24 <= a) ->
  (exists s' old c, set_left a b s = Ok old s' /\ get_left a s = Ok old s /\ get_left a s' = Ok b s' /\ get_parent b s' = Ok a s' /\
     node_color b s = Ok c s /\ node_color b s' = Ok c s' /\ changes_only s s' [a + 8; b + 16]) /\
  (exists s' old c, set_right a b s = Ok old s' /\ get_right a s = Ok old s /\ get_right a s' = Ok b s' /\ get_parent b s' = Ok a s' /\
     node_color b s = Ok c s /\ node_color b s' = Ok c s' /\ changes_only s s' [a; b + 16]).
Proof.
  intros A K V s a b wa wb HA HD HB ((ra & R1) & (la & L1) & P1 & PW1) (_ & _ & P2 & PW2) AP.
  assert (G : forall x old, x <> b + 16 -> load_word (t_mem s) x = Some old ->
    exists s1 s' c, t_put x b s = Ok tt s1 /\ set_parent b a s1 = Ok (pc_ptr wb) s' /\ t_word x s' = Ok b s' /\ get_parent b s' = Ok a s' /\
      node_color b s = Ok c s /\ node_color b s' = Ok c s' /\ changes_only s s' [x; b + 16]).
  { intros x old NE E. destruct (put_changes s x b _ E) as (s1 & E1 & C1 & LX).
    assert (load_word (t_mem s1) (b + 16) = Some wb) as E2.
    { rewrite (proj2 (proj2 (proj2 (proj2 (proj2 (proj2 C1)))))); [done|]. intros C. apply elem_of_list_singleton in C. lia. }
    destruct (set_parent_ok s1 b a wb E2 PW2 HA HD) as (s' & c & E3 & C2 & CL1 & CL2 & GP).
    exists s1, s', c. split; [done|]. split; [done|]. split.
    { apply t_word_ok. rewrite (proj2 (proj2 (proj2 (proj2 (proj2 (proj2 C2)))))); [done|]. intros C. apply elem_of_list_singleton in C. lia. }
    split; [done|]. split; [|split; [done|exact (changes_trans _ _ _ _ _ C1 C2)]].
    unfold node_color, get_pc in *. rewrite (bind_ok _ _ _ _ _ (t_word_ok _ _ _ P2)). rewrite (bind_ok _ _ _ _ _ (t_word_ok _ _ _ E2)) in CL1.
    revert CL1. unfold pc_color, color_from, ret, panic. destruct (Z.land wb 1 =? 0); [congruence|]. destruct (Z.land wb 1 =? 1); congruence. }
  split.
  - destruct (G (a + 8) la) as (s1 & s' & c & E1 & E2 & E3 & E4 & E5 & E6 & E7); [lia|done|]. exists s', la, c.
    split; [|split; [by apply t_word_ok|done]]. unfold set_left, get_left. rewrite (bind_ok _ _ _ _ _ (t_word_ok _ _ _ L1)), (bind_ok _ _ _ _ _ E1).
    rewrite (proj2 (Z.eqb_neq _ _) HB). by rewrite (bind_ok _ _ _ _ _ E2).
  - destruct (G a ra) as (s1 & s' & c & E1 & E2 & E3 & E4 & E5 & E6 & E7); [lia|done|]. exists s', ra, c.
    split; [|split; [by apply t_word_ok|done]]. unfold set_right, get_right. rewrite (bind_ok _ _ _ _ _ (t_word_ok _ _ _ R1)), (bind_ok _ _ _ _ _ E1).
    rewrite (proj2 (Z.eqb_neq _ _) HB). by rewrite (bind_ok _ _ _ _ _ E2).
Qed.

Lemma L_C68_setters_keep_the_rest :
forall (A K V : Type) (s : tstate A K V) (a p wa : Z) (c : color),
  has_node s a wa -> 0 <= p < usize_lim -> (2 | p) ->
  (exists s' q, node_set_color a c s = Ok tt s' /\ node_color a s' = Ok c s' /\ get_parent a s = Ok q s /\ get_parent a s' = Ok q s' /\
     changes_only s s' [a + 16]) /\
  (exists s' q d, set_parent a p s = Ok q s' /\ get_parent a s = Ok q s /\ get_parent a s' = Ok p s' /\
     node_color a s = Ok d s /\ node_color a s' = Ok d s' /\ changes_only s s' [a + 16]) /\
  (exists s' old, set_left a 0 s = Ok old s' /\ get_left a s = Ok old s /\ get_left a s' = Ok 0 s' /\ changes_only s s' [a + 8]) /\
  (exists s' old, set_right a 0 s = Ok old s' /\ get_right a s = Ok old s /\ get_right a s' = Ok 0 s' /\ changes_only s s' [a]).
Proof.
  intros A K V s a p wa c ((ra & R1) & (la & L1) & P1 & PW1) HP HD. split; [|split; [|split]].
  - destruct (put_changes s (a + 16) (pc_set_color wa c) _ P1) as (s' & E1 & CH & E2).
    destruct (L_C68_colour_packing_lossless (tstate A K V) s' wa 0 c PW1 ltac:(unfold usize_lim; lia) ltac:(by exists 0)) as (F1 & F2 & _).
    exists s', (pc_ptr wa). unfold node_set_color, node_color, get_parent, get_pc.
    rewrite !(bind_ok _ _ _ _ _ (t_word_ok _ _ _ P1)), !(bind_ok _ _ _ _ _ (t_word_ok _ _ _ E2)). rewrite F2. done.
  - destruct (set_parent_ok s a p wa P1 PW1 HP HD) as (s' & d & E1 & CH & C1 & C2 & GP). exists s', (pc_ptr wa), d.
    split; [done|]. split; [|done]. unfold get_parent, get_pc. by rewrite (bind_ok _ _ _ _ _ (t_word_ok _ _ _ P1)).
  - destruct (put_changes s (a + 8) 0 _ L1) as (s' & E1 & CH & E2). exists s', la. unfold set_left, get_left.
    rewrite (bind_ok _ _ _ _ _ (t_word_ok _ _ _ L1)), (bind_ok _ _ _ _ _ E1). split; [done|]. split; [by apply t_word_ok|]. split; [by apply t_word_ok|done].
  - destruct (put_changes s a 0 _ R1) as (s' & E1 & CH & E2). exists s', ra. unfold set_right, get_right.
    rewrite (bind_ok _ _ _ _ _ (t_word_ok _ _ _ R1)), (bind_ok _ _ _ _ _ E1). split; [done|]. split; [by apply t_word_ok|]. split; [by apply t_word_ok|done].
Qed.

Lemma L_C69_clear_empties_refuted :
forall (K V : Type) (pick : mem (K * V) -> Z -> Z -> Z) (strict chk : bool) (nsz nal : Z) (rest : list region)
    (lt : K -> K -> bool) (s : tstate unit K V) (t : tree K V),
  tree_layout nsz nal -> holds nsz s t -> owns nsz nal (t_mem s) t rest -> t <> Leaf ->
  exists s', t_clear (DefaultAddrAlloc pick strict) chk nsz nal s = Ok tt s' /\ m_live (t_mem s') ≡ₚ rest /\
    t_len s' = Ok (Z.of_nat (length (entries t))) s' /\ t_is_empty s' = Ok false s' /\
    (forall k, t_get nsz lt k s' = UB) /\ t_iter_all nsz s' = UB /\
    t_clear (DefaultAddrAlloc pick strict) chk nsz nal s' = UB /\ t_drop (DefaultAddrAlloc pick strict) chk nsz nal s' = UB.
Proof.
  intros K V pick strict chk nsz nal rest lt s t TL H O NE.
  destruct (free_default pick strict chk nsz nal rest (m_word (t_mem s)) TL (ow_wf _ _ _ _ _ O) s t eq_refl H O) as (s' & E & P & EW & EO & EZ & ED).
  exists s'. split; [done|]. split; [done|]. assert (EL : t_len s' = Ok (Z.of_nat (length (entries t))) s').
  { unfold t_len, gets. by rewrite EZ, (h_size _ _ _ H). }
  split; [done|]. split.
  { unfold t_is_empty. rewrite (bind_ok _ _ _ _ _ EL). unfold ret. f_equal. apply Z.eqb_neq. destruct t as [|c l a k v r]; [done|]. cbn. rewrite app_length. cbn. lia. }
  assert (D : t_drop (DefaultAddrAlloc pick strict) chk nsz nal s' = UB) by (by eapply drop_gone).
  split; [intros k; by eapply get_gone|]. split; [by eapply iter_gone|]. done.
Qed.

Lemma L_C70_nodes_freed_once_partial :
forall (K V : Type) (pick : mem (K * V) -> Z -> Z -> Z) (strict chk : bool) (nsz nal : Z) (rest : list region)
    (s : tstate unit K V) (t : tree K V),
  tree_layout nsz nal -> holds nsz s t -> owns nsz nal (t_mem s) t rest ->
  exists s', t_drop (DefaultAddrAlloc pick strict) chk nsz nal s = Ok tt s' /\ m_live (t_mem s') ≡ₚ rest.
Proof.
  intros K V pick strict chk nsz nal rest s t TL H O.
  destruct (free_default pick strict chk nsz nal rest (m_word (t_mem s)) TL (ow_wf _ _ _ _ _ O) s t eq_refl H O) as (s' & E & P & _).
  by exists s'.
Qed.

Lemma L_C70_entries_dropped_refuted :
forall (K V : Type) (pick : mem (K * V) -> Z -> Z -> Z) (strict chk : bool) (nsz nal : Z) (rest : list region)
    (s : tstate unit K V) (t : tree K V),
  tree_layout nsz nal -> holds nsz s t -> owns nsz nal (t_mem s) t rest ->
  exists s', t_drop (DefaultAddrAlloc pick strict) chk nsz nal s = Ok tt s' /\
    t_clear (DefaultAddrAlloc pick strict) chk nsz nal s = Ok tt s' /\ t_drops s' = t_drops s.
Proof.
  intros K V pick strict chk nsz nal rest s t TL H O.
  destruct (free_default pick strict chk nsz nal rest (m_word (t_mem s)) TL (ow_wf _ _ _ _ _ O) s t eq_refl H O) as (s' & E & P & EW & EO & EZ & ED).
  by exists s'.
Qed.

Lemma L_C71_lookup_is_logarithmic :
forall (A K V : Type) (lt : K -> K -> bool) (nsz : Z) (s : tstate A K V) (t : tree K V) (k : K),
  24 <= nsz -> holds nsz s t -> red_black t ->
  exists o visited, find_counting nsz lt k s = Ok (o, visited) s /\
    (visited <= 2 * Nat.log2 (length (entries t) + 1))%nat.
Proof.
  intros A K V lt nsz s t k H24 H RB. destruct (holds_walk _ _ _ H) as (b & W & F & _).
  exists (fst (tfind lt k t)), (snd (tfind lt k t)). split.
  - rewrite (find_counting_ok nsz s t b lt k W F). by destruct (tfind lt k t).
  - pose proof (tfind_height lt k t). pose proof (height_log t RB). lia.
Qed.
