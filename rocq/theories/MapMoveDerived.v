(** Proofs of the properties stated in MapMoveProps.v. *)
From Verif Require Import Base Alloc AddrMem FixedPool FixedPoolSpec LinkedList LinkedListSpec RBTree RBTreeSpec MapMove MapMoveSpec.
Local Open Scope Z_scope.

From Verif Require Import RBTreeProofs RBTreeCalls RBTreeFree.

(** A tree whose root says that its parent is at [up], where nothing can be read ([gone])
    or an empty map is. *)
Record afar {A K V} (nsz : Z) (gone : bool) (s : tstate A K V) (t : tree K V) (up : Z) : Prop := {
  af_obj : 0 < t_obj s /\ t_obj s + 32 < usize_lim /\ (8 | t_obj s);
  af_begin : exists b, load_word (t_mem s) (t_obj s + 8) = Some b /\ match head (addrs t) with Some a => b = a | None => empty_end (up - 8) b end;
  af_root : load_word (t_mem s) (t_obj s + 24) = Some (addr t);
  af_placed : wplaced nsz (t_mem s) up t;
  af_vals : vals (t_mem s) (addrs t) (entries t);
  af_nodup : NoDup (addrs t);
  af_size : t_size s = Z.of_nat (length (entries t));
  af_up : 0 < up < usize_lim /\ (8 | up);
  af_lost : if gone then load_word (t_mem s) up = None
            else load_word (t_mem s) up = Some 0 /\ load_word (t_mem s) (up + 16) = Some 0 /\ load_word (t_mem s) 0 = None /\ up ∉ addrs t;
  af_anchor : anchor (t_obj s) ∉ addrs t /\ anchor (t_obj s) <> up
}.

Section afar.
Context {A K V : Type}.
Variable nsz : Z.
Variable gone : bool.
Hypothesis H24 : 24 <= nsz.
Local Notation tstate := (tstate A K V).
Implicit Types (s : tstate) (t : tree K V).

Lemma wpair_ok s up t x e : wplaced nsz (t_mem s) up t -> x ∈ addrs t -> m_val (t_mem s) !! x = Some e -> get_pair nsz x s = Ok e s.
Proof using.
  intros W Hx E. destruct (wplaced_node _ _ _ _ _ W Hx) as (_ & _ & _ & AC). unfold get_pair, bind, gets, load_val. by rewrite AC, E.
Qed.
Lemma afar_find_loop s (cmp : K -> K -> bool) k t f up : wplaced nsz (t_mem s) up t ->
  vals (t_mem s) (addrs t) (entries t) -> (height t <= f)%nat ->
  find_loop nsz cmp f k (addr t) s = Ok (tfind cmp k t) s.
Proof using.
  revert f up. induction t as [|c l IHl a x v r IHr]; intros f up W F L; [by destruct f|].
  pose proof W as W'. cbn [wplaced addr entries height] in *. cbn [addrs] in F. destruct W as (H1 & H2 & H3 & H4 & H5 & H6 & W1 & W2).
  apply Forall2_app_inv in F as [F1 F2]; [|apply addrs_entries]. apply Forall2_cons_1 in F2 as [F2 F3].
  destruct f as [|f]; [lia|]. cbn [find_loop]. replace (a =? 0) with false by lia.
  unfold bind at 1. rewrite (wpair_ok s up (Bin c l a x v r) a _ W' (in_root _ _ _ _ _ _) F2). cbn [fst]. cbn [tfind].
  destruct (cmp k x).
  - unfold get_left. rewrite (t_word_ok2 _ _ _ _ H4). unfold bind. rewrite (IHl f a); [done|done|done|lia].
  - destruct (cmp x k); cbn [negb]; [|done].
    unfold get_right. rewrite (t_word_ok2 _ _ _ _ H3). unfold bind. rewrite (IHr f a); [done|done|done|lia].
Qed.
Lemma afar_insertion s (cmp : K -> K -> bool) k t f up pv : wplaced nsz (t_mem s) up t ->
  vals (t_mem s) (addrs t) (entries t) -> (height t <= f)%nat ->
  exists p, insertion_loop nsz cmp f k (addr t) pv s = Ok p s.
Proof using.
  revert f up pv. induction t as [|c l IHl a x v r IHr]; intros f up pv W F L; [by destruct f; exists pv|].
  pose proof W as W'. cbn [wplaced addr entries height] in *. cbn [addrs] in F. destruct W as (H1 & H2 & H3 & H4 & H5 & H6 & W1 & W2).
  apply Forall2_app_inv in F as [F1 F2]; [|apply addrs_entries]. apply Forall2_cons_1 in F2 as [F2 F3].
  destruct f as [|f]; [lia|]. cbn [insertion_loop]. replace (a =? 0) with false by lia.
  unfold bind at 1. rewrite (wpair_ok s up (Bin c l a x v r) a _ W' (in_root _ _ _ _ _ _) F2). cbn [fst].
  destruct (cmp k x).
  - unfold get_left. rewrite (t_word_ok2 _ _ _ _ H4). by apply (IHl f a); [done|done|lia].
  - unfold get_right. rewrite (t_word_ok2 _ _ _ _ H3). by apply (IHr f a); [done|done|lia].
Qed.
Lemma afar_count s t up : afar nsz gone s t up -> (length (addrs t) <= size (m_word (t_mem s)))%nat.
Proof using. intros W. eapply count_words; apply W. Qed.
Lemma afar_find_in_tree s t up cmp k : afar nsz gone s t up -> find_in_tree nsz cmp k s = Ok (fst (tfind cmp k t)) s.
Proof using.
  intros W. unfold find_in_tree. assert (find_counting nsz cmp k s = Ok (tfind cmp k t) s) as E.
  { unfold find_counting, t_parent. unfold bind at 1. unfold bind at 1, gets at 1. rewrite (t_word_ok _ _ _ (af_root _ _ _ _ _ W)).
    unfold bind, gets. eapply afar_find_loop; try apply W. pose proof (height_le t). pose proof (afar_count _ _ _ W). lia. }
  unfold bind. by rewrite E.
Qed.
Lemma afar_same s s' t t' up : afar nsz gone s t up -> same_words s s' -> skeleton t' = skeleton t -> t_size s' = t_size s ->
  vals (t_mem s') (addrs t) (entries t') -> afar nsz gone s' t' up.
Proof using.
  intros [H1 H2 H3 H4 H5 H6 H7 H8 H9 H10] SW ES EZ F. pose proof SW as (E1 & E2 & E3).
  rewrite <- (skeleton_addrs _ _ ES) in *. rewrite <- (skeleton_addr _ _ ES) in *.
  split; rewrite ?E1, ?(same_load _ _ _ SW); try done.
  - by eapply wplaced_same.
  - rewrite EZ, H7. rewrite <- !addrs_entries. by rewrite (skeleton_addrs _ _ ES).
Qed.

Variable cmp : K -> K -> bool.
Hypothesis SWO : strict_weak_order cmp.

Lemma afar_get s t up k : afar nsz gone s t up -> sorted cmp t -> t_get nsz cmp k s = Ok (spec_get cmp k (entries t)) s.
Proof using SWO.
  intros W HS. unfold t_get. unfold bind at 1. rewrite (afar_find_in_tree _ _ _ _ _ W). pose proof (tfind_ok _ SWO k t HS) as FO.
  unfold spec_get. destruct (fst (tfind cmp k t)) as [p|].
  - destruct FO as (i & e & I1 & I2 & I3 & I4). unfold bind. rewrite (wpair_ok _ _ _ p e (af_placed _ _ _ _ _ W)).
    + by rewrite (find_at _ _ _ _ _ I2 I3 I4).
    + by eapply elem_of_list_lookup_2.
    + by eapply (Forall2_lookup_lr _ _ _ _ _ _ (af_vals _ _ _ _ _ W)).
  - by rewrite find_none.
Qed.

Lemma afar_call c s t up : afar nsz gone s t up -> sorted cmp t -> no_iteration c = true ->
  let '(a, d, es) := tspec_call cmp c (entries t) in
  exists s' t', (match a with Some a => t_call nsz cmp c s = Ok a s' | None => t_call nsz cmp c s = Panic s' end) /\
    afar nsz gone s' t' up /\ skeleton t' = skeleton t /\ entries t' = es /\ t_drops s' = t_drops s ++ d /\ t_alloc s' = t_alloc s /\ same_words s s'.
Proof using SWO.
  intros H HS NI. pose proof (af_vals _ _ _ _ _ H) as F. pose proof (af_placed _ _ _ _ _ H) as W.
  assert (SR : same_words s s) by done.
  destruct c; cbn [tspec_call t_call]; try done.
  - exists s, t. rewrite app_nil_r. unfold bind. by rewrite (afar_get _ _ _ _ H HS).
  - unfold t_assign, t_get_mut. pose proof (tfind_ok _ SWO k t HS) as FO. unfold spec_get.
    pose proof (afar_find_in_tree _ _ _ cmp k H) as EF.
    destruct (fst (tfind cmp k t)) as [p|].
    + destruct FO as (i & e & I1 & I2 & I3 & I4). rewrite (find_at _ _ _ _ _ I2 I3 I4). cbn [option_map].
      assert (p ∈ addrs t) as HI by (by eapply elem_of_list_lookup_2).
      destruct (refill t (spec_set cmp k v (entries t))) as (t' & ES & EE).
      { rewrite (set_at _ _ _ _ _ _ I2 I3 I4). rewrite list_fmap_insert. cbn [fst]. unfold keys. apply list_insert_id.
        change (map fst (entries t)) with (fst <$> entries t). by rewrite list_lookup_fmap, I2. }
      assert (EP : put_pair nsz p (fst e, v) s = Ok tt (with_val s p (fst e, v))).
      { destruct (wplaced_node _ _ _ _ _ W HI) as (_ & _ & _ & AC). unfold put_pair, bind, gets, store_val. by rewrite AC. }
      exists (t_logged [inr (snd e)] (with_val s p (fst e, v))), t'.
      split.
      { unfold bind at 1. rewrite (bind_ok _ _ _ _ _ EF).
        rewrite (bind_ok _ _ _ _ _ (wpair_ok _ _ _ p e W HI (Forall2_lookup_lr _ _ _ _ _ _ F I1 I2))).
        by rewrite (bind_ok _ _ _ _ _ EP). }
      split; [|done]. apply (afar_same s _ t); try done. rewrite EE, (set_at _ _ _ _ _ _ I2 I3 I4).
      eapply vals_insert; [exact F| |exact I1|done]. apply H.
    + rewrite find_none by done. cbn [option_map]. exists (t_logged [inr v] s), t.
      split. { unfold bind at 1. by rewrite (bind_ok _ _ _ _ _ EF). }
      split; [|done]. by apply (afar_same s _ t).
  - exists s, t. rewrite app_nil_r. unfold t_contains_key. unfold bind at 1. by rewrite (bind_ok _ _ _ _ _ (afar_get _ _ _ _ H HS)).
  - exists s, t. rewrite app_nil_r. unfold bind, t_len, gets. by rewrite (af_size _ _ _ _ _ H).
  - exists s, t. rewrite app_nil_r. unfold t_is_empty, t_len, gets. unfold bind. rewrite (af_size _ _ _ _ _ H). by destruct (entries t).
  - exists (t_logged [inr v; inl k] s), t. split.
    { destruct (afar_insertion s cmp k t (size (m_word (t_mem s))) up 0 W F) as (p & EP).
      { pose proof (height_le t). pose proof (afar_count _ _ _ H). lia. }
      assert (find_insertion_position nsz cmp k s = Ok p s) as EQ.
      { unfold find_insertion_position, t_parent. unfold bind at 1. unfold bind at 1, gets at 1. rewrite (t_word_ok _ _ _ (af_root _ _ _ _ _ H)). exact EP. }
      unfold t_insert, on_unwind. unfold bind at 1. by rewrite (bind_ok _ _ _ _ _ EQ). }
    split; [|done]. by apply (afar_same s _ t).
  - exists s, t. by rewrite app_nil_r.
  - exists s, t. by rewrite app_nil_r.
Qed.

Lemma afar_run cs s t up : afar nsz gone s t up -> sorted cmp t -> forallb no_iteration cs = true ->
  let '(l, d, es) := tspec_run cmp cs (entries t) in
  exists s' t', t_run nsz cmp cs s = Some (l, s') /\
    afar nsz gone s' t' up /\ skeleton t' = skeleton t /\ entries t' = es /\ t_drops s' = t_drops s ++ d /\ t_alloc s' = t_alloc s /\ same_words s s'.
Proof using SWO.
  revert s t. induction cs as [|c cs IH]; intros s t H HS NI; cbn [tspec_run].
  - exists s, t. by rewrite app_nil_r.
  - cbn [forallb] in NI. apply andb_true_iff in NI as [NC NI].
    pose proof (afar_call c s t up H HS NC) as C. destruct (tspec_call cmp c (entries t)) as [[a d] es].
    destruct C as (s1 & t1 & E1 & H1 & K1 & <- & D1 & A1 & W1).
    assert (sorted cmp t1) as HS1 by (unfold sorted; by rewrite (skeleton_keys _ _ K1)).
    specialize (IH s1 t1 H1 HS1 NI). destruct (tspec_run cmp cs (entries t1)) as [[l d'] es2].
    destruct IH as (s2 & t2 & E2 & H2 & K2 & E & D2 & A2 & W2). exists s2, t2. cbn [t_run].
    split; [destruct a; rewrite E1, E2; done|]. split; [done|]. split; [congruence|]. split; [done|].
    split; [by rewrite D2, D1, app_assoc|]. split; [congruence|]. destruct W1 as (? & ? & ?), W2 as (? & ? & ?). split; [congruence|]. split; congruence.
Qed.

(** Iteration. *)
Lemma lost_read s t up : afar nsz gone s t up -> gone = true -> get_right up s = UB.
Proof using. intros H G. pose proof (af_lost _ _ _ _ _ H) as L. rewrite G in L. unfold get_right, t_word, bind, gets. by rewrite L. Qed.
Lemma left_next s t up : afar nsz gone s t up -> gone = false -> node_next up s = UB.
Proof using.
  intros H G. pose proof (af_lost _ _ _ _ _ H) as L. rewrite G in L. destruct L as (L1 & L2 & L3 & _).
  unfold node_next, bind at 1, gets. cbv beta. unfold get_right at 1. rewrite (t_word_ok2 _ _ _ _ L1). cbn [Z.eqb negb].
  unfold get_parent, get_pc. unfold bind at 1. rewrite (t_word_ok2 _ _ _ _ L2). unfold ret at 1. change (pc_ptr 0) with 0.
  assert (R : get_right 0 s = UB). { unfold get_right, t_word, bind, gets. by rewrite L3. }
  unfold bind at 1. destruct (size (m_word (t_mem s))); cbn [climb]; unfold bind at 1; by rewrite R.
Qed.
Lemma afar_next_last s t up x : afar nsz gone s t up -> last (addrs t) = Some x -> node_next x s = if gone then UB else Ok up s.
Proof using.
  intros H E. destruct (af_up _ _ _ _ _ H) as [U1 U2]. destruct (climb_last nsz s up t x (af_placed _ _ _ _ _ H) E ltac:(lia) U2) as (n & pa & N1 & N2 & N3 & N4).
  pose proof (afar_count _ _ _ H) as LE. unfold node_next, bind at 1, gets. cbv beta. unfold bind at 1. rewrite N3. cbn [Z.eqb negb].
  unfold bind at 1. rewrite N2. unfold bind at 1. replace (size (m_word (t_mem s))) with (n + (size (m_word (t_mem s)) - n))%nat by lia. rewrite N4.
  destruct (Sumbool.sumbool_of_bool gone) as [G|G]; rewrite ?G.
  - destruct (size (m_word (t_mem s)) - n)%nat; cbn [climb]; unfold bind; by rewrite (lost_read _ _ _ H G).
  - pose proof (af_lost _ _ _ _ _ H) as L. rewrite G in L. destruct L as (L1 & L2 & L3 & L4).
    assert (C : climb (size (m_word (t_mem s)) - n) (addr t) up s = Ok (addr t, up) s).
    { destruct t as [|c l a k v r]; [done|]. cbn [addr]. destruct (af_placed _ _ _ _ _ H) as (Pa & _).
      destruct (size (m_word (t_mem s)) - n)%nat; cbn [climb]; unfold get_right; rewrite (t_word_ok2 _ _ _ _ L1); by replace (a =? 0) with false by lia. }
    rewrite C. cbn [fst snd]. destruct t as [|c l a k v r]; [done|]. cbn [addr]. destruct (af_placed _ _ _ _ _ H) as (Pa & _ & Pr & _).
    unfold get_right. rewrite (t_word_ok2 _ _ _ _ Pr). replace (addr r =? up) with false; [done|]. symmetry. apply Z.eqb_neq. intros X.
    destruct r as [|c' l' a' k' v' r']; cbn [addr] in X; [lia|]. apply L4. rewrite <- X. apply in_right, in_root.
Qed.
Lemma afar_next s t up xs y ys : afar nsz gone s t up -> addrs t = xs ++ y :: ys ->
  titer_next (TIter y (anchor (t_obj s))) s =
    match ys with [] => if gone then UB else Ok (Some y, TIter up (anchor (t_obj s))) s | z :: _ => Ok (Some y, TIter z (anchor (t_obj s))) s end.
Proof using H24.
  intros H E. unfold titer_next. cbn [ti_node ti_anchor].
  assert (y ∈ addrs t) as Hy by exact (in_mid _ _ _ _ E).
  destruct (wplaced_node _ _ _ _ _ (af_placed _ _ _ _ _ H) Hy) as (Y1 & _).
  replace (y =? anchor (t_obj s)) with false by (symmetry; apply Z.eqb_neq; intros ->; by destruct (af_anchor _ _ _ _ _ H)).
  replace (y =? 0) with false by lia. unfold bind. destruct ys as [|z ys].
  - rewrite (afar_next_last _ _ _ _ H) by (rewrite E; by rewrite last_snoc). by destruct gone.
  - destruct (af_up _ _ _ _ _ H) as [U1 U2]. by rewrite (next_in nsz s H24 up t xs y z ys (af_placed _ _ _ _ _ H) ltac:(lia) U2 (af_nodup _ _ _ _ _ H) (afar_count _ _ _ H) E).
Qed.
Lemma left_titer s t up : afar nsz gone s t up -> gone = false -> titer_next (TIter up (anchor (t_obj s))) s = UB.
Proof using.
  intros H G. unfold titer_next. cbn [ti_node ti_anchor]. destruct (af_up _ _ _ _ _ H) as [U1 _], (af_anchor _ _ _ _ _ H) as [_ NA].
  replace (up =? anchor (t_obj s)) with false by lia. replace (up =? 0) with false by lia. unfold bind. by rewrite (left_next _ _ _ H G).
Qed.
Lemma afar_take s t up xs y ys es k : afar nsz gone s t up -> addrs t = xs ++ y :: ys -> vals (t_mem s) (y :: ys) es ->
  if (k <=? (if gone then length ys else S (length ys)))%nat then exists i', titer_take nsz k (TIter y (anchor (t_obj s))) s = Ok (map Some (take k es), i') s
  else titer_take nsz k (TIter y (anchor (t_obj s))) s = UB.
Proof using H24.
  intros H. revert k xs y es. induction ys as [|z ys IH]; intros k xs y es E F; (destruct k as [|k]; [by eexists|]);
    apply Forall2_cons_inv_l in F as (e & es' & Fe & F & ->);
    (assert (P : get_pair nsz y s = Ok e s) by (eapply wpair_ok; [apply H|exact (in_mid _ _ _ _ E)|done])).
  - apply Forall2_nil_inv_l in F as ->. pose proof (afar_next _ _ _ _ _ _ H E) as EN. cbn [length].
    destruct (Sumbool.sumbool_of_bool gone) as [G|G]; rewrite G in EN |- *; cbn [titer_take Nat.leb].
    + unfold bind at 1. by rewrite EN.
    + destruct k as [|k]; cbn [Nat.leb]; [eexists|]; unfold bind at 1; rewrite EN; cbn [fst snd]; unfold bind at 1; unfold bind at 1; rewrite P; unfold ret at 1; [done|].
      cbn [titer_take Nat.leb]. unfold bind at 1. unfold bind at 1. rewrite (left_titer _ _ _ H G). done.
  - specialize (IH k (xs ++ [y]) z es' ltac:(by rewrite E, <- app_assoc) F).
    replace (S k <=? (if gone then length (z :: ys) else S (length (z :: ys))))%nat with (k <=? (if gone then length ys else S (length ys)))%nat by (by destruct gone).
    cbn [titer_take].
    destruct (k <=? _)%nat; [destruct IH as (i' & E'); exists i'|rename IH into E'];
      unfold bind at 1; rewrite (afar_next _ _ _ _ _ _ H E); cbn [fst snd];
      unfold bind at 1; unfold bind at 1; rewrite P; unfold ret at 1; unfold bind at 1; rewrite E'; done.
Qed.
Lemma left_loop s t up f : afar nsz gone s t up -> gone = false -> titer_loop nsz f (TIter up (anchor (t_obj s))) s = UB.
Proof using. intros H G. destruct f; cbn [titer_loop]; unfold bind at 1; by rewrite (left_titer _ _ _ H G). Qed.
Lemma left_mut_loop s t up g f : afar nsz gone s t up -> gone = false -> titer_mut_loop nsz f g (TIter up (anchor (t_obj s))) s = UB.
Proof using. intros H G. destruct f; cbn [titer_mut_loop]; unfold bind at 1; by rewrite (left_titer _ _ _ H G). Qed.
Lemma afar_loop s t up xs y ys es f : afar nsz gone s t up -> addrs t = xs ++ y :: ys -> vals (t_mem s) (y :: ys) es ->
  titer_loop nsz f (TIter y (anchor (t_obj s))) s = UB.
Proof using H24.
  intros H. revert f xs y es. induction ys as [|z ys IH]; intros f xs y es E F;
    apply Forall2_cons_inv_l in F as (e & es' & Fe & F & ->);
    (assert (P : get_pair nsz y s = Ok e s) by (eapply wpair_ok; [apply H|exact (in_mid _ _ _ _ E)|done])).
  - destruct f as [|f]; cbn [titer_loop]; unfold bind at 1; rewrite (afar_next _ _ _ _ _ _ H E); (destruct (Sumbool.sumbool_of_bool gone) as [G|G]; rewrite ?G; [done|]); cbn [fst snd]; [done|].
    unfold bind at 1. rewrite P. unfold bind. by rewrite (left_loop _ _ _ f H G).
  - destruct f as [|f]; cbn [titer_loop]; unfold bind at 1; rewrite (afar_next _ _ _ _ _ _ H E); cbn [fst snd]; [done|].
    unfold bind at 1. rewrite P. unfold bind. by rewrite (IH f (xs ++ [y]) z es' ltac:(by rewrite E, <- app_assoc) F).
Qed.
Lemma afar_mut_loop s t up g xs y ys es f : afar nsz gone s t up -> addrs t = xs ++ y :: ys -> vals (t_mem s) (y :: ys) es ->
  titer_mut_loop nsz f g (TIter y (anchor (t_obj s))) s = UB.
Proof using H24.
  revert s f xs y es t. induction ys as [|z ys IH]; intros s f xs y es t H E F;
    apply Forall2_cons_inv_l in F as (e & es' & Fe & F & ->);
    (assert (HI : y ∈ addrs t) by exact (in_mid _ _ _ _ E));
    (assert (P : get_pair nsz y s = Ok e s) by (eapply wpair_ok; [apply H|done|done]));
    (assert (EP : put_pair nsz y (fst e, g (snd e)) s = Ok tt (with_val s y (fst e, g (snd e)))) by
      (destruct (wplaced_node _ _ _ _ _ (af_placed _ _ _ _ _ H) HI) as (_ & _ & _ & AC); unfold put_pair, bind, gets, store_val; by rewrite AC));
    (assert (Hi : addrs t !! length xs = Some y) by (by rewrite E, list_lookup_middle));
    (destruct (lookup_lt_is_Some_2 (entries t) (length xs)) as [e0 Hv];
      [rewrite <- addrs_entries; by eapply lookup_lt_Some|]);
    (assert (e0 = e) as -> by (pose proof (Forall2_lookup_lr _ _ _ _ _ _ (af_vals _ _ _ _ _ H) Hi Hv) as Q; cbn in Q; congruence));
    (destruct (refill t (<[length xs := (fst e, g (snd e))]> (entries t))) as (t' & ES & EE);
      [rewrite list_fmap_insert; cbn [fst]; unfold keys; apply list_insert_id;
       change (map fst (entries t)) with (fst <$> entries t); by rewrite list_lookup_fmap, Hv|]);
    (assert (H' : afar nsz gone (with_val s y (fst e, g (snd e))) t' up) by
      (apply (afar_same s _ t); try done; rewrite EE; eapply vals_insert; [apply H|apply H|exact Hi|done])).
  - destruct f as [|f]; cbn [titer_mut_loop]; unfold bind at 1; rewrite (afar_next _ _ _ _ _ _ H E); (destruct (Sumbool.sumbool_of_bool gone) as [G|G]; rewrite ?G; [done|]); cbn [fst snd]; [done|].
    unfold bind at 1. rewrite P. unfold bind at 1. rewrite EP. unfold bind. change (t_obj s) with (t_obj (with_val s y (fst e, g (snd e)))).
    by rewrite (left_mut_loop _ _ _ g f H' G).
  - assert (NY : y ∉ z :: ys). { pose proof (af_nodup _ _ _ _ _ H) as ND. rewrite E in ND. apply NoDup_app in ND as (_ & _ & ND). by apply NoDup_cons in ND as [? _]. }
    destruct f as [|f]; cbn [titer_mut_loop]; unfold bind at 1; rewrite (afar_next _ _ _ _ _ _ H E); cbn [fst snd]; [done|].
    unfold bind at 1. rewrite P. unfold bind at 1. rewrite EP.
    unfold bind. change (t_obj s) with (t_obj (with_val s y (fst e, g (snd e)))). erewrite (IH _ f (xs ++ [y]) z es' t' H'); [done| |].
    + rewrite (skeleton_addrs _ _ ES), E. by rewrite <- app_assoc.
    + apply Forall2_same_length_lookup_2; [by eapply Forall2_length|]. intros j a e' Ha He. cbn. rewrite lookup_insert_ne; [exact (Forall2_lookup_lr _ _ _ _ _ _ F Ha He)|].
      intros ->. apply NY. by eapply elem_of_list_lookup_2.
Qed.
Lemma afar_iter s t up b : afar nsz gone s t up -> load_word (t_mem s) (t_obj s + 8) = Some b -> t_iter s = Ok (TIter b (anchor (t_obj s))) s.
Proof using. intros W E. unfold t_iter, t_begin. unfold bind at 1. unfold bind at 1, gets at 1. by rewrite (t_word_ok _ _ _ E). Qed.
End afar.

(** The move. *)
Lemma accessible_in {T} (m : mem T) r a n : r ∈ m_live m -> AddrMem.inside a n r = true -> accessible m a n = true.
Proof. intros H E. unfold accessible. apply existsb_exists. exists r. split; [by apply elem_of_list_In|done]. Qed.
Lemma load_word_accessible {T} (m m' : mem T) a : (8 | a) -> accessible m' a 8 = true -> accessible m a 8 = true -> m_word m' !! a = m_word m !! a -> load_word m' a = load_word m a.
Proof. intros D E1 E2 E. unfold load_word, word_at. by rewrite E1, E2, E. Qed.

Lemma move_ok {K V} nsz nal (s : tstate unit K V) (t : tree K V) rest obj :
  tree_layout nsz nal -> holds nsz s t -> owns nsz nal (t_mem s) t rest -> place rest (t_obj s) -> place (without (t_obj s) rest) obj ->
  exists s', t_move obj s = Ok tt s' /\ afar nsz true s' t (anchor (t_obj s)) /\ owns nsz nal (t_mem s') t (without (t_obj s) rest) /\
    t_obj s' = obj /\ t_drops s' = t_drops s /\ load_word (t_mem s') (obj + 8) = load_word (t_mem s) (t_obj s + 8).
Proof.
  intros [_ H24] H O P0 (O1 & O2 & O3 & rN & RN1 & RN2).
  destruct P0 as (Q1 & Q2 & Q3 & r0 & R01 & R02).
  assert (exists r1, r1 ∈ rest /\ AddrMem.inside (obj + 8) 24 r1 = true) as (r1 & R11 & R12).
  { exists rN. split; [|done]. unfold without in RN1. apply elem_of_list_In, filter_In in RN1 as [X _]. by apply elem_of_list_In. }
  pose proof H as [_ (b & Hb & Bb) (e & He & Be) Hr HP ND HZ]. apply placed_iff in HP as [HP F].
  assert (D : forall k : Z, (8 | k) -> (8 | obj + k)) by (intros k; by apply Z.divide_add_r).
  assert (RL : forall r, r ∈ rest -> r ∈ m_live (t_mem s)) by (intros r Hr'; rewrite (ow_live _ _ _ _ _ O); apply elem_of_app; by right).
  assert (ST : forall k w l (wd : gmap Z Z) vl tm, l = m_live (t_mem s) -> (8 | k) -> 8 <= k <= 24 ->
    store_word (Mem l wd vl tm : mem (K * V)) (obj + k) w = Some (Mem l (<[obj + k := w]> wd) vl tm)).
  { intros k w l wd vl tm -> Dk Hk. unfold store_word, word_at. cbn [m_live m_word m_val m_time].
    rewrite (accessible_in (Mem (m_live (t_mem s)) wd vl tm) r1); [|by apply RL|unfold AddrMem.inside in *; lia].
    assert (E : (obj + k) mod 8 = 0) by (apply Z.mod_divide; [done|by apply D]). by rewrite E. }
  set (w' := <[obj + 24 := addr t]> (<[obj + 16 := e]> (<[obj + 8 := b]> (m_word (t_mem s))))).
  exists (TState obj (t_size s) (t_alloc s) (Mem (without (t_obj s) (m_live (t_mem s))) w' (m_val (t_mem s)) (m_time (t_mem s))) (t_drops s)).
  split.
  { destruct s as [o z al m dr]. cbn [t_obj t_mem t_size t_alloc t_drops] in *. unfold t_move. unfold bind at 1, gets at 1. cbn [t_obj].
    rewrite (t_word_ok2 (TState o z al m dr) _ _ _ Hb). rewrite (t_word_ok2 (TState o z al m dr) _ _ _ He). rewrite (t_word_ok2 (TState o z al m dr) _ _ _ Hr).
    destruct m as [lv wd vl tm]. cbn [m_live m_word m_val m_time] in *.
    unfold bind at 1. unfold t_put at 1. unfold bind at 1, gets at 1. cbn [t_mem]. rewrite (ST 8) by (done || lia || by exists 1).
    unfold bind at 1. unfold or_ub at 1, ret at 1. unfold t_set_mem at 1, modify at 1. cbn [t_obj t_mem t_size t_alloc t_drops].
    unfold bind at 1. unfold t_put at 1. unfold bind at 1, gets at 1. cbn [t_mem]. rewrite (ST 16) by (done || lia || by exists 2).
    unfold bind at 1. unfold or_ub at 1, ret at 1. unfold t_set_mem at 1, modify at 1. cbn [t_obj t_mem t_size t_alloc t_drops].
    unfold bind at 1. unfold t_put at 1. unfold bind at 1, gets at 1. cbn [t_mem]. rewrite (ST 24) by (done || lia || by exists 3).
    unfold bind at 1. unfold or_ub at 1, ret at 1. unfold t_set_mem at 1, modify at 1. cbn [t_obj t_mem t_size t_alloc t_drops].
    unfold modify. cbn. done. }
  assert (LIVE : forall r, r ∈ m_live (t_mem s) -> meets (t_obj s + 8) 24 r = false -> r ∈ without (t_obj s) (m_live (t_mem s))).
  { intros r Hl Hm. unfold without. apply elem_of_list_In, filter_In. split; [by apply elem_of_list_In|by rewrite Hm]. }
  assert (NB : forall a, a ∈ addrs t -> node_block nsz nal a ∈ without (t_obj s) (m_live (t_mem s))).
  { intros a Ha. apply LIVE.
    - rewrite (ow_live _ _ _ _ _ O). apply elem_of_app. left. by apply elem_of_list_fmap_1.
    - pose proof (ow_apart _ _ _ _ _ O a r0 Ha R01) as M. unfold meets, AddrMem.inside in *. cbn. lia. }
  assert (FAR : forall a, a ∈ addrs t -> a + nsz <= obj + 8 \/ obj + 32 <= a).
  { intros a Ha. pose proof (ow_apart _ _ _ _ _ O a r1 Ha R11) as M. unfold meets, AddrMem.inside in *. lia. }
  assert (FAR0 : forall a, a ∈ addrs t -> a + nsz <= t_obj s + 8 \/ t_obj s + 32 <= a).
  { intros a Ha. pose proof (ow_apart _ _ _ _ _ O a r0 Ha R01) as M. unfold meets, AddrMem.inside in *. lia. }
  set (m' := Mem (without (t_obj s) (m_live (t_mem s))) w' (m_val (t_mem s)) (m_time (t_mem s))).
  assert (NW : forall a k, a ∈ addrs t -> (8 | a + k) -> 0 <= k <= 16 -> load_word m' (a + k) = load_word (t_mem s) (a + k)).
  { intros a k Ha Da Hk. apply load_word_accessible; [done| | |].
    - apply (accessible_in _ (node_block nsz nal a)); [by apply NB|]. unfold AddrMem.inside. cbn. lia.
    - apply (accessible_in _ (node_block nsz nal a)); [|unfold AddrMem.inside; cbn; lia].
      rewrite (ow_live _ _ _ _ _ O). apply elem_of_app. left. by apply elem_of_list_fmap_1.
    - cbn [m_word m']. unfold w'. destruct (FAR a Ha); rewrite !lookup_insert_ne by lia; done. }
  assert (OW : forall k w, 8 <= k <= 24 -> (8 | k) -> w' !! (obj + k) = Some w -> load_word m' (obj + k) = Some w).
  { intros k w Hk Dk E. unfold load_word, word_at. rewrite (accessible_in m' rN); [|cbn [m_live m']|unfold AddrMem.inside in *; lia].
    - assert (E8 : (obj + k) mod 8 = 0) by (apply Z.mod_divide; [done|by apply D]). rewrite E8. exact E.
    - unfold without in RN1 |- *. apply elem_of_list_In, filter_In in RN1 as [X1 X2]. apply elem_of_list_In, filter_In. split; [|done].
      apply elem_of_list_In, RL. by apply elem_of_list_In. }
  assert (PL : forall up u, (forall a, a ∈ addrs u -> a ∈ addrs t) -> wplaced nsz (t_mem s) up u -> wplaced nsz m' up u).
  { intros up u. revert up. induction u as [|c l IHl a k v r IHr]; intros up IN W; [done|]. cbn [wplaced] in *.
    destruct W as (H1 & H2 & H3 & H4 & H5 & H6 & W1 & W2). pose proof (IN a (in_root _ _ _ _ _ _)) as Ha.
    split; [done|]. split; [done|]. split; [|split; [|split; [|split; [|split]]]].
    - rewrite <- H3. rewrite <- (Z.add_0_r a). apply NW; [done|by rewrite Z.add_0_r|lia].
    - rewrite <- H4. apply NW; [done|by apply Z.divide_add_r; [|exists 1]|lia].
    - rewrite <- H5. apply NW; [done|by apply Z.divide_add_r; [|exists 2]|lia].
    - apply (accessible_in _ (node_block nsz nal a)); [by apply NB|]. unfold AddrMem.inside. cbn. lia.
    - apply IHl; [|done]. intros x Hx. by apply IN, in_left.
    - apply IHr; [|done]. intros x Hx. by apply IN, in_right. }
  split; [|split; [|split; [done|split; [done|]]]].
  - apply NoDup_cons in ND as [NA ND]. split; cbn [t_obj t_mem t_size]; try done.
    + exists b. split.
      * apply OW; [lia|by exists 1|]. unfold w'. rewrite lookup_insert_ne by lia. rewrite lookup_insert_ne by lia. by rewrite lookup_insert.
      * unfold anchor. by replace (t_obj s + 8 - 8) with (t_obj s) by lia.
    + apply OW; [lia|by exists 3|]. unfold w'. by rewrite lookup_insert.
    + by apply PL.
    + unfold anchor. split; [lia|]. by apply Z.divide_add_r; [|exists 1].
    + unfold load_word, word_at. replace (accessible _ _ _) with false; [done|]. symmetry. apply not_true_iff_false. intros X.
      unfold accessible in X. apply existsb_exists in X as (r & Hr' & HI). cbn [m_live] in Hr'. unfold without in Hr'. apply filter_In in Hr' as [_ HM].
      unfold meets, AddrMem.inside, anchor in *. lia.
    + split.
      * intros Ha. destruct (FAR _ Ha); unfold anchor in *; lia.
      * unfold anchor. intros E. assert (obj = t_obj s) as -> by lia. unfold without in RN1. apply elem_of_list_In, filter_In in RN1 as [_ X2].
        unfold meets, AddrMem.inside in *. lia.
  - split.
    + cbn [t_mem m_live]. unfold without. pose proof (ow_live _ _ _ _ _ O) as P.
      assert (forall l l', l ≡ₚ l' -> List.filter (fun r => negb (meets (t_obj s + 8) 24 r)) l ≡ₚ List.filter (fun r => negb (meets (t_obj s + 8) 24 r)) l') as FP.
      { intros l l' PP. induction PP; cbn; [done| | |by etrans].
        - destruct (negb _); [by constructor|done].
        - destruct (negb (meets _ _ y)), (negb (meets _ _ x)); try done. constructor. }
      etrans; [exact (FP _ _ P)|]. rewrite List.filter_app. apply Permutation_app_tail.
      assert (E : forall xs, (forall a, a ∈ xs -> a ∈ addrs t) -> List.filter (fun r => negb (meets (t_obj s + 8) 24 r)) (map (node_block nsz nal) xs) = map (node_block nsz nal) xs).
      { induction xs as [|x xs IH]; intros IN; [done|]. cbn. rewrite IH by (intros a Ha; apply IN; by constructor).
        destruct (FAR0 x (IN x ltac:(constructor))); replace (meets _ _ _) with false by (symmetry; unfold meets; cbn; lia); done. }
      by rewrite E.
    + intros a r Ha Hr'. apply (ow_apart _ _ _ _ _ O a r Ha). unfold without in Hr'. apply elem_of_list_In, filter_In in Hr' as [Hr' _]. by apply elem_of_list_In.
    + intros r Hr'. apply (ow_wf _ _ _ _ _ O). unfold without in Hr'. apply elem_of_list_In, filter_In in Hr' as [Hr' _]. by apply elem_of_list_In.
  - cbn [t_mem]. rewrite Hb. apply OW; [lia|by exists 1|]. unfold w'. rewrite lookup_insert_ne by lia. rewrite lookup_insert_ne by lia. by rewrite lookup_insert.
Qed.

Lemma afar_free {K V} pick strict chk nsz nal gone rest (s : tstate unit K V) t up : tree_layout nsz nal -> afar nsz gone s t up -> owns nsz nal (t_mem s) t rest ->
  exists s', free_nodes (DefaultAddrAlloc pick strict) chk nsz nal s = Ok tt s' /\ m_live (t_mem s') ≡ₚ rest.
Proof.
  intros TL H [O1 O2 O3]. pose proof (wplaced_kids _ _ _ _ (af_placed _ _ _ _ _ H)) as KD.
  unfold free_nodes, t_parent. unfold bind at 1. unfold bind at 1, gets at 1. rewrite (t_word_ok _ _ _ (af_root _ _ _ _ _ H)).
  unfold bind at 1, gets at 1. rewrite (addr_0 _ _ KD). destruct t as [|c l a k v r] eqn:ET; [by exists s|]. rewrite <- ET in *.
  destruct (free_tree_ok (DefaultAddrAlloc pick strict) chk nsz nal (TDI nsz nal rest (m_word (t_mem s))) (proj2 TL)
    (default_tfree pick strict chk nsz nal rest (m_word (t_mem s)) TL O3) t (size (m_word (t_mem s))) s []) as (s' & E & I' & _).
  - by rewrite ET.
  - pose proof (height_le t). pose proof (afar_count _ _ _ _ _ H). lia.
  - done.
  - rewrite app_nil_r. split; [split; [apply H|done]|done].
  - exists s'. split; [done|]. apply I'.
Qed.
Lemma skeleton_owns {K V} nsz nal (m m' : mem (K * V)) t t' rest : owns nsz nal m t rest -> skeleton t' = skeleton t -> m_live m' = m_live m -> owns nsz nal m' t' rest.
Proof. intros [O1 O2 O3] ES E. split; [by rewrite E, (skeleton_addrs _ _ ES)| |done]. intros a r. rewrite (skeleton_addrs _ _ ES). apply O2. Qed.

Lemma afar_iterate {K V} nsz gone (s : tstate unit K V) t up : 24 <= nsz -> afar nsz gone s t up -> entries t <> [] ->
  exists i, t_iter s = Ok i s /\
    (forall k, (if gone then k < length (entries t) else k <= length (entries t))%nat -> exists i', titer_take nsz k i s = Ok (map Some (take k (entries t)), i') s) /\
    (forall k, ~ (if gone then k < length (entries t) else k <= length (entries t))%nat -> titer_take nsz k i s = UB) /\
    t_iter_all nsz s = UB /\ forall g, t_iter_mut_all nsz g s = UB.
Proof.
  intros H24 H NE. destruct (af_begin _ _ _ _ _ H) as (b & Eb & B). pose proof (addrs_entries t) as LE. pose proof (af_vals _ _ _ _ _ H) as F.
  destruct (addrs t) as [|y ys] eqn:EA; [by destruct (entries t)|]. cbn in B. subst b. cbn in LE.
  exists (TIter y (anchor (t_obj s))). split; [by eapply afar_iter|].
  assert (T := fun k => afar_take nsz gone H24 s t up [] y ys _ k H EA F). split; [|split; [|split]].
  - intros k Hk. specialize (T k). replace (k <=? _)%nat with true in T by (destruct gone; lia). done.
  - intros k Hk. specialize (T k). replace (k <=? _)%nat with false in T by (destruct gone; lia). done.
  - unfold t_iter_all. unfold bind at 1. rewrite (afar_iter _ _ _ _ _ _ H Eb). unfold bind, gets. rewrite (afar_loop nsz _ H24 s t up [] y ys (entries t) _ H EA F); done.
  - intros g. unfold t_iter_mut_all. unfold bind at 1. rewrite (afar_iter _ _ _ _ _ _ H Eb). unfold bind, gets. rewrite (afar_mut_loop nsz _ H24 s t up g [] y ys (entries t) _ H EA F); done.
Qed.

(** [mem::take]. *)
Lemma take_ok {K V} nsz nal (s : tstate unit K V) (t : tree K V) rest obj :
  tree_layout nsz nal -> holds nsz s t -> owns nsz nal (t_mem s) t rest -> place rest (t_obj s) -> place rest obj ->
  apart_objects (t_obj s) obj -> no_null (t_mem s) ->
  exists s', t_take obj s = Ok tt s' /\ afar nsz false s' t (anchor (t_obj s)) /\ owns nsz nal (t_mem s') t rest /\
    t_obj s' = obj /\ t_drops s' = t_drops s /\
    load_word (t_mem s') (t_obj s + 8) = Some 0 /\ load_word (t_mem s') (t_obj s + 16) = Some 0 /\ load_word (t_mem s') (t_obj s + 24) = Some 0.
Proof.
  intros [_ H24] H O (Q1 & Q2 & Q3 & r0 & R01 & R02) (O1 & O2 & O3 & r1 & R11 & R12) AP NULL. unfold apart_objects in AP.
  pose proof H as [_ (b & Hb & Bb) (e & He & Be) Hr HP ND HZ]. apply placed_iff in HP as [HP F].
  assert (RL : forall r, r ∈ rest -> r ∈ m_live (t_mem s)) by (intros r Hr'; rewrite (ow_live _ _ _ _ _ O); apply elem_of_app; by right).
  assert (ST : forall x k w l (wd : gmap Z Z) vl tm, x = obj \/ x = t_obj s -> l = m_live (t_mem s) -> (8 | k) -> 8 <= k <= 24 ->
    store_word (Mem l wd vl tm : mem (K * V)) (x + k) w = Some (Mem l (<[x + k := w]> wd) vl tm)).
  { intros x k w l wd vl tm X -> Dk Hk. unfold store_word, word_at. cbn [m_live m_word m_val m_time].
    assert (E : (x + k) mod 8 = 0) by (apply Z.mod_divide; [done|by destruct X as [-> | ->]; apply Z.divide_add_r]).
    destruct X as [-> | ->].
    - rewrite (accessible_in (Mem (m_live (t_mem s)) wd vl tm) r1); [|by apply RL|unfold AddrMem.inside in *; lia]. by rewrite E.
    - rewrite (accessible_in (Mem (m_live (t_mem s)) wd vl tm) r0); [|by apply RL|unfold AddrMem.inside in *; lia]. by rewrite E. }
  set (w1 := <[obj + 24 := addr t]> (<[obj + 16 := e]> (<[obj + 8 := b]> (m_word (t_mem s))))).
  set (w' := <[t_obj s + 24 := 0]> (<[t_obj s + 16 := 0]> (<[t_obj s + 8 := 0]> w1))).
  exists (TState obj (t_size s) (t_alloc s) (Mem (m_live (t_mem s)) w' (m_val (t_mem s)) (m_time (t_mem s))) (t_drops s)).
  split.
  { destruct s as [o z al m dr]. cbn [t_obj t_mem t_size t_alloc t_drops] in *. unfold t_take. unfold bind at 1, gets at 1. cbn [t_obj].
    rewrite (t_word_ok2 (TState o z al m dr) _ _ _ Hb). rewrite (t_word_ok2 (TState o z al m dr) _ _ _ He). rewrite (t_word_ok2 (TState o z al m dr) _ _ _ Hr).
    destruct m as [lv wd vl tm]. cbn [m_live m_word m_val m_time] in *.
    Ltac put_one ST k q := unfold bind at 1; unfold t_put at 1; unfold bind at 1, gets at 1; cbn [t_mem]; rewrite (ST _ k) by (auto || lia || by exists q);
      unfold bind at 1; unfold or_ub at 1, ret at 1; unfold t_set_mem at 1, modify at 1; cbn [t_obj t_mem t_size t_alloc t_drops].
    put_one ST 8 1. put_one ST 16 2. put_one ST 24 3. put_one ST 8 1. put_one ST 16 2. put_one ST 24 3.
    unfold modify. cbn. done. }
  assert (NB : forall a, a ∈ addrs t -> node_block nsz nal a ∈ m_live (t_mem s)).
  { intros a Ha. rewrite (ow_live _ _ _ _ _ O). apply elem_of_app. left. by apply elem_of_list_fmap_1. }
  assert (FAR : forall a, a ∈ addrs t -> a + nsz <= obj + 8 \/ obj + 32 <= a).
  { intros a Ha. pose proof (ow_apart _ _ _ _ _ O a r1 Ha R11) as M. unfold meets, AddrMem.inside in *. lia. }
  assert (FAR0 : forall a, a ∈ addrs t -> a + nsz <= t_obj s + 8 \/ t_obj s + 32 <= a).
  { intros a Ha. pose proof (ow_apart _ _ _ _ _ O a r0 Ha R01) as M. unfold meets, AddrMem.inside in *. lia. }
  set (m' := Mem (m_live (t_mem s)) w' (m_val (t_mem s)) (m_time (t_mem s))).
  assert (NW : forall a k, a ∈ addrs t -> (8 | a + k) -> 0 <= k <= 16 -> load_word m' (a + k) = load_word (t_mem s) (a + k)).
  { intros a k Ha Da Hk. unfold load_word, word_at. change (accessible m') with (accessible (t_mem s)).
    cbn [m_word m']. unfold w', w1. destruct (FAR a Ha), (FAR0 a Ha); rewrite !lookup_insert_ne by lia; done. }
  assert (OW : forall k w, 8 <= k <= 24 -> (8 | k) -> w' !! (obj + k) = Some w -> load_word m' (obj + k) = Some w).
  { intros k w Hk Dk E. unfold load_word, word_at. rewrite (accessible_in m' r1); [|by apply RL|unfold AddrMem.inside in *; lia].
    assert (E8 : (obj + k) mod 8 = 0) by (apply Z.mod_divide; [done|by apply Z.divide_add_r]). rewrite E8. exact E. }
  assert (OL : forall k w, 8 <= k <= 24 -> (8 | k) -> w' !! (t_obj s + k) = Some w -> load_word m' (t_obj s + k) = Some w).
  { intros k w Hk Dk E. unfold load_word, word_at. rewrite (accessible_in m' r0); [|by apply RL|unfold AddrMem.inside in *; lia].
    assert (E8 : (t_obj s + k) mod 8 = 0) by (apply Z.mod_divide; [done|by apply Z.divide_add_r]). rewrite E8. exact E. }
  assert (PL : forall up u, (forall a, a ∈ addrs u -> a ∈ addrs t) -> wplaced nsz (t_mem s) up u -> wplaced nsz m' up u).
  { intros up u. revert up. induction u as [|c l IHl a k v r IHr]; intros up IN W; [done|]. cbn [wplaced] in *.
    destruct W as (H1 & H2 & H3 & H4 & H5 & H6 & W1 & W2). pose proof (IN a (in_root _ _ _ _ _ _)) as Ha.
    split; [done|]. split; [done|]. split; [|split; [|split; [|split; [|split]]]].
    - rewrite <- H3. rewrite <- (Z.add_0_r a). apply NW; [done|by rewrite Z.add_0_r|lia].
    - rewrite <- H4. apply NW; [done|by apply Z.divide_add_r; [|exists 1]|lia].
    - rewrite <- H5. apply NW; [done|by apply Z.divide_add_r; [|exists 2]|lia].
    - done.
    - apply IHl; [|done]. intros x Hx. by apply IN, in_left.
    - apply IHr; [|done]. intros x Hx. by apply IN, in_right. }
  assert (Z8 : load_word m' (t_obj s + 8) = Some 0).
  { apply OL; [lia|by exists 1|]. unfold w'. rewrite lookup_insert_ne by lia. rewrite lookup_insert_ne by lia. by rewrite lookup_insert. }
  assert (Z16 : load_word m' (t_obj s + 16) = Some 0).
  { apply OL; [lia|by exists 2|]. unfold w'. rewrite lookup_insert_ne by lia. by rewrite lookup_insert. }
  assert (Z24 : load_word m' (t_obj s + 24) = Some 0).
  { apply OL; [lia|by exists 3|]. unfold w'. by rewrite lookup_insert. }
  split; [|split; [|done]].
  - apply NoDup_cons in ND as [NA ND]. split; cbn [t_obj t_mem t_size]; try done.
    + exists b. split.
      * apply OW; [lia|by exists 1|]. unfold w', w1. do 5 (rewrite lookup_insert_ne by lia). by rewrite lookup_insert.
      * unfold anchor. by replace (t_obj s + 8 - 8) with (t_obj s) by lia.
    + apply OW; [lia|by exists 3|]. unfold w', w1. do 3 (rewrite lookup_insert_ne by lia). by rewrite lookup_insert.
    + by apply PL.
    + unfold anchor. split; [lia|]. by apply Z.divide_add_r; [|exists 1].
    + unfold anchor. split; [done|]. split; [by replace (t_obj s + 8 + 16) with (t_obj s + 24) by lia|]. split; [|done].
      unfold load_word, word_at. replace (accessible _ _ _) with false; [done|]. symmetry. apply not_true_iff_false. intros X.
      unfold accessible in X. apply existsb_exists in X as (r & Hr' & HI). apply elem_of_list_In in Hr'. pose proof (NULL _ Hr').
      unfold AddrMem.inside in *. lia.
    + split.
      * intros Ha. destruct (FAR _ Ha); unfold anchor in *; lia.
      * unfold anchor. lia.
  - split; [by destruct O|by destruct O|by destruct O].
Qed.

(** The map of the examples. *)
Lemma mx_holds : holds 40 mx_state rx_tree.
Proof.
  split; [cbn; unfold usize_lim; split; [lia|]; split; [lia|by exists 128]|by exists 2048|by exists 2176|done| |eapply bool_decide_unpack; by vm_compute|done].
  change (t_obj mx_state) with 1024. cbn [placed rx_tree addr color_as_usize]. unfold usize_lim.
  repeat match goal with
  | |- _ /\ _ => split
  | |- _ < _ => lia
  | |- _ <= _ => lia
  | |- True => exact I
  | |- (8 | 2048) => by exists 256
  | |- (8 | 2112) => by exists 264
  | |- (8 | 2176) => by exists 272
  | |- load_word _ _ = _ => by vm_compute
  | |- load_val _ _ _ = _ => by vm_compute
  end.
Qed.
Lemma mx_owns : owns 40 8 (t_mem mx_state) rx_tree [mx_room; rx_object].
Proof.
  split.
  - cbn. unfold node_block. solve_Permutation.
  - intros a r Ha Hr. cbn in Ha. rewrite !elem_of_cons, elem_of_nil in Ha. rewrite !elem_of_cons, elem_of_nil in Hr. unfold meets.
    destruct Ha as [-> |[-> |[-> |[]]]], Hr as [-> |[-> |[]]]; done.
  - intros r Hr. rewrite !elem_of_cons, elem_of_nil in Hr. destruct Hr as [-> |[-> |[]]]; done.
Qed.

Lemma L_C114_moved_map_lookups :
forall (K V : Type) (nsz nal : Z) pick strict chk (cmp : K -> K -> bool) (s : tstate unit K V) t rest obj cs,
  tree_layout nsz nal -> strict_weak_order cmp -> holds nsz s t -> sorted cmp t -> owns nsz nal (t_mem s) t rest ->
  place rest (t_obj s) -> place (without (t_obj s) rest) obj -> forallb no_iteration cs = true ->
  let '(answers, dropped, es) := tspec_run cmp cs (entries t) in
  exists s1 s2 s3, t_move obj s = Ok tt s1 /\
    t_run nsz cmp cs s1 = Some (answers, s2) /\ t_drops s2 = t_drops s ++ dropped /\
    t_drop (DefaultAddrAlloc pick strict) chk nsz nal s2 = Ok tt s3 /\ m_live (t_mem s3) ≡ₚ without (t_obj s) rest.
Proof.
  intros K V nsz nal pick strict chk cmp s t rest obj cs TL SW H HS O P0 P1 NI.
  destruct (move_ok nsz nal s t rest obj TL H O P0 P1) as (s1 & E1 & A1 & O1 & _ & D1 & _).
  pose proof (afar_run nsz _ cmp SW cs s1 t _ A1 HS NI) as R. destruct (tspec_run cmp cs (entries t)) as [[l d] es].
  destruct R as (s2 & t2 & E2 & A2 & ES & EE & D2 & _ & SW2).
  destruct (afar_free pick strict chk nsz nal _ _ s2 t2 _ TL A2 (skeleton_owns _ _ _ _ _ _ _ O1 ES (proj1 (proj2 SW2)))) as (s3 & E3 & P3).
  exists s1, s2, s3. split; [done|]. split; [done|]. split; [by rewrite D2, D1|]. done.
Qed.

Lemma L_C114_iteration_refuted :
forall (K V : Type) (nsz nal : Z) (cmp : K -> K -> bool) (s : tstate unit K V) t rest obj cs,
  tree_layout nsz nal -> strict_weak_order cmp -> holds nsz s t -> sorted cmp t -> owns nsz nal (t_mem s) t rest ->
  place rest (t_obj s) -> place (without (t_obj s) rest) obj -> forallb no_iteration cs = true -> entries t <> [] ->
  let '(answers, _, es) := tspec_run cmp cs (entries t) in
  exists s1 s2 i, t_move obj s = Ok tt s1 /\ t_run nsz cmp cs s1 = Some (answers, s2) /\
    t_iter s2 = Ok i s2 /\
    (forall k, (k < length es)%nat -> exists i', titer_take nsz k i s2 = Ok (map Some (take k es), i') s2) /\
    (forall k, (length es <= k)%nat -> titer_take nsz k i s2 = UB) /\
    t_iter_all nsz s2 = UB /\ forall g, t_iter_mut_all nsz g s2 = UB.
Proof.
  intros K V nsz nal cmp s t rest obj cs TL SW H HS O P0 P1 NI NE.
  destruct (move_ok nsz nal s t rest obj TL H O P0 P1) as (s1 & E1 & A1 & O1 & _ & D1 & _).
  pose proof (afar_run nsz _ cmp SW cs s1 t _ A1 HS NI) as R. destruct (tspec_run cmp cs (entries t)) as [[l d] es].
  destruct R as (s2 & t2 & E2 & A2 & ES & <- & D2 & _ & SW2).
  assert (NE2 : entries t2 <> []).
  { intros X. apply NE. pose proof (addrs_entries t2) as L2. pose proof (addrs_entries t) as L1. rewrite (skeleton_addrs _ _ ES), X, L1 in L2. by destruct (entries t). }
  destruct (afar_iterate nsz true s2 t2 _ (proj2 TL) A2 NE2) as (i & I1 & I2 & I3 & I4 & I5).
  exists s1, s2, i. split; [done|]. split; [done|]. split; [done|]. split; [done|]. split; [|done]. intros k Hk. apply I3. lia.
Qed.

Lemma L_C114_empty_moved_map :
forall (K V : Type) (nsz nal : Z) (s : tstate unit K V) rest obj first,
  tree_layout nsz nal -> holds nsz s Leaf -> owns nsz nal (t_mem s) Leaf rest ->
  place rest (t_obj s) -> place (without (t_obj s) rest) obj -> load_word (t_mem s) (t_obj s + 8) = Some first ->
  exists s1, t_move obj s = Ok tt s1 /\ (first = 0 -> t_iter_all nsz s1 = Ok [] s1) /\ (first <> 0 -> t_iter_all nsz s1 = UB).
Proof.
  intros K V nsz nal s rest obj b TL H O P0 P1 EB.
  destruct (move_ok nsz nal s Leaf rest obj TL H O P0 P1) as (s1 & E1 & A1 & O1 & Eo & D1 & B1).
  exists s1. split; [done|]. rewrite EB, <- Eo in B1.
  destruct (h_begin _ _ _ H) as (b' & EB' & EE). rewrite EB in EB'. injection EB' as <-. cbn in EE.
  split.
  - intros ->. unfold t_iter_all. unfold bind at 1. rewrite (afar_iter _ _ _ _ _ _ A1 B1). unfold bind at 1, gets. destruct (size (m_word (t_mem s1))); cbn [titer_loop]; unfold bind, titer_next; cbn [ti_node ti_anchor];
      (destruct (0 =? anchor (t_obj s1)); done).
  - intros NZ. assert (b = anchor (t_obj s)) as -> by (by destruct EE).
    assert (N : titer_next (TIter (anchor (t_obj s)) (anchor (t_obj s1))) s1 = UB).
    { unfold titer_next. cbn [ti_node ti_anchor]. destruct (af_anchor _ _ _ _ _ A1) as [_ NA].
      replace (_ =? _) with false by lia. replace (anchor (t_obj s) =? 0) with false by lia.
      unfold node_next. unfold bind at 1. unfold bind at 1, gets at 1. unfold bind at 1, get_right, t_word. unfold bind, gets. by rewrite (af_lost _ _ _ _ _ A1). }
    unfold t_iter_all. unfold bind at 1. rewrite (afar_iter _ _ _ _ _ _ A1 B1). unfold bind at 1, gets. destruct (size (m_word (t_mem s1))); cbn [titer_loop]; unfold bind at 1; rewrite N; done.
Qed.

Lemma L_C114_taken_map_lookups :
forall (K V : Type) (nsz nal : Z) pick strict chk (cmp : K -> K -> bool) (s : tstate unit K V) t rest obj cs,
  tree_layout nsz nal -> strict_weak_order cmp -> holds nsz s t -> sorted cmp t -> owns nsz nal (t_mem s) t rest ->
  place rest (t_obj s) -> place rest obj -> apart_objects (t_obj s) obj -> no_null (t_mem s) -> forallb no_iteration cs = true ->
  let '(answers, dropped, es) := tspec_run cmp cs (entries t) in
  exists s1 s2 s3, t_take obj s = Ok tt s1 /\ holds nsz (left_behind (t_obj s) s1) (Leaf : tree K V) /\
    t_run nsz cmp cs s1 = Some (answers, s2) /\ t_drops s2 = t_drops s ++ dropped /\
    t_drop (DefaultAddrAlloc pick strict) chk nsz nal s2 = Ok tt s3 /\ m_live (t_mem s3) ≡ₚ rest.
Proof.
  intros K V nsz nal pick strict chk cmp s t rest obj cs TL SW H HS O P0 P1 AP NU NI.
  destruct (take_ok nsz nal s t rest obj TL H O P0 P1 AP NU) as (s1 & E1 & A1 & O1 & _ & D1 & Z8 & Z16 & Z24).
  pose proof (afar_run nsz _ cmp SW cs s1 t _ A1 HS NI) as R. destruct (tspec_run cmp cs (entries t)) as [[l d] es].
  destruct R as (s2 & t2 & E2 & A2 & ES & EE & D2 & _ & SW2).
  destruct (afar_free pick strict chk nsz nal _ _ s2 t2 _ TL A2 (skeleton_owns _ _ _ _ _ _ _ O1 ES (proj1 (proj2 SW2)))) as (s3 & E3 & P3).
  exists s1, s2, s3. split; [done|]. split.
  { destruct P0 as (Q1 & Q2 & Q3 & _). split; try done.
    - exists 0. split; [done|]. by left.
    - exists 0. split; [done|]. by left.
    - apply NoDup_singleton. }
  split; [done|]. split; [by rewrite D2, D1|]. done.
Qed.

Lemma L_C114_taken_iteration_refuted :
forall (K V : Type) (nsz nal : Z) (cmp : K -> K -> bool) (s : tstate unit K V) t rest obj cs,
  tree_layout nsz nal -> strict_weak_order cmp -> holds nsz s t -> sorted cmp t -> owns nsz nal (t_mem s) t rest ->
  place rest (t_obj s) -> place rest obj -> apart_objects (t_obj s) obj -> no_null (t_mem s) -> forallb no_iteration cs = true -> entries t <> [] ->
  let '(answers, _, es) := tspec_run cmp cs (entries t) in
  exists s1 s2 i, t_take obj s = Ok tt s1 /\ t_run nsz cmp cs s1 = Some (answers, s2) /\
    t_iter s2 = Ok i s2 /\
    (forall k, (k <= length es)%nat -> exists i', titer_take nsz k i s2 = Ok (map Some (take k es), i') s2) /\
    (forall k, (length es < k)%nat -> titer_take nsz k i s2 = UB) /\
    t_iter_all nsz s2 = UB /\ forall g, t_iter_mut_all nsz g s2 = UB.
Proof.
  intros K V nsz nal cmp s t rest obj cs TL SW H HS O P0 P1 AP NU NI NE.
  destruct (take_ok nsz nal s t rest obj TL H O P0 P1 AP NU) as (s1 & E1 & A1 & O1 & _ & D1 & _).
  pose proof (afar_run nsz _ cmp SW cs s1 t _ A1 HS NI) as R. destruct (tspec_run cmp cs (entries t)) as [[l d] es].
  destruct R as (s2 & t2 & E2 & A2 & ES & <- & D2 & _ & SW2).
  assert (NE2 : entries t2 <> []).
  { intros X. apply NE. pose proof (addrs_entries t2) as L2. pose proof (addrs_entries t) as L1. rewrite (skeleton_addrs _ _ ES), X, L1 in L2. by destruct (entries t). }
  destruct (afar_iterate nsz false s2 t2 _ (proj2 TL) A2 NE2) as (i & I1 & I2 & I3 & I4 & I5).
  exists s1, s2, i. split; [done|]. split; [done|]. split; [done|]. split; [done|]. split; [|done]. intros k Hk. apply I3. lia.
Qed.
