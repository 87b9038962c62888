(** Proofs of the properties stated in TreeRefsProps.v. *)
From Verif Require Import Base Alloc AddrMem FixedPool FixedPoolSpec LinkedList LinkedListSpec RBTree RBTreeSpec Layout LayoutSpec TreeRefs TreeRefsSpec.
Local Open Scope Z_scope.

From Verif Require Import FixedPoolProofs RBTreeProofs RBTreeCalls RBTreeFree RBTreeDerived LayoutDerived.

Section walk.
Context {A K V : Type}.
Variables (nsz nal : Z) (s : tstate A K V).
Hypothesis H24 : 24 <= nsz.
Local Notation m := (t_mem s).
Local Notation good a := (node_ok nsz nal s a).

Lemma refer_good {R} a (f : unit -> M (tstate A K V) R) : good a = true -> bind (refer nsz nal a) f s = f tt s.
Proof using. intros E. unfold refer, bind, gets. cbn [id]. by rewrite E. Qed.
Lemma refer_bad {R} a (f : unit -> M (tstate A K V) R) : good a = false -> bind (refer nsz nal a) f s = UB.
Proof using. intros E. unfold refer, bind, gets. cbn [id]. by rewrite E. Qed.
Lemma bind_eq {R R'} (f : M (tstate A K V) R) (g : R -> M (tstate A K V) R') x : f s = Ok x s -> bind f g s = g x s.
Proof using. intros E. unfold bind. by rewrite E. Qed.

Lemma leftmost_r_ok up t f x : wplaced nsz m up t -> (forall a, a ∈ addrs t -> good a = true) ->
  head (addrs t) = Some x -> (height t <= S f)%nat -> leftmost_r nsz nal f (addr t) s = Ok x s.
Proof using.
  revert up f x. induction t as [|c l IHl a k v r IHr]; intros up f x W G E Hf; [done|].
  cbn [wplaced addr height] in *. destruct W as (H1 & H2 & H3 & H4 & H5 & H6 & W1 & W2).
  destruct f as [|f]; cbn [leftmost_r]; unfold get_left; rewrite (t_word_ok2 _ _ _ _ H4); destruct l as [|c' l' a' k' v' r'].
  - cbn in E. injection E as ->. done.
  - cbn [height] in Hf. lia.
  - cbn in E. injection E as ->. done.
  - destruct W1 as (? & W1). pose proof (conj H W1) as W1'. replace (addr (Bin c' l' a' k' v' r') =? 0) with false by (cbn; lia).
    rewrite refer_good by apply G, in_left, in_root.
    apply (IHl a); [exact W1'|intros y Hy; by apply G, in_left| |lia]. clear -E. cbn [addrs] in *. by destruct (addrs l').
Qed.

Lemma climb_last_r up t x : wplaced nsz m up t -> (forall a, a ∈ addrs t -> good a = true) ->
  last (addrs t) = Some x -> 0 <= up < usize_lim -> (8 | up) ->
  exists n pa, (n < length (addrs t))%nat /\ get_parent x s = Ok pa s /\ get_right x s = Ok 0 s /\
    forall f, bind (refer nsz nal pa) (fun _ => climb_r nsz nal (n + f) x pa) s =
              bind (refer nsz nal up) (fun _ => climb_r nsz nal f (addr t) up) s.
Proof using.
  revert up. induction t as [|c l IHl a k v r IHr]; intros up W G E U1 U2; [done|].
  cbn [wplaced addr] in *. cbn [addrs] in E. destruct W as (H1 & H2 & H3 & H4 & H5 & H6 & W1 & W2).
  rewrite last_app in E. destruct r as [|c' l' a' k' v' r'].
  - cbn in E. injection E as ->. exists O, up. split; [cbn [addrs]; rewrite app_length; cbn; lia|].
    split; [|split; [by apply t_word_ok|done]]. unfold get_parent, get_pc. rewrite (t_word_ok2 _ _ _ _ H5).
    unfold ret. by rewrite pc_ptr_at by (done || by apply even8).
  - remember (Bin c' l' a' k' v' r') as r0. assert (last (addrs r0) = Some x) as E'.
    { rewrite last_cons in E. destruct (last (addrs r0)) eqn:X; [done|]. apply last_None in X. subst r0. cbn in X. by destruct (addrs l'). }
    destruct (IHr a W2 ltac:(intros y Hy; by apply G, in_right) E' ltac:(lia) H2) as (n & pa & N1 & N2 & N3 & N4).
    exists (S n), pa. split; [cbn [addrs]; rewrite app_length; cbn; lia|]. split; [done|]. split; [done|].
    intros f. replace (S n + f)%nat with (n + S f)%nat by lia. rewrite N4. rewrite refer_good by apply G, in_root. cbn [climb_r].
    unfold get_right. rewrite (t_word_ok2 _ _ _ _ H3), Z.eqb_refl. unfold get_parent, get_pc, bind at 1.
    rewrite (t_word_ok2 _ _ _ _ H5). unfold ret at 1. by rewrite pc_ptr_at by (done || by apply even8).
Qed.

Lemma next_r_right x y n : get_right x s = Ok y s -> y <> 0 -> good y = true ->
  leftmost_r nsz nal (size (m_word m)) y s = Ok n s -> node_next_r nsz nal x s = Ok n s.
Proof using.
  intros E1 E2 G E3. unfold node_next_r, bind at 1, gets. cbv beta. rewrite (bind_eq _ _ _ E1).
  replace (y =? 0) with false by lia. cbn [negb]. by rewrite refer_good.
Qed.
Lemma next_r_up x pa : get_right x s = Ok 0 s -> get_parent x s = Ok pa s ->
  node_next_r nsz nal x s =
  bind (bind (refer nsz nal pa) (fun _ => climb_r nsz nal (size (m_word m)) x pa))
    (fun sp => do r' <- get_right (fst sp); if negb (r' =? snd sp) then ret (snd sp) else ret (fst sp)) s.
Proof using.
  intros E1 E2. unfold node_next_r, bind at 1, gets. cbv beta. rewrite (bind_eq _ _ _ E1). cbn [Z.eqb negb].
  rewrite (bind_eq _ _ _ E2). unfold bind. by destruct (refer nsz nal pa s).
Qed.

Lemma next_in_r up t xs x y ys : wplaced nsz m up t -> (forall a, a ∈ addrs t -> good a = true) ->
  0 <= up < usize_lim -> (8 | up) -> NoDup (addrs t) -> (length (addrs t) <= size (m_word m))%nat ->
  addrs t = xs ++ x :: y :: ys -> node_next_r nsz nal x s = Ok y s.
Proof using H24.
  revert up xs ys. induction t as [|c l IHl a k v r IHr]; intros up xs ys W G U1 U2 ND LE E; [by destruct xs|].
  cbn [wplaced addr] in *. cbn [addrs] in E, ND, LE. destruct W as (H1 & H2 & H3 & H4 & H5 & H6 & W1 & W2).
  rewrite app_length in LE. cbn in LE. pose proof (height_le l) as Hl. pose proof (height_le r) as Hr.
  pose proof ND as ND0. apply NoDup_app in ND as (NL & NX & NR). apply NoDup_cons in NR as [NA NR].
  assert (GL : forall z, z ∈ addrs l -> good z = true) by (intros z Hz; by apply G, in_left).
  assert (GR : forall z, z ∈ addrs r -> good z = true) by (intros z Hz; by apply G, in_right).
  assert (GA : good a = true) by apply G, in_root.
  apply app_eq_inv in E as [(k' & E1 & E2)|(k' & E1 & E2)].
  - destruct k' as [|z k'].
    + rewrite app_nil_r in E1. cbn in E2. injection E2 as -> E2.
      destruct r as [|c' l' a' k'' v' r']; [done|]. remember (Bin c' l' a' k'' v' r') as r0.
      pose proof (addr_in r0 ltac:(by subst)) as HI.
      apply (next_r_right _ (addr r0)); [by apply t_word_ok| |by apply GR|].
      * destruct (wplaced_node _ _ _ _ _ W2 HI) as (? & _). lia.
      * eapply leftmost_r_ok; [done|done|by (rewrite <- E2 || rewrite E2)|lia].
    + cbn in E2. injection E2 as <- E2. destruct k' as [|z' k'].
      * cbn in E2. injection E2 as -> E2.
        destruct (climb_last_r a l x W1 GL ltac:(rewrite E1; by rewrite last_snoc) ltac:(lia) H2) as (n & pa & N1 & N2 & N3 & N4).
        assert (l <> Leaf) as NLf by (intros ->; by destruct xs).
        destruct (right_of _ _ _ _ W1 NLf) as (z & Z1 & Z2).
        pose proof (addr_in l NLf) as AL.
        rewrite (next_r_up _ _ N3 N2). replace (size (m_word m)) with (n + (size (m_word m) - n))%nat by lia.
        unfold bind at 1. rewrite N4. rewrite refer_good by done.
        assert (EC : climb_r nsz nal (size (m_word m) - n) (addr l) a s = Ok (addr l, a) s).
        { destruct (size (m_word m) - n)%nat eqn:EF; [lia|]. cbn [climb_r]. unfold get_right. rewrite (t_word_ok2 _ _ _ _ H3).
          replace (addr l =? addr r) with false; [done|]. symmetry. apply Z.eqb_neq. intros EQ. rewrite EQ in AL.
          destruct (addr_0_or r) as [[_ E0]|HR].
          - rewrite E0 in AL. destruct (wplaced_node _ _ _ _ _ W1 AL) as (? & _). lia.
          - apply (NX _ AL). by constructor. }
        rewrite EC. cbn [fst snd]. rewrite (bind_eq _ _ _ Z1).
        replace (z =? a) with false; [done|]. symmetry. apply Z.eqb_neq. intros ->. destruct Z2 as [-> |Z2]; [lia|]. apply (NX _ Z2). constructor.
      * cbn in E2. injection E2 as -> E2. apply (IHl a xs k'); [done|done|lia|done|done|lia|done].
  - destruct k' as [|z k'].
    + rewrite app_nil_r in E1. cbn in E2. injection E2 as -> E2.
      destruct r as [|c' l' a' k'' v' r']; [done|]. remember (Bin c' l' a' k'' v' r') as r0.
      pose proof (addr_in r0 ltac:(by subst)) as HI.
      apply (next_r_right _ (addr r0)); [by apply t_word_ok| |by apply GR|].
      * destruct (wplaced_node _ _ _ _ _ W2 HI) as (? & _). lia.
      * eapply leftmost_r_ok; [done|done|by (rewrite <- E2 || rewrite E2)|lia].
    + cbn in E2. injection E2 as -> E2. apply (IHr z k' ys); [done|done|lia|done|done|lia|done].
Qed.

Lemma next_last_r o b t x : anchor o = o + 8 -> wplaced nsz m (anchor o) t -> (forall a, a ∈ addrs t -> good a = true) ->
  0 < o -> o + 32 < usize_lim -> (8 | o) ->
  NoDup (anchor o :: addrs t) -> (length (addrs t) <= size (m_word m))%nat ->
  load_word m (o + 8) = Some b -> load_word m (o + 24) = Some (addr t) ->
  last (addrs t) = Some x -> node_next_r nsz nal x s = if good (anchor o) then Ok (anchor o) s else UB.
Proof using H24.
  intros EA W G O1 O2 O3 ND LE EB ER EX. assert (8 | anchor o) as D8 by (rewrite EA; apply Z.divide_add_r; [done|by exists 1]).
  destruct (climb_last_r (anchor o) t x W G EX ltac:(lia) D8) as (n & pa & N1 & N2 & N3 & N4).
  assert (t <> Leaf) as NLf by (intros ->; done). destruct (right_of _ _ _ _ W NLf) as (z & Z1 & Z2).
  pose proof (addr_in t NLf) as AL. destruct (wplaced_node _ _ _ _ _ W AL) as (A1 & A2 & _).
  apply NoDup_cons in ND as [NA ND].
  assert (anchor o <> z) as NZ by (intros <-; destruct Z2 as [? |Z2]; [lia|done]).
  rewrite (next_r_up _ _ N3 N2). replace (size (m_word m)) with (n + (size (m_word m) - n))%nat by lia.
  unfold bind at 1. rewrite N4. destruct (good (anchor o)) eqn:GA; [|by rewrite refer_bad].
  rewrite refer_good by done.
  assert (climb_r nsz nal (size (m_word m) - n) (addr t) (anchor o) s = Ok (if addr t =? b then (anchor o, addr t) else (addr t, anchor o)) s) as EC.
  { destruct (size (m_word m) - n)%nat as [|f] eqn:EF; [lia|]. cbn [climb_r]. unfold get_right at 1. rewrite EA, (t_word_ok2 _ _ _ _ EB).
    destruct (Z.eqb_spec (addr t) b) as [E|E]; [|done].
    unfold get_parent, get_pc. unfold bind at 1. replace (o + 8 + 16) with (o + 24) by lia. rewrite (t_word_ok2 _ _ _ _ ER).
    unfold ret at 1.
    assert (pc_ptr (addr t) = addr t) as -> by (replace (addr t) with (addr t + color_as_usize Red) at 1 by (cbn; lia); rewrite pc_ptr_at by (lia || by apply even8); done).
    rewrite refer_good by by apply G.
    destruct f as [|f]; cbn [climb_r]; rewrite (bind_eq _ _ _ Z1); replace (o + 8 =? z) with false by lia; done. }
  rewrite EC. destruct (Z.eqb_spec (addr t) b) as [E|E]; cbn [fst snd].
  - rewrite EA. unfold get_right at 1. rewrite (t_word_ok2 _ _ _ _ EB). by rewrite E, Z.eqb_refl.
  - rewrite (bind_eq _ _ _ Z1). by replace (z =? anchor o) with false by lia.
Qed.
End walk.

Section object.
Context {A K V : Type}.
Variables (nsz nal : Z).
Hypothesis H24 : 24 <= nsz.
Hypothesis HN : 0 < nal.
Local Notation tstate := (tstate A K V).
Local Notation aligned t := (forall a : Z, a ∈ addrs t -> (nal | a)).
Local Notation good s := (node_ok nsz nal s (anchor (t_obj s))).

Lemma good_nodes (s : tstate) t b a : walk nsz s t b -> aligned t -> a ∈ addrs t -> node_ok nsz nal s a = true.
Proof using HN.
  intros W D Ha. unfold node_ok. destruct (wplaced_node _ _ _ _ _ (wk_placed _ _ _ _ W) Ha) as (_ & _ & _ & ->).
  cbn. apply Z.eqb_eq. apply Z.mod_divide; [lia|]. by apply D.
Qed.
Lemma good_same (s s' : tstate) a : same_words s s' -> node_ok nsz nal s' a = node_ok nsz nal s a.
Proof using. intros (E1 & E2 & E3). unfold node_ok, accessible. by rewrite E2. Qed.

Lemma next_pos_r (s : tstate) t b xs y ys : walk nsz s t b -> aligned t -> addrs t = xs ++ y :: ys ->
  node_next_r nsz nal y s = if match ys with [] => good s | _ => true end then Ok (pos (t_obj s) ys) s else UB.
Proof using H24 HN.
  intros W D E. pose proof (walk_count _ _ _ _ W) as LE.
  assert (G : forall a, a ∈ addrs t -> node_ok nsz nal s a = true) by (intros a; by eapply good_nodes).
  destruct W as [(O1 & O2 & O3) W2 W3 W4 W5].
  assert (8 | anchor (t_obj s)) as D8 by (unfold anchor; apply Z.divide_add_r; [done|by exists 1]).
  destruct ys as [|z ys]; cbn [pos].
  - eapply next_last_r; try done. rewrite E. by rewrite last_snoc.
  - eapply (next_in_r nsz nal); try done; [unfold anchor; lia|by apply NoDup_cons in W5 as [_ ?]].
Qed.
Lemma iter_pos_r (s : tstate) t b xs ys : walk nsz s t b -> aligned t -> addrs t = xs ++ ys ->
  titer_next_r nsz nal (TIter (pos (t_obj s) ys) (anchor (t_obj s))) s =
  if match ys with [_] => good s | _ => true end then
  Ok (head ys, TIter (pos (t_obj s) (tail ys)) (anchor (t_obj s))) s else UB.
Proof using H24 HN.
  intros W D E. unfold titer_next_r. cbn [ti_node ti_anchor]. destruct ys as [|y ys]; cbn [pos head tail].
  - by rewrite Z.eqb_refl.
  - assert (y ∈ addrs t) as Hy by exact (in_mid _ _ _ _ E).
    destruct (wplaced_node _ _ _ _ _ (wk_placed _ _ _ _ W) Hy) as (Y1 & _).
    replace (y =? anchor (t_obj s)) with false.
    2: { symmetry. apply Z.eqb_neq. intros ->. pose proof (wk_distinct _ _ _ _ W) as ND. by apply NoDup_cons in ND as [? _]. }
    replace (y =? 0) with false by lia. rewrite (refer_good _ _ s) by by eapply good_nodes.
    unfold bind at 1. rewrite (next_pos_r _ _ _ _ _ _ W D E). destruct ys as [|y' ys]; [|done]. by destruct (good s).
Qed.

Lemma take_r (s : tstate) t b k xs ys es : walk nsz s t b -> aligned t -> addrs t = xs ++ ys -> vals (t_mem s) ys es ->
  titer_take_r nsz nal k (TIter (pos (t_obj s) ys) (anchor (t_obj s))) s =
  if (k <? length ys)%nat || (length ys =? 0)%nat || good s then
    titer_take nsz k (TIter (pos (t_obj s) ys) (anchor (t_obj s))) s else UB.
Proof using H24 HN.
  intros W D. revert xs ys es. induction k as [|k IH]; intros xs ys es E F.
  - cbn. by destruct ys.
  - cbn [titer_take_r titer_take]. unfold bind at 1. rewrite (iter_pos_r _ _ _ _ _ W D E).
    rewrite (bind_eq s (titer_next _) _ _ (iter_pos _ H24 _ _ _ _ _ W E)). cbn [fst snd].
    destruct F as [|y e ys es Hy F].
    + cbn [head tail length Nat.eqb orb fst snd]. rewrite orb_true_r. cbn [orb]. rewrite !(bind_eq s (ret None) _ None) by done.
      unfold bind at 1. rewrite (IH xs [] [] E) by constructor. cbn [length Nat.eqb]. rewrite orb_true_r. cbn [orb]. done.
    + cbn [head tail]. pose proof (pair_ok _ _ _ _ _ _ W (in_mid _ _ _ _ E) Hy) as EP.
      assert (EV : forall R (g : option (K * V) -> M tstate R),
        bind (bind (get_pair nsz y) (fun e => ret (Some e))) g s = g (Some e) s).
      { intros R g. apply bind_eq. unfold bind. by rewrite EP. }
      rewrite (EV _ (fun e => do r' <- _; ret (e :: fst r', snd r'))).
      specialize (IH (xs ++ [y]) ys es ltac:(by rewrite E, <- app_assoc) F).
      destruct ys as [|y' ys].
      * destruct (good s) eqn:GS.
        -- cbn [fst snd]. rewrite EV. rewrite !orb_true_r. rewrite orb_true_r in IH. unfold bind at 1. rewrite IH. done.
        -- cbn. replace (S k <? 1)%nat with false by (symmetry; apply Nat.ltb_ge; lia). done.
      * cbn [fst snd]. rewrite EV. unfold bind at 1. rewrite IH.
        replace (S k <? length (y :: y' :: ys))%nat with (k <? length (y' :: ys))%nat by (cbn [length]; apply eq_true_iff_eq; rewrite !Nat.ltb_lt; lia).
        cbn [length Nat.eqb]. destruct ((k <? S (length ys))%nat || false || good s); done.
Qed.

Lemma loop_r (s : tstate) t b xs ys es f : walk nsz s t b -> aligned t -> addrs t = xs ++ ys -> vals (t_mem s) ys es -> (length ys <= f)%nat ->
  titer_loop_r nsz nal f (TIter (pos (t_obj s) ys) (anchor (t_obj s))) s =
  if match ys with [] => true | _ => good s end then Ok es s else UB.
Proof using H24 HN.
  intros W D. revert xs ys es. induction f as [|f IH]; intros xs ys es E F L; cbn [titer_loop_r];
    unfold bind at 1; rewrite (iter_pos_r _ _ _ _ _ W D E); cbn [fst snd]; destruct F as [|y e ys es Hy F]; cbn [head tail]; try done.
  - cbn in L. lia.
  - specialize (IH (xs ++ [y]) ys es ltac:(by rewrite E, <- app_assoc) F ltac:(cbn in L; lia)).
    pose proof (pair_ok _ _ _ _ _ _ W (in_mid _ _ _ _ E) Hy) as EP. cbn [fst snd].
    destruct ys as [|y' ys]; destruct (good s) eqn:GS; try done; cbn [fst snd]; rewrite (bind_eq s _ _ _ EP); unfold bind at 1; rewrite IH; done.
Qed.
Lemma mut_loop_r g f (s : tstate) t b xs ys es : walk nsz s t b -> aligned t -> addrs t = xs ++ ys -> vals (t_mem s) ys es -> (length ys <= f)%nat ->
  titer_mut_loop_r nsz nal f g (TIter (pos (t_obj s) ys) (anchor (t_obj s))) s =
  if match ys with [] => true | _ => good s end then
    titer_mut_loop nsz f g (TIter (pos (t_obj s) ys) (anchor (t_obj s))) s else UB.
Proof using H24 HN.
  revert s xs ys es. induction f as [|f IH]; intros s xs ys es W D E F L; cbn [titer_mut_loop_r titer_mut_loop];
    unfold bind at 1; rewrite (iter_pos_r _ _ _ _ _ W D E); rewrite (bind_eq s (titer_next _) _ _ (iter_pos _ H24 _ _ _ _ _ W E));
    destruct F as [|y e ys es Hy F]; cbn [head tail fst snd]; try done.
  { cbn in L. lia. }
  assert (y ∈ addrs t) as HI by exact (in_mid _ _ _ _ E).
  assert (NoDup (y :: ys)) as ND.
  { pose proof (wk_distinct _ _ _ _ W) as ND. apply NoDup_cons in ND as [_ ND]. rewrite E in ND. by apply NoDup_app in ND as (_ & _ & ?). }
  apply NoDup_cons in ND as [NY ND].
  pose proof (pair_ok _ _ _ _ _ _ W HI Hy) as EP. pose proof (put_pair_ok _ _ _ _ _ (fst e, g (snd e)) W HI) as EW.
  specialize (IH (with_val s y (fst e, g (snd e))) (xs ++ [y]) ys es).
  assert (ES : node_ok nsz nal (with_val s y (fst e, g (snd e))) (anchor (t_obj s)) = good s) by (apply good_same, with_val_same).
  cbn [with_val t_obj] in IH, ES. fold (with_val s y (fst e, g (snd e))) in IH, ES. rewrite ES in IH.
  assert (IH' : match ys with [] => true | _ => good s end = true ->
    titer_mut_loop_r nsz nal f g (TIter (pos (t_obj s) ys) (anchor (t_obj s))) (with_val s y (fst e, g (snd e))) =
    titer_mut_loop nsz f g (TIter (pos (t_obj s) ys) (anchor (t_obj s))) (with_val s y (fst e, g (snd e)))).
  { intros X. rewrite IH; [by rewrite X| |done|by rewrite E, <- app_assoc| |cbn in L; lia].
    - exact (walk_same _ _ _ _ _ _ (with_val_same _ _ _) eq_refl W).
    - apply Forall2_same_length_lookup_2; [by eapply Forall2_length|]. intros j a e' Ha He. cbn. rewrite lookup_insert_ne; [exact (Forall2_lookup_lr _ _ _ _ _ _ F Ha He)|].
      intros ->. apply NY. by eapply elem_of_list_lookup_2. }
  assert (IH2 : match ys with [] => true | _ => good s end = false ->
    titer_mut_loop_r nsz nal f g (TIter (pos (t_obj s) ys) (anchor (t_obj s))) (with_val s y (fst e, g (snd e))) = UB).
  { intros X. rewrite IH; [by rewrite X| |done|by rewrite E, <- app_assoc| |cbn in L; lia].
    - exact (walk_same _ _ _ _ _ _ (with_val_same _ _ _) eq_refl W).
    - apply Forall2_same_length_lookup_2; [by eapply Forall2_length|]. intros j a e' Ha He. cbn. rewrite lookup_insert_ne; [exact (Forall2_lookup_lr _ _ _ _ _ _ F Ha He)|].
      intros ->. apply NY. by eapply elem_of_list_lookup_2. }
  clear IH. destruct ys as [|y' ys]; destruct (good s) eqn:GS; try done; cbn [fst snd];
    rewrite !(bind_eq s _ _ _ EP); rewrite !(bind_ok _ _ _ _ _ EW); unfold bind at 1.
  - rewrite IH' by done. done.
  - rewrite IH' by done. done.
  - rewrite IH2 by done. done.
Qed.

Lemma find_r (s : tstate) t0 b cmp k t f up : walk nsz s t0 b -> aligned t0 -> wplaced nsz (t_mem s) up t ->
  vals (t_mem s) (addrs t) (entries t) -> (forall x, x ∈ addrs t -> x ∈ addrs t0) -> (height t <= f)%nat ->
  find_loop_r nsz nal cmp f k (addr t) s = Ok (tfind cmp k t) s.
Proof using HN.
  intros W0 D. revert f up. induction t as [|c l IHl a x v r IHr]; intros f up W F IN L; [by destruct f|].
  cbn [wplaced addr entries height] in *. cbn [addrs] in F. destruct W as (H1 & H2 & H3 & H4 & H5 & H6 & W1 & W2).
  apply Forall2_app_inv in F as [F1 F2]; [|apply addrs_entries]. apply Forall2_cons_1 in F2 as [F2 F3].
  destruct f as [|f]; [lia|]. cbn [find_loop_r]. replace (a =? 0) with false by lia.
  rewrite (refer_good _ _ s) by (eapply good_nodes; [done|done|apply IN, in_root]).
  rewrite (bind_eq s _ _ _ (pair_ok _ _ _ _ a _ W0 (IN _ (in_root _ _ _ _ _ _)) F2)). cbn [fst]. cbn [tfind].
  destruct (cmp k x).
  - unfold get_left. rewrite (t_word_ok2 _ _ _ _ H4). unfold bind. rewrite (IHl f a); [done|done|done|intros y Hy; by apply IN, in_left|lia].
  - destruct (cmp x k); cbn [negb]; [|done].
    unfold get_right. rewrite (t_word_ok2 _ _ _ _ H3). unfold bind. rewrite (IHr f a); [done|done|done|intros y Hy; by apply IN, in_right|lia].
Qed.
Lemma insertion_r (s : tstate) t0 b cmp k t f up pv : walk nsz s t0 b -> aligned t0 -> wplaced nsz (t_mem s) up t ->
  vals (t_mem s) (addrs t) (entries t) -> (forall x, x ∈ addrs t -> x ∈ addrs t0) -> (height t <= f)%nat ->
  pv = 0 \/ pv ∈ addrs t0 ->
  exists p, (p = 0 \/ p ∈ addrs t0) /\ insertion_loop_r nsz nal cmp f k (addr t) pv s = Ok p s.
Proof using HN.
  intros W0 D. revert f up pv. induction t as [|c l IHl a x v r IHr]; intros f up pv W F IN L P; [by destruct f; exists pv|].
  cbn [wplaced addr entries height] in *. cbn [addrs] in F. destruct W as (H1 & H2 & H3 & H4 & H5 & H6 & W1 & W2).
  apply Forall2_app_inv in F as [F1 F2]; [|apply addrs_entries]. apply Forall2_cons_1 in F2 as [F2 F3].
  destruct f as [|f]; [lia|]. cbn [insertion_loop_r]. replace (a =? 0) with false by lia.
  rewrite (refer_good _ _ s) by (eapply good_nodes; [done|done|apply IN, in_root]).
  rewrite (bind_eq s _ _ _ (pair_ok _ _ _ _ a _ W0 (IN _ (in_root _ _ _ _ _ _)) F2)). cbn [fst].
  assert (a = 0 \/ a ∈ addrs t0) as P' by (right; apply IN, in_root).
  destruct (cmp k x).
  - unfold get_left. rewrite (t_word_ok2 _ _ _ _ H4). apply (IHl f a); [done|done|intros y Hy; by apply IN, in_left|lia|done].
  - unfold get_right. rewrite (t_word_ok2 _ _ _ _ H3). apply (IHr f a); [done|done|intros y Hy; by apply IN, in_right|lia|done].
Qed.

Lemma parent_r (s : tstate) t b {R} (g : Z -> M tstate R) : walk nsz s t b -> bind t_parent g s = g (addr t) s.
Proof using. intros W. apply bind_eq. unfold t_parent. unfold bind, gets. by rewrite (t_word_ok _ _ _ (wk_root _ _ _ _ W)). Qed.
Lemma mem_r (s : tstate) {R} (g : mem (K * V) -> M tstate R) : bind (gets t_mem) g s = g (t_mem s) s.
Proof using. done. Qed.

Lemma find_tree_r (s : tstate) t b cmp k : walk nsz s t b -> aligned t -> vals (t_mem s) (addrs t) (entries t) ->
  find_in_tree_r nsz nal cmp k s = find_in_tree nsz cmp k s.
Proof using HN.
  intros W D F. rewrite (find_in_tree_ok _ _ _ _ _ _ W F). unfold find_in_tree_r. rewrite (parent_r _ _ _ _ W), mem_r.
  assert (L : (height t <= size (m_word (t_mem s)))%nat) by (pose proof (height_le t); pose proof (walk_count _ _ _ _ W); lia).
  rewrite (bind_eq s _ _ _ (find_r s t b cmp k t _ _ W D (wk_placed _ _ _ _ W) F ltac:(done) L)). done.
Qed.

Lemma empty_next_r (s : tstate) t b : walk nsz s t b -> empty_end (t_obj s) b ->
  titer_next_r nsz nal (TIter b (anchor (t_obj s))) s = Ok (None, TIter b (anchor (t_obj s))) s.
Proof using.
  intros _ B. unfold titer_next_r. cbn [ti_node ti_anchor]. destruct B as [-> | ->]; [|by rewrite Z.eqb_refl].
  by destruct (0 =? anchor (t_obj s)).
Qed.

Variable cmp : K -> K -> bool.
Hypothesis SWO : strict_weak_order cmp.

Lemma get_r (s : tstate) t b k : walk nsz s t b -> aligned t -> vals (t_mem s) (addrs t) (entries t) ->
  t_get_r nsz nal cmp k s = t_get nsz cmp k s.
Proof using HN. intros W D F. unfold t_get_r, t_get. unfold bind at 1. rewrite (find_tree_r _ _ _ _ _ W D F). done. Qed.

Lemma call_r c (s : tstate) t : holds nsz s t -> sorted cmp t -> aligned t ->
  t_call_r nsz nal cmp c s =
  if negb (goes_through c) || match addrs t with [] => true | _ => good s end then t_call nsz cmp c s else UB.
Proof using H24 HN SWO.
  intros H HS D. destruct (holds_walk _ _ _ H) as (b & W & F & B).
  destruct c; cbn [t_call_r t_call goes_through negb orb].
  - unfold bind. by rewrite (get_r _ _ _ _ W D F).
  - unfold t_assign_r, t_assign, t_get_mut, bind. by rewrite (find_tree_r _ _ _ _ _ W D F).
  - unfold t_contains_key_r, t_contains_key, bind. by rewrite (get_r _ _ _ _ W D F).
  - done.
  - done.
  - assert (X : t_iter_all_r nsz nal s = if match addrs t with [] => true | _ => good s end then t_iter_all nsz s else UB).
    { unfold t_iter_all_r, t_iter_all. rewrite !(bind_eq s _ _ _ (t_iter_ok _ _ _ _ W)), !mem_r.
      destruct (addrs t) as [|x l] eqn:EA.
      - cbn in B. destruct (size (m_word (t_mem s))); cbn [titer_loop_r titer_loop];
          rewrite (bind_eq s _ _ _ (empty_next_r _ _ _ W B)), (bind_eq s _ _ _ (empty_next _ _ _ _ W B)); done.
      - assert (D0 : aligned t) by (intros y; rewrite EA; apply D). cbn in B. subst x. pose proof (walk_count _ _ _ _ W) as WC. rewrite EA in WC. change b with (pos (t_obj s) (b :: l)).
        rewrite (loop_r _ _ _ [] _ (entries t) _ W D0 EA F WC). by rewrite (loop_pos _ H24 _ _ _ [] _ (entries t) _ W EA F WC). }
    unfold bind. rewrite X. by destruct (match addrs t with [] => true | _ => _ end).
  - assert (X : t_iter_mut_all_r nsz nal g s = if match addrs t with [] => true | _ => good s end then t_iter_mut_all nsz g s else UB).
    { unfold t_iter_mut_all_r, t_iter_mut_all. rewrite !(bind_eq s _ _ _ (t_iter_ok _ _ _ _ W)), !mem_r.
      destruct (addrs t) as [|x l] eqn:EA.
      - cbn in B. destruct (size (m_word (t_mem s))); cbn [titer_mut_loop_r titer_mut_loop];
          rewrite (bind_eq s _ _ _ (empty_next_r _ _ _ W B)), (bind_eq s _ _ _ (empty_next _ _ _ _ W B)); done.
      - assert (D0 : aligned t) by (intros y; rewrite EA; apply D). cbn in B. subst x. pose proof (walk_count _ _ _ _ W) as WC. rewrite EA in WC. change b with (pos (t_obj s) (b :: l)).
        by rewrite (mut_loop_r g _ s _ _ [] _ (entries t) W D0 EA F WC). }
    unfold bind. rewrite X. by destruct (match addrs t with [] => true | _ => _ end).
  - assert (L : (height t <= size (m_word (t_mem s)))%nat) by (pose proof (height_le t); pose proof (walk_count _ _ _ _ W); lia).
    destruct (insertion_r s t b cmp k t _ _ 0 W D (wk_placed _ _ _ _ W) F ltac:(done) L ltac:(by left)) as (p & P & EP).
    destruct (insertion_ok _ s t b cmp k t _ _ 0 W (wk_placed _ _ _ _ W) F ltac:(done) L) as (p' & EP').
    assert (X : find_insertion_position_r nsz nal cmp k s = Ok p s).
    { unfold find_insertion_position_r. rewrite (parent_r _ _ _ _ W), mem_r. rewrite (bind_eq s _ _ _ EP).
      destruct (Z.eqb_spec p 0) as [E0|E0]; [done|]. destruct P as [P|P]; [done|]. by rewrite (refer_good _ _ s) by by eapply good_nodes. }
    assert (X' : find_insertion_position nsz cmp k s = Ok p' s).
    { unfold find_insertion_position. rewrite (parent_r _ _ _ _ W), mem_r. done. }
    unfold t_insert_r, t_insert, on_unwind. unfold bind. by rewrite X, X'.
  - done.
  - done.
Qed.

Lemma run_r cs (s : tstate) t : holds nsz s t -> sorted cmp t -> aligned t ->
  t_run_r nsz nal cmp cs s =
  if negb (existsb goes_through cs) || match addrs t with [] => true | _ => good s end then t_run nsz cmp cs s else None.
Proof using H24 HN SWO.
  revert s t. induction cs as [|c cs IH]; intros s t H HS D; cbn [t_run_r t_run existsb]; [done|].
  rewrite (call_r _ _ _ H HS D). pose proof (call_ok _ H24 _ SWO c s t H HS) as C.
  destruct (tspec_call cmp c (entries t)) as [[a d] es]. destruct C as (s1 & t1 & E1 & H1 & K1 & _ & _ & _ & W1).
  assert (sorted cmp t1) as HS1 by (unfold sorted; by rewrite (skeleton_keys _ _ K1)).
  assert (aligned t1) as D1 by (intros x; rewrite (skeleton_addrs _ _ K1); apply D).
  specialize (IH s1 t1 H1 HS1 D1). rewrite (skeleton_addrs _ _ K1) in IH. pose proof W1 as (EO & _). rewrite EO in IH. rewrite (good_same _ _ _ W1) in IH.
  set (gd := match addrs t with [] => true | _ => good s end) in *.
  destruct (goes_through c); cbn [negb orb].
  - destruct gd; [|done]. rewrite orb_true_r in IH. destruct a; rewrite E1, IH; done.
  - destruct a; rewrite E1, IH; destruct (negb (existsb goes_through cs) || gd); done.
Qed.

Lemma good_iff (s : tstate) : good s = true <-> anchor_like_node nsz nal s.
Proof using HN.
  unfold node_ok, anchor_like_node, accessible, anchor. rewrite andb_true_iff, Z.eqb_eq, Z.mod_divide by lia. rewrite existsb_exists.
  unfold inside. split.
  - intros [(r & Hr & E) HD]. split; [done|]. exists r. rewrite elem_of_list_In. apply andb_true_iff in E as [E1 E2]. apply Z.leb_le in E1, E2. done.
  - intros (HD & r & Hr & E1 & E2). split; [|done]. exists r. rewrite <- elem_of_list_In. split; [done|]. apply andb_true_iff. by rewrite !Z.leb_le.
Qed.
Lemma none_iff (t : tree K V) (x : bool) : match addrs t with [] => true | _ => x end = true <-> entries t = [] \/ x = true.
Proof using.
  pose proof (addrs_entries t) as E. destruct (addrs t), (entries t); cbn in E; try done; split; auto. intros [?|?]; done.
Qed.
End object.

Lemma tuple_valid swap Kl Vl : valid Kl -> valid Vl -> valid (tuple swap Kl Vl).
Proof. intros VK VV. unfold tuple. apply repr_ok. destruct swap; by repeat constructor; try apply VK; try apply VV. Qed.

(** Freeing *)
Section free.
Context {A K V : Type}.
Variables (aa : AddrAlloc A (K * V)) (chk : bool) (nsz nal : Z) (I : A -> mem (K * V) -> list Z -> Prop).
Hypothesis H24 : 24 <= nsz.
Hypothesis HN : 0 < nal.
Hypothesis TF : TFree aa chk nsz nal I.
Local Notation tstate := (tstate A K V).

Lemma refer_live {R} (s : tstate) L a (f : unit -> M tstate R) : I (t_alloc s) (t_mem s) L -> a ∈ L -> (nal | a) ->
  bind (refer nsz nal a) f s = f tt s.
Proof using HN TF.
  intros HI Ha D. apply refer_good. unfold node_ok. rewrite (tf_node _ _ _ _ _ TF _ _ _ _ HI Ha). cbn.
  apply Z.eqb_eq, Z.mod_divide; [lia|done].
Qed.
Lemma kid_words (s : tstate) L a w : I (t_alloc s) (t_mem s) L -> a ∈ L -> (8 | a) ->
  (m_word (t_mem s) !! a = Some w -> t_word a s = Ok w s) /\ (m_word (t_mem s) !! (a + 8) = Some w -> t_word (a + 8) s = Ok w s).
Proof using H24 TF.
  intros HI Ha D. pose proof (tf_node _ _ _ _ _ TF _ _ _ _ HI Ha) as AC.
  split; intros E; apply t_word_ok; rewrite load_word_ok; try done.
  - eapply word_at_ok; [exact AC|lia|lia|done].
  - eapply word_at_ok; [exact AC|lia|lia|]. apply Z.divide_add_r; [done|by exists 1].
Qed.

Lemma free_tree_same (t : tree K V) : forall f (s : tstate) R, t <> Leaf -> (height t <= f)%nat -> kids (m_word (t_mem s)) t ->
  I (t_alloc s) (t_mem s) (addrs t ++ R) -> (forall a, a ∈ addrs t -> (nal | a)) ->
  free_tree_r nsz nal aa chk false f (addr t) s = free_tree aa chk nsz nal f (addr t) s.
Proof using H24 HN TF.
  induction t as [|c l IHl a k v r IHr]; intros f s R NL HF KD HI D; [done|].
  destruct f as [|f]; [cbn in HF; lia|]. cbn [height addr] in *. cbn [addrs] in HI. cbn [kids] in KD. destruct KD as (H1 & H2 & H3 & H4 & K1 & K2).
  cbn [free_tree free_tree_r]. unfold get_left, get_right.
  assert (IN : a ∈ (addrs l ++ a :: addrs r) ++ R) by (apply elem_of_app; left; apply elem_of_app; right; constructor).
  rewrite !(bind_ok _ _ _ _ _ (proj2 (kid_words s _ a _ HI IN H2) H4)).
  assert (DL : forall x, x ∈ addrs l -> (nal | x)) by (intros x Hx; by apply D, in_left).
  assert (DR : forall x, x ∈ addrs r -> (nal | x)) by (intros x Hx; by apply D, in_right).
  assert (HI' : I (t_alloc s) (t_mem s) (addrs l ++ a :: addrs r ++ R)) by (by rewrite <- app_assoc in HI).
  assert (exists s1, (if addr l =? 0 then ret tt else free_tree aa chk nsz nal f (addr l)) s = Ok tt s1 /\
    (if addr l =? 0 then ret tt else run refer nsz nal (addr l); free_tree_r nsz nal aa chk false f (addr l)) s = Ok tt s1 /\
    I (t_alloc s1) (t_mem s1) (a :: addrs r ++ R) /\
    (forall x, x ∈ a :: addrs r ++ R -> m_word (t_mem s1) !! x = m_word (t_mem s) !! x /\ m_word (t_mem s1) !! (x + 8) = m_word (t_mem s) !! (x + 8)))
    as (s1 & E1 & E1' & I1 & F1).
  { rewrite (addr_0 _ _ K1). destruct l as [|c' l' a' k' v' r'] eqn:EL; [by exists s|]. rewrite <- EL in *.
    destruct (free_tree_ok aa chk nsz nal I H24 TF l f s (a :: addrs r ++ R)) as (s1 & E & I1 & _ & _ & _ & F); [by rewrite EL|lia|done|done|].
    exists s1. split; [done|]. split; [|done].
    assert (addr l ∈ addrs l) by (apply addr_in; by rewrite EL).
    rewrite (refer_live s _ _ _ HI'); [|apply elem_of_app; by left|by apply DL].
    rewrite (IHl f s (a :: addrs r ++ R)); [done|by rewrite EL|lia|done|done|done]. }
  rewrite (bind_ok _ _ _ _ _ E1), (bind_ok _ _ _ _ _ E1').
  destruct (F1 a ltac:(constructor)) as [Fa Fb].
  rewrite !(bind_ok _ _ _ _ _ (proj1 (kid_words s1 _ a (addr r) I1 ltac:(constructor) H2) ltac:(by rewrite Fa))).
  assert (K2' : kids (m_word (t_mem s1)) r).
  { eapply kids_frame; [|exact K2]. intros x Hx. apply F1. constructor. apply elem_of_app. by left. }
  assert (ER2 : (if addr r =? 0 then ret tt else run refer nsz nal (addr r); free_tree_r nsz nal aa chk false f (addr r)) s1 =
    (if addr r =? 0 then ret tt else free_tree aa chk nsz nal f (addr r)) s1).
  { rewrite (addr_0 _ _ K2). destruct r as [|c' l' a' k' v' r'] eqn:ER; [done|]. rewrite <- ER in *.
    assert (addr r ∈ addrs r) by (apply addr_in; by rewrite ER).
    rewrite (refer_live s1 _ _ _ I1); [|constructor; apply elem_of_app; by left|by apply DR].
    apply (IHr f s1 (a :: R)); [by rewrite ER|lia|done| |done].
    eapply (tf_perm _ _ _ _ _ TF); [exact I1|]. solve_Permutation. }
  unfold bind at 1. rewrite ER2. done.
Qed.

Lemma free_tree_held (t : tree K V) : forall f (s : tstate) R, t <> Leaf -> (height t <= f)%nat -> kids (m_word (t_mem s)) t ->
  I (t_alloc s) (t_mem s) (addrs t ++ R) -> (forall a, a ∈ addrs t -> (nal | a)) ->
  free_tree_r nsz nal aa chk true f (addr t) s = UB.
Proof using H24 HN TF.
  induction t as [|c l IHl a k v r IHr]; intros f s R NL HF KD HI D; [done|].
  destruct f as [|f]; [cbn in HF; lia|]. cbn [height addr] in *. cbn [addrs] in HI. cbn [kids] in KD. destruct KD as (H1 & H2 & H3 & H4 & K1 & K2).
  cbn [free_tree_r]. unfold get_left, get_right.
  assert (IN : a ∈ (addrs l ++ a :: addrs r) ++ R) by (apply elem_of_app; left; apply elem_of_app; right; constructor).
  rewrite (bind_ok _ _ _ _ _ (proj2 (kid_words s _ a _ HI IN H2) H4)).
  assert (DL : forall x, x ∈ addrs l -> (nal | x)) by (intros x Hx; by apply D, in_left).
  assert (DR : forall x, x ∈ addrs r -> (nal | x)) by (intros x Hx; by apply D, in_right).
  assert (HI' : I (t_alloc s) (t_mem s) (addrs l ++ a :: addrs r ++ R)) by (by rewrite <- app_assoc in HI).
  rewrite (addr_0 _ _ K1). destruct l as [|c' l' a' k' v' r'] eqn:EL.
  2: { rewrite <- EL in *. assert (addr l ∈ addrs l) by (apply addr_in; by rewrite EL).
    unfold bind at 1. rewrite (refer_live s _ _ _ HI'); [|apply elem_of_app; by left|by apply DL].
    rewrite (IHl f s (a :: addrs r ++ R)); [done|by rewrite EL|lia|done|done|done]. }
  rewrite (bind_ok (ret tt) _ tt s s) by done.
  rewrite (bind_ok _ _ _ _ _ (proj1 (kid_words s _ a (addr r) HI IN H2) H3)).
  rewrite (addr_0 _ _ K2). destruct r as [|c' l' a' k' v' r'] eqn:ER; [done|]. rewrite <- ER in *.
  assert (addr r ∈ addrs r) by (apply addr_in; by rewrite ER).
  unfold bind at 1. rewrite (refer_live s _ _ _ HI'); [|cbn; constructor; apply elem_of_app; by left|by apply DR].
  rewrite (IHr f s (a :: R)); [done|by rewrite ER|lia|done| |done].
  eapply (tf_perm _ _ _ _ _ TF); [exact HI|]. cbn. solve_Permutation.
Qed.

Lemma free_nodes_r_ok held (s : tstate) (t : tree K V) : holds nsz s t -> I (t_alloc s) (t_mem s) (addrs t) -> (forall a, a ∈ addrs t -> (nal | a)) ->
  free_nodes_r nsz nal aa chk held s = if held && match entries t with [] => false | _ => true end then UB else free_nodes aa chk nsz nal s.
Proof using H24 HN TF.
  intros H HI D. destruct (holds_walk _ _ _ H) as (b & W & F & _). pose proof (wplaced_kids _ _ _ _ (wk_placed _ _ _ _ W)) as KD.
  unfold free_nodes_r, free_nodes. rewrite !(parent_r _ _ _ _ _ W), !mem_r. rewrite (addr_0 _ _ KD).
  destruct t as [|c l a k v r] eqn:ET; [by destruct held|]. rewrite <- ET in *.
  assert (NE : match entries t with [] => false | _ => true end = true).
  { pose proof (addrs_entries t) as L. destruct (entries t); [|done]. rewrite ET in L. cbn in L. rewrite app_length in L. cbn in L. lia. }
  rewrite NE, andb_true_r. assert (addr t ∈ addrs t) by (apply addr_in; by rewrite ET).
  rewrite (refer_live s _ _ _ HI) by auto.
  assert (HI' : I (t_alloc s) (t_mem s) (addrs t ++ [])) by (by rewrite app_nil_r).
  assert (L : (height t <= size (m_word (t_mem s)))%nat) by (pose proof (height_le t); pose proof (walk_count _ _ _ _ W); lia).
  destruct held.
  - apply (free_tree_held t _ s []); auto. by rewrite ET.
  - apply (free_tree_same t _ s []); auto. by rewrite ET.
Qed.
End free.

Lemma free_default_r {K V} (pick : mem (K * V) -> Z -> Z -> Z) strict chk nsz nal rest held (s : tstate unit K V) t :
  tree_layout nsz nal -> holds nsz s t -> owns nsz nal (t_mem s) t rest -> (forall a, a ∈ addrs t -> (nal | a)) ->
  free_nodes_r nsz nal (DefaultAddrAlloc pick strict) chk held s =
  if held && match entries t with [] => false | _ => true end then UB else free_nodes (DefaultAddrAlloc pick strict) chk nsz nal s.
Proof.
  intros TL H [O1 O2 O3] D. pose proof TL as [NL H24]. pose proof (node_layout_pos _ _ NL) as (? & ? & ? & ?).
  assert (HN : 0 < nal) by lia. apply (free_nodes_r_ok _ _ _ _ (TDI nsz nal rest (m_word (t_mem s))) H24 HN (default_tfree pick strict chk nsz nal rest _ TL O3)); [done| |done].
  split; [|done]. pose proof (h_distinct _ _ _ H) as ND. by apply NoDup_cons in ND as [_ ?].
Qed.

Lemma L_C122_iterating_partial :
forall (A K V : Type) (nsz nal : Z) (lt : K -> K -> bool) (cs : list (tcall K V)) (s : tstate A K V) (t : tree K V),
  strict_weak_order lt -> 24 <= nsz -> 0 < nal ->
  holds nsz s t -> sorted lt t -> (forall a, a ∈ addrs t -> (nal | a)) ->
  (existsb goes_through cs = false \/ entries t = [] \/ anchor_like_node nsz nal s ->
     t_run_r nsz nal lt cs s = t_run nsz lt cs s) /\
  (existsb goes_through cs = true -> entries t <> [] -> ~ anchor_like_node nsz nal s ->
     t_run_r nsz nal lt cs s = None).
Proof.
  intros A K V nsz nal lt cs s t SWO H24 HN H HS D. rewrite (run_r nsz nal H24 HN lt SWO cs s t H HS D).
  rewrite <- (good_iff nsz nal HN s). split.
  - intros C. assert (negb (existsb goes_through cs) || match addrs t with [] => true | _ => node_ok nsz nal s (anchor (t_obj s)) end = true) as ->; [|done].
    destruct C as [-> |C]; [done|]. apply orb_true_iff. right. by apply none_iff.
  - intros -> NE NG. cbn [negb orb]. destruct (match addrs t with [] => true | _ => _ end) eqn:X; [|done].
    apply none_iff in X as [X|X]; done.
Qed.

Lemma L_C122_next :
forall (A K V : Type) (nsz nal : Z) (k : nat) (i : titer) (s : tstate A K V) (t : tree K V),
  24 <= nsz -> 0 < nal -> holds nsz s t -> (forall a, a ∈ addrs t -> (nal | a)) -> t_iter s = Ok i s ->
  ((k < length (entries t))%nat \/ entries t = [] \/ anchor_like_node nsz nal s ->
     titer_take_r nsz nal k i s = titer_take nsz k i s) /\
  ((length (entries t) <= k)%nat -> entries t <> [] -> ~ anchor_like_node nsz nal s ->
     titer_take_r nsz nal k i s = UB).
Proof.
  intros A K V nsz nal k i s t H24 HN H D EI. destruct (holds_walk _ _ _ H) as (b & W & F & B).
  rewrite (t_iter_ok _ _ _ _ W) in EI. injection EI as <-.
  rewrite <- (good_iff nsz nal HN s). rewrite <- addrs_entries. destruct (addrs t) as [|x l] eqn:EA.
  - assert (entries t = []) as EE by (apply nil_length_inv; by rewrite <- addrs_entries, EA). split; [|by intros _ NE].
    intros _. clear EE. cbn in B. induction k as [|k IH]; [done|]. cbn [titer_take_r titer_take].
    assert (titer_next_r nsz nal (TIter b (anchor (t_obj s))) s = Ok (None, TIter b (anchor (t_obj s))) s) as E1.
    { unfold titer_next_r. cbn [ti_node ti_anchor]. destruct B as [-> | ->]; [by destruct (0 =? anchor (t_obj s))|by rewrite Z.eqb_refl]. }
    rewrite (bind_eq s _ _ _ E1). rewrite (bind_eq s _ _ _ (empty_next _ _ _ _ W B)). cbn [fst snd].
    rewrite !(bind_eq s (ret None) _ None) by done. unfold bind at 1. rewrite IH. done.
  - assert (D0 : forall a, a ∈ addrs t -> (nal | a)) by (intros y; rewrite EA; apply D). cbn in B. subst x. change b with (pos (t_obj s) (b :: l)).
    assert (EL : length (entries t) = length (b :: l)) by (by rewrite <- addrs_entries, EA).
    rewrite (take_r _ _ H24 HN _ _ _ k [] (b :: l) (entries t) W D0 EA F). split.
    + intros C. destruct ((k <? length (b :: l))%nat || (length (b :: l) =? 0)%nat || node_ok nsz nal s (anchor (t_obj s))) eqn:X; [done|].
      apply orb_false_iff in X as [X X3]. apply orb_false_iff in X as [X1 _]. apply Nat.ltb_ge in X1. cbn [length] in *.
      destruct C as [C|[C|C]]; [lia| |congruence]. rewrite C in EL. done.
    + intros L NE NG. destruct (node_ok nsz nal s (anchor (t_obj s))) eqn:X; [done|].
      replace (k <? length (b :: l))%nat with false by (symmetry; apply Nat.ltb_ge; exact L). done.
Qed.

Lemma L_C122_room :
forall (A K V : Type) (nsz nal osz oal : Z) (heap : bool) (s : tstate A K V) (t : tree K V),
  holds nsz s t -> owns nsz nal (t_mem s) t [Region (t_obj s) osz oal heap] ->
  (anchor_like_node nsz nal s <-> nsz <= osz - 8 /\ (nal | t_obj s + 8)).
Proof.
  intros A K V nsz nal osz oal heap s t H [OL _ _]. unfold anchor_like_node. split.
  - intros (HD & r & Hr & E1 & E2). split; [|done]. rewrite OL in Hr. apply elem_of_app in Hr as [Hr|Hr].
    + apply elem_of_list_fmap in Hr as (a & -> & Ha). cbn in E1, E2. exfalso.
      pose proof (h_distinct _ _ _ H) as ND. apply NoDup_cons in ND as [NA _]. apply NA. unfold anchor. by replace (t_obj s + 8) with a by lia.
    + apply elem_of_list_singleton in Hr as ->. cbn in *. lia.
  - intros [L HD]. split; [done|]. exists (Region (t_obj s) osz oal heap). rewrite OL. split; [apply elem_of_app; right; by constructor|]. cbn. lia.
Qed.

Lemma L_C122_large_entries :
forall (A K V : Type) (Kl Vl : lay) (swap : bool) (oal : Z) (heap : bool) (lt : K -> K -> bool) (cs : list (tcall K V)) (s : tstate A K V) (t : tree K V),
  valid Kl -> valid Vl -> 8 < ly_size (tuple swap Kl Vl) ->
  let node := struct (rb_node_fields swap Kl Vl) in
  let map := struct (rb_tree_fields node default_allocator comparator) in
  strict_weak_order lt -> holds (ly_size node) s t -> sorted lt t -> (forall a, a ∈ addrs t -> (ly_align node | a)) ->
  owns (ly_size node) (ly_align node) (t_mem s) t [Region (t_obj s) (ly_size map) oal heap] ->
  existsb goes_through cs = true -> entries t <> [] ->
  t_run_r (ly_size node) (ly_align node) lt cs s = None.
Proof.
  intros A K V Kl Vl swap oal heap lt cs s t VK VV L8 node map SWO H HS D O G NE.
  pose proof (tuple_valid swap _ _ VK VV) as VP.
  assert (EM : ly_size map = 40) by done.
  assert (N : 32 < ly_size node /\ 0 < ly_align node).
  { unfold node. rewrite struct_place. cbn [ly_size ly_align].
    assert (O2 : place 0 (rb_node_fields swap Kl Vl) = ([0; 8; 16; align_up 24 (ly_align (tuple swap Kl Vl))], align_up 24 (ly_align (tuple swap Kl Vl)) + ly_size (tuple swap Kl Vl))).
    { unfold rb_node_fields. change (struct [Lay 8 8; phantom; phantom]) with (Lay 8 8). step 0. step 8. step 16. done. }
    rewrite O2. cbn [snd]. pose proof (up_ge 24 _ (valid_pos _ VP)).
    assert (0 < max_align (rb_node_fields swap Kl Vl)) by (unfold rb_node_fields; cbn [max_align ly_align pointer]; lia).
    pose proof (up_ge (align_up 24 (ly_align (tuple swap Kl Vl)) + ly_size (tuple swap Kl Vl)) (max_align (rb_node_fields swap Kl Vl))). lia. }
  destruct N as [N1 N2]. assert (N24 : 24 <= ly_size node) by lia.
  apply (L_C122_iterating_partial _ _ _ _ _ lt cs s t SWO N24 N2 H HS D); [done|done|].
  intros R. apply (L_C122_room _ _ _ _ _ _ _ _ _ _ H O) in R as [R _]. rewrite EM in R. lia.
Qed.

Lemma L_C122_iterating_refuted :
exists (s : tstate unit Z Z) (t : tree Z Z) (cs : list (tcall Z Z)),
  holds 40 s t /\ sorted Z.ltb t /\ red_black t /\ owns 40 8 (t_mem s) t [Region (t_obj s) 40 8 false] /\
  is_Some (t_run 40 Z.ltb cs s) /\ t_run_r 40 8 Z.ltb cs s = None.
Proof.
  exists (rx_state 2048 2176), rx_tree, [TIterAll].
  split; [exact rx_holds|]. split; [exact rx_sorted|]. split; [exact rx_red_black|]. split; [apply rx_owns|].
  split; [|by vm_compute]. vm_compute. by eexists.
Qed.

Lemma L_C122_drop :
forall (K V : Type) (pick : mem (K * V) -> Z -> Z -> Z) (strict chk : bool) (nsz nal : Z) (rest : list region)
    (s : tstate unit K V) (t : tree K V),
  tree_layout nsz nal -> holds nsz s t -> owns nsz nal (t_mem s) t rest -> (forall a, a ∈ addrs t -> (nal | a)) ->
  t_drop_r nsz nal (DefaultAddrAlloc pick strict) chk false s = t_drop (DefaultAddrAlloc pick strict) chk nsz nal s /\
  t_clear_r nsz nal (DefaultAddrAlloc pick strict) chk false s = t_clear (DefaultAddrAlloc pick strict) chk nsz nal s.
Proof.
  intros K V pick strict chk nsz nal rest s t TL H O D. unfold t_drop_r, t_clear_r. by rewrite (free_default_r _ _ _ _ _ rest _ _ t TL H O D).
Qed.

Lemma L_C123_nodes_freed_partial :
forall (K V : Type) (pick : mem (K * V) -> Z -> Z -> Z) (strict chk : bool) (nsz nal : Z) (rest : list region)
    (s : tstate unit K V) (t : tree K V),
  tree_layout nsz nal -> holds nsz s t -> owns nsz nal (t_mem s) t rest -> (forall a, a ∈ addrs t -> (nal | a)) ->
  (entries t = [] ->
     t_drop_r nsz nal (DefaultAddrAlloc pick strict) chk true s = t_drop (DefaultAddrAlloc pick strict) chk nsz nal s /\
     t_clear_r nsz nal (DefaultAddrAlloc pick strict) chk true s = t_clear (DefaultAddrAlloc pick strict) chk nsz nal s) /\
  (entries t <> [] ->
     t_drop_r nsz nal (DefaultAddrAlloc pick strict) chk true s = UB /\
     t_clear_r nsz nal (DefaultAddrAlloc pick strict) chk true s = UB).
Proof.
  intros K V pick strict chk nsz nal rest s t TL H O D. unfold t_drop_r, t_clear_r. rewrite (free_default_r _ _ _ _ _ rest _ _ t TL H O D).
  destruct (entries t); cbn [andb]; split; done.
Qed.

Lemma L_C123_nodes_freed_refuted :
exists (s : tstate unit Z Z) (t : tree Z Z),
  holds 40 s t /\ sorted Z.ltb t /\ red_black t /\ owns 40 8 (t_mem s) t [Region 1024 40 8 false] /\
  (forall a, a ∈ addrs t -> (8 | a)) /\
  is_ok (t_drop (DefaultAddrAlloc rx_pick true) true 40 8 s) = true /\
  t_drop_r 40 8 (DefaultAddrAlloc rx_pick true) true true s = UB /\
  t_clear_r 40 8 (DefaultAddrAlloc rx_pick true) true true s = UB.
Proof.
  exists (rx_state 2048 2176), rx_tree.
  split; [exact rx_holds|]. split; [exact rx_sorted|]. split; [exact rx_red_black|]. split; [apply rx_owns|].
  assert (D : forall a, a ∈ addrs rx_tree -> (8 | a)).
  { intros a Ha. cbn in Ha. repeat (apply elem_of_cons in Ha as [-> |Ha]; [apply Z.mod_divide; done|]). by apply elem_of_nil in Ha. }
  split; [exact D|]. split; [by vm_compute|].
  exact (proj2 (L_C123_nodes_freed_partial Z Z rx_pick true true 40 8 [rx_object] _ rx_tree rx_layout rx_holds (rx_owns _ _) D) ltac:(done)).
Qed.
