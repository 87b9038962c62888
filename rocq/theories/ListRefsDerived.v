(** Proofs of the properties stated in ListRefsProps.v. *)
From Verif Require Import Base Alloc AddrMem FixedPool FixedPoolSpec FixedPoolProofs LinkedList LinkedListSpec LinkedListProofs LinkedListCalls LinkedListRuns LinkedListFixed LinkedListDerived ListRefs ListRefsSpec.
Local Open Scope Z_scope.

Lemma bind_inv {S A B} (f : M S A) (g : A -> M S B) s y s' : bind f g s = Ok y s' -> exists x s1, f s = Ok x s1 /\ g x s1 = Ok y s'.
Proof. unfold bind. destruct (f s); intros E; try done. eauto. Qed.
Lemma bind_of {S A B} (f : M S A) (g : A -> M S B) s x s' : f s = Ok x s' -> bind f g s = g x s'.
Proof. unfold bind. by intros ->. Qed.
Lemma bind_ext {S A B} (f f' : M S A) (g g' : A -> M S B) s : f s = f' s -> (forall x s', f s = Ok x s' -> g x s' = g' x s') -> bind f g s = bind f' g' s.
Proof. unfold bind. intros E H. rewrite <- E. destruct (f s) as [x s'|s'|]; [by apply H|done|done]. Qed.
Lemma bind_no_panic {S A B} (f : M S A) (g : A -> M S B) s : (forall s', f s <> Panic s') -> (forall x s', f s = Ok x s' -> g x s' = UB) -> bind f g s = UB.
Proof. unfold bind. intros H1 H2. destruct (f s) as [x s'|s'|] eqn:E; [by apply H2|by destruct (H1 s')|done]. Qed.

Section list_refs.
Context {A T : Type}.
Variables (aa : AddrAlloc A T) (chk : bool) (nsz nal vsz s B : Z) (nul : bool) (I : A -> mem T -> list Z -> Prop).
Hypothesis Hsz : 16 <= nsz.
Hypothesis Hs : (8 | s).
Hypothesis HB : B < u32_lim.
Hypothesis AO : AllocOK aa chk nsz nal s B nul I.
Hypothesis FR : FreeOK aa chk nsz s I.
Local Notation lstate := (lstate A T).
Local Notation LRep := (LRep s B I).

Lemma word_no_panic a (st : lstate) s' : get_word a st <> Panic s'.
Proof using. unfold get_word, bind, gets, or_ub. by destruct (load_word _ _). Qed.

(** *** When a check is off *)
Lemma iter_next_off narrow i (st : lstate) : @to_node A T nsz narrow = ret tt -> iter_next_r chk nsz narrow i st = iter_next chk i st.
Proof using. intros E. unfold iter_next_r. rewrite E. unfold bind. by destruct (iter_next chk i st) as [[[p|] j] s'|s'|]. Qed.
Lemma iter_loop_off narrow f : @to_node A T nsz narrow = ret tt -> forall i (st : lstate), iter_loop_r chk nsz narrow f i st = iter_loop chk nsz f i st.
Proof using.
  intros E. induction f as [|f IH]; intros i st; cbn [iter_loop iter_loop_r]; (apply bind_ext; [by apply iter_next_off|]); intros [[p|] j] s1 _; try done.
  cbn [fst snd]. apply bind_ext; [done|]. intros x s2 _. apply bind_ext; [apply IH|done].
Qed.
Lemma iter_mut_loop_off narrow f g : @to_node A T nsz narrow = ret tt -> forall i (st : lstate), iter_mut_loop_r chk nsz narrow f g i st = iter_mut_loop chk nsz f g i st.
Proof using.
  intros E. induction f as [|f IH]; intros i st; cbn [iter_mut_loop iter_mut_loop_r]; (apply bind_ext; [by apply iter_next_off|]); intros [[p|] j] s1 _; try done.
  cbn [fst snd]. apply bind_ext; [done|]. intros x s2 _. apply bind_ext; [done|]. intros [] s3 _. apply bind_ext; [apply IH|done].
Qed.
Lemma clear_loop_off narrow f : @to_value A T vsz narrow = ret tt -> forall p (st : lstate), clear_loop_r aa chk nsz vsz narrow f p st = clear_loop aa chk nsz f p st.
Proof using.
  intros E. induction f as [|f IH]; intros p st; cbn [clear_loop clear_loop_r]; [done|]. rewrite E.
  apply bind_ext; [done|]. intros sn s0 _. destruct (p =? sn); [done|].
  apply bind_ext; [done|]. intros n s1 _. change (bind (ret tt) ?g s1) with (g tt s1). cbn beta.
  apply bind_ext; [done|]. intros x s2 _. apply bind_ext; [done|]. intros [] s3 _. apply bind_ext; [done|]. intros [] s4 _. apply IH.
Qed.
Lemma extend_off xs : forall st : lstate, extend_r aa chk nsz nal false xs st = extend aa chk nsz nal xs st.
Proof using.
  induction xs as [|x xs IH]; intros st; [done|]. cbn [extend extend_r]. apply bind_ext; [done|]. intros [] s1 _. apply IH.
Qed.

(** *** The elements *)
Definition whole : bool := (0 <? nsz) && (16 <? 0 + nsz).
Definition element : bool := (0 <? vsz) && (16 <? 16 + vsz).
Lemma whole_eq : whole = (16 <? nsz).
Proof using. unfold whole. lia. Qed.
Lemma element_eq : element = (0 <? vsz).
Proof using. unfold element. lia. Qed.
Lemma to_node_on (st : lstate) : @to_node A T nsz true st = if whole then UB else Ok tt st.
Proof using. unfold to_node, reach, whole. cbn [andb]. by destruct (_ && _). Qed.
Lemma to_value_on (st : lstate) : @to_value A T vsz true st = if element then UB else Ok tt st.
Proof using. unfold to_value, reach, element. cbn [andb]. by destruct (_ && _). Qed.

Lemma at_place_on {R} (c : M lstate unit) (e : bool) (f : option Z -> M lstate R) o (st : lstate) :
  (forall st, c st = if e then UB else Ok tt st) -> at_place c f o st = if match o with None => false | _ => e end then UB else f o st.
Proof using. intros E. destruct o; [|done]. cbn. unfold bind. rewrite E. by destruct e. Qed.

Lemma remove_on p (st : lstate) x st' : remove_node aa chk nsz p st = Ok x st' ->
  remove_node_r aa chk nsz vsz false true p st = if element then UB else remove_node aa chk nsz p st.
Proof using.
  unfold remove_node at 1. intros E. apply bind_inv in E as ([] & s1 & E & _).
  unfold remove_node_r, remove_node. change (node_remove_r false p) with (@node_remove A T p).
  rewrite !(bind_of _ _ _ _ _ E). unfold bind at 1. rewrite to_value_on. by destruct element.
Qed.

Lemma none_places (xs : list T) (ps : list Z) : length ps = length xs -> none ps = none xs.
Proof using. destruct ps, xs; done. Qed.

Lemma iter_first st xs ps i : LRep st xs ps -> iter st = Ok i st -> exists j,
  iter_next chk i st = Ok (head ps, j) st.
Proof using Hsz Hs HB AO FR.
  intros H E. pose proof (rep_fwd _ _ _ _ _ _ H) as AT. pose proof H as [EN ES HI R V LB].
  unfold iter, size_, bind, gets, ret in E. injection E as <-. rewrite EN, ES.
  rewrite (iter_next_ok aa chk nsz nal s B nul I Hsz Hs HB AO _ _ _ _ _ _ HI AT ltac:(constructor) ltac:(done) LB). destruct ps; eauto.
Qed.

Lemma first_none st xs ps : LRep st xs ps -> (first_of s ps =? s) = none ps /\ (last_of s ps =? s) = none ps.
Proof using AO Hsz.
  intros [EN ES HI R V LB]. split.
  - destruct ps as [|p ps]; cbn; [lia|]. apply Z.eqb_neq. eapply (alloc_ne aa chk nsz nal s B nul I Hsz AO); [exact HI|constructor].
  - unfold last_of. destruct ps as [|p ps _] using rev_ind; [cbn; lia|]. rewrite List.last_last. replace (none (ps ++ [p])) with false by (by destruct ps).
    apply Z.eqb_neq. eapply (alloc_ne aa chk nsz nal s B nul I Hsz AO); [exact HI|]. apply elem_of_app. right. constructor.
Qed.
Local Notation ends_ := (ends aa chk nsz nal s B nul I Hsz Hs AO).

Lemma pops_narrow st xs ps : LRep st xs ps ->
  pop_back_r aa chk nsz vsz false true st = (if negb (none ps) && element then UB else pop_back aa chk nsz st) /\
  pop_front_r aa chk nsz vsz false true st = (if negb (none ps) && element then UB else pop_front aa chk nsz st).
Proof using Hsz Hs HB AO FR.
  intros H. pose proof H as [EN ES HI R V LB]. destruct (first_none _ _ _ H) as [F1 F2].
  destruct (pop_back_ok _ _ _ _ _ _ _ _ Hsz Hs HB AO _ _ _ FR H) as (st1 & E1 & _).
  destruct (pop_front_ok _ _ _ _ _ _ _ _ Hsz Hs HB AO _ _ _ FR H) as (st2 & E2 & _).
  unfold pop_back, pop_front, pop_back_r, pop_front_r in *.
  rewrite !(bind_of (gets l_node) _ st s st) in * by (unfold gets; by rewrite EN).
  rewrite !(bind_of _ _ _ _ _ (proj2 (ends_ _ _ _ H))) in *. rewrite !(bind_of _ _ _ _ _ (proj1 (ends_ _ _ _ H))) in *.
  rewrite F1, F2 in *. destruct (none ps); [done|]. cbn [negb andb].
  apply bind_inv in E1 as (x1 & s1 & E1 & _). apply bind_inv in E2 as (x2 & s2 & E2 & _).
  split.
  - unfold bind at 1. rewrite (remove_on _ _ _ _ E1). destruct element; [done|]. by unfold bind.
  - unfold bind at 1. rewrite (remove_on _ _ _ _ E2). destruct element; [done|]. by unfold bind.
Qed.

Lemma clear_narrow st xs ps : LRep st xs ps ->
  clear_r aa chk nsz vsz true st = if negb (none ps) && element then UB else clear aa chk nsz st.
Proof using Hsz Hs HB AO FR.
  intros H. pose proof H as [EN ES HI R V LB]. destruct (first_none _ _ _ H) as [F1 F2].
  pose proof (rep_fuel _ _ _ _ _ _ _ _ AO _ _ _ H) as FU. unfold clear, clear_r.
  rewrite !(bind_of (gets l_node) _ st s st) by (unfold gets; by rewrite EN).
  rewrite !(bind_of _ _ _ _ _ (proj1 (ends_ _ _ _ H))).
  rewrite !(bind_of (gets l_mem) _ st (l_mem st) st) by done.
  destruct element eqn:EE.
  - rewrite andb_true_r. destruct ps as [|p ps]; cbn [none negb].
    + apply bind_ext; [|done]. cbn [first_of hd]. destruct (size _); cbn [clear_loop clear_loop_r]; unfold bind, gets; by rewrite EN, Z.eqb_refl.
    + unfold bind at 1. destruct (size _) as [|f]; [cbn in FU; lia|]. cbn [clear_loop_r].
      rewrite (bind_of (gets l_node) _ st s st) by (unfold gets; by rewrite EN). rewrite F1. cbn [none].
      rewrite (bind_no_panic (get_next _)); [done|intros; apply word_no_panic|]. intros n s1 _. unfold bind. by rewrite to_value_on, EE.
  - rewrite andb_false_r. apply bind_ext; [|done]. apply clear_loop_off. unfold to_value, reach. cbn [andb]. unfold element in EE. by rewrite EE.
Qed.

Lemma iters_narrow st xs ps g : LRep st xs ps ->
  iter_all_r chk nsz true st = (if negb (none ps) && whole then UB else iter_all chk nsz st) /\
  iter_mut_all_r chk nsz true g st = (if negb (none ps) && whole then UB else iter_mut_all chk nsz g st).
Proof using Hsz Hs HB AO FR.
  intros H. unfold iter_all_r, iter_mut_all_r, iter_all, iter_mut_all.
  assert (exists i, iter st = Ok i st) as (i & Ei) by (unfold iter, size_, bind, gets, ret; eauto).
  rewrite !(bind_of _ _ _ _ _ Ei). rewrite !(bind_of (gets l_mem) _ st (l_mem st) st) by done.
  destruct (iter_first _ _ _ _ H Ei) as (j & Ej).
  destruct whole eqn:EW.
  - rewrite andb_true_r. 
    assert (EN : iter_next_r chk nsz true i st = if negb (none ps) then UB else Ok (None, j) st).
    { unfold iter_next_r. rewrite (bind_of _ _ _ _ _ Ej). cbn [fst]. destruct ps; cbn [head none negb]; [done|]. unfold bind. by rewrite to_node_on, EW. }
    destruct (size _); cbn [iter_loop_r iter_mut_loop_r iter_loop iter_mut_loop];
      split; unfold bind at 1; rewrite EN; destruct ps; cbn [none negb]; try done; rewrite (bind_of _ _ _ _ _ Ej); done.
  - rewrite andb_false_r. assert (E : @to_node A T nsz true = ret tt) by (unfold to_node, reach; cbn [andb]; unfold whole in EW; by rewrite EW).
    by rewrite iter_loop_off, iter_mut_loop_off.
Qed.

Lemma call_narrow c st xs ps : LRep st xs ps ->
  l_call_r aa chk nsz nal vsz false true c st = if uses_element whole element c xs then UB else l_call aa chk nsz nal c st.
Proof using Hsz Hs HB AO FR.
  intros H. pose proof H as [EN ES HI R V LB]. pose proof (Forall2_length _ _ _ V) as LP. unfold uses_element. rewrite <- (none_places _ _ LP).
  assert (NL : negb (none ps) = match last ps with None => false | _ => true end).
  { destruct ps as [|p ps _] using rev_ind; [done|]. rewrite last_snoc. by destruct ps. }
  assert (NH : negb (none ps) = match head ps with None => false | _ => true end) by (by destruct ps).
  pose proof (front_place_ok aa chk nsz nal s B nul I Hsz Hs AO _ _ _ H) as FP. pose proof (back_place_ok aa chk nsz nal s B nul I Hsz Hs AO _ _ _ H) as BP.
  destruct c as [x|x| | | | |x|x| | | | | |ys| |g]; cbn [l_call l_call_r]; rewrite ?andb_false_r; try done.
  - unfold bind at 1. rewrite (proj1 (pops_narrow _ _ _ H)). destruct (_ && _); [done|]. by unfold bind.
  - unfold bind at 1. rewrite (proj2 (pops_narrow _ _ _ H)). destruct (_ && _); [done|]. by unfold bind.
  - rewrite !(bind_of _ _ _ _ _ FP). unfold bind at 1. rewrite (at_place_on _ whole _ _ _ to_node_on). rewrite NH. destruct (head ps), whole; by unfold bind.
  - rewrite !(bind_of _ _ _ _ _ BP). unfold bind at 1. rewrite (at_place_on _ element _ _ _ to_value_on). rewrite NL. destruct (last ps), element; by unfold bind.
  - rewrite !(bind_of _ _ _ _ _ FP). unfold bind at 1. rewrite (at_place_on _ element _ _ _ to_value_on). rewrite NH. destruct (head ps), element; by unfold bind.
  - rewrite !(bind_of _ _ _ _ _ BP). unfold bind at 1. rewrite (at_place_on _ element _ _ _ to_value_on). rewrite NL. destruct (last ps), element; by unfold bind.
  - unfold bind at 1. rewrite (clear_narrow _ _ _ H). destruct (_ && _); [done|]. by unfold bind.
  - unfold bind at 1. rewrite (proj1 (iters_narrow _ _ _ id H)). destruct (_ && _); [done|]. by unfold bind.
  - unfold bind at 1. rewrite (proj2 (iters_narrow _ _ _ g H)). destruct (_ && _); [done|]. by unfold bind.
Qed.

(** *** The list object *)
Lemma stored_on a (st : lstate) : l_node st = s -> @stored A T true a st = if a =? s then UB else Ok tt st.
Proof using. intros E. unfold stored, bind, gets. rewrite E. by destruct (_ =? _). Qed.

Lemma insert_on fresh (st : lstate) p nx pv : l_node st = s ->
  word_at (l_mem st) p = true -> word_at (l_mem st) (p + 8) = true -> word_at (l_mem st) (nx + 8) = true -> word_at (l_mem st) pv = true ->
  p <> nx -> p <> nx + 8 -> m_word (l_mem st) !! (nx + 8) = Some pv ->
  node_insert_r true fresh p nx st = if (pv =? s) || (negb fresh && (nx =? s)) then UB else node_insert p nx st.
Proof using.
  intros EN W1 W2 W3 W4 N1 N2 E. rewrite (node_insert_ok _ _ _ pv) by done. unfold node_insert_r, set_next, set_prev, get_prev.
  unfold bind at 1. rewrite put_word_ok by done.
  unfold bind at 1. rewrite (get_word_ok _ _ pv) by (first [done|cbn; by rewrite !lookup_insert_ne by lia]).
  unfold bind at 1. rewrite put_word_ok by done.
  unfold bind at 1. rewrite (get_word_ok _ _ pv) by (first [done|cbn; by rewrite !lookup_insert_ne by lia]).
  unfold bind at 1. rewrite stored_on by done. destruct (pv =? s); [done|]. cbn [orb].
  unfold bind at 1. rewrite put_word_ok by done.
  destruct fresh; cbn [negb andb].
  - unfold bind at 1, ret at 1. by rewrite put_word_ok.
  - unfold bind at 1. rewrite stored_on by done. destruct (nx =? s); [done|]. by rewrite put_word_ok.
Qed.

Lemma pushes_on st xs ps x : LRep st xs ps -> Z.of_nat (length xs) < B ->
  (nul = true /\ exists st', LRep st' xs ps /\ push_back aa chk nsz nal x st = Panic st' /\ push_front aa chk nsz nal x st = Panic st' /\
     push_back_r aa chk nsz nal true x st = Panic st' /\ push_front_r aa chk nsz nal true x st = Panic st') \/
  ((exists st1 ps1, push_back aa chk nsz nal x st = Ok tt st1 /\ LRep st1 (xs ++ [x]) ps1) /\
   (exists st2 ps2, push_front aa chk nsz nal x st = Ok tt st2 /\ LRep st2 (x :: xs) ps2) /\
   push_back_r aa chk nsz nal true x st = (if none ps then UB else push_back aa chk nsz nal x st) /\
   push_front_r aa chk nsz nal true x st = UB).
Proof using Hsz Hs HB AO FR.
  intros H LT. destruct (first_none _ _ _ H) as [F1 F2]. unfold push_back_r, push_front_r, push_back, push_front.
  destruct (create_ok aa chk nsz nal s B nul I AO _ _ _ x H LT) as [(E0 & st' & E & H' & _)|(p & st' & E & EN & ES & HI & R & V & D)].
  { left. split; [done|]. exists st'. split; [done|]. unfold bind. by rewrite E. }
  right.
  destruct (link_ok _ _ _ _ _ _ _ _ Hsz Hs HB AO _ _ _ _ _ _ _ true EN ES HI R V LT eq_refl) as (st1 & E1 & H1 & _).
  destruct (link_ok _ _ _ _ _ _ _ _ Hsz Hs HB AO _ _ _ _ _ _ _ false EN ES HI R V LT eq_refl) as (st2 & E2 & H2 & _).
  rewrite !(bind_of _ _ _ _ _ E). rewrite !(bind_of (gets l_node) _ st' s st') by (unfold gets; by rewrite EN).
  assert (ND : NoDup (s :: p :: ps)) by (by eapply alloc_nodup).
  assert (SP : sep (s :: p :: ps)) by (by eapply alloc_sep).
  assert (NI : p ∉ s :: ps).
  { apply NoDup_cons in ND as [N1 ND]. apply NoDup_cons in ND as [N2 _]. intros HH. apply elem_of_cons in HH as [-> |HH]; [apply N1; constructor|done]. }
  assert (UP : forall y, y ∈ s :: ps -> y ∈ s :: p :: ps) by (intros y Hy; set_solver).
  assert (Hp : p ∈ s :: p :: ps) by set_solver.
  assert (WD : forall y, y ∈ s :: p :: ps -> word_at (l_mem st') y = true /\ word_at (l_mem st') (y + 8) = true) by (intros y; apply (alloc_words aa chk nsz nal s B nul I Hsz Hs AO _ _ _ _ HI)).
  pose proof (last_of_in s ps) as HL. pose proof (first_of_in s ps) as HF.
  assert (GN : get_next s st' = Ok (first_of s ps) st').
  { unfold get_next. apply get_word_ok; [apply WD; constructor|]. apply (ring_ends _ _ _ R). }
  split; [by exists st1, (ps ++ [p])|]. rewrite !(bind_of _ _ _ _ _ GN). split; [by exists st2, (p :: ps)|].
  split.
  - assert (EI : node_insert_r true true p s st' = if none ps then UB else node_insert p s st').
    { rewrite (insert_on true st' p s (last_of s ps)); [by rewrite F2, orb_false_r|done| | | | |by intros ->; apply NI; constructor|by apply SP; [|constructor]|apply (ring_ends _ _ _ R)];
        apply WD; auto. constructor. }
    unfold bind at 1. rewrite EI. destruct (none ps); [done|]. by unfold bind.
  - unfold bind at 1.
    rewrite (insert_on false st' p (first_of s ps) s).
    + by rewrite Z.eqb_refl.
    + done.
    + by apply WD.
    + by apply WD.
    + apply WD. auto.
    + apply WD. constructor.
    + by intros ->.
    + apply SP; auto.
    + destruct ps as [|q ps]; [apply (ring_ends _ _ _ R)|]. unfold ring in R. cbn in R. apply Forall_cons in R as [[_ R] _]. exact R.
Qed.

Lemma pops_on st xs ps : LRep st xs ps ->
  pop_back_r aa chk nsz vsz true false st = (if none ps then pop_back aa chk nsz st else UB) /\
  pop_front_r aa chk nsz vsz true false st = (if none ps then pop_front aa chk nsz st else UB).
Proof using Hsz Hs HB AO FR.
  intros H. pose proof H as [EN ES HI R V LB]. destruct (first_none _ _ _ H) as [F1 F2].
  unfold pop_back, pop_front, pop_back_r, pop_front_r in *.
  rewrite !(bind_of (gets l_node) _ st s st) in * by (unfold gets; by rewrite EN).
  rewrite !(bind_of _ _ _ _ _ (proj2 (ends_ _ _ _ H))) in *. rewrite !(bind_of _ _ _ _ _ (proj1 (ends_ _ _ _ H))) in *.
  rewrite F1, F2 in *.
  assert (ND : NoDup (s :: ps)) by (by eapply alloc_nodup).
  assert (SP : sep (s :: ps)) by (by eapply alloc_sep).
  assert (WD : forall y, y ∈ s :: ps -> word_at (l_mem st) y = true /\ word_at (l_mem st) (y + 8) = true) by (intros y; apply (alloc_words aa chk nsz nal s B nul I Hsz Hs AO _ _ _ _ HI)).
  destruct (none ps) eqn:NP; [done|]. split.
  - destruct ps as [|p ps _] using rev_ind; [done|]. unfold last_of. rewrite List.last_last.
    destruct (ring_pop_back _ _ _ _ ND SP R) as (_ & Ep & Ev & _).
    assert (Hp : p ∈ s :: ps ++ [p]) by (constructor; apply elem_of_app; right; constructor).
    unfold bind at 1, remove_node_r, bind at 1, node_remove_r, get_next, get_prev.
    rewrite (bind_of _ _ _ _ _ (get_word_ok _ _ _ (proj1 (WD _ Hp)) Ep)). rewrite (bind_of _ _ _ _ _ (get_word_ok _ _ _ (proj2 (WD _ Hp)) Ev)).
    unfold bind at 1. by rewrite stored_on, Z.eqb_refl.
  - destruct ps as [|p ps]; [done|]. cbn [first_of hd].
    destruct (ring_pop_front _ _ _ _ ND SP R) as (_ & Ep & Ev & _).
    assert (Hp : p ∈ s :: p :: ps) by (constructor; constructor).
    assert (Hn : first_of s ps ∈ s :: p :: ps) by (pose proof (first_of_in s ps); set_solver).
    unfold bind at 1, remove_node_r, bind at 1, node_remove_r, get_next, get_prev, set_prev.
    rewrite (bind_of _ _ _ _ _ (get_word_ok _ _ _ (proj1 (WD _ Hp)) Ep)). rewrite (bind_of _ _ _ _ _ (get_word_ok _ _ _ (proj2 (WD _ Hp)) Ev)).
    unfold bind at 1. rewrite stored_on by done. destruct (first_of s ps =? s) eqn:EF; [done|].
    assert (NE : p <> first_of s ps).
    { apply NoDup_cons in ND as [_ ND]. apply NoDup_cons in ND as [ND _]. intros ->. apply ND. pose proof (first_of_in s ps) as X. apply elem_of_cons in X as [X|X]; [lia|done]. }
    rewrite (bind_of _ _ _ _ _ (put_word_ok _ _ _ (proj2 (WD _ Hn)))).
    rewrite (bind_of _ _ _ _ _ (get_word_ok (setw st (<[first_of s ps + 8 := s]> (m_word (l_mem st)))) (p + 8) s (proj2 (WD _ Hp)) ltac:(cbn; by rewrite lookup_insert_ne by lia))).
    pose proof (SP _ _ Hp Hn) as NE8.
    rewrite (bind_of _ _ _ _ _ (get_word_ok (setw st (<[first_of s ps + 8 := s]> (m_word (l_mem st)))) p (first_of s ps) (proj1 (WD _ Hp)) ltac:(cbn; by rewrite lookup_insert_ne by lia))).
    unfold bind at 1. by rewrite stored_on, Z.eqb_refl.
Qed.

Lemma extend_more st xs ps ys : LRep st xs ps -> none xs = false -> Z.of_nat (length xs + length ys) <= B ->
  extend_r aa chk nsz nal true ys st = extend aa chk nsz nal ys st.
Proof using Hsz Hs HB AO FR.
  revert st xs ps. induction ys as [|y ys IH]; intros st xs ps H NP LE; [done|].
  cbn [length] in LE. cbn [extend extend_r]. assert (LT : Z.of_nat (length xs) < B) by lia.
  rewrite <- (none_places _ _ (Forall2_length _ _ _ (lr_vals _ _ _ _ _ _ H))) in NP.
  unfold bind, on_unwind.
  destruct (pushes_on _ _ _ y H LT) as [(_ & st' & _ & E1 & _ & E2 & _)|((st1 & ps1 & E1 & H1) & _ & E2 & _)]; rewrite E2; [by rewrite E1|].
  rewrite NP, E1. apply (IH _ _ _ H1); [by destruct xs|]. rewrite app_length. cbn. lia.
Qed.
Lemma extend_on st xs ps ys : LRep st xs ps -> Z.of_nat (length xs + length ys) <= B ->
  exists o xs' ps', (extend aa chk nsz nal ys st = Ok tt o \/ nul = true /\ extend aa chk nsz nal ys st = Panic o) /\ LRep o xs' ps' /\
    (extend aa chk nsz nal ys st = Ok tt o -> xs' = xs ++ ys) /\
    extend_r aa chk nsz nal true ys st = if (none xs && negb (none ys)) && negb (length xs =? length xs')%nat then UB else extend aa chk nsz nal ys st.
Proof using Hsz Hs HB AO FR.
  intros H LE. destruct (none xs) eqn:NX; cbn [andb].
  - destruct xs; [|done]. destruct ys as [|y ys].
    { exists st, [], ps. split; [by left|]. done. }
    cbn [length app] in *. cbn [none negb andb].
    destruct (pushes_on _ _ _ y H ltac:(cbn; lia)) as [(EN & st' & H' & E1 & _ & E2 & _)|((st1 & ps1 & E1 & H1) & _ & E2 & _)].
    + exists (logged ys st'), [], ps. cbn [extend extend_r]. unfold bind, on_unwind. rewrite E1, E2. split; [by right|]. split; [by apply rep_logged|]. done.
    + pose proof (Forall2_length _ _ _ (lr_vals _ _ _ _ _ _ H)) as LP. rewrite (none_places _ _ LP) in E2. cbn [none] in E2.
      assert (EQ : extend aa chk nsz nal (y :: ys) st = extend aa chk nsz nal ys st1) by (cbn [extend]; unfold bind, on_unwind; by rewrite E1).
      assert (ER : extend_r aa chk nsz nal true (y :: ys) st = UB) by (cbn [extend_r]; unfold bind, on_unwind; by rewrite E2).
      rewrite EQ, ER. destruct (extend_ok _ _ _ _ _ _ _ _ Hsz Hs HB AO _ _ _ ys H1 ltac:(cbn; lia)) as [(o & qs & E & HO & _)|(EN & k & o & qs & K & E & HO & _)].
      * exists o, ([] ++ [y] ++ ys), (ps1 ++ qs). split; [by left|]. split; [done|]. done.
      * exists o, ([] ++ [y] ++ take k ys), qs. split; [by right|]. split; [done|]. split; [by rewrite E|]. done.
  - rewrite (extend_more _ _ _ _ H NX LE).
    destruct (extend_ok _ _ _ _ _ _ _ _ Hsz Hs HB AO _ _ _ ys H LE) as [(o & qs & E & HO & _)|(EN & k & o & qs & K & E & HO & _)].
    + exists o, (xs ++ ys), (ps ++ qs). split; [by left|]. done.
    + exists o, (xs ++ take k ys), qs. split; [by right|]. split; [done|]. split; [by rewrite E|]. done.
Qed.

(** Every call, whether the allocator refuses or not. *)
Lemma call_own_at c st xs ps : LRep st xs ps -> Z.of_nat (length xs + length (pushed c)) <= B ->
  exists o xs' ps', ((exists a, l_call aa chk nsz nal c st = Ok a o) \/ nul = true /\ l_call aa chk nsz nal c st = Panic o) /\ LRep o xs' ps' /\
    (forall a, l_call aa chk nsz nal c st = Ok a o -> snd (spec_call c xs) = xs') /\
    l_call_r aa chk nsz nal vsz true false c st = if relinks_object c xs && negb (length xs =? length xs')%nat then UB else l_call aa chk nsz nal c st.
Proof using Hsz Hs HB AO FR.
  intros H LE. pose proof H as [EN ES HI R V LB]. pose proof (Forall2_length _ _ _ V) as LP.
  assert (OTHER : relinks_object c xs = false -> l_call_r aa chk nsz nal vsz true false c st = l_call aa chk nsz nal c st ->
    exists o xs' ps', ((exists a, l_call aa chk nsz nal c st = Ok a o) \/ nul = true /\ l_call aa chk nsz nal c st = Panic o) /\ LRep o xs' ps' /\
    (forall a, l_call aa chk nsz nal c st = Ok a o -> snd (spec_call c xs) = xs') /\
    l_call_r aa chk nsz nal vsz true false c st = if relinks_object c xs && negb (length xs =? length xs')%nat then UB else l_call aa chk nsz nal c st).
  { intros -> ->. destruct (call_ok _ _ _ _ _ _ _ _ Hsz Hs HB AO _ _ _ c H (fun _ => FR) LE) as [(o & qs & a & d & xs' & S & E & HO & _)|(E0 & k & o & qs & _ & E & HO & _)].
    - exists o, xs', qs. split; [left; by exists a|]. split; [done|]. split; [by rewrite S|done].
    - eexists o, _, qs. split; [by right|]. split; [done|]. split; [by rewrite E|done]. }
  destruct c as [x|x| | | | |x|x| | | | | |ys| |g]; cbn [relinks_object pushed length] in *; try (by apply OTHER).
  - clear OTHER. cbn [l_call l_call_r spec_call snd].
    destruct (pushes_on _ _ _ x H ltac:(lia)) as [(E0 & o & HO & E1 & _ & E2 & _)|((o & qs & E1 & HO) & _ & E2 & _)].
    + exists o, xs, ps. unfold bind. rewrite E1, E2, Nat.eqb_refl. cbn [negb]. rewrite andb_false_r. split; [by right|]. done.
    + exists o, (xs ++ [x]), qs. unfold bind. rewrite E2, <- (none_places _ _ LP), E1. rewrite app_length. cbn [length].
      rewrite (proj2 (Nat.eqb_neq (length xs) (length xs + 1))) by lia. cbn [negb]. rewrite andb_true_r.
      split; [left; by eexists|]. split; [done|]. split; [done|]. by destruct (none ps).
  - clear OTHER. cbn [l_call l_call_r spec_call snd].
    destruct (pushes_on _ _ _ x H ltac:(lia)) as [(E0 & o & HO & _ & E1 & _ & E2)|(_ & (o & qs & E1 & HO) & _ & E2)].
    + exists o, xs, ps. unfold bind. rewrite E1, E2, Nat.eqb_refl. split; [by right|]. done.
    + exists o, (x :: xs), qs. unfold bind. rewrite E2, E1. cbn [length]. rewrite (proj2 (Nat.eqb_neq (length xs) (S (length xs)))) by lia.
      split; [left; by eexists|]. done.
  - destruct xs as [|x xs]; [apply OTHER; [done|]; cbn [l_call l_call_r]; unfold bind; rewrite (proj1 (pops_on _ _ _ H)); by destruct ps|].
    destruct (call_ok _ _ _ _ _ _ _ _ Hsz Hs HB AO _ _ _ (@LPopBack T) H (fun _ => FR) LE) as [(o & qs & a & d & xs' & S & E & HO & _)|(_ & k & _ & _ & K & _)]; [|cbn in K; lia].
    exists o, xs', qs. rewrite E. split; [left; by eexists|]. split; [done|]. split; [by rewrite S|].
    pose proof (spec_len _ _ _ _ _ S) as L. cbn [len_call length] in L. cbn [l_call_r]. unfold bind. rewrite (proj1 (pops_on _ _ _ H)).
    rewrite (none_places _ _ LP). cbn [none negb length]. rewrite (proj2 (Nat.eqb_neq _ _)); [done|lia].
  - destruct xs as [|x xs]; [apply OTHER; [done|]; cbn [l_call l_call_r]; unfold bind; rewrite (proj2 (pops_on _ _ _ H)); by destruct ps|].
    destruct (call_ok _ _ _ _ _ _ _ _ Hsz Hs HB AO _ _ _ (@LPopFront T) H (fun _ => FR) LE) as [(o & qs & a & d & xs' & S & E & HO & _)|(_ & k & _ & _ & K & _)]; [|cbn in K; lia].
    exists o, xs', qs. rewrite E. split; [left; by eexists|]. split; [done|]. split; [by rewrite S|].
    pose proof (spec_len _ _ _ _ _ S) as L. cbn [len_call length] in L. cbn [l_call_r]. unfold bind. rewrite (proj2 (pops_on _ _ _ H)).
    rewrite (none_places _ _ LP). cbn [none negb length]. rewrite (proj2 (Nat.eqb_neq _ _)); [done|lia].
  - clear OTHER. cbn [l_call l_call_r spec_call snd].
    destruct (extend_on _ _ _ ys H LE) as (o & xs' & qs & E & HO & S & ER). exists o, xs', qs. unfold bind. rewrite ER.
    split; [|split; [done|]]; [|split].
    + destruct E as [-> |[E0 ->]]; [left; by eexists|by right].
    + intros a Ea. destruct E as [E|[_ E]]; rewrite E in Ea; [|done]. by rewrite S.
    + by destruct (_ && _).
  - apply OTHER; [done|]. apply bind_ext; [|done]. unfold iter_all_r, iter_all. do 2 (apply bind_ext; [done|]; intros ? ? _). by apply iter_loop_off.
  - apply OTHER; [done|]. apply bind_ext; [|done]. unfold iter_mut_all_r, iter_mut_all. do 2 (apply bind_ext; [done|]; intros ? ? _). by apply iter_mut_loop_off.
Qed.
Lemma relinks_len (c : lcall T) xs : relinks_object c xs = true -> length (snd (spec_call c xs)) <> length xs.
Proof using.
  destruct (spec_call c xs) as [[a d] xs'] eqn:S. cbn [snd]. rewrite (spec_len _ _ _ _ _ S).
  destruct c as [x|x| | | | |x|x| | | | | |ys| |g]; cbn; try done; try lia.
  - destruct xs; cbn; [done|lia].
  - destruct xs; cbn; [done|lia].
  - destruct ys; [by rewrite andb_false_r|]. cbn. lia.
Qed.
Lemma call_own c st xs ps : nul = false -> LRep st xs ps -> Z.of_nat (length xs + length (pushed c)) <= B ->
  l_call_r aa chk nsz nal vsz true false c st = if relinks_object c xs then UB else l_call aa chk nsz nal c st.
Proof using Hsz Hs HB AO FR.
  intros N H LE. destruct (call_own_at c _ _ _ H LE) as (o & xs' & qs & [(a & E)|(E0 & _)] & _ & S & ->); [|by rewrite N in E0].
  specialize (S _ E). destruct (relinks_object c xs) eqn:RE; [|done]. apply relinks_len in RE. rewrite S in RE.
  rewrite (proj2 (Nat.eqb_neq _ _)) by lia. done.
Qed.

(** *** Programs *)
Lemma runs_on own narrow (f : lcall T -> list T -> bool) cs : nul = false ->
  (forall c st xs ps, LRep st xs ps -> Z.of_nat (length xs + length (pushed c)) <= B ->
     l_call_r aa chk nsz nal vsz own narrow c st = if f c xs then UB else l_call aa chk nsz nal c st) ->
  forall st xs ps, LRep st xs ps -> Z.of_nat (peak cs (length xs)) <= B ->
  l_run_r aa chk nsz nal vsz own narrow cs st = if some_call f cs xs then None else l_run aa chk nsz nal cs st.
Proof using Hsz Hs HB AO FR.
  intros N HC. induction cs as [|c cs IH]; intros st xs ps H LE; [done|]. cbn [l_run_r l_run some_call peak] in *.
  assert (LC : Z.of_nat (length xs + length (pushed c)) <= B).
  { destruct (len_call_ge c (length xs)) as [[_ ->]|E]; [cbn; pose proof (lr_bound _ _ _ _ _ _ H); lia|]. rewrite <- E. pose proof (peak_ge cs (len_call c (length xs))). lia. }
  rewrite (HC _ _ _ _ H LC). destruct (f c xs); [done|]. cbn [orb].
  destruct (call_ok _ _ _ _ _ _ _ _ Hsz Hs HB AO _ _ _ c H (fun _ => FR) LC) as [(st' & ps' & a & d & xs' & ES & E & H' & _)|(E0 & _)]; [|by rewrite N in E0].
  rewrite E, ES. cbn [snd]. rewrite (IH _ _ _ H') by (rewrite (spec_len _ _ _ _ _ ES); lia). by destruct (some_call f cs xs').
Qed.
End list_refs.

Lemma peak_app {T} (a b : list (lcall T)) : forall xs, (peak a (length xs) <= peak (a ++ b) (length xs))%nat /\
  (peak b (length (snd (spec_run a xs))) <= peak (a ++ b) (length xs))%nat.
Proof.
  induction a as [|c a IH]; intros xs; [split; [apply peak_ge|done]|]. cbn [app peak spec_run].
  destruct (spec_call c xs) as [[w d] xs1] eqn:E. pose proof (spec_len _ _ _ _ _ E) as L. destruct (IH xs1) as [H1 H2].
  destruct (spec_run a xs1) as [[w2 d2] xs2]. cbn [snd] in *. rewrite L in *. lia.
Qed.

Lemma built_rep {T} (pick : mem T -> Z -> Z -> Z) chk nsz nal obj m0 (prog prog' : list (lcall T)) l s :
  ListSetup m0 obj 24 nsz nal -> honest pick -> room pick (m_live m0) nsz nal (peak (prog ++ prog') 0) -> short (prog ++ prog') ->
  built pick false chk nsz nal obj m0 prog l s ->
  exists ps, 16 <= nsz /\ Z.of_nat (peak (prog ++ prog') 0) < u32_lim /\
    AllocOK (DefaultAddrAlloc pick false) chk nsz nal obj (Z.of_nat (peak (prog ++ prog') 0)) false (DI nsz nal m0) /\
    FreeOK (DefaultAddrAlloc pick false) chk nsz obj (DI nsz nal m0) /\
    LRep obj (Z.of_nat (peak (prog ++ prog') 0)) (DI nsz nal m0) s (snd (spec_run prog [])) ps /\
    (peak prog' (length (snd (spec_run prog []))) <= peak (prog ++ prog') 0)%nat.
Proof.
  intros LS HP HR SH (s0 & E0 & E1). pose proof (list_layout_facts _ _ (ls_node _ _ _ _ _ LS)) as (_ & (Z16 & _) & _).
  pose proof (peak_app prog prog' []) as [P1 P2]. cbn [length] in P1, P2.
  set (B := peak (prog ++ prog') 0) in *.
  assert (HL : Z.of_nat B < u32_lim) by exact SH.
  assert (AO := default_ok pick false chk nsz nal obj 24 m0 false B LS HP (fun _ => HR) ltac:(lia)).
  assert (FR := default_frees pick false chk nsz nal obj 24 m0 false B LS (fun _ => HR) eq_refl).
  destruct (new_ok pick nsz nal obj 24 m0 false B LS (fun _ => HR) ltac:(lia)) as (s0' & E0' & R0 & _).
  rewrite E0 in E0'. injection E0' as <-.
  destruct (run_ok _ _ _ _ _ _ _ _ Z16 (ls_align _ _ _ _ _ LS) HL AO prog s0 [] [] R0 (fun _ => FR)) as (l' & s' & ps & xs & d & E2 & R & _ & _ & S); [cbn [length]; lia|].
  rewrite E1 in E2. injection E2 as <- <-. destruct (S eq_refl) as [ES _]. rewrite ES in P2 |- *. cbn [snd] in *.
  exists ps. done.
Qed.
Lemma built_on {T} (pick : mem T -> Z -> Z -> Z) chk nsz nal vsz obj m0 (prog prog' : list (lcall T)) l s :
  ListSetup m0 obj 24 nsz nal -> honest pick -> room pick (m_live m0) nsz nal (peak (prog ++ prog') 0) -> short (prog ++ prog') ->
  built pick false chk nsz nal obj m0 prog l s ->
  (l_run_r (DefaultAddrAlloc pick false) chk nsz nal vsz true false prog' s =
     if some_call relinks_object prog' (snd (spec_run prog [])) then None else l_run (DefaultAddrAlloc pick false) chk nsz nal prog' s) /\
  (l_run_r (DefaultAddrAlloc pick false) chk nsz nal vsz false true prog' s =
     if some_call (uses_element (16 <? nsz) (0 <? vsz)) prog' (snd (spec_run prog [])) then None else l_run (DefaultAddrAlloc pick false) chk nsz nal prog' s).
Proof.
  intros LS HP HR SH HBU. destruct (built_rep pick chk nsz nal obj m0 prog prog' l s LS HP HR SH HBU) as (ps & Z16 & HL & AO & FR & R & P).
  split.
  - apply (runs_on _ _ _ _ vsz _ _ _ _ Z16 (ls_align _ _ _ _ _ LS) HL AO FR true false relinks_object prog' eq_refl) with (ps := ps); [|done|lia].
    intros c st ys qs H LE. exact (call_own _ _ _ _ vsz _ _ _ _ Z16 (ls_align _ _ _ _ _ LS) HL AO FR c st ys qs eq_refl H LE).
  - apply (runs_on _ _ _ _ vsz _ _ _ _ Z16 (ls_align _ _ _ _ _ LS) HL AO FR false true _ prog' eq_refl) with (ps := ps); [|done|lia].
    intros c st ys qs H LE. rewrite (call_narrow _ _ _ _ vsz _ _ _ _ Z16 (ls_align _ _ _ _ _ LS) HL AO FR c st ys qs H).
    by rewrite whole_eq, element_eq.
Qed.

(** Fixed lists of both kinds. *)
Lemma fx_rep {T} (pick : mem T -> Z -> Z -> Z) chk nsz nal obj n bytes base len m0 (prog prog' : list (lcall T)) s0 l s :
  FX m0 nsz nal obj n bytes base len -> honest pick -> room pick (m_live m0) nsz nal (peak (prog ++ prog') 0) -> short (prog ++ prog') ->
  fixed_new_at chk nsz nal obj base len m0 = Ok tt s0 -> l_run (FixedListAlloc pick false chk nsz nal) chk nsz nal prog s0 = Some (l, s) ->
  exists ps, 16 <= nsz /\ (8 | obj) /\ Z.of_nat (peak (prog ++ prog') 0) < u32_lim /\
    AllocOK (FixedListAlloc pick false chk nsz nal) chk nsz nal obj (Z.of_nat (peak (prog ++ prog') 0)) false (GI nsz nal base len (l_mem s0)) /\
    FreeOK (FixedListAlloc pick false chk nsz nal) chk nsz obj (GI nsz nal base len (l_mem s0)) /\
    LRep obj (Z.of_nat (peak (prog ++ prog') 0)) (GI nsz nal base len (l_mem s0)) s (snd (spec_run prog [])) ps /\
    (peak prog' (length (snd (spec_run prog []))) <= peak (prog ++ prog') 0)%nat.
Proof.
  intros H HP HR SH E0 E1. pose proof (peak_app prog prog' []) as [P1 P2]. cbn [length] in P1, P2.
  set (B := peak (prog ++ prog') 0) in *. assert (HL : Z.of_nat B < u32_lim) by exact SH.
  destruct (fx_new chk nsz nal obj n bytes base len m0 H s0 E0) as (D0 & EL & ET & (LS & PS & HO & H16 & HC & PAD) & _ & R0).
  specialize (R0 (Z.of_nat B) ltac:(lia)). rewrite <- EL in HR.
  assert (AO := general_ok pick false chk nsz nal obj bytes base len (l_mem s0) LS PS H16 HO HP PAD false B (fun _ => HR)).
  assert (FR := general_frees pick false chk nsz nal obj bytes base len (l_mem s0) LS PS H16 HO HP PAD false B (fun _ => HR) eq_refl).
  pose proof (fx_sz nsz nal obj n bytes base len m0 H) as Z16. pose proof (fx_al nsz nal obj n bytes base len m0 H) as AL.
  destruct (run_ok _ _ _ _ _ _ _ _ Z16 AL HL AO prog s0 [] [] R0 (fun _ => FR)) as (l' & s' & ps & xs & d & E2 & R & _ & _ & S); [cbn [length]; lia|].
  rewrite E1 in E2. injection E2 as <- <-. destruct (S eq_refl) as [ES _]. rewrite ES in P2 |- *. cbn [snd] in *.
  exists ps. done.
Qed.
Lemma fx_on {T} (pick : mem T -> Z -> Z -> Z) chk nsz nal vsz obj n bytes base len m0 (prog prog' : list (lcall T)) s0 l s :
  FX m0 nsz nal obj n bytes base len -> honest pick -> room pick (m_live m0) nsz nal (peak (prog ++ prog') 0) -> short (prog ++ prog') ->
  fixed_new_at chk nsz nal obj base len m0 = Ok tt s0 -> l_run (FixedListAlloc pick false chk nsz nal) chk nsz nal prog s0 = Some (l, s) ->
  (l_run_r (FixedListAlloc pick false chk nsz nal) chk nsz nal vsz true false prog' s =
     if some_call relinks_object prog' (snd (spec_run prog [])) then None else l_run (FixedListAlloc pick false chk nsz nal) chk nsz nal prog' s) /\
  (l_run_r (FixedListAlloc pick false chk nsz nal) chk nsz nal vsz false true prog' s =
     if some_call (uses_element (16 <? nsz) (0 <? vsz)) prog' (snd (spec_run prog [])) then None else l_run (FixedListAlloc pick false chk nsz nal) chk nsz nal prog' s) /\
  list_drop_r (FixedListAlloc pick false chk nsz nal) chk nsz vsz true s =
    match snd (spec_run prog []) with
    | [] => list_drop (FixedListAlloc pick false chk nsz nal) chk nsz s
    | _ => if 0 <? vsz then UB else list_drop (FixedListAlloc pick false chk nsz nal) chk nsz s
    end.
Proof.
  intros H HP HR SH E0 E1. destruct (fx_rep pick chk nsz nal obj n bytes base len m0 prog prog' s0 l s H HP HR SH E0 E1) as (ps & Z16 & AL & HL & AO & FR & R & P).
  split; [|split].
  - apply (runs_on _ _ _ _ vsz _ _ _ _ Z16 AL HL AO FR true false relinks_object prog' eq_refl) with (ps := ps); [|done|lia].
    intros c st ys qs H0 LE. exact (call_own _ _ _ _ vsz _ _ _ _ Z16 AL HL AO FR c st ys qs eq_refl H0 LE).
  - apply (runs_on _ _ _ _ vsz _ _ _ _ Z16 AL HL AO FR false true _ prog' eq_refl) with (ps := ps); [|done|lia].
    intros c st ys qs H0 LE. rewrite (call_narrow _ _ _ _ vsz _ _ _ _ Z16 AL HL AO FR c st ys qs H0).
    by rewrite whole_eq, element_eq.
  - unfold list_drop_r, list_drop. rewrite (clear_narrow _ _ _ _ vsz _ _ _ _ Z16 AL HL AO FR _ _ _ R), element_eq.
    rewrite (none_places _ _ (Forall2_length _ _ _ (lr_vals _ _ _ _ _ _ R))). by destruct (snd (spec_run prog [])).
Qed.

(** With an allocator that may refuse. *)
Lemma at_on {A T} (aa : AddrAlloc A T) chk nsz nal vsz obj B I (c : lcall T) st xs ps0 xs0 : 16 <= nsz -> (8 | obj) -> B + Z.of_nat (length (pushed c)) < u32_lim -> 0 <= B ->
  AllocOK aa chk nsz nal obj (B + Z.of_nat (length (pushed c))) true I -> FreeOK aa chk nsz obj I -> LRep obj B I st xs0 ps0 -> contents chk nsz st xs ->
  (exists s' xs', ((exists a, l_call aa chk nsz nal c st = Ok a s') \/ l_call aa chk nsz nal c st = Panic s') /\ contents chk nsz s' xs' /\
    l_call_r aa chk nsz nal vsz true false c st = if relinks_object c xs && negb (length xs =? length xs')%nat then UB else l_call aa chk nsz nal c st) /\
  l_call_r aa chk nsz nal vsz false true c st = (if uses_element (16 <? nsz) (0 <? vsz) c xs then UB else l_call aa chk nsz nal c st) /\
  list_drop_r aa chk nsz vsz true st = match xs with [] => list_drop aa chk nsz st | _ => if 0 <? vsz then UB else list_drop aa chk nsz st end.
Proof.
  intros Z16 AL HL HB AO FR R HC.
  assert (R' : LRep obj (B + Z.of_nat (length (pushed c))) I st xs0 ps0) by (eapply lrep_mono; [exact R|]; pose proof (lr_bound _ _ _ _ _ _ R); lia).
  pose proof (lr_bound _ _ _ _ _ _ R) as LB.
  pose proof (rep_contents aa chk nsz nal obj _ true I Z16 AL HL AO _ _ _ R') as HC'. unfold contents in HC, HC'. rewrite HC in HC'. injection HC' as <-.
  split; [|split].
  - destruct (call_own_at aa chk nsz nal vsz obj _ true I Z16 AL HL AO FR c st xs ps0 R' ltac:(lia)) as (o & xs' & qs & E & HO & _ & ER).
    exists o, xs'. split; [destruct E as [E|[_ E]]; [by left|by right]|]. split; [|done]. by eapply (rep_contents aa chk nsz nal obj _ true I Z16 AL HL AO).
  - rewrite (call_narrow aa chk nsz nal vsz obj _ true I Z16 AL HL AO FR c st xs ps0 R'). by rewrite whole_eq, element_eq.
  - unfold list_drop_r, list_drop. rewrite (clear_narrow aa chk nsz nal vsz obj _ true I Z16 AL HL AO FR _ _ _ R'), element_eq.
    rewrite (none_places _ _ (Forall2_length _ _ _ (lr_vals _ _ _ _ _ _ R'))). by destruct xs.
Qed.
Lemma built_at {T} (pick : mem T -> Z -> Z -> Z) chk nsz nal vsz obj m0 (prog : list (lcall T)) c l s xs :
  ListSetup m0 obj 24 nsz nal -> honest pick -> Z.of_nat (peak prog 0 + length (pushed c)) < u32_lim ->
  built pick false chk nsz nal obj m0 prog l s -> contents chk nsz s xs ->
  (exists s' xs', ((exists a, l_call (DefaultAddrAlloc pick false) chk nsz nal c s = Ok a s') \/ l_call (DefaultAddrAlloc pick false) chk nsz nal c s = Panic s') /\ contents chk nsz s' xs' /\
    l_call_r (DefaultAddrAlloc pick false) chk nsz nal vsz true false c s = if relinks_object c xs && negb (length xs =? length xs')%nat then UB else l_call (DefaultAddrAlloc pick false) chk nsz nal c s) /\
  l_call_r (DefaultAddrAlloc pick false) chk nsz nal vsz false true c s = (if uses_element (16 <? nsz) (0 <? vsz) c xs then UB else l_call (DefaultAddrAlloc pick false) chk nsz nal c s) /\
  list_drop_r (DefaultAddrAlloc pick false) chk nsz vsz true s = match xs with [] => list_drop (DefaultAddrAlloc pick false) chk nsz s | _ => if 0 <? vsz then UB else list_drop (DefaultAddrAlloc pick false) chk nsz s end.
Proof.
  intros LS HP SH HB HC. assert (SH' : short prog) by (unfold short; lia).
  destruct (def_built pick false chk nsz nal obj m0 prog LS HP SH' (or_introl eq_refl) l s HB) as (xs0 & ps & R & _).
  assert (AO := default_ok pick false chk nsz nal obj 24 m0 true (peak prog 0 + length (pushed c)) LS HP ltac:(done) ltac:(lia)). rewrite Nat2Z.inj_add in AO, SH.
  assert (FR := default_frees pick false chk nsz nal obj 24 m0 true (peak prog 0) LS ltac:(done) eq_refl).
  eapply at_on; [exact (def_sz _ _ _ _ LS)|exact (ls_align _ _ _ _ _ LS)|exact SH|lia|exact AO|exact FR|exact R|exact HC].
Qed.
Lemma fx_at {T} (pick : mem T -> Z -> Z -> Z) chk nsz nal vsz obj n bytes base len m0 (prog : list (lcall T)) c s0 l s xs :
  FX m0 nsz nal obj n bytes base len -> honest pick -> Z.of_nat (peak prog 0 + length (pushed c)) < u32_lim ->
  fixed_new_at chk nsz nal obj base len m0 = Ok tt s0 -> l_run (FixedListAlloc pick false chk nsz nal) chk nsz nal prog s0 = Some (l, s) -> contents chk nsz s xs ->
  (exists s' xs', ((exists a, l_call (FixedListAlloc pick false chk nsz nal) chk nsz nal c s = Ok a s') \/ l_call (FixedListAlloc pick false chk nsz nal) chk nsz nal c s = Panic s') /\ contents chk nsz s' xs' /\
    l_call_r (FixedListAlloc pick false chk nsz nal) chk nsz nal vsz true false c s = if relinks_object c xs && negb (length xs =? length xs')%nat then UB else l_call (FixedListAlloc pick false chk nsz nal) chk nsz nal c s) /\
  l_call_r (FixedListAlloc pick false chk nsz nal) chk nsz nal vsz false true c s = (if uses_element (16 <? nsz) (0 <? vsz) c xs then UB else l_call (FixedListAlloc pick false chk nsz nal) chk nsz nal c s) /\
  list_drop_r (FixedListAlloc pick false chk nsz nal) chk nsz vsz true s = match xs with [] => list_drop (FixedListAlloc pick false chk nsz nal) chk nsz s | _ => if 0 <? vsz then UB else list_drop (FixedListAlloc pick false chk nsz nal) chk nsz s end.
Proof.
  intros H HP SH E0 E1 HC. assert (SH' : short prog) by (unfold short; lia).
  destruct (fx_general pick false chk nsz nal obj n bytes base len m0 prog H HP true s0 E0 SH' (or_introl eq_refl) ltac:(done)) as (l' & s' & ps & xs0 & E & R & _).
  rewrite E1 in E. injection E as <- <-.
  destruct (fx_new chk nsz nal obj n bytes base len m0 H s0 E0) as (_ & _ & _ & (LS & PS & HO & H16 & HCN & PAD) & _ & _).
  assert (AO := general_ok pick false chk nsz nal obj bytes base len (l_mem s0) LS PS H16 HO HP PAD true (peak prog 0 + length (pushed c)) ltac:(done)). rewrite Nat2Z.inj_add in AO, SH.
  assert (FR := general_frees pick false chk nsz nal obj bytes base len (l_mem s0) LS PS H16 HO HP PAD true 0 ltac:(done) eq_refl).
  eapply at_on; [exact (fx_sz nsz nal obj n bytes base len m0 H)|exact (fx_al nsz nal obj n bytes base len m0 H)|exact SH|lia|exact AO|exact FR|exact R|exact HC].
Qed.

(** A list stays empty until something is added. *)
Lemma some_empty {T} (prog : list (lcall T)) :
  (some_call relinks_object prog [] = true -> exists c, c ∈ prog /\ pushed c <> []) /\
  (some_call relinks_object prog [] = false -> forall c, c ∈ prog -> pushed c = []).
Proof.
  induction prog as [|c prog [IH1 IH2]]; [split; [done|]; intros _ c Hc; by apply elem_of_nil in Hc|]. cbn [some_call].
  assert (X : (relinks_object c [] = true /\ pushed c <> []) \/ (relinks_object c [] = false /\ pushed c = [] /\ snd (spec_call c []) = [])).
  { destruct c as [x|x| | | | |x|x| | | | | |[|y ys]| |g]; cbn; auto; by left. }
  destruct X as [[-> X]|(-> & X & ->)]; cbn [orb].
  - split; [|done]. intros _. exists c. split; [constructor|done].
  - split; [intros H; destruct (IH1 H) as (c' & Hc & ?); exists c'; split; [by constructor|done]|].
    intros H c' Hc. apply elem_of_cons in Hc as [-> |Hc]; [done|by apply IH2].
Qed.

Lemma L_C124_object_partial :
forall (T : Type) (pick : mem T -> Z -> Z -> Z) (chk : bool) (nsz nal vsz obj : Z) (m0 : mem T) (prog prog' : list (lcall T)) l s,
  ListSetup m0 obj 24 nsz nal -> honest pick -> room pick (m_live m0) nsz nal (peak (prog ++ prog') 0) -> short (prog ++ prog') ->
  built pick false chk nsz nal obj m0 prog l s ->
  l_run_r (DefaultAddrAlloc pick false) chk nsz nal vsz true false prog' s =
  if some_call relinks_object prog' (snd (spec_run prog [])) then None
  else l_run (DefaultAddrAlloc pick false) chk nsz nal prog' s.
Proof.
  intros T pick chk nsz nal vsz obj m0 prog prog' l s LS HP HR SH HB. exact (proj1 (built_on pick chk nsz nal vsz obj m0 prog prog' l s LS HP HR SH HB)).
Qed.

Lemma L_C124_fixed_object_partial :
forall (T : Type) (pick : mem T -> Z -> Z -> Z) (chk : bool) (nsz nal vsz obj : Z) (n : nat) (m0 : mem T) (prog prog' : list (lcall T)) l s,
  honest pick -> room pick (m_live m0) nsz nal (peak (prog ++ prog') 0) -> short (prog ++ prog') ->
  (FixedSetup m0 obj nsz nal n /\ fixed_built pick false chk nsz nal n obj m0 prog l s) \/
  (ConformantSetup m0 obj nsz nal n /\ conformant_built pick false chk nsz nal n obj m0 prog l s) ->
  l_run_r (FixedListAlloc pick false chk nsz nal) chk nsz nal vsz true false prog' s =
  if some_call relinks_object prog' (snd (spec_run prog [])) then None
  else l_run (FixedListAlloc pick false chk nsz nal) chk nsz nal prog' s.
Proof.
  intros T pick chk nsz nal vsz obj n m0 prog prog' l s HP HR SH [(FS & s0 & E0 & E1)|(FS & s0 & E0 & E1)].
  - apply (fx_on pick chk nsz nal vsz obj n _ _ _ m0 prog prog' s0 l s (fixed_fx _ _ _ _ _ FS) HP HR SH E0 E1).
  - apply (fx_on pick chk nsz nal vsz obj n _ _ _ m0 prog prog' s0 l s (conformant_fx _ _ _ _ _ FS) HP HR SH E0 E1).
Qed.

Lemma L_C124_refusals_partial :
forall (T : Type) (pick : mem T -> Z -> Z -> Z) (chk : bool) (nsz nal vsz obj : Z) (m0 : mem T) (prog : list (lcall T)) c l s xs,
  ListSetup m0 obj 24 nsz nal -> honest pick -> Z.of_nat (peak prog 0 + length (pushed c)) < u32_lim ->
  built pick false chk nsz nal obj m0 prog l s -> contents chk nsz s xs ->
  exists s' xs', ((exists a, l_call (DefaultAddrAlloc pick false) chk nsz nal c s = Ok a s') \/ l_call (DefaultAddrAlloc pick false) chk nsz nal c s = Panic s') /\ contents chk nsz s' xs' /\
    l_call_r (DefaultAddrAlloc pick false) chk nsz nal vsz true false c s =
    if relinks_object c xs && negb (length xs =? length xs')%nat then UB else l_call (DefaultAddrAlloc pick false) chk nsz nal c s.
Proof.
  intros T pick chk nsz nal vsz obj m0 prog c l s xs LS HP SH HB HC. exact (proj1 (built_at pick chk nsz nal vsz obj m0 prog c l s xs LS HP SH HB HC)).
Qed.

Lemma L_C124_fixed_refusals_partial :
forall (T : Type) (pick : mem T -> Z -> Z -> Z) (chk : bool) (nsz nal vsz obj : Z) (n : nat) (m0 : mem T) (prog : list (lcall T)) c l s xs,
  honest pick -> Z.of_nat (peak prog 0 + length (pushed c)) < u32_lim ->
  (FixedSetup m0 obj nsz nal n /\ fixed_built pick false chk nsz nal n obj m0 prog l s) \/
  (ConformantSetup m0 obj nsz nal n /\ conformant_built pick false chk nsz nal n obj m0 prog l s) ->
  contents chk nsz s xs ->
  exists s' xs', ((exists a, l_call (FixedListAlloc pick false chk nsz nal) chk nsz nal c s = Ok a s') \/ l_call (FixedListAlloc pick false chk nsz nal) chk nsz nal c s = Panic s') /\ contents chk nsz s' xs' /\
    l_call_r (FixedListAlloc pick false chk nsz nal) chk nsz nal vsz true false c s =
    if relinks_object c xs && negb (length xs =? length xs')%nat then UB else l_call (FixedListAlloc pick false chk nsz nal) chk nsz nal c s.
Proof.
  intros T pick chk nsz nal vsz obj n m0 prog c l s xs HP SH [(FS & s0 & E0 & E1)|(FS & s0 & E0 & E1)] HC.
  - exact (proj1 (fx_at pick chk nsz nal vsz obj n _ _ _ m0 prog c s0 l s xs (fixed_fx _ _ _ _ _ FS) HP SH E0 E1 HC)).
  - exact (proj1 (fx_at pick chk nsz nal vsz obj n _ _ _ m0 prog c s0 l s xs (conformant_fx _ _ _ _ _ FS) HP SH E0 E1 HC)).
Qed.

Lemma L_C124_new_lists :
forall (T : Type) (pick : mem T -> Z -> Z -> Z) (chk : bool) (nsz nal vsz obj : Z) (m0 : mem T) (prog : list (lcall T)) s,
  ListSetup m0 obj 24 nsz nal -> honest pick -> room pick (m_live m0) nsz nal (peak prog 0) -> short prog ->
  list_new obj tt m0 = Ok tt s ->
  (l_run_r (DefaultAddrAlloc pick false) chk nsz nal vsz true false prog s = None <-> exists c, c ∈ prog /\ pushed c <> []) /\
  ((forall c, c ∈ prog -> pushed c = []) ->
     l_run_r (DefaultAddrAlloc pick false) chk nsz nal vsz true false prog s = l_run (DefaultAddrAlloc pick false) chk nsz nal prog s).
Proof.
  intros T pick chk nsz nal vsz obj m0 prog s LS HP HR SH E0.
  destruct (built_on pick chk nsz nal vsz obj m0 [] prog [] s LS HP HR SH) as [E _]; [by exists s|].
  destruct (L_C53_list_refines_list T pick chk nsz nal obj m0 prog LS HP HR SH) as (l & s' & (s1 & E1 & E2) & _). rewrite E0 in E1. injection E1 as <-.
  cbn [spec_run snd] in E. rewrite E. rewrite E2.
  destruct (some_empty prog) as [H1 H2]. destruct (some_call relinks_object prog []).
  - split; [split; [intros _; by apply H1|done]|]. intros H. destruct (H1 eq_refl) as (c & Hc & NE). by destruct NE; apply H.
  - split; [|done]. split; [done|]. intros (c & Hc & NE). by rewrite H2 in NE.
Qed.

Lemma L_C124_object_refuted :
exists (prog : list (lcall Z)) (s : lstate unit Z),
  ListSetup (lx_mem 24) 4096 24 24 8 /\ honest lx_pick /\ room lx_pick (m_live (lx_mem 24)) 24 8 (peak prog 0) /\ short prog /\
  list_new 4096 tt (lx_mem 24) = Ok tt s /\
  is_Some (l_run (DefaultAddrAlloc lx_pick false) true 24 8 prog s) /\
  l_run_r (DefaultAddrAlloc lx_pick false) true 24 8 8 true false prog s = None.
Proof.
  eexists [LPushBack 1], _.
  split; [by apply LinkedListDerived.lx_setup|]. split; [apply LinkedListDerived.fit_honest|]. split; [apply LinkedListDerived.lx_room; cbn; lia|].
  split; [done|]. split; [reflexivity|]. split; [|by vm_compute]. eexists. by vm_compute.
Qed.

Lemma L_C125_elements_partial :
forall (T : Type) (pick : mem T -> Z -> Z -> Z) (chk : bool) (nsz nal vsz obj : Z) (m0 : mem T) (prog prog' : list (lcall T)) l s,
  ListSetup m0 obj 24 nsz nal -> honest pick -> room pick (m_live m0) nsz nal (peak (prog ++ prog') 0) -> short (prog ++ prog') ->
  built pick false chk nsz nal obj m0 prog l s ->
  l_run_r (DefaultAddrAlloc pick false) chk nsz nal vsz false true prog' s =
  if some_call (uses_element (16 <? nsz) (0 <? vsz)) prog' (snd (spec_run prog [])) then None
  else l_run (DefaultAddrAlloc pick false) chk nsz nal prog' s.
Proof.
  intros T pick chk nsz nal vsz obj m0 prog prog' l s LS HP HR SH HB. exact (proj2 (built_on pick chk nsz nal vsz obj m0 prog prog' l s LS HP HR SH HB)).
Qed.

Lemma L_C125_fixed_elements_partial :
forall (T : Type) (pick : mem T -> Z -> Z -> Z) (chk : bool) (nsz nal vsz obj : Z) (n : nat) (m0 : mem T) (prog prog' : list (lcall T)) l s,
  honest pick -> room pick (m_live m0) nsz nal (peak (prog ++ prog') 0) -> short (prog ++ prog') ->
  (FixedSetup m0 obj nsz nal n /\ fixed_built pick false chk nsz nal n obj m0 prog l s) \/
  (ConformantSetup m0 obj nsz nal n /\ conformant_built pick false chk nsz nal n obj m0 prog l s) ->
  l_run_r (FixedListAlloc pick false chk nsz nal) chk nsz nal vsz false true prog' s =
  (if some_call (uses_element (16 <? nsz) (0 <? vsz)) prog' (snd (spec_run prog [])) then None
   else l_run (FixedListAlloc pick false chk nsz nal) chk nsz nal prog' s) /\
  list_drop_r (FixedListAlloc pick false chk nsz nal) chk nsz vsz true s =
  match snd (spec_run prog []) with
  | [] => list_drop (FixedListAlloc pick false chk nsz nal) chk nsz s
  | _ => if 0 <? vsz then UB else list_drop (FixedListAlloc pick false chk nsz nal) chk nsz s
  end.
Proof.
  intros T pick chk nsz nal vsz obj n m0 prog prog' l s HP HR SH [(FS & s0 & E0 & E1)|(FS & s0 & E0 & E1)].
  - apply (fx_on pick chk nsz nal vsz obj n _ _ _ m0 prog prog' s0 l s (fixed_fx _ _ _ _ _ FS) HP HR SH E0 E1).
  - apply (fx_on pick chk nsz nal vsz obj n _ _ _ m0 prog prog' s0 l s (conformant_fx _ _ _ _ _ FS) HP HR SH E0 E1).
Qed.

Lemma L_C125_refusals_partial :
forall (T : Type) (pick : mem T -> Z -> Z -> Z) (chk : bool) (nsz nal vsz obj : Z) (m0 : mem T) (prog : list (lcall T)) c l s xs,
  ListSetup m0 obj 24 nsz nal -> honest pick -> Z.of_nat (peak prog 0 + length (pushed c)) < u32_lim ->
  built pick false chk nsz nal obj m0 prog l s -> contents chk nsz s xs ->
  l_call_r (DefaultAddrAlloc pick false) chk nsz nal vsz false true c s =
  (if uses_element (16 <? nsz) (0 <? vsz) c xs then UB else l_call (DefaultAddrAlloc pick false) chk nsz nal c s) /\
  list_drop_r (DefaultAddrAlloc pick false) chk nsz vsz true s =
  match xs with [] => list_drop (DefaultAddrAlloc pick false) chk nsz s | _ => if 0 <? vsz then UB else list_drop (DefaultAddrAlloc pick false) chk nsz s end.
Proof.
  intros T pick chk nsz nal vsz obj m0 prog c l s xs LS HP SH HB HC. exact (proj2 (built_at pick chk nsz nal vsz obj m0 prog c l s xs LS HP SH HB HC)).
Qed.

Lemma L_C125_fixed_refusals_partial :
forall (T : Type) (pick : mem T -> Z -> Z -> Z) (chk : bool) (nsz nal vsz obj : Z) (n : nat) (m0 : mem T) (prog : list (lcall T)) c l s xs,
  honest pick -> Z.of_nat (peak prog 0 + length (pushed c)) < u32_lim ->
  (FixedSetup m0 obj nsz nal n /\ fixed_built pick false chk nsz nal n obj m0 prog l s) \/
  (ConformantSetup m0 obj nsz nal n /\ conformant_built pick false chk nsz nal n obj m0 prog l s) ->
  contents chk nsz s xs ->
  l_call_r (FixedListAlloc pick false chk nsz nal) chk nsz nal vsz false true c s =
  (if uses_element (16 <? nsz) (0 <? vsz) c xs then UB else l_call (FixedListAlloc pick false chk nsz nal) chk nsz nal c s) /\
  list_drop_r (FixedListAlloc pick false chk nsz nal) chk nsz vsz true s =
  match xs with [] => list_drop (FixedListAlloc pick false chk nsz nal) chk nsz s | _ => if 0 <? vsz then UB else list_drop (FixedListAlloc pick false chk nsz nal) chk nsz s end.
Proof.
  intros T pick chk nsz nal vsz obj n m0 prog c l s xs HP SH [(FS & s0 & E0 & E1)|(FS & s0 & E0 & E1)] HC.
  - exact (proj2 (fx_at pick chk nsz nal vsz obj n _ _ _ m0 prog c s0 l s xs (fixed_fx _ _ _ _ _ FS) HP SH E0 E1 HC)).
  - exact (proj2 (fx_at pick chk nsz nal vsz obj n _ _ _ m0 prog c s0 l s xs (conformant_fx _ _ _ _ _ FS) HP SH E0 E1 HC)).
Qed.

Lemma L_C125_drop :
forall (T : Type) (pick : mem T -> Z -> Z -> Z) (chk : bool) (nsz nal vsz obj : Z) (m0 : mem T) (prog : list (lcall T)) l s,
  ListSetup m0 obj 24 nsz nal -> honest pick -> room pick (m_live m0) nsz nal (peak prog 0) -> short prog ->
  built pick false chk nsz nal obj m0 prog l s ->
  list_drop_r (DefaultAddrAlloc pick false) chk nsz vsz true s =
  match snd (spec_run prog []) with
  | [] => list_drop (DefaultAddrAlloc pick false) chk nsz s
  | _ => if 0 <? vsz then UB else list_drop (DefaultAddrAlloc pick false) chk nsz s
  end.
Proof.
  intros T pick chk nsz nal vsz obj m0 prog l s LS HP HR SH HB.
  destruct (built_rep pick chk nsz nal obj m0 prog [] l s LS HP) as (ps & Z16 & HL & AO & FR & R & _); [by rewrite app_nil_r|by rewrite app_nil_r|done|].
  unfold list_drop_r, list_drop. rewrite (clear_narrow _ _ _ _ vsz _ _ _ _ Z16 (ls_align _ _ _ _ _ LS) HL AO FR _ _ _ R), element_eq.
  rewrite (none_places _ _ (Forall2_length _ _ _ (lr_vals _ _ _ _ _ _ R))). by destruct (snd (spec_run prog [])).
Qed.

Lemma L_C125_elements_refuted :
exists (prog : list (lcall Z)) (s : lstate unit Z),
  ListSetup (lx_mem 24) 4096 24 24 8 /\ honest lx_pick /\ room lx_pick (m_live (lx_mem 24)) 24 8 (peak prog 0) /\ short prog /\
  list_new 4096 tt (lx_mem 24) = Ok tt s /\
  is_Some (l_run (DefaultAddrAlloc lx_pick false) true 24 8 prog s) /\
  l_run_r (DefaultAddrAlloc lx_pick false) true 24 8 8 false true prog s = None.
Proof.
  eexists [LPushBack 1; LFront], _.
  split; [by apply LinkedListDerived.lx_setup|]. split; [apply LinkedListDerived.fit_honest|]. split; [apply LinkedListDerived.lx_room; cbn; lia|].
  split; [done|]. split; [reflexivity|]. split; [|by vm_compute]. eexists. by vm_compute.
Qed.
