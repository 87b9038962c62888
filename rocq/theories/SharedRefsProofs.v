(** Handing out references one after the other. *)
From Verif Require Import Base Heap SharedRefs SharedRefsSpec.
Local Open Scope nat_scope.

Definition hands (evs : list (ptr * bool)) (rs : list (ptr * bool)) : list (ptr * bool) :=
  fold_left (fun rs e => hand (snd e) (fst e) rs) evs rs.

Lemma hand_length excl p rs : length (hand excl p rs) = length rs + 1.
Proof. unfold hand. rewrite app_length. destruct excl; [rewrite map_length|]; done. Qed.

Lemma hands_length evs : forall rs, length (hands evs rs) = length rs + length evs.
Proof.
  induction evs as [|[p b] evs IH]; intros rs; cbn [hands fold_left length]; [lia|].
  change (fold_left ?f evs ?x) with (hands evs x). rewrite IH, hand_length. lia.
Qed.

Lemma hands_old evs : forall rs r p a, rs !! r = Some (p, a) ->
  hands evs rs !! r = Some (p, a && negb (bool_decide ((p, true) ∈ evs))).
Proof.
  induction evs as [|[q b] evs IH]; intros rs r p a H; cbn [hands fold_left fst snd].
  - rewrite H. rewrite bool_decide_eq_false_2 by apply not_elem_of_nil. by rewrite andb_true_r.
  - change (fold_left ?f evs ?x) with (hands evs x).
    assert (H1 : hand b q rs !! r = Some (p, a && negb (bool_decide ((p, true) = (q, b))))).
    { unfold hand. rewrite lookup_app_l. 2:{ apply lookup_lt_Some in H. destruct b; [rewrite map_length|]; lia. }
      destruct b.
      - change (map ?f rs) with (f <$> rs). rewrite list_lookup_fmap, H. cbn. do 4 f_equal. apply bool_decide_ext. naive_solver.
      - rewrite H. rewrite bool_decide_eq_false_2 by done. by rewrite andb_true_r. }
    rewrite (IH _ _ _ _ H1). do 2 f_equal. rewrite <- andb_assoc. f_equal. rewrite <- negb_orb. f_equal.
    rewrite <- bool_decide_or. apply bool_decide_ext. rewrite elem_of_cons. done.
Qed.

Lemma hands_new evs : forall rs r p b, evs !! r = Some (p, b) ->
  hands evs rs !! (length rs + r) = Some (p, negb (bool_decide ((p, true) ∈ drop (S r) evs))).
Proof.
  induction evs as [|[q c] evs IH]; intros rs r p b H; [done|]. cbn [hands fold_left fst snd]. change (fold_left ?f evs ?x) with (hands evs x).
  destruct r as [|r].
  - injection H as -> ->. rewrite (hands_old _ _ _ p true); [done|].
    rewrite Nat.add_0_r. unfold hand. rewrite lookup_app_r by (destruct b; [rewrite map_length|]; lia).
    replace (length rs - _) with 0; [done|]. destruct b; [rewrite map_length|]; lia.
  - cbn [lookup list_lookup] in H. specialize (IH (hand c q rs) r p b H).
    rewrite hand_length in IH. replace (length rs + S r) with (length rs + 1 + r) by lia. exact IH.
Qed.
