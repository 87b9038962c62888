(** A printed container reads back. *)
From Verif Require Import Base Print PrintSpec.
Local Open Scope nat_scope.

Lemma between_ok l r t : between l r (l ++ t ++ r) = Some t.
Proof.
  unfold between. rewrite !app_length. replace (length l + (length t + length r) - length l - length r) with (length t) by lia.
  rewrite drop_app, take_app. by rewrite bool_decide_eq_true_2.
Qed.
Lemma pieces_nonempty t : pieces t <> [].
Proof. destruct t as [|c t]; [done|]. cbn. destruct (c =? 44)%Z; [done|]. by destruct (pieces t). Qed.
Lemma pieces_plain t : 44%Z ∉ t -> pieces t = [t].
Proof.
  induction t as [|c t IH]; intros H; [done|]. apply not_elem_of_cons in H as [H1 H2]. cbn.
  destruct (Z.eqb_spec c 44); [congruence|]. by rewrite IH.
Qed.
Lemma pieces_app t u : 44%Z ∉ t -> pieces (t ++ 44%Z :: u) = t :: pieces u.
Proof.
  induction t as [|c t IH]; intros H; [done|]. apply not_elem_of_cons in H as [H1 H2]. cbn [app pieces].
  destruct (Z.eqb_spec c 44); [congruence|]. by rewrite IH.
Qed.
Lemma pieces_join sep ts : 44%Z ∉ sep -> (forall u, u ∈ ts -> 44%Z ∉ u) -> forall t, 44%Z ∉ t ->
  pieces (t ++ flat_map (fun u => (44%Z :: sep) ++ u) ts) = t :: map (app sep) ts.
Proof.
  intros S. induction ts as [|u ts IH]; intros H t Ht; cbn [flat_map map].
  - rewrite app_nil_r. by apply pieces_plain.
  - change (((44%Z :: sep) ++ u) ++ ?r) with (44%Z :: ((sep ++ u) ++ r)). rewrite pieces_app by done. f_equal.
    apply IH; [intros w W; apply H; by right|]. rewrite elem_of_app. intros [X|X]; [done|]. by apply (H u); [left|].
Qed.

Lemma unspaced_ok u : unspaced ([32%Z] ++ u) = u.
Proof. done. Qed.
Lemma spaced_ok {T} (dbg : T -> text) xs : no_commas dbg -> spaced_items (join (lit ", ") (map dbg xs)) = map dbg xs.
Proof.
  intros N. destruct xs as [|x xs]; [done|]. cbn [map join]. change (lit ", ") with [44; 32]%Z.
  assert (E : dbg x ++ flat_map (fun u : list Z => [44; 32]%Z ++ u) (map dbg xs) <> []) by (destruct (N x) as [X _]; by destruct (dbg x)).
  unfold spaced_items. rewrite pieces_join.
  - destruct (dbg x ++ _) eqn:E'; [done|]. rewrite map_map. cbn [map]. f_equal. rewrite map_map. apply map_ext. intros a. apply unspaced_ok.
  - set_solver.
  - intros u U. apply elem_of_list_In, in_map_iff in U as (y & <- & _). apply N.
  - apply N.
Qed.
Lemma plain_ok {T} (dbg : T -> text) xs : no_commas dbg -> plain_items (join (lit ",") (map dbg xs)) = map dbg xs.
Proof.
  intros N. destruct xs as [|x xs]; [done|]. cbn [map join]. change (lit ",") with [44]%Z.
  assert (E : dbg x ++ flat_map (fun u : list Z => [44]%Z ++ u) (map dbg xs) <> []) by (destruct (N x) as [X _]; by destruct (dbg x)).
  unfold plain_items. rewrite pieces_join.
  - destruct (dbg x ++ _) eqn:E'; [done|]. f_equal. rewrite map_map. apply map_ext. done.
  - set_solver.
  - intros u U. apply elem_of_list_In, in_map_iff in U as (y & <- & _). apply N.
  - apply N.
Qed.
Lemma key_value_ok {K V} (dk : K -> text) (dv : V -> text) e : no_colons dk -> key_value (pair_fmt dk dv e) = Some (dk (fst e), dv (snd e)).
Proof.
  intros N. unfold pair_fmt. change (lit ": ") with [58; 32]%Z. cbn [app]. specialize (N (fst e)). revert N. generalize (dk (fst e)) as k. intros k.
  induction k as [|c k IH]; intros H; [done|]. apply not_elem_of_cons in H as [H1 H2]. cbn [app key_value].
  destruct (Z.eqb_spec c 58); [congruence|]. by rewrite IH.
Qed.
Lemma pair_no_commas {K V} (dk : K -> text) (dv : V -> text) : no_commas dk -> no_commas dv -> no_commas (pair_fmt dk dv).
Proof.
  intros N1 N2 [k v]. unfold pair_fmt. cbn [fst snd]. change (lit ": ") with [58; 32]%Z. destruct (N1 k) as [X1 X2], (N2 v) as [Y1 Y2].
  split; [by destruct (dk k)|]. rewrite !elem_of_app, !elem_of_cons, elem_of_nil. intuition congruence.
Qed.
Lemma map_reads {K V} (dk : K -> text) (dv : V -> text) es : no_commas dk -> no_commas dv -> no_colons dk ->
  option_map (fun b => map key_value (plain_items b)) (between (lit "{") (lit "}") (map_fmt dk dv es)) =
  Some (map (fun e => Some (dk (fst e), dv (snd e))) es).
Proof.
  intros N1 N2 C. unfold map_fmt. rewrite between_ok. cbn [option_map]. rewrite plain_ok by (by apply pair_no_commas).
  rewrite map_map. f_equal. apply map_ext. intros e. by apply key_value_ok.
Qed.
Lemma list_reads {T} (dbg : T -> text) xs : no_commas dbg ->
  option_map spaced_items (between (lit "[") (lit "]") (debug_list dbg xs)) = Some (map dbg xs).
Proof. intros N. unfold debug_list. rewrite between_ok. cbn [option_map]. by rewrite spaced_ok. Qed.
