(** Proofs of the properties stated in SharedHashProps.v. *)
From Verif Require Import Base Heap Alloc HashTable HashTableSpec SharedRefs SharedRefsSpec.
Local Open Scope nat_scope.

From Verif Require Import HeapLemmas HashTableProofs HashTableMore SharedRefsProofs.
Local Open Scope nat_scope.

Definition node_of {A} (l : list (nat * A)) (i : nat) : ptr := match l !! i with Some e => Ptr (fst e) 0 | None => Null end.

Section share.
Context {K V : Type}.
Variables (nsz nal : Z) (eb : nat) (chk : bool) (hash : K -> Z) (eqb : K -> K -> bool) (h0 : heap (tcell K V)).
Hypothesis SU : Setup nsz nal eb hash eqb h0.

Lemma key_pos_none k (es : list (K * V)) : look eqb k es = None -> key_pos eqb k es = None.
Proof using.
  clear. unfold look. induction es as [|e es IH]; [done|]. cbn. destruct (eqb (fst e) k); [done|]. intros H. by rewrite IH.
Qed.

Lemma key_pos_app k (es : list (K * V)) e es' : (forall x, x ∈ es -> eqb (fst x) k = false) -> eqb (fst e) k = true ->
  key_pos eqb k (es ++ e :: es') = Some (length es).
Proof using.
  clear. intros N Y. induction es as [|x es IH]; cbn [app key_pos length]; [by rewrite Y|].
  rewrite N by apply elem_of_list_here. rewrite IH; [done|]. intros z Hz. apply N. by apply elem_of_list_further.
Qed.

Lemma get_node_ok s cs arrs cnt k : TRep nsz nal eb hash eqb h0 s cs arrs cnt ->
  get_node hash eqb k s = Ok (node_of (concat cs) <$> key_pos eqb k (map snd (concat cs))) s.
Proof using SU.
  intros R. pose proof (su_layout _ _ _ _ _ _ SU) as Hlay. pose proof (su_keys _ _ _ _ _ _ SU) as KH.
  unfold get_node, bind. rewrite (proj1 (target_ok _ _ _ _ _ Hlay _ _ _ _ _ k R)).
  pose proof (find_from_ok _ _ _ _ _ Hlay KH _ _ _ _ _ k R) as F.
  destruct (look eqb k (map snd (concat cs))) as [[k0 v]|] eqn:LK.
  - destruct F as (b & c1 & c2 & C & Y & _ & E). rewrite E. f_equal.
    destruct (TRep_update _ _ _ _ _ Hlay _ _ _ _ _ _ _ _ _ _ _ R C) as (nx & _ & _ & U). destruct (U v) as (_ & _ & SP & _).
    pose proof (tr_keys _ _ _ _ _ _ _ _ _ _ R) as DK.
    set (pre := concat (take (idx hash (t_bc s) k) cs) ++ c1) in *.
    set (post := c2 ++ concat (drop (S (idx hash (t_bc s) k)) cs)) in *.
    rewrite SP in DK |- *. rewrite map_app in DK |- *. cbn [map snd] in DK |- *.
    rewrite (key_pos_app k (map snd pre) (k0, v)).
    + cbn [fmap option_fmap option_map]. rewrite map_length. unfold node_of. by rewrite list_lookup_middle.
    + intros x Hx. destruct (eqb (fst x) k) eqn:X; [|done]. exfalso.
      apply elem_of_list_lookup in Hx as (i & Hi). pose proof (lookup_lt_Some _ _ _ Hi) as Li.
      assert (Q : i = length (map snd pre)); [|lia].
      eapply (DK i (length (map snd pre)) x (k0, v)).
      * rewrite lookup_app_l by done. exact Hi.
      * by rewrite list_lookup_middle.
      * cbn [fst] in *. eapply (kh_trans _ _ KH); [exact X|]. by apply (kh_sym _ _ KH).
    + exact Y.
  - rewrite F, key_pos_none by done. done.
Qed.

Lemma h_share_ok s cs arrs cnt by_ a ps : TRep nsz nal eb hash eqb h0 s cs arrs cnt -> Slots by_ (t_h s) a ps ->
  forall ops its ws rs, Forall2 (fun it w => IterAt nsz nal s a ps it (drop w (concat cs))) its ws ->
  h_share hash eqb ops its rs s =
    Ok (hands (map (fun h => (node_of (concat cs) (fst h), snd h)) (h_handed eqb (map snd (concat cs)) ops ws)) rs) s.
Proof using SU.
  intros R SL. pose proof (su_layout _ _ _ _ _ _ SU) as Hlay.
  induction ops as [|[j|k] ops IH]; intros its ws rs F; [done| |]; cbn [h_share h_handed].
  - destruct (its !! j) as [it|] eqn:I.
    + destruct (Forall2_lookup_l _ _ _ _ _ F I) as (w & W & AT). rewrite W, map_length.
      pose proof (iter_next_ok nsz nal Hlay by_ s a ps it _ SL AT) as N.
      destruct (Nat.ltb_spec w (length (concat cs))) as [L|L].
      * destruct (lookup_lt_is_Some_2 _ _ L) as [e He]. rewrite (drop_S _ _ _ He) in N. destruct N as (it' & nx & N & AT' & _).
        unfold bind at 1. rewrite N. cbn [fst snd]. rewrite (IH _ (<[j := w + 1]> ws)).
        -- assert (NO : node_of (concat cs) w = Ptr (fst e) 0) by (unfold node_of; by rewrite He). cbn [map hands fold_left fst snd]. rewrite NO. done.
        -- apply Forall2_insert; [done|]. by rewrite Nat.add_1_r.
      * rewrite drop_ge in N by done. unfold bind at 1. rewrite N. cbn [fst snd]. rewrite list_insert_id by done. by apply IH.
    + assert (W : ws !! j = None).
      { apply lookup_ge_None. rewrite <- (Forall2_length _ _ _ F). by apply lookup_ge_None. }
      rewrite W. by apply IH.
  - unfold bind at 1. rewrite (get_node_ok _ _ _ _ k R).
    destruct (key_pos eqb k (map snd (concat cs))) as [i|]; cbn [fmap option_fmap option_map]; [|by apply IH].
    rewrite (IH _ ws) by done. done.
Qed.

Lemma key_pos_lt k (es : list (K * V)) i : key_pos eqb k es = Some i -> exists e, es !! i = Some e /\ eqb (fst e) k = true.
Proof using.
  clear. revert i. induction es as [|e es IH]; [done|]. intros i. cbn. destruct (eqb (fst e) k) eqn:E.
  - intros [= <-]. by exists e.
  - destruct (key_pos eqb k es) as [i'|]; [|done]. intros [= <-]. destruct (IH i' eq_refl) as (e' & He & Y). by exists e'.
Qed.

Lemma h_handed_bound (es : list (K * V)) ops : forall ws, Forall (fun h => fst h < length es) (h_handed eqb es ops ws).
Proof using.
  clear. induction ops as [|[j|k] ops IH]; intros ws; cbn [h_handed]; [done| |].
  - destruct (ws !! j) as [i|]; [|done]. destruct (Nat.ltb_spec i (length es)); [|done]. by constructor.
  - destruct (key_pos eqb k es) as [i|] eqn:Q; [|done]. constructor; [|done].
    apply key_pos_lt in Q as (e & He & _). by apply lookup_lt_Some in He.
Qed.

Lemma h_shared_ok s cs arrs cnt m ops : TRep nsz nal eb hash eqb h0 s cs arrs cnt ->
  h_shared hash eqb m ops s =
    Ok (hands (map (fun h => (node_of (concat cs) (fst h), snd h)) (h_handed eqb (map snd (concat cs)) ops (replicate m 0))) []) s.
Proof using SU.
  intros R. pose proof (su_layout _ _ _ _ _ _ SU) as Hlay.
  destruct (iter_ok _ _ _ _ _ Hlay _ _ _ _ _ R) as (a & ps & by_ & it & _ & E & IT & AT & _).
  unfold h_shared, bind. rewrite IT. eapply h_share_ok; [done..|].
  apply Forall2_replicate. by rewrite drop_0.
Qed.

Lemma node_of_inj s cs arrs cnt i j : TRep nsz nal eb hash eqb h0 s cs arrs cnt -> i < length (concat cs) -> j < length (concat cs) ->
  node_of (concat cs) i = node_of (concat cs) j -> i = j.
Proof using.
  intros R Li Lj. pose proof (tr_nodup _ _ _ _ _ _ _ _ _ _ R) as ND. apply NoDup_app in ND as (ND & _).
  destruct (lookup_lt_is_Some_2 _ _ Li) as [x Hx]. destruct (lookup_lt_is_Some_2 _ _ Lj) as [y Hy].
  unfold node_of. rewrite Hx, Hy. intros [= Q].
  change (map fst (concat cs)) with (fst <$> concat cs) in ND.
  eapply NoDup_lookup; [exact ND| |]; rewrite list_lookup_fmap; [by rewrite Hx|]. rewrite Hy. cbn. by rewrite Q.
Qed.
End share.

Lemma nexts_cover {K V} (eqb : K -> K -> bool) (es : list (K * V)) n : forall w,
  h_handed eqb es (repeat (SNext 0) n) [w] = map (fun i => (i, true)) (seq w (n `min` (length es - w))).
Proof.
  induction n as [|n IH]; intros w; [done|]. cbn [repeat h_handed lookup list_lookup].
  destruct (Nat.ltb_spec w (length es)).
  - change (<[0 := ?x]> [w]) with [x]. rewrite IH. replace (S n `min` (length es - w)) with (S (n `min` (length es - (w + 1)))) by lia.
    cbn [seq map]. by rewrite Nat.add_1_r.
  - rewrite IH. replace (length es - w) with 0 by lia. by rewrite !Nat.min_0_r.
Qed.

Lemma h_handed_gets {K V} (eqb : K -> K -> bool) (es : list (K * V)) ks ws :
  Forall (fun h => snd h = false) (h_handed eqb es (map SGet ks) ws).
Proof.
  induction ks as [|k ks IH]; cbn [map h_handed]; [done|]. destruct (key_pos eqb k es); [by constructor|done].
Qed.

Lemma L_C120_hash_shared_references_partial :
forall (K V : Type) nsz nal eb chk hash eqb (h0 : heap (tcell K V)), Setup nsz nal eb hash eqb h0 ->
  forall prog l s es (m : nat) (ops : list (sop K)), built nsz nal eb chk hash eqb h0 prog l s ->
  h_call nsz nal eb chk hash eqb HIter s = Ok (HPairs es) s ->
  let hs := h_handed eqb es ops (replicate m 0) in
  exists rs, h_shared hash eqb m ops s = Ok rs s /\ length rs = length hs /\
    forall r i b, hs !! r = Some (i, b) ->
    exists p good k v nx, rs !! r = Some (p, good) /\ es !! i = Some (k, v) /\ node_at p s = Ok (k, v, nx) s /\
      (good = true <-> (i, true) ∉ drop (S r) hs).
Proof.
  intros K V nsz nal eb chk hash eqb h0 SU prog l s es m ops B HI.
  destruct (built_rep _ _ _ _ _ _ _ SU _ _ _ B) as (cs & arrs & R & _).
  pose proof (su_layout _ _ _ _ _ _ SU) as Hlay.
  rewrite (iter_call _ _ _ chk _ _ _ SU _ _ _ _ R) in HI. injection HI as <-.
  pose proof (h_shared_ok _ _ _ _ _ _ SU _ _ _ _ m ops R) as E.
  pose proof (h_handed_bound eqb (map snd (concat cs)) ops (replicate m 0)) as FB. rewrite map_length in FB.
  intros hs. fold hs in E, FB. clearbody hs.
  eexists. split; [exact E|]. split. { rewrite hands_length, map_length. done. }
  intros r i b Hi. pose proof (Forall_lookup_1 _ _ _ _ FB Hi) as Li. cbn in Li.
  destruct (lookup_lt_is_Some_2 _ _ Li) as [[nb [k v]] Hx].
  assert (NA : exists nx, node_at (Ptr nb 0) s = Ok (k, v, nx) s).
  { destruct (iter_ok _ _ _ _ _ Hlay _ _ _ _ _ R) as (a & ps & by_ & it & _ & SL & IT & AT & _).
    destruct (iter_take_ok nsz nal Hlay by_ s a ps SL i _ _ AT) as (it1 & _ & AT').
    rewrite (drop_S _ _ _ Hx) in AT'.
    pose proof (iter_next_ok nsz nal Hlay by_ s a ps it1 _ SL AT') as N. cbn beta iota in N. destruct N as (it1' & nx & N & _ & NA).
    by exists nx. }
  destruct NA as [nx NA].
  exists (node_of (concat cs) i), (negb (bool_decide ((node_of (concat cs) i, true) ∈ drop (S r) (map (fun h => (node_of (concat cs) (fst h), snd h)) hs)))), k, v, nx.
  split.
  { apply (hands_new _ [] r _ b). change (map ?f hs) with (f <$> hs). by rewrite list_lookup_fmap, Hi. }
  split. { change (map snd (concat cs)) with (snd <$> concat cs). by rewrite list_lookup_fmap, Hx. }
  split. { unfold node_of. by rewrite Hx. }
  rewrite negb_true_iff, bool_decide_eq_false.
  change (map ?f hs) with (f <$> hs). rewrite <- fmap_drop. rewrite elem_of_list_fmap. split.
  - intros N Q. apply N. by exists (i, true).
  - intros N ([j c] & Q & Hk). cbn [fst snd] in Q. apply N.
    assert (Q1 : node_of (concat cs) i = node_of (concat cs) j) by congruence. assert (c = true) as -> by congruence.
    assert (Hj : (j, true) ∈ hs) by (rewrite <- (take_drop (S r) hs); apply elem_of_app; by right).
    apply (proj1 (Forall_forall _ _) FB) in Hj. cbn in Hj.
    by rewrite (node_of_inj _ _ _ _ _ _ _ _ _ _ _ _ R Li Hj Q1).
Qed.

Lemma L_C120_hash_gets_only :
forall (K V : Type) nsz nal eb chk hash eqb (h0 : heap (tcell K V)), Setup nsz nal eb hash eqb h0 ->
  forall prog l s (ks : list K), built nsz nal eb chk hash eqb h0 prog l s ->
  exists rs, h_shared hash eqb 0 (map SGet ks) s = Ok rs s /\ Forall (fun r => snd r = true) rs.
Proof.
  intros K V nsz nal eb chk hash eqb h0 SU prog l s ks B.
  destruct (built_rep _ _ _ _ _ _ _ SU _ _ _ B) as (cs & arrs & R & _).
  pose proof (iter_call _ _ _ chk _ _ _ SU _ _ _ _ R) as HI.
  destruct (L_C120_hash_shared_references_partial K V nsz nal eb chk hash eqb h0 SU prog l s _ 0 (map SGet ks) B HI) as (rs & E & L & H).
  exists rs. split; [done|]. apply Forall_lookup_2. intros r [p good] Hr.
  pose proof (h_handed_gets eqb (map snd (concat cs)) ks (replicate 0 0)) as G.
  set (hs := h_handed eqb (map snd (concat cs)) (map SGet ks) (replicate 0 0)) in *.
  assert (Lr : r < length hs) by (rewrite <- L; by eapply lookup_lt_Some).
  destruct (lookup_lt_is_Some_2 _ _ Lr) as [[i b] Hi].
  destruct (H r i b Hi) as (p' & good' & k & v & nx & Hr' & _ & _ & Q). rewrite Hr in Hr'. injection Hr' as <- <-.
  cbn. apply Q. intros Y.
  assert (Hj : (i, true) ∈ hs) by (rewrite <- (take_drop (S r) hs); apply elem_of_app; by right).
  by apply (proj1 (Forall_forall _ _) G) in Hj.
Qed.

Lemma L_C120_hash_shared_references_refuted :
forall (K V : Type) nsz nal eb chk hash eqb (h0 : heap (tcell K V)), Setup nsz nal eb hash eqb h0 ->
  forall prog l s es k, built nsz nal eb chk hash eqb h0 prog l s ->
  h_call nsz nal eb chk hash eqb HIter s = Ok (HPairs es) s -> (exists e, e ∈ es /\ eqb (fst e) k = true) ->
  exists p rs, h_shared hash eqb 1 (SGet k :: repeat (SNext 0) (length es)) s = Ok ((p, false) :: rs) s /\
    length rs = length es.
Proof.
  intros K V nsz nal eb chk hash eqb h0 SU prog l s es k B HI (e & He & Y).
  destruct (L_C120_hash_shared_references_partial K V nsz nal eb chk hash eqb h0 SU prog l s es 1 (SGet k :: repeat (SNext 0) (length es)) B HI) as (rs & E & L & H).
  cbn [replicate h_handed] in L, H.
  assert (KP : exists i, key_pos eqb k es = Some i).
  { clear -He Y. induction es as [|x es IH]; [by apply elem_of_nil in He|]. cbn. destruct (eqb (fst x) k) eqn:X; [by exists 0|].
    apply elem_of_cons in He as [->|He]; [congruence|]. destruct (IH He) as [i ->]. by exists (S i). }
  destruct KP as [i KP]. rewrite KP in L, H. pose proof (key_pos_lt eqb k es i KP) as (e' & He' & _).
  apply lookup_lt_Some in He'. rewrite nexts_cover, Nat.sub_0_r, Nat.min_id in L, H.
  cbn [length] in L. rewrite map_length, seq_length in L.
  destruct (H 0 i false eq_refl) as (p & good & k' & v & nx & Hr & _ & _ & G).
  destruct rs as [|[p' g'] rs]; [done|]. cbn in Hr. injection Hr as -> ->. exists p, rs. rewrite E. split.
  - destruct good; [|done]. exfalso. apply (proj1 G eq_refl). cbn [drop]; rewrite ?drop_0.
    apply elem_of_list_fmap. exists i. split; [done|]. apply elem_of_seq. lia.
  - cbn [length] in L. lia.
Qed.
