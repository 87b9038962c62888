(** Further facts about the vector model: capacity law, accounting, two
    vectors sharing a heap, construction, consuming iteration. *)
From Verif Require Import Base Heap HeapLemmas Alloc AllocContract Vector VectorSpec VectorProofs IterSpec.

(** ** Facts about the specification *)
Section spec_facts.
Context {T : Type}.
Variable fits : nat -> bool.
Variable cl : T -> T.

Lemma spec_capacity c s a d s' :
  spec_call fits cl c s = (a, d, s') ->
  room s' = next_capacity c a (length (items s)) (room s).
Proof.
  destruct s as [xs k]. destruct c; cbn [spec_call items room next_capacity];
    unfold with_room, room_for_one; cbn [items room]; intros H;
    repeat (case_match; simplify_eq; try done); by simplify_eq.
Qed.

Lemma length_removelast (l : list T) : length (removelast l) = length l - 1.
Proof.
  induction l as [|x [|y l] IH]; [done|done|].
  change (removelast (x :: y :: l)) with (x :: removelast (y :: l)). cbn [length] in *. lia.
Qed.

Lemma spec_room c s a d s' : length (items s) <= room s ->
  spec_call fits cl c s = (a, d, s') -> length (items s') <= room s'.
Proof.
  destruct s as [xs k]. cbn [items room]. intros L.
  destruct c; cbn [spec_call items room]; unfold with_room, room_for_one; cbn [items room]; intros H;
    repeat (case_match; simplify_eq; cbn [items room]); simplify_eq; cbn [items room]; try done;
    rewrite ?app_length, ?take_length, ?drop_length, ?map_length, ?insert_length, ?length_removelast;
    cbn [length]; rewrite ?drop_length; try lia.
Qed.

Lemma spec_calls_room cs : forall s l d s', length (items s) <= room s ->
  spec_calls fits cl cs s = (l, d, s') -> length (items s') <= room s'.
Proof.
  induction cs as [|c cs IH]; intros s l d s' L H; cbn [spec_calls] in H; [by simplify_eq|].
  destruct (spec_call fits cl c s) as [[a d1] s1] eqn:E1.
  destruct (spec_calls fits cl cs s1) as [[l2 d2] s2] eqn:E2. simplify_eq.
  eapply IH; [|done]. eapply spec_room; done.
Qed.

Lemma removelast_last (xs : list T) x : last xs = Some x -> xs = removelast xs ++ [x].
Proof.
  destruct xs as [|y xs] using rev_ind; [done|]. rewrite last_snoc. intros [= ->].
  by rewrite removelast_app, app_nil_r by done.
Qed.

Lemma perm_insert (xs : list T) i x y : xs !! i = Some x -> x :: <[i := y]> xs ≡ₚ y :: xs.
Proof.
  intros E. rewrite insert_take_drop by (by eapply lookup_lt_Some).
  rewrite <- (take_drop_middle _ _ _ E) at 3.
  rewrite <- !Permutation_middle. apply Permutation_swap.
Qed.

(** Moving calls: everything handed in is held, returned or dropped. *)
Lemma spec_account c s a d s' : is_move c = true ->
  spec_call fits cl c s = (a, d, s') ->
  given c ++ items s ≡ₚ items s' ++ returned a ++ d.
Proof.
  destruct s as [xs k]. destruct c; cbn [spec_call items room is_move given returned];
    unfold with_room, room_for_one; cbn [items room]; intros K H; try done;
    repeat (case_match; simplify_eq; cbn [items room returned app]); simplify_eq; cbn [items room returned app];
    rewrite ?app_nil_r, ?app_nil_l; try done; try by rewrite Permutation_app_comm.
  - destruct (last xs) as [x|] eqn:E; cbn.
    + by rewrite <- removelast_last.
    + destruct xs as [|y xs _] using rev_ind; [done|]. by rewrite last_snoc in E.
  - by rewrite <- Permutation_middle, take_drop.
  - by rewrite <- Permutation_middle, take_drop.
  - by rewrite <- Permutation_middle, take_drop.
  - destruct (xs !! i) as [x|] eqn:E; cbn.
    + rewrite <- Permutation_cons_append, Permutation_middle. by rewrite (take_drop_middle _ _ _ E).
    + apply lookup_ge_None in E. rewrite take_ge, drop_ge by lia. by rewrite !app_nil_r.
  - rewrite (Permutation_app_comm _ [_]). symmetry. by apply perm_insert.
  - match goal with Ei : xs !! i = Some ?x, Ej : xs !! j = Some ?y |- _ =>
      apply (Permutation_cons_inv (a := y)); rewrite perm_insert; [by rewrite perm_insert|];
      destruct (decide (i = j)) as [->|]; [|by rewrite list_lookup_insert_ne] end.
    rewrite list_lookup_insert by (by eapply lookup_lt_Some). congruence.
Qed.

Lemma spec_calls_account cs : forall s l d s', forallb is_move cs = true ->
  spec_calls fits cl cs s = (l, d, s') ->
  concat (map given cs) ++ items s ≡ₚ items s' ++ concat (map returned l) ++ d.
Proof.
  induction cs as [|c cs IH]; intros s l d s' K H; cbn [spec_calls] in H.
  - simplify_eq. by rewrite app_nil_r.
  - destruct (spec_call fits cl c s) as [[a d1] s1] eqn:E1.
    destruct (spec_calls fits cl cs s1) as [[l2 d2] s2] eqn:E2. simplify_eq.
    cbn [forallb] in K. apply andb_prop in K as [K1 K2].
    pose proof (spec_account _ _ _ _ _ K1 E1) as P1.
    pose proof (IH _ _ _ _ K2 E2) as P2. cbn [map concat].
    rewrite (Permutation_app_comm (given c)), <- app_assoc, P1.
    rewrite app_assoc, P2. rewrite <- !app_assoc. f_equiv.
    rewrite (Permutation_app_swap_app d2), (Permutation_app_swap_app (concat _)).
    do 2 f_equiv. apply Permutation_app_comm.
Qed.

End spec_facts.

Section proofs.
Context {A T : Type}.
Variable AI : AllocImpl A T.
Variables sz al : Z.
Variable chk nd : bool.
Variable clone : T -> option T.
Variable cl : T -> T.
Hypothesis Hsz : (0 < sz)%Z.
Hypothesis Hclone : forall x, clone x = Some (cl x).
Variable AS : AllocSpec AI sz al.

Notation st := (vstate A T).
Notation Rep := (Rep AI sz al AS).
Notation Post := (Post AI sz al nd AS).
Notation frame := (frame AI sz al AS).
Notation ran := (ran nd).

(** ** Several vectors over one heap *)
Lemma frame_lookup (s : st) b : as_pool AS (st_a s) = None ->
  frame s !! b = (if decide (own_block (st_v s) = Some b) then None else h_blk (st_h s) !! b).
Proof.
  intros P. unfold VectorProofs.frame. rewrite P. cbn [drop_opt].
  destruct (own_block (st_v s)) as [b'|]; cbn [drop_opt]; destruct (decide _) as [D|D]; try done.
  - injection D as ->. apply lookup_delete.
  - apply lookup_delete_ne. congruence.
Qed.

Lemma Rep_own (s : st) xs cap b : Rep s xs cap -> own_block (st_v s) = Some b ->
  is_Some (h_blk (st_h s) !! b).
Proof.
  intros (_ & _ & [(E & _)|(b' & bk & j & E & _ & _ & _ & Hb & _)]); rewrite E; cbn; [done|].
  intros [= ->]. by eexists.
Qed.

Lemma Rep_other v a h d h' d' xs cap : as_pool AS a = None ->
  Rep (VState v a h d) xs cap -> heap_wf h' ->
  (forall b, own_block v = Some b -> h_blk h' !! b = h_blk h !! b) ->
  Rep (VState v a h' d') xs cap.
Proof.
  intros P (_ & _ & R) W L. split; [done|]. cbn [st_a st_h st_v] in *. split; [by rewrite P|].
  destruct R as [R|(b & bk & j & E & C0 & Cl & Cz & Hb & R)]; [by left|right].
  exists b, bk, j. repeat (split; [done|]). split; [|done].
  rewrite L; [done|]. by rewrite E.
Qed.

Record WRep (base : gmap nat (block T)) (w : world) (ss : list (svec T)) : Prop := {
  wr_wf : heap_wf (w_h w);
  wr_pool : as_pool AS (w_a w) = None;
  wr_len : length ss = length (w_vecs w);
  wr_rep : forall i v s, w_vecs w !! i = Some v -> ss !! i = Some s ->
    Rep (VState v (w_a w) (w_h w) []) (items s) (room s);
  wr_inj : forall i j v v' b, w_vecs w !! i = Some v -> w_vecs w !! j = Some v' ->
    own_block v = Some b -> own_block v' = Some b -> i = j;
  wr_base : forall b, (forall i v, w_vecs w !! i = Some v -> own_block v <> Some b) ->
    h_blk (w_h w) !! b = base !! b;
  wr_fresh : forall i v b, w_vecs w !! i = Some v -> own_block v = Some b -> base !! b = None
}.

Lemma WRep_update base w ss i v s' xs' cap' d :
  WRep base w ss -> w_vecs w !! i = Some v ->
  Post (VState v (w_a w) (w_h w) (w_drops w)) s' xs' cap' d ->
  WRep base (World (<[i := st_v s']> (w_vecs w)) (st_a s') (st_h s') (st_drops s'))
    (<[i := SVec xs' cap']> ss).
Proof.
  intros W Hv (R' & HF & HA & _).
  assert (Hi : i < length (w_vecs w)) by (by eapply lookup_lt_Some).
  assert (P : as_pool AS (w_a w) = None) by apply W.
  assert (P' : as_pool AS (st_a s') = None) by (rewrite HA; done).
  destruct (lookup_lt_is_Some_2 ss i) as [s Hs]; [rewrite (wr_len _ _ _ W); done|].
  assert (FL : forall b, own_block (st_v s') <> Some b -> own_block v <> Some b ->
    h_blk (st_h s') !! b = h_blk (w_h w) !! b).
  { intros b N' N. pose proof (f_equal (lookup b) HF) as E.
    rewrite !frame_lookup in E by done. cbn [st_v st_h] in E.
    by destruct (decide _), (decide _). }
  assert (FN : forall b, own_block (st_v s') = Some b -> own_block v <> Some b ->
    h_blk (w_h w) !! b = None).
  { intros b N' N. pose proof (f_equal (lookup b) HF) as E.
    rewrite !frame_lookup in E by done. cbn [st_v st_h] in E.
    by destruct (decide _), (decide _). }
  assert (FO : forall b, own_block (st_v s') <> Some b -> own_block v = Some b ->
    h_blk (st_h s') !! b = None).
  { intros b N' N. pose proof (f_equal (lookup b) HF) as E.
    rewrite !frame_lookup in E by done. cbn [st_v st_h] in E.
    by destruct (decide _), (decide _). }
  assert (OTH : forall j vj b, w_vecs w !! j = Some vj -> own_block vj = Some b -> i <> j ->
    own_block (st_v s') <> Some b /\ own_block v <> Some b).
  { intros j vj b Hj Ho N.
    assert (own_block v <> Some b) by (intros E; apply N; by eapply (wr_inj _ _ _ W)).
    split; [|done]. intros E. pose proof (FN b E ltac:(done)) as F.
    destruct (lookup_lt_is_Some_2 ss j) as [sj Hsj].
    { rewrite (wr_len _ _ _ W). by eapply lookup_lt_Some. }
    destruct (Rep_own _ _ _ b (wr_rep _ _ _ W _ _ _ Hj Hsj) Ho) as [? E2].
    cbn [st_h] in E2. congruence. }
  split; cbn [w_vecs w_a w_h w_drops].
  - by destruct R' as [? _].
  - done.
  - rewrite !insert_length. apply W.
  - intros j vj sj Hj Hsj. destruct (decide (i = j)) as [<-|N].
    + rewrite list_lookup_insert in Hj by done.
      rewrite list_lookup_insert in Hsj by (rewrite (wr_len _ _ _ W); done).
      simplify_eq. cbn [items room]. eapply (Rep_other _ _ (st_h s') (st_drops s')); try done.
      * exact (proj1 R').
    + rewrite list_lookup_insert_ne in Hj by done. rewrite list_lookup_insert_ne in Hsj by done. rewrite HA.
      eapply (Rep_other _ _ (w_h w) []); try done.
      * by eapply (wr_rep _ _ _ W).
      * exact (proj1 R').
      * intros b Ho. destruct (OTH _ _ _ Hj Ho N). by apply FL.
  - intros j k vj vk b Hj Hk Hoj Hok.
    destruct (decide (i = j)) as [<-|Nj], (decide (i = k)) as [<-|Nk]; [done| | |].
    + rewrite list_lookup_insert in Hj by done. rewrite list_lookup_insert_ne in Hk by done.
      simplify_eq. destruct (OTH _ _ _ Hk Hok Nk). done.
    + rewrite list_lookup_insert in Hk by done. rewrite list_lookup_insert_ne in Hj by done.
      simplify_eq. destruct (OTH _ _ _ Hj Hoj Nj). done.
    + rewrite list_lookup_insert_ne in Hj by done. rewrite list_lookup_insert_ne in Hk by done. by eapply (wr_inj _ _ _ W).
  - intros b Hb. assert (N' : own_block (st_v s') <> Some b).
    { apply (Hb i). by rewrite list_lookup_insert. }
    destruct (decide (own_block v = Some b)) as [E|N].
    + rewrite FO by done. symmetry. by eapply (wr_fresh _ _ _ W).
    + rewrite FL by done. apply (wr_base _ _ _ W). intros j vj Hj.
      destruct (decide (i = j)) as [<-|Nj]; [congruence|].
      apply (Hb j). by rewrite list_lookup_insert_ne.
  - intros j vj b Hj Ho. destruct (decide (i = j)) as [<-|Nj].
    + rewrite list_lookup_insert in Hj by done. injection Hj as <-.
      destruct (decide (own_block v = Some b)) as [E|N]; [by eapply (wr_fresh _ _ _ W)|].
      pose proof (FN b Ho N) as F.
      destruct (decide (Exists (fun u => own_block u = Some b) (w_vecs w))) as [Ex|Ex].
      * apply Exists_exists in Ex as (u & Hu & Eu). apply elem_of_list_lookup in Hu as [k Hk].
        by eapply (wr_fresh _ _ _ W).
      * rewrite <- (wr_base _ _ _ W); [done|]. intros k u Hk Eu. apply Ex, Exists_exists.
        exists u. split; [|done]. by eapply elem_of_list_lookup_2.
    + rewrite list_lookup_insert_ne in Hj by done. by eapply (wr_fresh _ _ _ W).
Qed.

Lemma WRep_snoc base w ss d : WRep base w ss ->
  WRep base (World (w_vecs w ++ [new_in]) (w_a w) (w_h w) d) (ss ++ [SVec [] 0]).
Proof.
  intros W. split; cbn [w_vecs w_a w_h w_drops]; try apply W.
  - rewrite !app_length. cbn. rewrite (wr_len _ _ _ W). done.
  - intros i v s Hv Hs. apply lookup_app_Some in Hv as [Hv|[L Hv]].
    + rewrite lookup_app_l in Hs by (rewrite (wr_len _ _ _ W); by eapply lookup_lt_Some).
      by eapply (wr_rep _ _ _ W).
    + rewrite lookup_app_r in Hs by (rewrite (wr_len _ _ _ W); lia).
      rewrite (wr_len _ _ _ W) in Hs. apply list_lookup_singleton_Some in Hv as [E <-].
      rewrite E in Hs. cbn in Hs. injection Hs as <-. cbn [items room]. apply Rep_new.
      * apply W.
      * rewrite (wr_pool _ _ _ W). done.
  - intros i j v v' b Hi Hj Ho Ho'.
    apply lookup_app_Some in Hi as [Hi|[_ Hi]]; [|apply list_lookup_singleton_Some in Hi as [_ <-]; done].
    apply lookup_app_Some in Hj as [Hj|[_ Hj]]; [|apply list_lookup_singleton_Some in Hj as [_ <-]; done].
    by eapply (wr_inj _ _ _ W).
  - intros b Hb. apply (wr_base _ _ _ W). intros i v Hv. apply (Hb i). by apply lookup_app_l_Some.
  - intros i v b Hv Ho.
    apply lookup_app_Some in Hv as [Hv|[_ Hv]]; [|apply list_lookup_singleton_Some in Hv as [_ <-]; done].
    by eapply (wr_fresh _ _ _ W).
Qed.

Lemma WRep_unsnoc base vs v a h d d' ss s : own_block v = None ->
  WRep base (World (vs ++ [v]) a h d) (ss ++ [s]) -> WRep base (World vs a h d') ss.
Proof.
  intros HO W. pose proof (wr_len _ _ _ W) as HL. cbn [w_vecs] in HL. rewrite !app_length in HL. cbn in HL.
  split; cbn [w_vecs w_a w_h w_drops]; try apply W.
  - lia.
  - intros i u t Hu Ht. eapply (wr_rep _ _ _ W i); cbn; by apply lookup_app_l_Some.
  - intros i j u u' b Hi Hj. eapply (wr_inj _ _ _ W i j); cbn; by apply lookup_app_l_Some.
  - intros b Hb. apply (wr_base _ _ _ W). cbn. intros i u Hu.
    apply lookup_app_Some in Hu as [Hu|[_ Hu]]; [by eapply Hb|].
    apply list_lookup_singleton_Some in Hu as [_ <-]. congruence.
  - intros i u b Hu. eapply (wr_fresh _ _ _ W i); cbn. by apply lookup_app_l_Some.
Qed.

(** Constructors that succeed or panic. *)
Lemma WRep_built base w ss v0 s' xs' cap' d :
  WRep base w ss ->
  Post (VState new_in (w_a w) (w_h w) (w_drops w)) s' xs' cap' d -> v0 = st_v s' ->
  WRep base (World (w_vecs w ++ [v0]) (st_a s') (st_h s') (st_drops s')) (ss ++ [SVec xs' cap']).
Proof.
  intros W P ->. pose proof (WRep_snoc base w ss (w_drops w) W) as W1.
  pose proof (WRep_update _ _ _ (length (w_vecs w)) new_in s' xs' cap' d W1) as W2.
  cbn [w_vecs w_a w_h w_drops] in W2.
  rewrite lookup_app_r, Nat.sub_diag in W2 by lia. specialize (W2 eq_refl P).
  rewrite insert_app_r_alt, Nat.sub_diag in W2 by lia. cbn in W2.
  rewrite insert_app_r_alt in W2 by (rewrite (wr_len _ _ _ W); lia).
  rewrite (wr_len _ _ _ W), Nat.sub_diag in W2. done.
Qed.

Lemma WRep_unbuilt base w ss s' d d' :
  WRep base w ss ->
  Post (VState new_in (w_a w) (w_h w) (w_drops w)) s' [] 0 d ->
  WRep base (World (w_vecs w) (st_a s') (st_h s') d') ss.
Proof.
  intros W P. pose proof (WRep_built _ _ _ _ _ _ _ _ W P eq_refl) as W1.
  eapply WRep_unsnoc; [|exact W1].
  destruct P as ((_ & _ & [(E & _)|(b & bk & j & _ & C0 & _)]) & _); [by rewrite E|lia].
Qed.

Lemma log_drops_eq xs : forall s : st,
  log_drops nd xs s = VState (st_v s) (st_a s) (st_h s) (st_drops s ++ ran xs).
Proof.
  induction xs as [|x xs IH]; intros s; cbn.
  - rewrite ran_nil, app_nil_r. by destruct s.
  - unfold log_drops in IH. rewrite IH. cbn. f_equal. unfold VectorProofs.ran.
    destruct nd; rewrite <- app_assoc; done.
Qed.

Lemma Post_logs s0 s xs cap d ys : Post s0 s xs cap d -> Post s0 (log_drops nd ys s) xs cap (d ++ ys).
Proof.
  intros (R & F & HA & D). rewrite log_drops_eq. split; [|split; [|split]]; try done.
  cbn. rewrite D, ran_app, app_assoc. done.
Qed.

Lemma push_all_ok xs : forall s ys k a d s1,
  Rep s ys k -> spec_pushes (as_fits AS) xs (SVec ys k) = (a, d, s1) ->
  chk = true \/ (sz <= isize_max)%Z ->
  match a with
  | APanic => exists s' d0, push_all AI sz al chk nd xs s = Panic s' /\
      Post s s' (items s1) (room s1) d0 /\ d = d0 ++ items s1
  | _ => a = AUnit /\ d = [] /\ exists s', push_all AI sz al chk nd xs s = Ok tt s' /\
      Post s s' (items s1) (room s1) []
  end.
Proof.
  induction xs as [|x xs IH]; intros s ys k a d s1 R HS HK; cbn [spec_pushes] in HS.
  - simplify_eq. split; [done|]. split; [done|]. exists s. split; [done|]. by apply Post_refl.
  - cbn [items room] in HS.
    change (room_for_one {| items := ys; room := k |}) with (need_one ys k) in HS.
    destruct ((need_one ys k =? k) || as_fits AS (need_one ys k)) eqn:F.
    + destruct (push_ok AI sz al chk nd Hsz AS s ys k x R F) as (s0 & E0 & P0).
      pose proof P0 as (R0 & _). specialize (IH s0 _ _ _ _ _ R0 HS HK).
      cbn [push_all]. unfold bind, on_unwind. rewrite E0.
      destruct a; try (destruct IH as (EA & Ed & s' & E' & P'); split; [done|]; split; [done|];
        exists s'; split; [done|]; exact (Post_trans _ _ _ _ _ _ _ _ _ _ _ _ _ _ P0 P')).
      destruct IH as (s' & d0 & E' & P' & Ed). exists s', d0. split; [done|]. split; [|done].
      exact (Post_trans _ _ _ _ _ _ _ _ _ _ _ _ _ _ P0 P').
    + simplify_eq.
      exists (log_drops nd xs (log_drop nd x s)), (x :: xs).
      cbn [push_all]. unfold bind, on_unwind.
      rewrite (push_panic AI sz al chk nd Hsz AS s ys k x R F HK). split; [done|]. split; [|done].
      apply (Post_logs s _ ys k [x] xs). by apply Post_log.
Qed.

(** ** One operation of a program with several vectors *)
Theorem w_step_refines base o w ss a d ss' :
  WRep base w ss -> nd = false \/ w_is_move o = true ->
  spec_wop (as_fits AS) cl o ss = Some (a, d, ss') -> chk = true \/ w_modest sz o = true ->
  exists w', w_step AI sz al chk nd clone o w = Some (a, w') /\ WRep base w' ss' /\
    w_drops w' = w_drops w ++ ran d.
Proof.
  intros W Hnd HS HK.
  assert (R0 : Rep (VState new_in (w_a w) (w_h w) (w_drops w)) [] 0).
  { apply Rep_new; [apply W|]. rewrite (wr_pool _ _ _ W). done. }
  assert (HK' : chk = true \/ (Z.of_nat (w_named o) * sz <= isize_max)%Z).
  { destruct HK as [HK|HK]; [by left|right]. unfold w_modest in HK. lia. }
  clear HK.
  (* what remains of [from_in] *)
  assert (FROM : forall buf v, nd = false -> chk = true \/ (Z.of_nat (length buf) * sz <= isize_max)%Z ->
     spec_build (with_room (as_fits AS) (length buf) (SVec [] 0) [] (map cl buf) []) = (a, d, drop (length ss) ss') ->
     take (length ss) ss' = ss ->
     exists w', w_build w (from_in AI sz al chk nd clone buf (VState v (w_a w) (w_h w) (w_drops w))) = Some (a, w')
       /\ WRep base w' ss' /\ w_drops w' = w_drops w ++ ran d).
  { intros buf v Hnd' HK HB HT. unfold with_room in HB. cbn [room] in HB.
    assert (Ess : ss' = ss ++ drop (length ss) ss') by (rewrite <- HT at 1; by rewrite take_drop).
    unfold from_in, build.
    destruct ((length buf =? 0) || as_fits AS (length buf)) eqn:F; cbn [spec_build] in HB; injection HB as <- <- Hl.
    - destruct (assign_ok AI sz al chk nd Hsz AS clone cl Hclone _ _ _ buf R0 ltac:(by left) ltac:(done))
        as (s' & E & P). cbn [st_a st_h st_drops]. rewrite E. cbn [w_build st_a st_h st_drops].
      eexists. split; [reflexivity|]. rewrite Nat.max_0_l, take_nil in P.
      split; [|destruct P as (_ & _ & _ & ->); done].
      rewrite Ess. rewrite <- Hl.
      by eapply WRep_built.
    - cbn [st_a st_h st_drops].
      rewrite (assign_panic AI sz al chk nd Hsz AS clone _ _ _ buf R0) by (try done; auto).
      cbn [st_v]. cbn. eexists. split; [reflexivity|].
      rewrite Ess. rewrite <- Hl. rewrite app_nil_r.
      split; [|cbn; by rewrite ran_nil, app_nil_r].
      by destruct w. }
  destruct o; cbn [spec_wop w_is_move w_named] in *.
  - cbn [spec_build] in HS. simplify_eq. eexists. split; [reflexivity|]. cbn [st_a st_h st_drops].
    split; [|cbn; by rewrite ran_nil, app_nil_r]. by apply WRep_snoc.
  - unfold with_room in HS. cbn [room] in HS. cbn [w_step]. unfold with_capacity, build.
    cbn [st_a st_h st_drops].
    destruct (Nat.eqb_spec n 0) as [->|N].
    + cbn in HS. simplify_eq. rewrite reserve_0. cbn [w_build st_v st_a st_h st_drops].
      eexists. split; [reflexivity|]. split; [|cbn; by rewrite ran_nil, app_nil_r]. by apply WRep_snoc.
    + cbn [orb] in HS. destruct (as_fits AS n) eqn:F; cbn [spec_build] in HS; simplify_eq.
      * destruct (reserve_ok AI sz al chk nd Hsz AS _ _ _ n R0 ltac:(lia) F) as (s' & E & P).
        rewrite E. cbn [w_build st_a st_h st_drops]. eexists. split; [reflexivity|].
        split; [by eapply WRep_built|]. by destruct P as (_ & _ & _ & ->).
      * rewrite (reserve_panic AI sz al chk Hsz AS _ _ _ n R0) by (try done; try lia; auto).
        cbn. eexists. split; [reflexivity|]. rewrite app_nil_r.
        split; [by destruct w|]. cbn. by rewrite ran_nil, app_nil_r.
  - destruct Hnd as [Hnd|]; [|done]. apply FROM; [done|done| |].
    + destruct (spec_build _) as [[a1 d1] l1]. simplify_eq. by rewrite drop_app.
    + destruct (spec_build _) as [[a1 d1] l1]. simplify_eq. by rewrite take_app.
  - cbn [w_step]. unfold from_iter, build. cbn [st_a st_h st_drops].
    assert (RES : (hint =? 0) || as_fits AS hint = true -> exists s0,
      reserve AI sz al chk hint (VState new_in (w_a w) (w_h w) (w_drops w)) = Ok tt s0 /\
      Post (VState new_in (w_a w) (w_h w) (w_drops w)) s0 [] hint []).
    { intros F. destruct (Nat.eqb_spec hint 0) as [->|N].
      - eexists. split; [reflexivity|]. by apply Post_refl.
      - by apply (reserve_ok AI sz al chk nd Hsz AS _ _ _ hint R0 ltac:(lia)). }
    destruct ((hint =? 0) || as_fits AS hint) eqn:F.
    + destruct (RES eq_refl) as (s0 & E0 & P0). pose proof P0 as (R1 & _).
      unfold bind at 1, on_unwind at 1. rewrite E0.
      destruct (spec_pushes (as_fits AS) xs (SVec [] hint)) as [[a1 d1] s1] eqn:E1.
      assert (HO : chk = true \/ (sz <= isize_max)%Z) by (destruct HK' as [?|?]; [by left|right; nia]).
      pose proof (push_all_ok xs s0 [] hint a1 d1 s1 R1 E1 HO) as HP.
      destruct a1; cbn [spec_build] in HS; simplify_eq;
        try (destruct HP as (? & _); done).
      * destruct HP as (_ & -> & s' & E & P). rewrite E.
        cbn [w_build st_a st_h st_drops]. eexists. split; [reflexivity|].
        pose proof (Post_trans _ _ _ _ _ _ _ _ _ _ _ _ _ _ P0 P) as P2. cbn [app] in P2.
        split; [|by destruct P2 as (_ & _ & _ & ->)].
        destruct s1 as [xs1 k1]. by eapply WRep_built.
      * destruct HP as (s' & d0 & E & P & ->). rewrite E.
        pose proof P as (R2 & _).
        destruct (clear_ok AI sz al chk nd Hsz AS s' _ _ R2) as (s2 & E2 & P2). rewrite E2.
        cbn [w_build st_a st_h st_drops]. eexists. split; [reflexivity|].
        pose proof (Post_trans _ _ _ _ _ _ _ _ _ _ _ _ _ _ P0 P) as P3.
        pose proof (Post_trans _ _ _ _ _ _ _ _ _ _ _ _ _ _ P3 P2) as P4. cbn [app] in P4.
        rewrite app_nil_r. split; [by eapply WRep_unbuilt|]. by destruct P4 as (_ & _ & _ & ->).
    + cbn [spec_build] in HS. simplify_eq. destruct (Nat.eqb_spec hint 0) as [->|N]; [done|].
      cbn [orb] in F. unfold bind at 1, on_unwind at 1.
      rewrite (reserve_panic AI sz al chk Hsz AS _ _ _ hint R0) by (first [done|lia|destruct HK' as [?|?]; [by left|right; nia]]).
      rewrite log_drops_eq. cbn. eexists. split; [reflexivity|]. rewrite app_nil_r.
      split; [|done]. eapply (WRep_unbuilt _ w _ (VState new_in (w_a w) (w_h w) (w_drops w))); [done|]. by apply Post_refl.
  - destruct Hnd as [Hnd|]; [|done].
    destruct (ss !! i) as [si|] eqn:Ei; [|done].
    destruct (lookup_lt_is_Some_2 (w_vecs w) i) as [v Hv].
    { rewrite <- (wr_len _ _ _ W). by eapply lookup_lt_Some. }
    cbn [w_step]. rewrite Hv. unfold clone_vec, bind at 1.
    assert (R : Rep (VState v (w_a w) (w_h w) (w_drops w)) (items si) (room si)).
    { eapply (Rep_other _ _ (w_h w) []); try done; try apply W. by eapply (wr_rep _ _ _ W). }
    rewrite (as_slice_ok AI sz al Hsz AS _ _ _ R). apply FROM; [done| | |].
    + right. pose proof (Rep_len _ _ _ _ _ _ _ R). pose proof (Rep_cap _ _ _ _ _ _ _ R). nia.
    + destruct (spec_build _) as [[a1 d1] l1]. simplify_eq. by rewrite drop_app.
    + destruct (spec_build _) as [[a1 d1] l1]. simplify_eq. by rewrite take_app.
  - destruct (ss !! i) as [si|] eqn:Ei; [|done].
    destruct (lookup_lt_is_Some_2 (w_vecs w) i) as [v Hv].
    { rewrite <- (wr_len _ _ _ W). by eapply lookup_lt_Some. }
    cbn [w_step]. rewrite Hv. destruct (spec_call _ cl c si) as [[a1 d1] [xs1 k1]] eqn:Ec. simplify_eq.
    assert (R : Rep (VState v (w_a w) (w_h w) (w_drops w)) (items si) (room si)).
    { eapply (Rep_other _ _ (w_h w) []); try done; try apply W. by eapply (wr_rep _ _ _ W). }
    destruct (step_modest AI sz al chk nd Hsz AS clone cl Hclone c _ (items si) (room si) a d xs1 k1 R Hnd)
      as (s' & E & P); [by destruct si|destruct HK' as [?|?]; [by left|right; unfold modest; lia]|].
    rewrite E. eexists. split; [reflexivity|]. split; [by eapply WRep_update|].
    by destruct P as (_ & _ & _ & ->).
Qed.

Theorem w_run_refines base os : forall w ss l d ss',
  WRep base w ss -> nd = false \/ forallb w_is_move os = true ->
  spec_wops (as_fits AS) cl os ss = Some (l, d, ss') -> chk = true \/ forallb (w_modest sz) os = true ->
  exists w', w_run AI sz al chk nd clone os w = Some (l, w') /\ WRep base w' ss' /\
    w_drops w' = w_drops w ++ ran d.
Proof.
  induction os as [|o os IH]; intros w ss l d ss' W Hnd HS HK.
  - cbn in HS. simplify_eq. exists w. by rewrite ran_nil, app_nil_r.
  - cbn [spec_wops] in HS. destruct (spec_wop _ cl o ss) as [[[a d1] ss1]|] eqn:E1; [|done].
    destruct (spec_wops _ cl os ss1) as [[[l2 d2] ss2]|] eqn:E2; [|done].
    simplify_eq.
    destruct (w_step_refines base o w ss a d1 ss1 W) as (w1 & Es & W1 & D1); [|done| |].
    + destruct Hnd as [Hnd|Hnd]; [by left|right]. cbn in Hnd. by apply andb_prop in Hnd as [? _].
    + destruct HK as [HK|HK]; [by left|right]. cbn in HK. by apply andb_prop in HK as [? _].
    + destruct (IH w1 ss1 l2 d2 ss' W1) as (w2 & Er & W2 & D2); [|done| |].
      * destruct Hnd as [Hnd|Hnd]; [by left|right]. cbn in Hnd. by apply andb_prop in Hnd as [_ ?].
      * destruct HK as [HK|HK]; [by left|right]. cbn in HK. by apply andb_prop in HK as [_ ?].
      * exists w2. cbn [w_run]. rewrite Es, Er. split; [done|]. split; [done|].
        by rewrite D2, D1, ran_app, app_assoc.
Qed.

Lemma WRep_start (a : A) (h : heap T) d : heap_wf h -> as_pool AS a = None ->
  WRep (h_blk h) (World [] a h d) [].
Proof. intros W P. split; cbn; try done. Qed.

(** When no vector owns a buffer the heap is back to what it was. *)
Lemma WRep_done base w ss : WRep base w ss -> Forall (fun s => room s = 0) ss -> h_blk (w_h w) = base.
Proof.
  intros W Z. apply map_eq. intros b. apply (wr_base _ _ _ W). intros i v Hv Ho.
  destruct (lookup_lt_is_Some_2 ss i) as [s Hs]; [rewrite (wr_len _ _ _ W); by eapply lookup_lt_Some|].
  pose proof (wr_rep _ _ _ W _ _ _ Hv Hs) as (_ & _ & [(E & _)|(b' & bk & j & E & C0 & _)]).
  - cbn in E. by rewrite E in Ho.
  - rewrite Forall_lookup in Z. rewrite (Z _ _ Hs) in C0. lia.
Qed.

End proofs.
