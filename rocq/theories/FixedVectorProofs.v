(** Proofs about [FixedVector]. *)
From Verif Require Import Base Heap HeapLemmas Alloc AllocContract Vector VectorSpec VectorProofs VectorMore VectorStill.
From Verif Require Import FixedVector FixedVectorSpec.

(** The fixed allocator provides what a vector needs; its pool is the inline
    buffer. *)
Definition FixedSpec {T} (sz al : Z) (Hsz : (0 < sz)%Z) (Hal : (0 < al)%Z) : AllocSpec (FixedAlloc T) sz al.
Proof.
  refine {|
    as_fits := default_fits sz al;
    as_pool := fun a => match a with Ptr b O => Some b | _ => None end;
    as_layout := fun n bk =>
      bk_bytes bk = (Z.of_nat n * sz)%Z /\ bk_align bk = al /\ default_fits sz al n = true /\
      length (bk_cells bk) = n
  |}.
  - intros n E. unfold default_fits in E. lia.
  - intros a h n Hn F. unfold default_fits in F.
    exists (Block (Z.of_nat n * sz) al (replicate n None)), [].
    cbn. unfold default_alloc, layout_ok.
    destruct (Z.eqb_spec (Z.of_nat n * sz) 0); [nia|]. rewrite F.
    cbn. rewrite Z.div_mul by lia. rewrite Nat2Z.id, app_nil_r.
    unfold default_fits. repeat split; [done|]. apply replicate_length.
  - intros a h n Hn F B. unfold default_fits in F. cbn. unfold default_alloc, layout_ok.
    destruct (Z.eqb_spec (Z.of_nat n * sz) 0); [nia|]. by rewrite F.
  - intros a h b n bk NP E (EB & EA & F & _). cbn. destruct (decide _) as [<-|_]; [done|].
    unfold default_free, layout_ok.
    unfold default_fits in F. rewrite F. cbn. rewrite E, EB, EA, !Z.eqb_refl. done.
  - intros a h b n EP. cbn. destruct a as [|b' [|o]]; simplify_eq. by rewrite decide_True.
  - intros n bk cs (? & ? & ? & <-) L. done.
Defined.

(** ** What a call can do to the buffer *)
Section evolve.
Context {T : Type}.
Variables sz al : Z.
Variables chk nd : bool.
Variable clone : T -> option T.
Notation st := (vstate ptr T).
Notation AI := (FixedAlloc T).

Definition shape_eq (bk bk' : block T) : Prop :=
  bk_bytes bk' = bk_bytes bk /\ bk_align bk' = bk_align bk /\ length (bk_cells bk') = length (bk_cells bk).
(** Blocks that existed keep their shape or disappear. *)
Definition hev (h h' : heap T) : Prop :=
  h_next h <= h_next h' /\
  forall b, b < h_next h -> forall bk', h_blk h' !! b = Some bk' -> exists bk, h_blk h !! b = Some bk /\ shape_eq bk bk'.

Lemma hev_refl h : hev h h.
Proof. split; [done|]. intros b _ bk E. by exists bk. Qed.

Lemma hev_trans h1 h2 h3 : hev h1 h2 -> hev h2 h3 -> hev h1 h3.
Proof.
  intros (N1 & E1) (N2 & E2). split; [lia|]. intros b L bk3 H3.
  destruct (E2 b ltac:(lia) bk3 H3) as (bk2 & H2 & S2). destruct (E1 b L bk2 H2) as (bk1 & H1 & S1).
  exists bk1. split; [done|]. unfold shape_eq in *. destruct S1 as (? & ? & ?), S2 as (? & ? & ?).
  split; [congruence|]. split; congruence.
Qed.

Lemma hev_put h p vs h' : hput h p vs = Some h' -> hev h h'.
Proof.
  unfold hput. destruct p as [|b o]; [done|]. destruct (h_blk h !! b) as [bk|] eqn:E; [|done].
  destruct (Nat.leb_spec (o + length vs) (length (bk_cells bk))) as [L|L]; [|done]. intros [= <-].
  split; [done|]. intros b' _ bk'. cbn. destruct (decide (b' = b)) as [->|N].
  - rewrite lookup_insert. intros [= <-]. exists bk. split; [done|]. split; [done|]. split; [done|].
    cbn. rewrite !app_length, take_length, drop_length. lia.
  - rewrite lookup_insert_ne by done. intros ->. by exists bk'.
Qed.

Lemma hev_copy h p q n h' : hcopy h p q n = Some h' -> hev h h'.
Proof. unfold hcopy. destruct (hraw h p n); [|done]. apply hev_put. Qed.

Lemma hev_free h p n a h' : hfree h p n a = Some h' -> hev h h'.
Proof.
  unfold hfree. destruct p as [|b [|o]]; [done| |done]. destruct (h_blk h !! b) as [bk|] eqn:E; [|done].
  destruct (_ && _); [|done]. intros [= <-]. split; [done|]. intros b' _ bk'. cbn.
  destruct (decide (b' = b)) as [->|N]; [by rewrite lookup_delete|]. rewrite lookup_delete_ne by done. by exists bk'.
Qed.

Lemma hev_alloc h bk : hev h (halloc h bk).
Proof.
  split; [cbn; lia|]. intros b L bk'. cbn. rewrite lookup_insert_ne by lia. by exists bk'.
Qed.

Definition capn (v : vec) : nat := match v_cap v with Ptr _ o => o | Null => 0 end.
Definition at0 (p : ptr) : Prop := match p with Ptr _ o => o = 0 | Null => True end.

(** Begin and capacity are as before, or (if [clr]) null, or in a new
    block. *)
Definition vev (clr : bool) (n : nat) (v v' : vec) : Prop :=
  at0 (v_begin v) -> at0 (v_begin v') /\
  ((v_begin v' = v_begin v /\ v_cap v' = v_cap v) \/
   (clr = true /\ v_begin v' = Null) \/
   (exists b, v_begin v' = Ptr b 0 /\ n <= b)).

Definition ev (clr : bool) (s s' : st) : Prop :=
  hev (st_h s) (st_h s') /\ st_a s' = st_a s /\ vev clr (h_next (st_h s)) (st_v s) (st_v s').

Lemma ev_refl clr s : ev clr s s.
Proof. split; [apply hev_refl|]. split; [done|]. intros A. split; [done|]. by left. Qed.

Lemma ev_trans clr s1 s2 s3 : ev clr s1 s2 -> ev clr s2 s3 -> ev clr s1 s3.
Proof.
  intros (H1 & A1 & V1) (H2 & A2 & V2). split; [by eapply hev_trans|]. split; [congruence|].
  intros A. destruct (V1 A) as (B1 & C1). destruct (V2 B1) as (B2 & C2). split; [done|].
  pose proof (proj1 H1) as N1.
  destruct C2 as [(E2 & K2)|[(-> & E2)|(b & E2 & L2)]].
  - by rewrite E2, K2.
  - by right; left.
  - right; right. exists b. split; [done|lia].
Qed.

Definition keeps {B} (clr : bool) (m : M st B) : Prop := forall s,
  match m s with Ok _ s' | Panic s' => ev clr s s' | UB => True end.

Lemma ev_heap clr s h d : hev (st_h s) h -> ev clr s (VState (st_v s) (st_a s) h d).
Proof. intros H. split; [done|]. split; [done|]. intros A. split; [done|]. by left. Qed.

Lemma ev_end clr s e d : ev clr s (VState (Vec (v_begin (st_v s)) e (v_cap (st_v s))) (st_a s) (st_h s) d).
Proof. split; [apply hev_refl|]. split; [done|]. intros A. split; [done|]. by left. Qed.

Lemma keeps_bind {B C} clr (m : M st B) (f : B -> M st C) : keeps clr m -> (forall b, keeps clr (f b)) -> keeps clr (bind m f).
Proof.
  intros Hm Hf s. unfold bind. specialize (Hm s). destruct (m s) as [b s1|s1|]; [|done|done].
  specialize (Hf b s1). destruct (f b s1) as [c s2|s2|]; [by eapply ev_trans..|done].
Qed.
Lemma keeps_ret {B} clr (b : B) : keeps clr (ret b).
Proof. intros s. apply ev_refl. Qed.
Lemma keeps_panic {B} clr : keeps (B := B) clr panic.
Proof. intros s. apply ev_refl. Qed.
Lemma keeps_gets {B} clr (f : st -> B) : keeps clr (gets f).
Proof. intros s. apply ev_refl. Qed.
Lemma keeps_or_ub {B} clr (o : option B) : keeps clr (or_ub o).
Proof. intros s. destruct o; cbn; [apply ev_refl|done]. Qed.
Lemma keeps_from_heap {B} clr (f : heap T -> option B) : keeps clr (from_heap f).
Proof. apply keeps_bind; [apply keeps_gets|]. intros h. apply keeps_or_ub. Qed.
Lemma keeps_on_heap clr (f : heap T -> option (heap T)) : (forall h h', f h = Some h' -> hev h h') -> keeps clr (on_heap f).
Proof.
  intros Hf s. unfold on_heap, bind, gets. destruct (f (st_h s)) as [h|] eqn:E; cbn; [|done].
  apply ev_heap. by apply Hf.
Qed.
Lemma keeps_usize clr r : keeps clr (usize chk r).
Proof. unfold usize. destruct (_ && _)%Z; [apply keeps_ret|]. destruct chk; [apply keeps_panic|apply keeps_ret]. Qed.
Lemma keeps_if {B} clr (b : bool) (m1 m2 : M st B) : keeps clr m1 -> keeps clr m2 -> keeps clr (if b then m1 else m2).
Proof. by destruct b. Qed.
Lemma keeps_log clr x : keeps clr (modify (log_drop nd x)).
Proof. intros s. apply ev_heap, hev_refl. Qed.
Lemma keeps_unwind {B} clr x (m : M st B) : keeps clr m -> keeps clr (on_unwind (log_drop nd x) m).
Proof.
  intros Hm s. unfold on_unwind. specialize (Hm s). destruct (m s) as [b s1|s1|]; [done| |done].
  eapply ev_trans; [exact Hm|]. apply ev_heap, hev_refl.
Qed.
Lemma keeps_offset clr p q : keeps clr (offset_from sz p q).
Proof. unfold offset_from. apply keeps_if; [apply keeps_panic|apply keeps_or_ub]. Qed.
Lemma keeps_len clr : keeps clr (len sz).
Proof. apply keeps_bind; [apply keeps_gets|]. intros v. apply keeps_offset. Qed.
Lemma keeps_capacity clr : keeps clr (capacity sz).
Proof. apply keeps_bind; [apply keeps_gets|]. intros v. apply keeps_offset. Qed.

Lemma keeps_deallocate clr p n : keeps clr (deallocate AI sz al chk p n).
Proof.
  apply keeps_bind; [apply keeps_usize|]. intros m s. unfold lift_alloc. cbn.
  destruct (decide _); [apply ev_heap, hev_refl|]. unfold default_free. destruct (layout_ok _ _).
  - cbn. destruct (hfree _ _ _ _) as [h|] eqn:E; [|done]. apply ev_heap. by eapply hev_free.
  - apply ev_heap, hev_refl.
Qed.

Lemma keeps_drop_place clr p : keeps clr (drop_place nd p).
Proof.
  unfold drop_place. apply keeps_if; [|apply keeps_ret].
  apply keeps_bind; [apply keeps_from_heap|]. intros x. apply keeps_bind; [apply keeps_log|]. intros _.
  apply keeps_on_heap. intros h h'. apply hev_put.
Qed.

Lemma keeps_drop_places clr n : forall p, keeps clr (drop_places nd p n).
Proof.
  induction n as [|n IH]; intros p; [apply keeps_ret|]. cbn.
  apply keeps_bind; [apply keeps_drop_place|]. intros _. apply keeps_bind; [apply keeps_from_heap|]. apply IH.
Qed.

Lemma keeps_clone clr buf : forall p, keeps clr (clone_from_slice nd clone p buf).
Proof.
  induction buf as [|x buf IH]; intros p; [apply keeps_ret|]. cbn. destruct (clone x); [|apply keeps_panic].
  apply keeps_bind; [apply keeps_drop_place|]. intros _.
  apply keeps_bind; [apply keeps_on_heap; intros h h'; apply hev_put|]. intros _.
  apply keeps_bind; [apply keeps_from_heap|]. apply IH.
Qed.

Lemma keeps_set_end {B} clr (f : st -> heap T -> option ptr) (K : vec -> M st B) :
  (forall v, keeps clr (K v)) ->
  keeps clr (do v <- gets st_v; do e <- (fun s => from_heap (f s) s); run set_v (Vec (v_begin v) e (v_cap v)); K v).
Proof.
  intros HK s. unfold bind at 1, gets. unfold bind at 1, from_heap, bind at 1, gets.
  destruct (f s (st_h s)) as [e|]; cbn; [|done].
  pose proof (ev_end clr s e (st_drops s)) as E1.
  match goal with |- context [K ?v ?s1] => specialize (HK v s1); destruct (K v s1) as [b s2|s2|] end; [by eapply ev_trans..|done].
Qed.

Lemma keeps_increment clr : keeps clr (increment_size (A := ptr) (T := T)).
Proof.
  intros s. unfold increment_size, bind, gets, from_heap, bind, gets.
  destruct (hadd _ _ _) as [e|]; cbn; [|done]. apply ev_end.
Qed.
Lemma keeps_decrement clr : keeps clr (decrement_size (A := ptr) (T := T)).
Proof.
  intros s. unfold decrement_size, bind, gets, from_heap, bind, gets.
  destruct (hsub _ _ _) as [e|]; cbn; [|done]. apply ev_end.
Qed.

(** Growing: to a new block. *)
Lemma keeps_reserve clr n : keeps clr (reserve AI sz al chk n).
Proof.
  unfold reserve. destruct (Nat.eqb_spec n 0) as [->|Hn]; [apply keeps_ret|]. intros s.
  unfold bind at 1. pose proof (keeps_len clr s) as HL.
  assert (EL : forall m s1, len sz s = Ok m s1 -> s1 = s).
  { unfold len, bind, gets, offset_from. intros m s1. destruct (sz =? 0)%Z; [done|]. destruct (pdiff _ _); cbn; [by intros [= -> ->]|done]. }
  destruct (len sz s) as [size s1|s1|]; [|done|done]. rewrite (EL _ _ eq_refl) in *. clear EL HL s1.
  unfold bind at 1. pose proof (keeps_capacity clr s) as HC.
  assert (EC : forall m s1, capacity sz s = Ok m s1 -> s1 = s /\ pdiff (v_cap (st_v s)) (v_begin (st_v s)) = Some m).
  { unfold capacity, bind, gets, offset_from. intros m s1. destruct (sz =? 0)%Z; [done|]. destruct (pdiff _ _) eqn:E; cbn; [|done].
    intros [= -> ->]. done. }
  destruct (capacity sz s) as [c s1|s1|]; [|done|done]. destruct (EC _ _ eq_refl) as (-> & EP). clear EC HC.
  assert (US : forall r, (exists k, usize chk r s = Ok k s) \/ usize chk r s = Panic s).
  { intros r. unfold usize, ret, panic. destruct (_ && _)%Z; [left; by eexists|]. destruct chk; [by right|left; by eexists]. }
  unfold bind at 1. destruct (US (Z.of_nat c + Z.of_nat n)%Z) as [[m ->]| ->]; [|apply ev_refl].
  unfold bind at 1, allocate, bind at 1. destruct (US (Z.of_nat m * sz)%Z) as [[bytes ->]| ->]; [|apply ev_refl].
  unfold lift_alloc at 1. cbn [ai_alloc FixedAlloc]. unfold default_alloc.
  destruct (_ =? 0)%Z; [apply ev_heap, hev_refl|]. destruct (layout_ok _ _); [|apply ev_heap, hev_refl].
  cbn [fst snd]. set (h1 := halloc (st_h s) _). set (s1 := VState _ _ h1 _).
  assert (E1 : ev clr s s1) by (apply ev_heap, hev_alloc).
  unfold bind at 1, gets at 1. cbn [st_v].
  assert (HM : keeps clr (if negb (is_null (v_begin (st_v s))) then
     (run on_heap (fun h => hcopy h (v_begin (st_v s)) (Ptr (h_next (st_h s)) 0) size); do c0 <- capacity sz; deallocate AI sz al chk (v_begin (st_v s)) c0) else ret tt)).
  { apply keeps_if; [|apply keeps_ret]. apply keeps_bind; [apply keeps_on_heap; intros h h'; apply hev_copy|]. intros _.
    apply keeps_bind; [apply keeps_capacity|]. intros c0. apply keeps_deallocate. }
  unfold bind at 1. specialize (HM s1). destruct (_ s1) as [[] s2|s2|]; [|by eapply ev_trans|done].
  pose proof (ev_trans _ _ _ _ E1 HM) as E2.
  unfold bind at 1, from_heap at 1, bind at 1, gets at 1. destruct (hadd (st_h s2) _ size) as [e|]; cbn [or_ub]; [|done].
  unfold ret at 1. unfold bind at 1, from_heap at 1, bind at 1, gets at 1.
  destruct (hadd (st_h s2) _ m) as [k|] eqn:EK; cbn [or_ub]; [|done]. unfold ret, set_v, modify.
  unfold hadd in EK. destruct (cells_of _ _); [|done]. destruct (_ <=? _); [|done]. injection EK as <-.
  destruct E2 as (H2 & A2 & _). split; [done|]. split; [done|]. cbn [st_v]. intros A0. split; [done|].
  right; right. exists (h_next (st_h s)). done.
Qed.

Lemma keeps_grow clr : keeps clr (grow AI sz al chk).
Proof.
  unfold grow. apply keeps_bind; [apply keeps_capacity|]. intros c. apply keeps_bind.
  { unfold calculate_grow_capacity. apply keeps_if; [apply keeps_ret|apply keeps_usize]. }
  intros k. apply keeps_bind; [apply keeps_capacity|]. intros c'. apply keeps_bind; [apply keeps_usize|]. intros d.
  apply keeps_reserve.
Qed.

Lemma keeps_is_full clr : keeps clr (is_full sz).
Proof. apply keeps_bind; [apply keeps_len|]. intros n. apply keeps_bind; [apply keeps_capacity|]. intros c. apply keeps_ret. Qed.

Lemma keeps_slice_len clr (v : vec) : keeps clr (if is_null (v_begin v) then ret 0 else len sz).
Proof. apply keeps_if; [apply keeps_ret|apply keeps_len]. Qed.

Lemma keeps_store clr p (x : T) : keeps clr (on_heap (fun h => hstore h p x)).
Proof. apply keeps_on_heap. intros h h'. apply hev_put. Qed.
Lemma keeps_copy clr p q n : keeps clr (on_heap (fun h => hcopy h p q n)).
Proof. apply keeps_on_heap. intros h h'. apply hev_copy. Qed.

Ltac kp := repeat first
  [ apply keeps_ret | apply keeps_panic | apply keeps_gets | apply keeps_or_ub
  | apply keeps_from_heap | apply keeps_usize | apply keeps_log | apply keeps_unwind | apply keeps_offset
  | apply keeps_len | apply keeps_capacity | apply keeps_deallocate | apply keeps_drop_place | apply keeps_drop_places
  | apply keeps_clone | apply keeps_increment | apply keeps_decrement | apply keeps_reserve | apply keeps_grow
  | apply keeps_is_full | apply keeps_slice_len | apply keeps_store | apply keeps_copy | apply keeps_if
  | apply keeps_bind; [|intros ?] ].

Lemma exec_keeps c : keeps (is_clear c) (exec AI sz al chk nd clone c).
Proof.
  destruct c; cbn [exec is_clear].
  - unfold push. kp.
  - unfold pop, is_empty. kp.
  - unfold insert. kp.
  - unfold remove. kp.
  - kp.
  - apply keeps_bind; [|intros ?; apply keeps_ret]. unfold clear. intros s. unfold bind at 1, gets at 1.
    assert (HM : keeps true (if negb (is_null (v_begin (st_v s))) then
      (do n <- len sz; run drop_places nd (v_begin (st_v s)) n; do c <- capacity sz; deallocate AI sz al chk (v_begin (st_v s)) c) else ret tt)) by kp.
    unfold bind at 1. specialize (HM s). destruct (_ s) as [[] s1|s1|]; [|done|done].
    unfold set_v, modify. destruct HM as (H1 & A1 & V1). split; [done|]. split; [done|]. cbn.
    intros A0. split; [done|]. right; left. done.
  - apply keeps_bind; [|intros ?; apply keeps_ret]. unfold append.
    apply keeps_bind; [kp|]. intros ol. apply keeps_bind; [kp|]. intros nl. apply keeps_bind; [kp|]. intros c.
    apply keeps_bind; [kp|]. intros _.
    apply (keeps_set_end false (fun s h => hadd h (v_end (st_v s)) (length buf))
      (fun v => if is_null (v_begin v) then clone_from_slice nd clone Null buf
        else do p <- from_heap (fun h => hadd h (v_begin v) ol); clone_from_slice nd clone p buf)).
    intros v. kp.
  - apply keeps_bind; [|intros ?; apply keeps_ret]. unfold assign.
    apply keeps_bind; [kp|]. intros c. apply keeps_bind; [kp|]. intros _.
    apply (keeps_set_end false (fun s h => hadd h (v_begin (st_v s)) (length buf)) (fun v => clone_from_slice nd clone (v_begin v) buf)).
    intros v. kp.
  - unfold index_set. kp.
  - unfold swap. kp.
  - kp.
  - kp.
  - unfold is_empty. kp.
  - kp.
  - unfold as_slice. kp.
Qed.

Lemma step_evolves c s a s' : step AI sz al chk nd clone c s = Some (a, s') -> ev (is_clear c) s s'.
Proof.
  unfold step. pose proof (exec_keeps c s) as H. destruct (exec AI sz al chk nd clone c s); intros E; by simplify_eq.
Qed.
End evolve.

(** ** Programs *)
Section world.
Context {T : Type}.
Variables sz al : Z.
Hypothesis Hsz : (0 < sz)%Z.
Hypothesis Hal : (0 < al)%Z.
Variable N : nat.
Hypothesis HN : 0 < N.
Hypothesis HNs : (Z.of_nat N * sz <= isize_max)%Z.
Variables chk nd : bool.
Variables (clone : T -> option T) (cl : T -> T).
Hypothesis Hcl : forall x, clone x = Some (cl x).

Notation AI := (FixedAlloc T).
Notation AS := (FixedSpec (T := T) sz al Hsz Hal).
Notation Rep := (Rep AI sz al AS).
Notation Post := (Post AI sz al nd AS).
Notation frame := (frame AI sz al AS).
Notation st := (vstate ptr T).

Definition pool_of (p : ptr) : option nat := match p with Ptr b O => Some b | _ => None end.

Lemma frame_at (s : st) b : frame s !! b =
  if decide (own_block (st_v s) = Some b \/ pool_of (st_a s) = Some b) then None else h_blk (st_h s) !! b.
Proof.
  unfold VectorProofs.frame. change (as_pool AS (st_a s)) with (pool_of (st_a s)).
  destruct (own_block (st_v s)) as [o|], (pool_of (st_a s)) as [p|]; cbn [drop_opt].
  - destruct (decide (b = o)) as [->|No]; [rewrite lookup_delete; by rewrite decide_True by (by left)|].
    rewrite lookup_delete_ne by done.
    destruct (decide (b = p)) as [->|Np]; [rewrite lookup_delete; by rewrite decide_True by (by right)|].
    rewrite lookup_delete_ne by done. rewrite decide_False; [done|]. intros [|]; congruence.
  - destruct (decide (b = o)) as [->|No]; [rewrite lookup_delete; by rewrite decide_True by (by left)|].
    rewrite lookup_delete_ne by done. rewrite decide_False; [done|]. intros [|]; congruence.
  - destruct (decide (b = p)) as [->|Np]; [rewrite lookup_delete; by rewrite decide_True by (by right)|].
    rewrite lookup_delete_ne by done. rewrite decide_False; [done|]. intros [|]; congruence.
  - rewrite decide_False; [done|]. intros [|]; congruence.
Qed.

Lemma Rep_change (v : vec) (a : ptr) (h h' : heap T) d d' xs cap :
  Rep (VState v a h d) xs cap -> heap_wf h' ->
  (forall b, own_block v = Some b \/ pool_of a = Some b -> h_blk h' !! b = h_blk h !! b) ->
  Rep (VState v a h' d') xs cap.
Proof.
  intros (_ & HP & R) W L. split; [done|]. cbn [st_a st_h st_v] in *. split.
  { intros p Ep. rewrite L; [by apply HP|]. by right. }
  destruct R as [R|(b & bk & j & E & C0 & Cl & Cz & Hb & R)]; [by left|right].
  exists b, bk, j. repeat (split; [done|]). split; [|done].
  rewrite L; [done|]. left. by rewrite E.
Qed.

Lemma Rep_capn (s : st) xs cap : Rep s xs cap ->
  capn (st_v s) = cap /\ at0 (v_begin (st_v s)) /\ (v_begin (st_v s) = Null <-> cap = 0).
Proof.
  intros (_ & _ & [(-> & _ & ->)|(b & bk & j & -> & C0 & _)]); cbn.
  - done.
  - split; [done|]. split; [done|]. split; [done|lia].
Qed.

Lemma Rep_own_live (s : st) xs cap b : Rep s xs cap -> own_block (st_v s) = Some b -> is_Some (h_blk (st_h s) !! b).
Proof.
  intros (_ & _ & [(E & _)|(b' & bk & j & E & _ & _ & _ & Hb & _)]); rewrite E; cbn; [done|].
  intros [= ->]. by eexists.
Qed.

Record FRep (h : heap T) (d : list T) (f : fixed) (sf : sfixed T) : Prop := {
  fr_rep : Rep (VState (f_vec f) (f_pool f) h d) (items (sf_vec sf)) (room (sf_vec sf));
  fr_buf : exists bk, h_blk h !! f_buf f = Some bk /\ length (bk_cells bk) = N;
  fr_pool : is_Some (pool_of (f_pool f));
  fr_in : sf_over sf = false ->
    v_begin (f_vec f) = Ptr (f_buf f) 0 /\ f_pool f = Ptr (f_buf f) 0 /\ room (sf_vec sf) = N;
  fr_out : sf_over sf = true -> forall b, own_block (f_vec f) = Some b -> b <> f_buf f /\ pool_of (f_pool f) <> Some b
}.

Definition feet (f : fixed) (b : nat) : Prop :=
  b = f_buf f \/ pool_of (f_pool f) = Some b \/ own_block (f_vec f) = Some b.

Record FWRep (h0 : gmap nat (block T)) (w : fworld T) (ss : list (option (sfixed T))) : Prop := {
  fw_wf : heap_wf (fw_h w);
  fw_len : length ss = length (fw_objs w);
  fw_live : forall i f sf, fw_objs w !! i = Some f -> ss !! i = Some (Some sf) ->
    f_moved f = false /\ FRep (fw_h w) (fw_drops w) f sf;
  fw_dead : forall i f, fw_objs w !! i = Some f -> ss !! i = Some None -> f_moved f = true;
  fw_disj : forall i j f g sf sg, i <> j -> fw_objs w !! i = Some f -> fw_objs w !! j = Some g ->
    ss !! i = Some (Some sf) -> ss !! j = Some (Some sg) -> forall b, feet f b -> feet g b -> False;
  fw_base : forall b bk, h0 !! b = Some bk -> h_blk (fw_h w) !! b = Some bk;
  fw_away : forall i f sf b, fw_objs w !! i = Some f -> ss !! i = Some (Some sf) -> feet f b -> h0 !! b = None;
  fw_acct : forall b, is_Some (h_blk (fw_h w) !! b) -> is_Some (h0 !! b) \/
    exists i f, fw_objs w !! i = Some f /\
      (b = f_buf f \/ exists sf, ss !! i = Some (Some sf) /\ own_block (f_vec f) = Some b)
}.

Lemma feet_live h d f sf b : FRep h d f sf -> feet f b -> is_Some (h_blk h !! b).
Proof.
  intros R [->|[E|E]].
  - destruct (fr_buf _ _ _ _ R) as (bk & -> & _). by eexists.
  - destruct (fr_rep _ _ _ _ R) as (_ & HP & _). by apply HP.
  - by apply (Rep_own_live _ _ _ _ (fr_rep _ _ _ _ R)).
Qed.

Lemma FWRep_start h : heap_wf h -> FWRep (h_blk h) (FWorld [] h []) [].
Proof. intros W. constructor; cbn; try done. intros b Hb. by left. Qed.

(** An untouched object stays as it is. *)
Lemma FRep_change h h' d d' f sf : FRep h d f sf -> heap_wf h' ->
  (forall b, feet f b -> h_blk h' !! b = h_blk h !! b) -> FRep h' d' f sf.
Proof.
  intros R W L. constructor.
  - eapply Rep_change; [apply (fr_rep _ _ _ _ R)|done|]. intros b [E|E]; apply L; [by right; right|by right; left].
  - destruct (fr_buf _ _ _ _ R) as (bk & E & El). exists bk. split; [|done]. rewrite L; [done|by left].
  - apply (fr_pool _ _ _ _ R).
  - apply (fr_in _ _ _ _ R).
  - apply (fr_out _ _ _ _ R).
Qed.

(** One call on one object. *)
Lemma FRep_step h d f sf c a dd v' s' :
  FRep h d f sf -> heap_wf h ->
  nd = false \/ is_move c = true -> chk = true \/ modest sz c = true ->
  spec_call (default_fits sz al) cl c (sf_vec sf) = (a, dd, v') ->
  step AI sz al chk nd clone c (VState (f_vec f) (f_pool f) h d) = Some (a, s') ->
  Post (VState (f_vec f) (f_pool f) h d) s' (items v') (room v') dd ->
  FRep (st_h s') (st_drops s') (Fixed (st_v s') (st_a s') (f_buf f) false)
    (SFixed v' (sf_over sf || is_clear c || negb (room v' =? room (sf_vec sf)))).
Proof.
  intros R W Hnd HK HS HE (R' & F & EA & D). cbn [st_a] in EA.
  pose proof (step_evolves sz al chk nd clone c _ _ _ HE) as (HH & _ & HV). cbn [st_h st_v] in HH, HV.
  pose proof (Rep_capn _ _ _ (fr_rep _ _ _ _ R)) as (CN & A0 & NU). cbn [st_v] in CN, A0, NU.
  pose proof (Rep_capn _ _ _ R') as (CN' & A0' & NU').
  destruct (fr_buf _ _ _ _ R) as (bk & Eb & Elb).
  assert (Lb : f_buf f < h_next h) by (apply W; by eexists).
  assert (HP : forall p, pool_of (f_pool f) = Some p -> p < h_next h).
  { intros p Ep. apply W. destruct (fr_rep _ _ _ _ R) as (_ & HP & _). by apply HP. }
  destruct (HV A0) as (_ & HC).
  constructor; cbn [f_vec f_pool f_buf sf_vec sf_over].
  - replace (VState (st_v s') (st_a s') (st_h s') (st_drops s')) with s' by (by destruct s'). done.
  - assert (HB : is_Some (h_blk (st_h s') !! f_buf f)).
    { destruct (decide (pool_of (f_pool f) = Some (f_buf f))) as [EP|NP].
      - destruct R' as (_ & HP' & _). apply HP'. by rewrite EA.
      - destruct (sf_over sf) eqn:EO.
        + pose proof (f_equal (lookup (f_buf f)) F) as FL. rewrite !frame_at in FL. cbn [st_v st_a st_h] in FL.
          rewrite (decide_False (P := own_block (f_vec f) = Some (f_buf f) \/ _)) in FL.
          * rewrite Eb in FL. destruct (decide _); [done|]. by rewrite FL.
          * intros [E|E]; [|done]. destruct (fr_out _ _ _ _ R EO _ E). done.
        + destruct (fr_in _ _ _ _ R EO) as (_ & E & _). rewrite E in NP. done. }
    destruct HB as [bk' Eb']. destruct HH as (_ & HH). destruct (HH _ Lb _ Eb') as (bk2 & E2 & (_ & _ & SL)).
    exists bk'. split; [done|]. rewrite Eb in E2. injection E2 as <-. lia.
  - rewrite EA. apply (fr_pool _ _ _ _ R).
  - intros EO. apply orb_false_iff in EO as [EO ER]. apply orb_false_iff in EO as [EO EC].
    apply negb_false_iff, Nat.eqb_eq in ER. destruct (fr_in _ _ _ _ R EO) as (B1 & B2 & B3).
    rewrite EA, B2, ER, B3. split; [|done]. rewrite <- B1.
    apply (step_still AI sz al chk nd Hsz AS clone cl Hcl c (VState (f_vec f) (f_pool f) h d) (items (sf_vec sf)) (room (sf_vec sf)) a dd (items v') s'
      (fr_rep _ _ _ _ R) Hnd HK EC); [|done].
    rewrite <- ER at 2. destruct (sf_vec sf) as [? ?], v' as [? ?]. exact HS.
  - intros EO b Eo. rewrite EA.
    destruct HC as [(B1 & K1)|[(_ & B1)|(b1 & B1 & L1)]].
    + assert (ER : room v' = room (sf_vec sf)).
      { rewrite <- CN, <- CN'. unfold capn. by rewrite K1. }
      assert (own_block (f_vec f) = Some b) as Eo1 by (unfold own_block in *; by rewrite <- B1).
      destruct (sf_over sf) eqn:EO1; [by apply (fr_out _ _ _ _ R EO1)|]. exfalso. cbn [orb] in EO.
      rewrite ER, Nat.eqb_refl in EO. cbn [negb] in EO. rewrite orb_false_r in EO.
      destruct c; try done. cbn [spec_call] in HS. injection HS as <- <- <-. cbn [room] in *.
      rewrite (proj2 NU' eq_refl) in B1. unfold own_block in Eo1. by rewrite <- B1 in Eo1.
    + unfold own_block in Eo. by rewrite B1 in Eo.
    + unfold own_block in Eo. rewrite B1 in Eo. injection Eo as ->. split; [lia|].
      intros EP. specialize (HP _ EP). lia.
Qed.

(** What a call leaves alone. *)
Lemma Post_others (s s' : st) xs cap d : Post s s' xs cap d ->
  forall b, own_block (st_v s) <> Some b -> pool_of (st_a s) <> Some b -> is_Some (h_blk (st_h s) !! b) ->
  h_blk (st_h s') !! b = h_blk (st_h s) !! b /\ own_block (st_v s') <> Some b /\ pool_of (st_a s') <> Some b.
Proof.
  intros (_ & F & EA & _) b N1 N2 [bk E]. pose proof (f_equal (lookup b) F) as FL. rewrite !frame_at in FL.
  rewrite (decide_False (P := own_block (st_v s) = Some b \/ _)) in FL by (intros [|]; done).
  destruct (decide _) as [D|D]; [congruence|]. split; [done|]. split; intros ?; apply D; [by left|by right].
Qed.

Lemma Post_new (s s' : st) xs cap d : Post s s' xs cap d ->
  forall b, own_block (st_v s') <> Some b -> pool_of (st_a s') <> Some b -> is_Some (h_blk (st_h s') !! b) ->
  is_Some (h_blk (st_h s) !! b) /\ own_block (st_v s) <> Some b.
Proof.
  intros (_ & F & EA & _) b N1 N2 [bk E]. pose proof (f_equal (lookup b) F) as FL. rewrite !frame_at in FL.
  rewrite decide_False in FL by (intros [|]; done).
  destruct (decide _) as [D|D]; [congruence|]. split; [rewrite <- FL; by eexists|]. intros ?; apply D; by left.
Qed.

Lemma FWRep_call h0 w ss i f sf c a dd v' s' :
  FWRep h0 w ss -> fw_objs w !! i = Some f -> ss !! i = Some (Some sf) ->
  nd = false \/ is_move c = true -> chk = true \/ modest sz c = true ->
  spec_call (default_fits sz al) cl c (sf_vec sf) = (a, dd, v') ->
  step AI sz al chk nd clone c (f_state w f) = Some (a, s') ->
  Post (f_state w f) s' (items v') (room v') dd ->
  FWRep h0 (FWorld (<[i := Fixed (st_v s') (st_a s') (f_buf f) (f_moved f)]> (fw_objs w)) (st_h s') (st_drops s'))
    (<[i := Some (SFixed v' (sf_over sf || is_clear c || negb (room v' =? room (sf_vec sf))))]> ss).
Proof.
  intros W Hf Hs Hnd HM HS HE HPost. destruct (fw_live _ _ _ W _ _ _ Hf Hs) as (Mv & R). rewrite Mv.
  pose proof (FRep_step _ _ _ _ _ _ _ _ _ R (fw_wf _ _ _ W) Hnd HM HS HE HPost) as R'.
  pose proof (lookup_lt_Some _ _ _ Hf) as Li. pose proof (lookup_lt_Some _ _ _ Hs) as Li'.
  pose proof HPost as ((W' & HP' & _) & _ & EA & _). cbn [st_a f_state] in EA.
  assert (OTH : forall b, ~ feet f b -> is_Some (h_blk (fw_h w) !! b) ->
    h_blk (st_h s') !! b = h_blk (fw_h w) !! b /\ ~ feet (Fixed (st_v s') (st_a s') (f_buf f) false) b).
  { intros b NF HB. destruct (Post_others _ _ _ _ _ HPost b) as (E1 & E2 & E3).
    - intros E. apply NF. by right; right.
    - intros E. apply NF. by right; left.
    - done.
    - split; [done|]. intros [->|[E|E]]; [apply NF; by left|done|done]. }
  constructor; cbn [fw_objs fw_h fw_drops].
  - done.
  - by rewrite !insert_length, (fw_len _ _ _ W).
  - intros j g sg Hg Hsg. destruct (decide (i = j)) as [<-|Nij].
    + rewrite list_lookup_insert in Hg by done. rewrite list_lookup_insert in Hsg by done. by simplify_eq.
    + rewrite list_lookup_insert_ne in Hg by done. rewrite list_lookup_insert_ne in Hsg by done.
      destruct (fw_live _ _ _ W _ _ _ Hg Hsg) as (Mg & Rg). split; [done|].
      eapply FRep_change; [exact Rg|done|]. intros b Hb. apply OTH; [|by eapply feet_live].
      intros Hb'. by apply (fw_disj _ _ _ W i j f g sf sg Nij Hf Hg Hs Hsg b).
  - intros j g Hg Hsg. destruct (decide (i = j)) as [<-|Nij].
    + by rewrite list_lookup_insert in Hsg by done.
    + rewrite list_lookup_insert_ne in Hg by done. rewrite list_lookup_insert_ne in Hsg by done.
      by apply (fw_dead _ _ _ W _ _ Hg Hsg).
  - assert (X : forall j g sg b, i <> j -> fw_objs w !! j = Some g -> ss !! j = Some (Some sg) ->
      feet (Fixed (st_v s') (st_a s') (f_buf f) false) b -> feet g b -> False).
    { intros j g sg b Nij Hg Hsg Hb1 Hb2. destruct (fw_live _ _ _ W _ _ _ Hg Hsg) as (Mg & Rg).
      destruct (OTH b) as (_ & NF); [|by eapply feet_live|done].
      intros Hb'. by apply (fw_disj _ _ _ W i j f g sf sg Nij Hf Hg Hs Hsg b). }
    intros j k fj fk sj sk Njk Hj Hk Hsj Hsk b Hbj Hbk.
    destruct (decide (i = j)) as [<-|Nij].
    + rewrite list_lookup_insert in Hj by done. injection Hj as <-.
      rewrite list_lookup_insert_ne in Hk by done. rewrite list_lookup_insert_ne in Hsk by done. by eapply X.
    + rewrite list_lookup_insert_ne in Hj by done. rewrite list_lookup_insert_ne in Hsj by done.
      destruct (decide (i = k)) as [<-|Nik].
      * rewrite list_lookup_insert in Hk by done. injection Hk as <-. by eapply X.
      * rewrite list_lookup_insert_ne in Hk by done. rewrite list_lookup_insert_ne in Hsk by done.
        by apply (fw_disj _ _ _ W j k fj fk sj sk Njk Hj Hk Hsj Hsk b).
  - intros b bk Hb. destruct (OTH b) as (E & _).
    + intros Hf'. by rewrite (fw_away _ _ _ W _ _ _ _ Hf Hs Hf') in Hb.
    + rewrite (fw_base _ _ _ W _ _ Hb). by eexists.
    + by rewrite E, (fw_base _ _ _ W _ _ Hb).
  - intros j g sg b Hg Hsg Hb. destruct (decide (i = j)) as [<-|Nij].
    + rewrite list_lookup_insert in Hg by done. injection Hg as <-.
      destruct (h0 !! b) as [bk|] eqn:E0; [|done]. exfalso. destruct (OTH b) as (_ & NF); [| |done].
      * intros Hf'. by rewrite (fw_away _ _ _ W _ _ _ _ Hf Hs Hf') in E0.
      * rewrite (fw_base _ _ _ W _ _ E0). by eexists.
    + rewrite list_lookup_insert_ne in Hg by done. rewrite list_lookup_insert_ne in Hsg by done.
      by apply (fw_away _ _ _ W _ _ _ _ Hg Hsg).
  - intros b Hb.
    assert (OLD : is_Some (h_blk (fw_h w) !! b) -> (own_block (f_vec f) = Some b -> b = f_buf f) ->
      is_Some (h0 !! b) \/ exists i0 f0, <[i:=Fixed (st_v s') (st_a s') (f_buf f) false]> (fw_objs w) !! i0 = Some f0 /\
        (b = f_buf f0 \/ exists sf0, <[i:=Some (SFixed v' (sf_over sf || is_clear c || negb (room v' =? room (sf_vec sf))))]> ss !! i0 = Some (Some sf0) /\ own_block (f_vec f0) = Some b)).
    { intros Hb0 HO. destruct (fw_acct _ _ _ W b Hb0) as [?|(k & g & Hg & HK)]; [by left|right].
      destruct (decide (i = k)) as [<-|Nik].
      - rewrite Hf in Hg. injection Hg as <-. eexists i, _. split; [by rewrite list_lookup_insert|]. left. cbn.
        destruct HK as [->|(sg & _ & E)]; [done|by apply HO].
      - exists k, g. rewrite list_lookup_insert_ne by done. split; [done|]. destruct HK as [->|(sg & Hsg & E)]; [by left|right].
        exists sg. by rewrite list_lookup_insert_ne. }
    destruct (decide (own_block (st_v s') = Some b)) as [E|NE].
    { right. eexists i, _. split; [by rewrite list_lookup_insert|]. right. eexists. by rewrite list_lookup_insert. }
    destruct (decide (pool_of (st_a s') = Some b)) as [E|NE2].
    + rewrite EA in E. apply OLD.
      * destruct (fr_rep _ _ _ _ R) as (_ & HP & _). by apply HP.
      * intros Eo. destruct (sf_over sf) eqn:EO; [by destruct (fr_out _ _ _ _ R EO _ Eo)|].
        destruct (fr_in _ _ _ _ R EO) as (_ & E2 & _). rewrite E2 in E. cbn in E. congruence.
    + destruct (Post_new _ _ _ _ _ HPost b NE NE2 Hb) as (Hb0 & Eo). by apply OLD.
Qed.

Lemma FWRep_new h0 w ss : FWRep h0 w ss ->
  FWRep h0 (FWorld (fw_objs w ++ [Fixed (Vec (Ptr (h_next (fw_h w)) 0) (Ptr (h_next (fw_h w)) 0) (Ptr (h_next (fw_h w)) N))
      (Ptr (h_next (fw_h w)) 0) (h_next (fw_h w)) false]) (halloc (fw_h w) (inline_block al N)) (fw_drops w))
    (ss ++ [Some (SFixed (SVec [] N) false)]).
Proof.
  intros W. set (n := h_next (fw_h w)). set (f := Fixed _ _ _ _). pose proof (fw_wf _ _ _ W) as HW.
  assert (FR : h_blk (fw_h w) !! n = None) by (by apply wf_fresh).
  assert (FT : forall b, feet f b -> b = n) by (intros b [->|[E|E]]; cbn in *; by simplify_eq).
  assert (SAME : forall b, is_Some (h_blk (fw_h w) !! b) -> h_blk (halloc (fw_h w) (inline_block al N)) !! b = h_blk (fw_h w) !! b /\ b <> n).
  { intros b [bk E]. assert (b <> n) by (intros ->; congruence). cbn. by rewrite lookup_insert_ne. }
  assert (LK : forall i g sg, (fw_objs w ++ [f]) !! i = Some g -> (ss ++ [Some (SFixed (SVec [] N) false)]) !! i = Some (Some sg) ->
    (fw_objs w !! i = Some g /\ ss !! i = Some (Some sg) /\ i < length ss) \/ (i = length ss /\ g = f /\ sg = SFixed (SVec [] N) false)).
  { intros i g sg Hg Hsg. destruct (decide (i < length ss)) as [L|L].
    - rewrite lookup_app_l in Hg by (rewrite <- (fw_len _ _ _ W); done). rewrite lookup_app_l in Hsg by done. by left.
    - rewrite lookup_app_r in Hg by (rewrite <- (fw_len _ _ _ W); lia). rewrite lookup_app_r in Hsg by lia.
      rewrite <- (fw_len _ _ _ W) in Hg. right.
      destruct (i - length ss) as [|k] eqn:EK; cbn in Hg, Hsg; [|done].
      simplify_eq. split; [lia|done]. }
  constructor; cbn [fw_objs fw_h fw_drops].
  - by apply wf_halloc.
  - by rewrite !app_length, (fw_len _ _ _ W).
  - intros i g sg Hg Hsg. destruct (LK _ _ _ Hg Hsg) as [(Hg' & Hsg' & _)|(-> & -> & ->)].
    + destruct (fw_live _ _ _ W _ _ _ Hg' Hsg') as (Mg & Rg). split; [done|].
      eapply FRep_change; [exact Rg|by apply wf_halloc|]. intros b Hb. apply SAME. by eapply feet_live.
    + split; [done|]. constructor; cbn.
      * split; [by apply wf_halloc|]. split.
        { intros p [= <-]. cbn. rewrite lookup_insert. by eexists. }
        right. exists n, (inline_block al N), (replicate N None). cbn. split; [done|]. split; [done|]. split; [lia|].
        split; [done|]. rewrite lookup_insert. split; [done|]. split; [done|]. rewrite replicate_length. split; [done|]. by left.
      * exists (inline_block al N). rewrite lookup_insert. split; [done|]. cbn. apply replicate_length.
      * by eexists.
      * done.
      * done.
  - intros i g Hg Hsg. destruct (decide (i < length ss)) as [L|L].
    + rewrite lookup_app_l in Hg by (rewrite <- (fw_len _ _ _ W); done). rewrite lookup_app_l in Hsg by done.
      by apply (fw_dead _ _ _ W _ _ Hg Hsg).
    + rewrite lookup_app_r in Hsg by lia. by destruct (i - length ss).
  - intros i j g1 g2 s1 s2 Nij H1 H2 Hs1 Hs2 b Hb1 Hb2.
    destruct (LK _ _ _ H1 Hs1) as [(Hg1 & Hsg1 & _)|(-> & -> & ->)], (LK _ _ _ H2 Hs2) as [(Hg2 & Hsg2 & _)|(-> & -> & ->)].
    + by apply (fw_disj _ _ _ W i j g1 g2 s1 s2 Nij Hg1 Hg2 Hsg1 Hsg2 b).
    + apply FT in Hb2 as ->. destruct (fw_live _ _ _ W _ _ _ Hg1 Hsg1) as (_ & Rg).
      destruct (feet_live _ _ _ _ _ Rg Hb1). congruence.
    + apply FT in Hb1 as ->. destruct (fw_live _ _ _ W _ _ _ Hg2 Hsg2) as (_ & Rg).
      destruct (feet_live _ _ _ _ _ Rg Hb2). congruence.
    + done.
  - intros b bk Hb. pose proof (fw_base _ _ _ W _ _ Hb) as E. destruct (SAME b ltac:(by eexists)) as (-> & _). done.
  - intros i g sg b Hg Hsg Hb. destruct (LK _ _ _ Hg Hsg) as [(Hg' & Hsg' & _)|(-> & -> & ->)].
    + by apply (fw_away _ _ _ W _ _ _ _ Hg' Hsg').
    + apply FT in Hb as ->. destruct (h0 !! n) as [bk|] eqn:E; [|done]. by rewrite (fw_base _ _ _ W _ _ E) in FR.
  - intros b Hb. cbn in Hb. destruct (decide (b = n)) as [->|Nb].
    + right. exists (length ss), f. rewrite lookup_app_r by (rewrite <- (fw_len _ _ _ W); lia).
      rewrite <- (fw_len _ _ _ W), Nat.sub_diag. split; [done|]. by left.
    + rewrite lookup_insert_ne in Hb by done.
      destruct (fw_acct _ _ _ W b Hb) as [?|(k & g & Hg & HK)]; [by left|right].
      pose proof (lookup_lt_Some _ _ _ Hg) as Lk. exists k, g. rewrite lookup_app_l by done. split; [done|].
      destruct HK as [->|(sg & Hsg & E)]; [by left|right]. exists sg. rewrite lookup_app_l by (rewrite (fw_len _ _ _ W); done). done.
Qed.

Lemma clear_null v a h d chk' : v_begin v = Null ->
  clear AI sz al chk' nd (VState v a h d) = Ok tt (VState (Vec Null Null Null) a h d).
Proof. intros E. unfold clear, bind, gets. cbn. by rewrite E. Qed.

(** Replacing object [i] by a moved-from one and adding a new live one. *)
Lemma FWRep_move h0 w ss i f sf f' v0 a0 h' :
  FWRep h0 w ss -> fw_objs w !! i = Some f -> ss !! i = Some (Some sf) ->
  heap_wf h' -> FRep h' (fw_drops w) f' sf -> f_moved f' = false -> f_buf f' = h_next (fw_h w) ->
  (forall b, feet f' b -> feet f b \/ b = h_next (fw_h w)) ->
  (forall b, is_Some (h_blk (fw_h w) !! b) -> h_blk h' !! b = h_blk (fw_h w) !! b \/ b = f_buf f) ->
  (forall b, is_Some (h_blk h' !! b) -> is_Some (h_blk (fw_h w) !! b) \/ b = h_next (fw_h w)) ->
  (forall b, own_block (f_vec f) = Some b -> own_block (f_vec f') = Some b \/ b = f_buf f) ->
  FWRep h0 (FWorld (<[i := Fixed v0 a0 (f_buf f) true]> (fw_objs w) ++ [f']) h' (fw_drops w))
    (<[i := None]> ss ++ [Some sf]).
Proof.
  intros W Hf Hs W' R' M' B' FT SAME NEW OWN. pose proof (fw_wf _ _ _ W) as HW.
  destruct (fw_live _ _ _ W _ _ _ Hf Hs) as (_ & R).
  assert (FR : h_blk (fw_h w) !! h_next (fw_h w) = None) by (by apply wf_fresh).
  pose proof (lookup_lt_Some _ _ _ Hf) as Li. pose proof (lookup_lt_Some _ _ _ Hs) as Li'.
  assert (LK : forall j g sg, (<[i := Fixed v0 a0 (f_buf f) true]> (fw_objs w) ++ [f']) !! j = Some g ->
    (<[i := None]> ss ++ [Some sf]) !! j = Some (Some sg) ->
    (fw_objs w !! j = Some g /\ ss !! j = Some (Some sg) /\ j <> i /\ j < length ss) \/ (j = length ss /\ g = f' /\ sg = sf)).
  { intros j g sg Hg Hsg. destruct (decide (j < length ss)) as [L|L].
    - rewrite lookup_app_l in Hg by (rewrite insert_length, <- (fw_len _ _ _ W); done).
      rewrite lookup_app_l in Hsg by (rewrite insert_length; done). left.
      destruct (decide (i = j)) as [<-|Nij]; [by rewrite list_lookup_insert in Hsg by done|].
      rewrite list_lookup_insert_ne in Hg by done. by rewrite list_lookup_insert_ne in Hsg by done.
    - rewrite lookup_app_r in Hg by (rewrite insert_length, <- (fw_len _ _ _ W); lia).
      rewrite lookup_app_r in Hsg by (rewrite insert_length; lia).
      rewrite insert_length, <- (fw_len _ _ _ W) in Hg. rewrite insert_length in Hsg. right.
      destruct (j - length ss) as [|k] eqn:EK; cbn in Hg, Hsg; [|done].
      simplify_eq. split; [lia|done]. }
  assert (AP : forall j g sg b, j <> i -> fw_objs w !! j = Some g -> ss !! j = Some (Some sg) -> feet g b -> feet f' b -> False).
  { intros j g sg b Nij Hg Hsg Hb Hb'. destruct (fw_live _ _ _ W _ _ _ Hg Hsg) as (_ & Rg).
    destruct (FT _ Hb') as [Hb2| ->].
    - by apply (fw_disj _ _ _ W j i g f sg sf Nij Hg Hf Hsg Hs b).
    - destruct (feet_live _ _ _ _ _ Rg Hb). congruence. }
  constructor; cbn [fw_objs fw_h fw_drops].
  - done.
  - by rewrite !app_length, !insert_length, (fw_len _ _ _ W).
  - intros j g sg Hg Hsg. destruct (LK _ _ _ Hg Hsg) as [(Hg' & Hsg' & Nij & _)|(-> & -> & ->)]; [|done].
    destruct (fw_live _ _ _ W _ _ _ Hg' Hsg') as (Mg & Rg). split; [done|].
    eapply FRep_change; [exact Rg|done|]. intros b Hb. destruct (SAME b) as [?| ->]; [by eapply feet_live|done|].
    exfalso. apply (fw_disj _ _ _ W j i g f sg sf Nij Hg' Hf Hsg' Hs (f_buf f)); [done|by left].
  - intros j g Hg Hsg. destruct (decide (j < length ss)) as [L|L].
    + rewrite lookup_app_l in Hg by (rewrite insert_length, <- (fw_len _ _ _ W); done).
      rewrite lookup_app_l in Hsg by (rewrite insert_length; done).
      destruct (decide (i = j)) as [<-|Nij]; [rewrite list_lookup_insert in Hg by done; by simplify_eq|].
      rewrite list_lookup_insert_ne in Hg by done. rewrite list_lookup_insert_ne in Hsg by done.
      by apply (fw_dead _ _ _ W _ _ Hg Hsg).
    + rewrite lookup_app_r in Hsg by (rewrite insert_length; lia). rewrite insert_length in Hsg.
      by destruct (j - length ss).
  - intros j k g1 g2 s1 s2 Njk H1 H2 Hs1 Hs2 b Hb1 Hb2.
    destruct (LK _ _ _ H1 Hs1) as [(Hg1 & Hsg1 & N1 & _)|(-> & -> & ->)], (LK _ _ _ H2 Hs2) as [(Hg2 & Hsg2 & N2 & _)|(-> & -> & ->)].
    + by apply (fw_disj _ _ _ W j k g1 g2 s1 s2 Njk Hg1 Hg2 Hsg1 Hsg2 b).
    + by eapply (AP j g1).
    + by eapply (AP k g2).
    + done.
  - intros b bk Hb. pose proof (fw_base _ _ _ W _ _ Hb) as E. destruct (SAME b ltac:(by eexists)) as [->| ->]; [done|].
    assert (X : h0 !! f_buf f = None) by (eapply (fw_away _ _ _ W); [done..|by left]). congruence.
  - intros j g sg b Hg Hsg Hb. destruct (LK _ _ _ Hg Hsg) as [(Hg' & Hsg' & _)|(-> & -> & ->)].
    + by apply (fw_away _ _ _ W _ _ _ _ Hg' Hsg').
    + destruct (FT _ Hb) as [Hb'| ->]; [by apply (fw_away _ _ _ W _ _ _ _ Hf Hs)|].
      destruct (h0 !! h_next (fw_h w)) as [bk|] eqn:E; [|done]. by rewrite (fw_base _ _ _ W _ _ E) in FR.
  - intros b Hb.
    assert (LAST : (<[i := Fixed v0 a0 (f_buf f) true]> (fw_objs w) ++ [f']) !! length ss = Some f' /\
      (<[i := None]> ss ++ [Some sf]) !! length ss = Some (Some sf)).
    { rewrite !lookup_app_r by (rewrite insert_length, ?(fw_len _ _ _ W); lia).
      by rewrite !insert_length, <- (fw_len _ _ _ W), Nat.sub_diag. }
    destruct LAST as (L1 & L2).
    destruct (NEW b Hb) as [Hb0| ->]; [|right; exists (length ss), f'; split; [done|by left]].
    destruct (fw_acct _ _ _ W b Hb0) as [?|(k & g & Hg & HK)]; [by left|right].
    pose proof (lookup_lt_Some _ _ _ Hg) as Lk.
    destruct (decide (i = k)) as [<-|Nik].
    + rewrite Hf in Hg. injection Hg as <-.
      assert (X : b = f_buf f \/ own_block (f_vec f') = Some b).
      { destruct HK as [->|(sg & _ & E)]; [by left|]. destruct (OWN _ E) as [?|?]; [by right|by left]. }
      destruct X as [->|E].
      * exists i, (Fixed v0 a0 (f_buf f) true). rewrite lookup_app_l by (by rewrite insert_length).
        rewrite list_lookup_insert by done. split; [done|by left].
      * exists (length ss), f'. split; [done|]. right. by exists sf.
    + exists k, g. rewrite lookup_app_l by (by rewrite insert_length). rewrite list_lookup_insert_ne by done.
      split; [done|]. destruct HK as [->|(sg & Hsg & E)]; [by left|right]. exists sg.
      rewrite lookup_app_l by (rewrite insert_length, (fw_len _ _ _ W); done). by rewrite list_lookup_insert_ne.
Qed.

Lemma f_move_ok h0 w ss i f sf g gp :
  FWRep h0 w ss -> fw_objs w !! i = Some f -> ss !! i = Some (Some sf) ->
  exists w', f_move sz al N chk nd i f g gp w = Some (AUnit, w') /\
    FWRep h0 w' (<[i := None]> ss ++ [Some sf]) /\ fw_drops w' = fw_drops w /\
    exists src' new, fw_objs w' = <[i := src']> (fw_objs w) ++ [new] /\ f_moved src' = true /\ f_moved new = false /\
      forall b, is_Some (h_blk (fw_h w') !! b) <-> is_Some (h_blk (fw_h w) !! b) \/ b = f_buf new.
Proof.
  intros W Hf Hs. destruct (fw_live _ _ _ W _ _ _ Hf Hs) as (Mf & R). pose proof (fw_wf _ _ _ W) as HW.
  destruct (fr_buf _ _ _ _ R) as (bk & Eb & El).
  assert (Nb : f_buf f <> h_next (fw_h w)).
  { intros E. specialize (HW (f_buf f) ltac:(by eexists)). lia. }
  assert (FR : h_blk (fw_h w) !! h_next (fw_h w) = None) by (by apply wf_fresh).
  unfold f_move, has_overflowed. destruct (Nat.eqb_spec N 0) as [?|_]; [lia|].
  destruct (bool_decide_reflect (v_begin (f_vec f) = Ptr (f_buf f) 0)) as [EB|NB]; cbn [negb].
  - (* still inline *)
    assert (EO : sf_over sf = false).
    { destruct (sf_over sf) eqn:EO; [|done]. destruct (fr_out _ _ _ _ R EO (f_buf f)) as (? & _); [|done].
      unfold own_block. by rewrite EB. }
    destruct (fr_in _ _ _ _ R EO) as (_ & EP & ER).
    pose proof (fr_rep _ _ _ _ R) as (_ & _ & [(E & _)|(b & bk' & junk & E & C0 & Cl & Cz & Hb & Hc & Hl & _)]); cbn [st_v st_h] in *.
    { rewrite E in EB. done. }
    assert (b = f_buf f) as -> by (rewrite E in EB; cbn in EB; by injection EB).
    rewrite Eb in Hb. injection Hb as <-. rewrite ER in *.
    set (n := h_next (fw_h w)) in *. cbn [f_buf].
    rewrite (hraw_ok _ n 0 N (inline_block al N)) by (cbn; rewrite ?lookup_insert, ?replicate_length; done).
    rewrite (hraw_ok _ (f_buf f) 0 N bk) by (cbn; rewrite ?lookup_insert_ne by done; try done; lia).
    rewrite !drop_0. rewrite (take_ge (bk_cells bk)) by lia.
    rewrite (take_ge (bk_cells (inline_block al N))) by (cbn; rewrite replicate_length; done).
    rewrite (hput_ok _ n 0 _ (inline_block al N)) by (cbn; rewrite ?lookup_insert, ?replicate_length; try done; lia).
    rewrite (hput_ok _ (f_buf f) 0 _ bk)
      by (cbn; rewrite ?lookup_insert_ne by done; rewrite ?replicate_length; try done; lia).
    rewrite !take_0. cbn [app Nat.add]. rewrite !drop_ge by (cbn [inline_block bk_cells]; rewrite ?replicate_length; lia).
    rewrite !app_nil_r. unfold init_base_vec. destruct (Nat.eqb_spec N 0) as [?|_]; [lia|]. cbn [f_buf f_vec v_begin v_cap f_pool].
    rewrite E. cbn [v_end v_begin v_cap]. rewrite pdiff_ok by lia. rewrite Nat.sub_0_r.
    rewrite (hadd_ok _ n 0 _ (Block (-1) al (bk_cells bk))).
    2:{ cbn. rewrite lookup_insert_ne by done. by rewrite lookup_insert. }
    2:{ cbn. lia. }
    rewrite clear_null by done. cbn [Nat.add].
    eexists. split; [reflexivity|].
    set (h' := hset _ _ _). cbn [st_v st_a st_h st_drops].
    assert (W' : heap_wf h').
    { apply wf_hset; [apply wf_hset; [by apply wf_halloc|]|].
      - cbn. rewrite lookup_insert. by eexists.
      - cbn. rewrite lookup_insert_ne by done. rewrite lookup_insert_ne by done. by eexists. }
    assert (HL : forall b, h_blk h' !! b = if decide (b = f_buf f) then Some (Block (bk_bytes bk) (bk_align bk) (replicate N None))
        else if decide (b = n) then Some (Block (-1) al (bk_cells bk)) else h_blk (fw_h w) !! b).
    { intros b. unfold h'. cbn. destruct (decide (b = f_buf f)) as [->|N1]; [by rewrite lookup_insert|].
      rewrite lookup_insert_ne by done. destruct (decide (b = n)) as [->|N2]; [by rewrite lookup_insert|].
      rewrite lookup_insert_ne by done. by rewrite lookup_insert_ne. }
    split; [|split; [done|]].
    2:{ eexists _, _. split; [reflexivity|]. split; [done|]. split; [done|]. intros b. cbn [fw_h f_buf]. rewrite HL.
        destruct (decide (b = f_buf f)) as [->|N1].
        - rewrite Eb. split; [by left|]. intros _. by eexists.
        - destruct (decide (b = n)) as [->|N2]; [split; [by right|]; intros _; by eexists|]. split; [by left|]. by intros [?|?]. }
    eapply (FWRep_move h0 w ss i f sf); try done.
    + constructor; cbn [f_vec f_pool f_buf].
      * split; [done|]. split.
        { intros p [= <-]. cbn [st_h]. rewrite HL. rewrite decide_False by done. rewrite decide_True by done. by eexists. }
        right. exists n, (Block (-1) al (bk_cells bk)), junk. cbn [st_v st_h st_a bk_cells].
        rewrite HL, decide_False, decide_True by done. rewrite ER. repeat (split; [done|]). by left.
      * exists (Block (-1) al (bk_cells bk)). rewrite HL, decide_False, decide_True by done. done.
      * by eexists.
      * done.
      * rewrite EO. done.
    + intros b [->|[E2|E2]]; cbn in *; right; by simplify_eq.
    + intros b [bk2 E2]. rewrite HL. destruct (decide (b = f_buf f)); [by right|]. left.
      rewrite decide_False; [done|]. intros ->. congruence.
    + intros b Hb2. rewrite HL in Hb2. destruct (decide (b = f_buf f)) as [->|]; [left; by eexists|].
      destruct (decide (b = n)); [by right|by left].
    + intros b Eo. rewrite E in Eo. cbn in Eo. right. congruence.
  - (* overflowed *)
    assert (EO : sf_over sf = true).
    { destruct (sf_over sf) eqn:EO; [done|]. by destruct (fr_in _ _ _ _ R EO). }
    cbn [f_pool f_buf]. rewrite clear_null by done. eexists. split; [reflexivity|]. split; [|split; [done|]].
    2:{ eexists _, _. split; [reflexivity|]. split; [done|]. split; [done|]. intros b. cbn [fw_h f_buf st_h halloc h_blk].
        destruct (decide (b = h_next (fw_h w))) as [->|N1].
        - rewrite lookup_insert. split; [by right|]. intros _. by eexists.
        - rewrite lookup_insert_ne by done. split; [by left|]. by intros [?|?]. }
    cbn [st_v st_a st_h st_drops]. set (n := h_next (fw_h w)) in *.
    assert (SAME : forall b, is_Some (h_blk (fw_h w) !! b) -> h_blk (halloc (fw_h w) (inline_block al N)) !! b = h_blk (fw_h w) !! b).
    { intros b [bk2 E2]. cbn. rewrite lookup_insert_ne; [done|]. intros E3. fold n in E3. congruence. }
    eapply (FWRep_move h0 w ss i f sf); try done.
    + by apply wf_halloc.
    + constructor; cbn [f_vec f_pool f_buf].
      * eapply Rep_change; [apply (fr_rep _ _ _ _ R)|by apply wf_halloc|].
        intros b [E|E]; apply SAME; eapply feet_live; [exact R|by right; right|exact R|by right; left].
      * exists (inline_block al N). cbn. rewrite lookup_insert. split; [done|]. apply replicate_length.
      * apply (fr_pool _ _ _ _ R).
      * rewrite EO. done.
      * intros _ b Eo. destruct (fr_out _ _ _ _ R EO b Eo) as (N1 & N2). split; [|done].
        intros ->. destruct (Rep_own_live _ _ _ _ (fr_rep _ _ _ _ R) Eo) as [bk2 E2]. cbn in E2. congruence.
    + intros b [->|[E|E]]; cbn in *; [by right|left; by right; left|left; by right; right].
    + intros b Hb. left. by apply SAME.
    + intros b Hb. cbn in Hb. destruct (decide (b = n)) as [->|Nn]; [by right|]. rewrite lookup_insert_ne in Hb by done. by left.
    + intros b Eo. by left.
Qed.

Theorem f_step_refines h0 o w ss a d ss' : FWRep h0 w ss ->
  nd = false \/ f_is_move o = true -> chk = true \/ f_modest sz o = true ->
  spec_fop (default_fits sz al) cl N o ss = Some (a, d, ss') ->
  exists w', f_step sz al N chk nd clone o w = Some (a, w') /\ FWRep h0 w' ss' /\
    fw_drops w' = fw_drops w ++ (if nd then d else []).
Proof.
  intros W Hnd HK HS.
  assert (NIL : forall l : list T, l = l ++ (if nd then [] else [])) by (intros l; destruct nd; by rewrite app_nil_r).
  assert (OBJ : forall i sf, ss !! i = Some (Some sf) -> exists f, fw_objs w !! i = Some f /\ f_moved f = false /\ FRep (fw_h w) (fw_drops w) f sf).
  { intros i sf Hs. destruct (lookup_lt_is_Some_2 (fw_objs w) i) as [f Hf].
    { rewrite <- (fw_len _ _ _ W). by eapply lookup_lt_Some. }
    destruct (fw_live _ _ _ W _ _ _ Hf Hs) as (M & R). by exists f. }
  destruct o as [|i c|i g gp|i|i]; cbn [spec_fop f_step] in *.
  - destruct (Nat.eqb_spec N 0) as [?|_]; [lia|]. simplify_eq.
    unfold f_new, init_base_vec. destruct (Nat.eqb_spec N 0) as [?|_]; [lia|]. cbn [f_buf f_moved].
    eexists. split; [reflexivity|]. split; [by apply FWRep_new|]. cbn. apply NIL.
  - destruct (ss !! i) as [[sf|]|] eqn:Hs; [|done|done]. destruct (OBJ i sf Hs) as (f & Hf & M & R). rewrite Hf, M.
    destruct (spec_call (default_fits sz al) cl c (sf_vec sf)) as [[a1 d1] v'] eqn:EC. simplify_eq. unfold f_call.
    destruct (step_modest AI sz al chk nd Hsz AS clone cl Hcl c (f_state w f) (items (sf_vec sf)) (room (sf_vec sf)) a d (items v') (room v'))
      as (s' & Es & HP).
    + apply (fr_rep _ _ _ _ R).
    + destruct Hnd as [->|Hnd]; [by left|by right].
    + change (as_fits AS) with (default_fits sz al). destruct (sf_vec sf), v'; exact EC.
    + done.
    + rewrite Es. eexists. split; [reflexivity|]. split; [by eapply FWRep_call|]. destruct HP as (_ & _ & _ & HD). done.
  - destruct (ss !! i) as [[sf|]|] eqn:Hs; [|done|done]. destruct (OBJ i sf Hs) as (f & Hf & M & R). rewrite Hf, M. simplify_eq.
    destruct (f_move_ok h0 w ss i f sf g gp W Hf Hs) as (w' & E & W' & D & _). exists w'. split; [done|]. split; [done|].
    rewrite D. apply NIL.
  - destruct (ss !! i) as [[sf|]|] eqn:Hs; [|done|done]. destruct (OBJ i sf Hs) as (f & Hf & M & R). rewrite Hf, M. simplify_eq.
    exists w. split; [|split; [done|apply NIL]]. unfold has_overflowed. destruct (Nat.eqb_spec N 0) as [?|_]; [lia|].
    f_equal. f_equal. f_equal. destruct (sf_over sf) eqn:EO.
    + apply negb_true_iff, bool_decide_eq_false. intros E. destruct (fr_out _ _ _ _ R EO (f_buf f)) as (? & _); [|done].
      unfold own_block. by rewrite E.
    + apply negb_false_iff, bool_decide_eq_true. by destruct (fr_in _ _ _ _ R EO).
  - destruct (ss !! i) as [[sf|]|] eqn:Hs; [|done|done]. destruct (OBJ i sf Hs) as (f & Hf & M & R). rewrite Hf, M. simplify_eq.
    exists w. split; [done|]. split; [done|apply NIL].
Qed.

Theorem f_run_refines h0 os : forall w ss l d ss', FWRep h0 w ss ->
  nd = false \/ forallb f_is_move os = true -> chk = true \/ forallb (f_modest sz) os = true ->
  spec_fops (default_fits sz al) cl N os ss = Some (l, d, ss') ->
  exists w', f_run sz al N chk nd clone os w = Some (l, w') /\ FWRep h0 w' ss' /\
    fw_drops w' = fw_drops w ++ (if nd then d else []).
Proof.
  induction os as [|o os IH]; intros w ss l d ss' W Hnd HK HS; cbn [spec_fops f_run] in *.
  - simplify_eq. exists w. split; [done|]. split; [done|]. destruct nd; by rewrite app_nil_r.
  - destruct (spec_fop _ _ _ o ss) as [[[a1 d1] ss1]|] eqn:E1; [|done].
    destruct (spec_fops _ _ _ os ss1) as [[[l2 d2] ss2]|] eqn:E2; [|done]. simplify_eq.
    destruct (f_step_refines h0 o w ss a1 d1 ss1 W) as (w1 & Es & W1 & D1); [| |done|].
    { destruct Hnd as [->|Hnd]; [by left|right]. cbn in Hnd. by apply andb_prop in Hnd as [? _]. }
    { destruct HK as [->|HK]; [by left|right]. cbn in HK. by apply andb_prop in HK as [? _]. }
    destruct (IH w1 ss1 l2 d2 ss' W1) as (w2 & Er & W2 & D2); [| |done|].
    { destruct Hnd as [->|Hnd]; [by left|right]. cbn in Hnd. by apply andb_prop in Hnd as [_ ?]. }
    { destruct HK as [->|HK]; [by left|right]. cbn in HK. by apply andb_prop in HK as [_ ?]. }
    exists w2. rewrite Es, Er. split; [done|]. split; [done|]. rewrite D2, D1. destruct nd; by rewrite ?app_assoc, ?app_nil_r.
Qed.

Lemma f_step_unnamed h0 o w ss : FWRep h0 w ss ->
  spec_fop (default_fits sz al) cl N o ss = None -> f_step sz al N chk nd clone o w = None.
Proof.
  intros W HS.
  assert (X : forall i, match ss !! i with Some (Some _) => False | _ => True end ->
    match fw_objs w !! i with Some f => f_moved f = true | None => True end).
  { intros i Hi. destruct (fw_objs w !! i) as [f|] eqn:Hf; [|done].
    destruct (lookup_lt_is_Some_2 ss i) as [o1 Ho]; [rewrite (fw_len _ _ _ W); by eapply lookup_lt_Some|].
    rewrite Ho in Hi. destruct o1; [done|]. by apply (fw_dead _ _ _ W _ _ Hf Ho). }
  destruct o as [|i c|i g gp|i|i]; cbn [spec_fop f_step] in *; [by destruct (N =? 0)|..];
    specialize (X i); (destruct (ss !! i) as [[sf|]|]; [done|..]);
    (destruct (fw_objs w !! i) as [f|]; [rewrite X by done|]; done).
Qed.

Theorem f_run_reached h0 os : forall w ss l w', FWRep h0 w ss ->
  nd = false \/ forallb f_is_move os = true -> chk = true \/ forallb (f_modest sz) os = true ->
  f_run sz al N chk nd clone os w = Some (l, w') ->
  exists d ss', spec_fops (default_fits sz al) cl N os ss = Some (l, d, ss') /\ FWRep h0 w' ss' /\
    fw_drops w' = fw_drops w ++ (if nd then d else []).
Proof.
  intros w ss l w' W Hnd HK E.
  destruct (spec_fops (default_fits sz al) cl N os ss) as [[[l1 d] ss']|] eqn:HS.
  - destruct (f_run_refines h0 os w ss l1 d ss' W Hnd HK HS) as (w1 & E1 & W1 & D1). rewrite E in E1. simplify_eq.
    by exists d, ss'.
  - exfalso. revert w ss l w' W Hnd HK E HS.
    induction os as [|o os IH]; intros w ss l w' W Hnd HK E HS; cbn [spec_fops f_run] in *; [done|].
    destruct (spec_fop _ _ _ o ss) as [[[a1 d1] ss1]|] eqn:E1.
    + destruct (spec_fops _ _ _ os ss1) as [[[l2 d2] ss2]|] eqn:E2; [done|].
      destruct (f_step_refines h0 o w ss a1 d1 ss1 W) as (w1 & Es & W1 & D1); [| |done|].
      { destruct Hnd as [->|Hnd]; [by left|right]. cbn in Hnd. by apply andb_prop in Hnd as [? _]. }
      { destruct HK as [->|HK]; [by left|right]. cbn in HK. by apply andb_prop in HK as [? _]. }
      rewrite Es in E. destruct (f_run sz al N chk nd clone os w1) as [[l3 w3]|] eqn:E3; [|done].
      eapply IH; [exact W1| | |exact E3|exact E2].
      { destruct Hnd as [->|Hnd]; [by left|right]. cbn in Hnd. by apply andb_prop in Hnd as [_ ?]. }
      { destruct HK as [->|HK]; [by left|right]. cbn in HK. by apply andb_prop in HK as [_ ?]. }
    + by rewrite (f_step_unnamed h0 o w ss W E1) in E.
Qed.
End world.
