(** What moves the buffer of a vector, and what does not. *)
From Verif Require Import Base Heap HeapLemmas Alloc AllocContract Vector VectorSpec VectorProofs.

Section vec.
Context {A T : Type}.
Variable AI : AllocImpl A T.
Variables sz al : Z.
Variables chk nd : bool.
Variable clone : T -> option T.
Notation st := (vstate A T).

(** The computation does not move the buffer. *)
Definition still {B} (m : M st B) : Prop := forall s,
  match m s with Ok _ s' | Panic s' => v_begin (st_v s') = v_begin (st_v s) | UB => True end.

Lemma still_ret {B} (b : B) : still (ret b).
Proof. by intros s. Qed.
Lemma still_gets {B} (f : st -> B) : still (gets f).
Proof. by intros s. Qed.
Lemma still_panic {B} : still (B := B) panic.
Proof. by intros s. Qed.
Lemma still_or_ub {B} (o : option B) : still (or_ub o).
Proof. intros s. by destruct o. Qed.
Lemma still_bind {B C} (m : M st B) (k : B -> M st C) : still m -> (forall b, still (k b)) -> still (bind m k).
Proof.
  intros Hm Hk s. unfold bind. specialize (Hm s). destruct (m s) as [b s'|s'|]; [|done|done].
  specialize (Hk b s'). destruct (k b s'); [congruence|congruence|done].
Qed.
Lemma still_if {B} (b : bool) (m k : M st B) : still m -> still k -> still (if b then m else k).
Proof. by destruct b. Qed.
Lemma still_from {B} (f : heap T -> option B) : still (from_heap f).
Proof. apply still_bind; [apply still_gets|intros h; apply still_or_ub]. Qed.
Lemma still_on_heap (f : heap T -> option (heap T)) : still (on_heap f).
Proof. apply still_bind; [apply still_gets|intros h; apply still_bind; [apply still_or_ub|by intros h' s]]. Qed.
Lemma still_usize r : still (usize chk r).
Proof. intros s. unfold usize. by destruct chk, (_ && _). Qed.
Lemma still_offset p q : still (offset_from sz p q).
Proof. unfold offset_from. apply still_if; [apply still_panic|apply still_or_ub]. Qed.
Lemma still_len : still (len sz).
Proof. apply still_bind; [apply still_gets|intros v; apply still_offset]. Qed.
Lemma still_capacity : still (capacity sz).
Proof. apply still_bind; [apply still_gets|intros v; apply still_offset]. Qed.
Lemma still_drop_place p : still (drop_place nd p).
Proof.
  unfold drop_place. apply still_if; [|apply still_ret]. apply still_bind; [apply still_from|]. intros x.
  apply still_bind; [by intros s|]. intros _. apply still_on_heap.
Qed.
Lemma still_unwind {B} f (m : M st B) : (forall s, v_begin (st_v (f s)) = v_begin (st_v s)) -> still m -> still (on_unwind f m).
Proof. intros Hf Hm s. unfold on_unwind. specialize (Hm s). destruct (m s); [done| |done]. by rewrite Hf. Qed.
(** Moving the end. *)
Lemma still_set_end {B} (f : vec -> heap T -> option ptr) (k : vec -> ptr -> M st B) : (forall v e, still (k v e)) ->
  still (do v <- gets st_v; do e <- from_heap (f v); run set_v (Vec (v_begin v) e (v_cap v)); k v e).
Proof.
  intros Hk s. unfold bind at 1, gets at 1. unfold bind at 1, from_heap, bind at 1, gets at 1.
  destruct (f (st_v s) (st_h s)) as [e|]; [|done]. cbn [or_ub]. unfold ret, bind, set_v, modify.
  specialize (Hk (st_v s) e (VState (Vec (v_begin (st_v s)) e (v_cap (st_v s))) (st_a s) (st_h s) (st_drops s))).
  by destruct (k _ _ _).
Qed.
Lemma still_inc : still increment_size.
Proof.
  intros s. pose proof (still_set_end (fun v h => hadd h (v_end v) 1) (fun _ _ => ret tt) (fun _ _ => still_ret tt) s) as H.
  unfold increment_size, bind, gets, from_heap in *. unfold bind, gets in *. by destruct (or_ub _ _).
Qed.
Lemma still_dec : still decrement_size.
Proof.
  intros s. pose proof (still_set_end (fun v h => hsub h (v_end v) 1) (fun _ _ => ret tt) (fun _ _ => still_ret tt) s) as H.
  unfold decrement_size, bind, gets, from_heap in *. unfold bind, gets in *. by destruct (or_ub _ _).
Qed.
Lemma still_clones buf : forall p, still (clone_from_slice nd clone p buf).
Proof.
  induction buf as [|x buf IH]; intros p; cbn [clone_from_slice]; [apply still_ret|]. destruct (clone x); [|apply still_panic].
  apply still_bind; [apply still_drop_place|]. intros _. apply still_bind; [apply still_on_heap|]. intros _.
  apply still_bind; [apply still_from|]. intros q. apply IH.
Qed.
End vec.

Ltac keep_still := repeat match goal with
  | |- forall _, _ => intros ?
  | |- still _ => progress cbv beta
  | |- still (bind _ _) => apply still_bind
  | |- still (if _ then _ else _) => apply still_if
  | |- still (ret _) => apply still_ret
  | |- still (gets _) => apply still_gets
  | |- still panic => apply still_panic
  | |- still (or_ub _) => apply still_or_ub
  | |- still (from_heap _) => apply still_from
  | |- still (on_heap _) => apply still_on_heap
  | |- still (usize _ _) => apply still_usize
  | |- still (len _) => apply still_len
  | |- still (capacity _) => apply still_capacity
  | |- still (drop_place _ _) => apply still_drop_place
  | |- still increment_size => apply still_inc
  | |- still decrement_size => apply still_dec
  | |- still (clone_from_slice _ _ _ _) => apply still_clones
  end.

Section vec_runs.
Context {A T : Type}.
Variable AI : AllocImpl A T.
Variables sz al : Z.
Variables chk nd : bool.
Hypothesis Hsz : (0 < sz)%Z.
Variable AS : AllocSpec AI sz al.
Variable clone : T -> option T.
Variable cl : T -> T.
Hypothesis Hcl : forall x, clone x = Some (cl x).
Notation st := (vstate A T).
Notation Rep := (VectorProofs.Rep AI sz al AS).

Definition is_clear (c : call T) : bool := match c with CClear => true | _ => false end.

Lemma still_ok {B} (m : M st B) s b s' : still m -> m s = Ok b s' -> v_begin (st_v s') = v_begin (st_v s).
Proof. intros H E. specialize (H s). by rewrite E in H. Qed.
Lemma still_step (c : call T) s a s' : still (exec AI sz al chk nd clone c) -> step AI sz al chk nd clone c s = Some (a, s') ->
  v_begin (st_v s') = v_begin (st_v s).
Proof.
  intros H E. unfold step in E. specialize (H s). destruct (exec _ _ _ _ _ _ c s); [| |done]; injection E as <- <-; exact H.
Qed.

Lemma step_still c s xs cap a d xs' s' : Rep s xs cap -> nd = false \/ is_move c = true -> chk = true \/ modest sz c = true ->
  is_clear c = false -> spec_call (as_fits AS) cl c (SVec xs cap) = (a, d, SVec xs' cap) ->
  step AI sz al chk nd clone c s = Some (a, s') -> v_begin (st_v s') = v_begin (st_v s).
Proof.
  intros R Hnd HK NC HS E.
  assert (HK' : chk = true \/ (Z.of_nat (named c) * sz <= isize_max)%Z).
  { destruct HK as [HK|HK]; [by left|right]. unfold modest in HK. lia. }
  clear HK. destruct c; cbn [is_clear is_move named] in NC, Hnd, HK'; try rewrite Z.mul_1_l in HK'; try done.
  - (* push *) cbn [spec_call items room] in HS. unfold with_room, room_for_one in HS; cbn [items room] in HS.
    change (if length xs =? cap then if cap =? 0 then 1 else 2 * cap else cap) with (need_one xs cap) in HS.
    destruct ((need_one xs cap =? cap) || as_fits AS (need_one xs cap)) eqn:F.
    + assert (EN : need_one xs cap = cap) by congruence.
      assert (NF : (length xs =? cap) = false).
      { unfold need_one in EN. destruct (Nat.eqb_spec (length xs) cap); [|done]. destruct (Nat.eqb_spec cap 0); lia. }
      unfold step in E. cbn [exec] in E. unfold push in E. unfold bind at 1, on_unwind, bind at 1 in E.
      rewrite (is_full_ok AI sz al Hsz AS _ _ _ R), NF in E.
      assert (H : still (do v <- gets (@st_v A T); run on_heap (fun h => hstore h (v_end v) x); increment_size)) by keep_still.
      specialize (H s). unfold bind at 1, ret at 1 in E. destruct (bind (gets _) _ s) as [b s1|s1|]; cbn in E; [| |done]; injection E as <- <-; exact H.
    + injection HS as <- _ _. unfold step in E. cbn [exec] in E. unfold bind in E.
      rewrite (push_panic AI sz al chk nd Hsz AS s xs cap x R F HK') in E. by injection E as <-.
  - eapply still_step; [|exact E]. cbn [exec]. unfold pop, is_empty. keep_still.
  - (* insert *) cbn [spec_call items room] in HS. unfold with_room, room_for_one in HS; cbn [items room] in HS.
    change (if length xs =? cap then if cap =? 0 then 1 else 2 * cap else cap) with (need_one xs cap) in HS.
    destruct (Nat.leb_spec i (length xs)) as [Hi|Hi].
    + destruct ((need_one xs cap =? cap) || as_fits AS (need_one xs cap)) eqn:F.
      * assert (EN : need_one xs cap = cap) by congruence.
        assert (NF : (length xs =? cap) = false).
        { unfold need_one in EN. destruct (Nat.eqb_spec (length xs) cap); [|done]. destruct (Nat.eqb_spec cap 0); lia. }
        unfold step in E. cbn [exec] in E. unfold insert in E. unfold bind at 1, on_unwind, bind at 1 in E.
        rewrite (len_ok AI sz al Hsz AS _ _ _ R) in E. rewrite (proj2 (Nat.leb_le _ _) Hi) in E. cbn [negb] in E.
        unfold bind at 1, ret at 1 in E. unfold bind at 1 in E. rewrite (is_full_ok AI sz al Hsz AS _ _ _ R), NF in E.
        unfold bind at 1, ret at 1 in E.
        match type of E with context [match (match ?m s with _ => _ end) with _ => _ end] => assert (H : still m) by keep_still; specialize (H s); destruct (m s) as [b s1|s1|] end;
          cbn in E; [| |done]; injection E as <- <-; exact H.
      * injection HS as <- _ _. unfold step in E. cbn [exec] in E. unfold bind in E.
        rewrite (insert_panic AI sz al chk nd Hsz AS s xs cap i x R Hi F HK') in E. by injection E as <-.
    + unfold step in E. cbn [exec] in E. unfold bind in E. rewrite (insert_oob AI sz al chk nd Hsz AS s xs cap i x R Hi) in E. by injection E as _ <-.
  - eapply still_step; [|exact E]. cbn [exec]. unfold remove. keep_still.
  - (* reserve *) cbn [spec_call items room] in HS. unfold with_room in HS; cbn [items room] in HS. destruct (Nat.eqb_spec n 0) as [->|Hn].
    + unfold step in E. cbn [exec] in E. unfold bind in E. rewrite reserve_0 in E. by injection E as _ <-.
    + destruct (Nat.eqb_spec (cap + n) cap); [lia|]. cbn [orb] in HS. destruct (as_fits AS (cap + n)) eqn:F; [injection HS; lia|]. injection HS as <- _ _.
      unfold step in E. cbn [exec] in E. unfold bind in E. rewrite (reserve_panic AI sz al chk Hsz AS s xs cap n R ltac:(lia) F HK') in E. by injection E as <-.
  - (* append *) destruct Hnd as [Hnd|?]; [|done]. cbn [spec_call items room] in HS. unfold with_room in HS; cbn [items room] in HS.
    destruct ((Nat.max cap (length xs + length buf) =? cap) || as_fits AS (Nat.max cap (length xs + length buf))) eqn:F.
    + assert (EN : Nat.max cap (length xs + length buf) = cap) by congruence.
      unfold step in E. cbn [exec] in E. unfold append in E. unfold bind at 1, bind at 1 in E.
      rewrite (len_ok AI sz al Hsz AS _ _ _ R) in E. unfold bind at 1 in E.
      rewrite (usize_ok' chk (Z.of_nat (length xs) + Z.of_nat (length buf)) (length xs + length buf)) in E;
        [|lia|pose proof (cap_usize AI sz al Hsz AS _ _ _ R); lia].
      unfold ret at 1 in E. unfold bind at 1 in E. rewrite (capacity_ok AI sz al Hsz AS _ _ _ R) in E.
      rewrite (proj2 (Nat.ltb_ge _ _)) in E by lia. unfold bind at 1, ret at 1 in E.
      match type of E with context [match (match ?m s with _ => _ end) with _ => _ end] =>
        assert (H : still m) by (apply (still_set_end (fun v h => hadd h (v_end v) (length buf)) (fun v _ => if is_null (v_begin v) then clone_from_slice nd clone Null buf
          else do p <- from_heap (fun h => hadd h (v_begin v) (length xs)); clone_from_slice nd clone p buf)); keep_still); specialize (H s); destruct (m s) as [b s1|s1|] end;
          cbn in E; [| |done]; injection E as <- <-; exact H.
    + injection HS as <- _ _. unfold step in E. cbn [exec] in E. unfold bind in E.
      rewrite (append_panic AI sz al chk nd Hsz AS clone s xs cap buf R F HK') in E. by injection E as <-.
  - (* assign *) destruct Hnd as [Hnd|?]; [|done]. cbn [spec_call items room] in HS. unfold with_room in HS; cbn [items room] in HS.
    destruct ((Nat.max cap (length buf) =? cap) || as_fits AS (Nat.max cap (length buf))) eqn:F.
    + assert (EN : Nat.max cap (length buf) = cap) by congruence.
      unfold step in E. cbn [exec] in E. unfold assign in E. unfold bind at 1, bind at 1 in E.
      rewrite (capacity_ok AI sz al Hsz AS _ _ _ R) in E.
      rewrite (proj2 (Nat.ltb_ge _ _)) in E by lia. unfold bind at 1, ret at 1 in E.
      match type of E with context [match (match ?m s with _ => _ end) with _ => _ end] =>
        assert (H : still m) by (apply (still_set_end (fun v h => hadd h (v_begin v) (length buf)) (fun v _ => clone_from_slice nd clone (v_begin v) buf)); keep_still); specialize (H s); destruct (m s) as [b s1|s1|] end;
          cbn in E; [| |done]; injection E as <- <-; exact H.
    + injection HS as <- _ _. unfold step in E. cbn [exec] in E. unfold bind in E.
      rewrite (assign_panic AI sz al chk nd Hsz AS clone s xs cap buf R F HK') in E. by injection E as <-.
  - eapply still_step; [|exact E]. cbn [exec]. unfold index_set. apply still_bind; [|intros ?; apply still_ret]. apply still_unwind; [done|]. keep_still.
  - eapply still_step; [|exact E]. cbn [exec]. unfold swap. keep_still.
  - eapply still_step; [|exact E]. cbn [exec]. keep_still.
  - eapply still_step; [|exact E]. cbn [exec]. keep_still.
  - eapply still_step; [|exact E]. cbn [exec]. unfold is_empty. keep_still.
  - eapply still_step; [|exact E]. cbn [exec]. unfold is_full. keep_still.
  - eapply still_step; [|exact E]. cbn [exec]. unfold as_slice. keep_still.
Qed.

Lemma room_grows c s a d s' : is_clear c = false -> spec_call (as_fits AS) cl c s = (a, d, s') -> room s <= room s'.
Proof using AS.
  clear -AS. intros NC E. destruct s as [xs cap]. destruct c; cbn [spec_call items room] in E; unfold with_room, room_for_one in E; cbn [items room] in E; try done;
    repeat case_match; injection E as <- <- <-; cbn [room]; lia.
Qed.
Lemma run_still cs : forall s xs cap l d xs' s', Rep s xs cap -> nd = false \/ forallb is_move cs = true -> chk = true \/ forallb (modest sz) cs = true ->
  existsb is_clear cs = false -> spec_calls (as_fits AS) cl cs (SVec xs cap) = (l, d, SVec xs' cap) ->
  run_calls AI sz al chk nd clone cs s = Some (l, s') -> v_begin (st_v s') = v_begin (st_v s).
Proof.
  assert (MO : forall cs s l d s', existsb is_clear cs = false -> spec_calls (as_fits AS) cl cs s = (l, d, s') -> room s <= room s').
  { clear -AS. induction cs as [|c cs IH]; intros s l d s' NC E; cbn [spec_calls existsb] in *; [injection E as <- <- <-; lia|].
    apply orb_false_elim in NC as [N1 N2]. destruct (spec_call _ cl c s) as [[a d1] s1] eqn:E1. destruct (spec_calls _ cl cs s1) as [[l2 d2] s2] eqn:E2.
    injection E as <- <- <-. pose proof (room_grows _ _ _ _ _ N1 E1). pose proof (IH _ _ _ _ N2 E2). lia. }
  induction cs as [|c cs IH]; intros s xs cap l d xs' s' R Hnd HK NC HS E; cbn [spec_calls run_calls existsb] in *; [by injection E as _ <-|].
  apply orb_false_elim in NC as [N1 N2].
  destruct (spec_call _ cl c (SVec xs cap)) as [[a d1] [xs1 cap1]] eqn:E1. destruct (spec_calls _ cl cs (SVec xs1 cap1)) as [[l2 d2] [xs2 cap2]] eqn:E2.
  injection HS as <- <- <- EC. subst cap2.
  pose proof (room_grows _ _ _ _ _ N1 E1) as G1. pose proof (MO _ _ _ _ _ N2 E2) as G2. cbn [room] in G1, G2. assert (cap1 = cap) as -> by lia.
  assert (Hnd1 : nd = false \/ is_move c = true).
  { destruct Hnd as [->|Hnd]; [by left|right]. cbn in Hnd. by apply andb_prop in Hnd as [? _]. }
  assert (HK1 : chk = true \/ modest sz c = true).
  { destruct HK as [->|HK]; [by left|right]. cbn in HK. by apply andb_prop in HK as [? _]. }
  destruct (step_modest AI sz al chk nd Hsz AS clone cl Hcl c s xs cap a d1 xs1 cap R Hnd1 E1 HK1) as (s1 & Es & (R1 & _)).
  rewrite Es in E. destruct (run_calls AI sz al chk nd clone cs s1) as [[l' s2]|] eqn:Er; [|done]. injection E as -> <-.
  rewrite (IH s1 xs1 cap l2 d2 xs2 s2 R1); [by eapply step_still| | |done|done|done].
  - destruct Hnd as [->|Hnd]; [by left|right]. cbn in Hnd. by apply andb_prop in Hnd as [_ ?].
  - destruct HK as [->|HK]; [by left|right]. cbn in HK. by apply andb_prop in HK as [_ ?].
Qed.
End vec_runs.
