(** What growth costs a deque. *)
From Verif Require Import Base Heap HeapLemmas Alloc Deque DequeSpec DequeProofs GrowthSpec.

Section deque.
Context {T : Type}.
Variables sz al : Z.
Variable chk : bool.
Hypothesis Hsz : (0 < sz)%Z.
Notation n := (subarray_size sz).
Hypothesis Hlay : layout_ok (Z.of_nat n * sz) al = true.
Variable h0 : heap (dcell T).
Notation dstate := (dstate T).
Notation DR := (DRep sz al h0).

(** Where the elements lie: size of the pointer array, first slot used, place in its
    array, number of elements. *)
Definition At (s : dstate) (size : Z) (start bo len : nat) : Prop :=
  exists pa subs leak xs, DR s pa start subs leak bo xs /\ length xs = len /\ d_size s = size.

Lemma At_facts s size start bo len : At s size start bo len ->
  bo < n /\ bo + len < n * (Z.to_nat size - start) /\ start < Z.to_nat size /\ arrays s = S (dv sz (bo + len)).
Proof using Hlay Hsz.
  intros (pa & subs & leak & xs & R & <- & <-). pose proof (dr_shape _ _ _ _ _ _ _ _ _ _ R) as SH.
  pose proof (R_bound sz al Hlay R) as LB. pose proof (R_k sz al R) as K. pose proof (sh_start _ _ _ _ _ _ _ _ _ SH) as LS.
  split; [exact (dr_bo _ _ _ _ _ _ _ _ _ _ R)|]. split; [nia|]. split; [lia|].
  unfold arrays. rewrite (dr_b _ _ _ _ _ _ _ _ _ _ R), (dr_e _ _ _ _ _ _ _ _ _ _ R). cbn [di_arr dit_at].
  rewrite (proj1 (dv_small sz al Hlay bo (dr_bo _ _ _ _ _ _ _ _ _ _ R))). rewrite pdiff_ok by lia. f_equal. lia.
Qed.

Definition push_cost (s s' : dstate) : nat := if decide (di_arr (d_b s') = di_arr (d_b s)) then 0 else arrays s.

(** A push moves the pointers exactly when the last slot is used up. *)
Lemma push_at s size start bo len x : At s size start bo len -> (Z.of_nat len < max_len sz)%Z ->
  exists s', d_call sz al chk (DPushBack x) s = Ok DUnit s' /\
    if decide (S (bo + len) = n * (Z.to_nat size - start))
    then At s' (if decide (start = 0) then (2 * size + 2)%Z else size) (start - Nat.max 1 ((start + 1) / 2)) bo (S len) /\
         push_cost s s' <= Z.to_nat size - start /\ (0 < start -> push_cost s s' = Z.to_nat size - start)
    else At s' size start bo (S len) /\ push_cost s s' = 0.
Proof using Hlay Hsz.
  intros A L. pose proof (At_facts _ _ _ _ _ A) as (F1 & F2 & F3 & F4). destruct A as (pa & subs & leak & xs & R & <- & <-).
  pose proof (dr_len _ _ _ _ _ _ _ _ _ _ R) as LK. pose proof (n_range sz al Hlay) as NR.
  destruct (dv_small sz al Hlay bo F1) as [D0 M0].
  destruct (push_back_at sz al chk Hsz Hlay h0 _ _ _ _ _ _ _ x R) as [(s' & pa' & st' & subs' & E & R' & _ & _ & _ & AP)|(s' & lk & E & _ & _ & _ & MX & _ & LL)].
  2:{ exfalso. unfold max_len in L. unfold max_arrays in MX. nia. }
  exists s'. cbn [d_call]. unfold bind. rewrite E. split; [done|]. unfold after_push in AP.
  pose proof (dv_md sz al Hlay (bo + length xs)) as DM. pose proof (md_lt sz al Hlay (bo + length xs)) as ML.
  assert (C : (md sz (bo + length xs) = n - 1 /\ start + length subs = Z.to_nat (d_size s)) <-> S (bo + length xs) = n * (Z.to_nat (d_size s) - start)).
  { split; [intros [X Y]; nia|]. intros X.
    assert (dv sz (bo + length xs) = Z.to_nat (d_size s) - start - 1 /\ md sz (bo + length xs) = n - 1) as [X1 X2] by (apply dvmd_unique; nia). lia. }
  assert (LL : length (xs ++ [x]) = S (length xs)) by (rewrite app_length; cbn; lia).
  destruct (decide (S (bo + length xs) = _)) as [Y|Y].
  - rewrite decide_True in AP by (by apply C). apply C in Y as [Y1 Y2]. destruct AP as (-> & A1 & A2). split; [|split].
    + exists pa', subs', leak, (xs ++ [x]). split; [done|]. split; [done|]. destruct (decide (start = 0)); [by apply A2|apply A1; lia].
    + unfold push_cost. rewrite F4. destruct (decide _); lia.
    + intros P. unfold push_cost. rewrite decide_False; [rewrite F4; lia|].
      rewrite (dr_b _ _ _ _ _ _ _ _ _ _ R), (dr_b _ _ _ _ _ _ _ _ _ _ R'). cbn [di_arr dit_at]. rewrite D0. intros [= _ X]. lia.
  - rewrite decide_False in AP by (by rewrite C). destruct AP as (-> & -> & A2). split.
    + exists pa, subs', leak, (xs ++ [x]). done.
    + unfold push_cost. rewrite decide_True; [done|].
      rewrite (dr_b _ _ _ _ _ _ _ _ _ _ R), (dr_b _ _ _ _ _ _ _ _ _ _ R'). cbn [di_arr dit_at]. done.
Qed.

Lemma pop_end (s s' : dstate) o : pop_front sz al s = Ok o s' -> d_e s' = d_e s.
Proof using.
  clear. assert (AD : forall p k (s s' : dstate) q, add p k s = Ok q s' -> s' = s).
  { intros p k s1 s2 q. unfold add, bind, gets, or_ub, ub, ret. destruct (hadd _ _ _); [|done]. by intros [= _ <-]. }
  unfold pop_front, bind at 1, is_empty, bind at 1, gets at 1, ret at 1. destruct (bool_decide _); [by intros [= _ <-]|].
  unfold bind at 1, gets at 1. cbn [id]. unfold bind at 1, sub, bind at 1, gets at 1.
  destruct (hsub _ _ _) as [l|]; [|done]. cbn [or_ub]. unfold ret at 1.
  assert (RE : forall p (s s' : dstate) q, read_elem p s = Ok q s' -> s' = s).
  { intros p s1 s2 q. unfold read_elem, bind, gets, ub, ret. destruct (hload _ _) as [[]|]; try done. by intros [= _ <-]. }
  assert (RP : forall p (s s' : dstate) q, read_ptr p s = Ok q s' -> s' = s).
  { intros p s1 s2 q. unfold read_ptr, bind, gets, ub, ret. destruct (hload _ _) as [[]|]; try done. by intros [= _ <-]. }
  destruct (decide _).
  - unfold bind at 1. destruct (read_elem _ s) as [x s1|s1|] eqn:E1; [|done|done]. apply RE in E1 as ->.
    unfold bind at 1. destruct (add _ _ s) as [c s1|s1|] eqn:E1; [|done|done]. apply AD in E1 as ->.
    unfold bind, set_b, modify, ret. by intros [= _ <-].
  - unfold bind at 1. destruct (read_elem _ s) as [x s1|s1|] eqn:E1; [|done|done]. apply RE in E1 as ->.
    unfold bind at 1. destruct (free_subarray _ _ _ s) as [u s1|s1|] eqn:E1; [|done|done].
    assert (d_e s1 = d_e s) as EE.
    { unfold free_subarray, deallocate in E1. destruct (default_free _ _ _ _) as [? [? ?]| |]; try done. by injection E1 as _ <-. }
    unfold bind at 1. destruct (add _ _ s1) as [c s2|s2|] eqn:E2; [|done|done]. apply AD in E2 as ->.
    unfold bind at 1. unfold set_subarray. unfold bind at 1. destruct (read_ptr _ s1) as [q s2|s2|] eqn:E2; [|done|done]. apply RP in E2 as ->.
    unfold bind at 1. destruct (add _ _ s1) as [e s2|s2|] eqn:E2; [|done|done]. apply AD in E2 as ->.
    unfold ret at 1. unfold bind, set_b, modify, ret. by intros [= _ <-].
Qed.

(** A pop takes the first place. *)
Lemma pop_at s size start bo len : At s size start bo (S len) ->
  exists s' o start' bo', d_call sz al chk DPopFront s = Ok (DOpt o) s' /\ At s' size start' bo' len /\ n * start' + bo' = S (n * start + bo).
Proof using Hlay Hsz.
  intros (pa & subs & leak & xs & R & L & <-).
  destruct (pop_front_ok sz al Hlay h0 _ _ _ _ _ _ _ R) as (s' & st' & subs' & bo' & E & R' & _ & DS & _).
  exists s', (head xs), st', bo'. cbn [d_call]. unfold bind. rewrite E. split; [done|].
  assert (LT : length (tail xs) = len) by (destruct xs; cbn in *; lia). split.
  - exists pa, subs', leak, (tail xs). done.
  - pose proof (pop_end _ _ _ E) as EE. rewrite (dr_e _ _ _ _ _ _ _ _ _ _ R), (dr_e _ _ _ _ _ _ _ _ _ _ R') in EE.
    rewrite LT, L in EE. unfold dit_at, loc in EE. injection EE as _ E1 _ _ E2.
    pose proof (dv_md sz al Hlay (bo + S len)) as D1. pose proof (dv_md sz al Hlay (bo' + len)) as D2. nia.
Qed.

Lemma repointed_cons c cs (s : dstate) : repointed sz al chk (c :: cs) s =
  match d_call sz al chk c s with
  | UB => 0
  | Ok _ s' | Panic s' =>
    match c with
    | DPushBack _ => push_cost s s'
    | DPushFront _ => if decide (di_arr (d_e s') = di_arr (d_e s)) then 0 else arrays s
    | _ => 0
    end + repointed sz al chk cs s'
  end.
Proof. done. Qed.
Lemma run_cons c cs (s : dstate) : d_run sz al chk (c :: cs) s =
  match d_call sz al chk c s with
  | Ok a s' => option_map (fun r => (Some a :: fst r, snd r)) (d_run sz al chk cs s')
  | Panic s' => option_map (fun r => (None :: fst r, snd r)) (d_run sz al chk cs s')
  | UB => None
  end.
Proof. done. Qed.

(** A program that runs through and moves so many pointers. *)
Definition Costs (cs : list (dcall T)) (s s' : dstate) (k : nat) : Prop :=
  (exists l, d_run sz al chk cs s = Some (l, s')) /\ repointed sz al chk cs s = k.
Lemma Costs_nil s : Costs [] s s 0.
Proof. split; [by exists []|done]. Qed.
Lemma Costs_app cs1 : forall cs2 s s1 s2 k1 k2, Costs cs1 s s1 k1 -> Costs cs2 s1 s2 k2 -> Costs (cs1 ++ cs2) s s2 (k1 + k2).
Proof using.
  clear. induction cs1 as [|c cs1 IH]; intros cs2 s s1 s2 k1 k2 [[l E] C] H2.
  - cbn in E, C. injection E as <- <-. subst k1. done.
  - cbn [app]. rewrite run_cons in E. rewrite repointed_cons in C.
    assert (G : forall s', (exists l', d_run sz al chk cs1 s' = Some (l', s1)) ->
      Costs (cs1 ++ cs2) s' s2 (repointed sz al chk cs1 s' + k2)).
    { intros s' X. apply (IH _ _ s1); [by split|done]. }
    split.
    + rewrite run_cons. destruct (d_call sz al chk c s) as [a s'|s'|]; [| |done].
      * destruct (d_run sz al chk cs1 s') as [[l' ?]|] eqn:E'; [|done]. cbn in E. injection E as <- ->.
        destruct (G s' ltac:(by eexists)) as [[l2 ->] _]. cbn. by eexists.
      * destruct (d_run sz al chk cs1 s') as [[l' ?]|] eqn:E'; [|done]. cbn in E. injection E as <- ->.
        destruct (G s' ltac:(by eexists)) as [[l2 ->] _]. cbn. by eexists.
    + rewrite repointed_cons. destruct (d_call sz al chk c s) as [a s'|s'|]; [| |done].
      * destruct (d_run sz al chk cs1 s') as [[l' ?]|] eqn:E'; [|done]. cbn in E. injection E as <- ->.
        destruct (G s' ltac:(by eexists)) as [_ ->]. lia.
      * destruct (d_run sz al chk cs1 s') as [[l' ?]|] eqn:E'; [|done]. cbn in E. injection E as <- ->.
        destruct (G s' ltac:(by eexists)) as [_ ->]. lia.
Qed.
Lemma Costs_ok c s a s' k : d_call sz al chk c s = Ok a s' -> k = match c with
    | DPushBack _ => push_cost s s'
    | DPushFront _ => if decide (di_arr (d_e s') = di_arr (d_e s)) then 0 else arrays s
    | _ => 0
    end -> Costs [c] s s' k.
Proof. intros E ->. split; [rewrite run_cons, E; cbn; by eexists|]. rewrite repointed_cons, E. cbn. lia. Qed.

(** Pushes that find room. *)
Lemma pushes_at k x : forall s size start bo len, At s size start bo len -> bo + len + k < n * (Z.to_nat size - start) ->
  (Z.of_nat (len + k) <= max_len sz)%Z ->
  exists s', Costs (replicate k (DPushBack x)) s s' 0 /\ At s' size start bo (len + k).
Proof using Hlay Hsz.
  induction k as [|k IH]; intros s size start bo len A B L.
  - exists s. rewrite Nat.add_0_r. split; [apply Costs_nil|done].
  - destruct (push_at _ _ _ _ _ x A) as (s1 & E & P); [lia|]. rewrite decide_False in P by lia. destruct P as [A1 C1].
    destruct (IH _ _ _ _ _ A1) as (s2 & C2 & A2); [lia|lia|]. exists s2.
    replace (len + S k) with (S len + k) by lia. split; [|done].
    change (replicate (S k) (DPushBack x)) with ([DPushBack x] ++ replicate k (DPushBack x)). change 0 with (0 + 0).
    eapply Costs_app; [|exact C2]. by eapply Costs_ok.
Qed.
Lemma pops_at k : forall s size start bo len, At s size start bo (k + len) ->
  exists s' start' bo', Costs (replicate k DPopFront) s s' 0 /\ At s' size start' bo' len /\ n * start' + bo' = n * start + bo + k.
Proof using Hlay Hsz.
  induction k as [|k IH]; intros s size start bo len A.
  - exists s, start, bo. split; [apply Costs_nil|]. split; [done|lia].
  - destruct (pop_at _ _ _ _ _ A) as (s1 & o & st1 & bo1 & E & A1 & P1).
    destruct (IH _ _ _ _ _ A1) as (s2 & st2 & bo2 & C2 & A2 & P2). exists s2, st2, bo2. split; [|split; [done|lia]].
    change (replicate (S k) DPopFront) with ([@DPopFront T] ++ replicate k DPopFront). change 0 with (0 + 0).
    eapply Costs_app; [|exact C2]. by eapply Costs_ok.
Qed.
(** A push that finds none. *)
Lemma push_full x s size start bo len : At s size start bo len -> S (bo + len) = n * (Z.to_nat size - start) -> (Z.of_nat len < max_len sz)%Z ->
  exists s' k, Costs [DPushBack x] s s' k /\ k <= Z.to_nat size - start /\ (0 < start -> k = Z.to_nat size - start) /\
    At s' (if decide (start = 0) then (2 * size + 2)%Z else size) (start - Nat.max 1 ((start + 1) / 2)) bo (S len).
Proof using Hlay Hsz.
  intros A B L. destruct (push_at _ _ _ _ _ x A L) as (s1 & E & P). rewrite decide_True in P by done. destruct P as (A1 & C1 & C2).
  exists s1, (push_cost s s1). split; [by eapply Costs_ok|]. done.
Qed.

(** ** Filling *)
Definition sizes (j : nat) : nat := 10 * 2 ^ j - 2.
Lemma sizes_S j : sizes (S j) = 2 * sizes j + 2 /\ 8 <= sizes j.
Proof. unfold sizes. cbn [Nat.pow]. pose proof (Nat.pow_nonzero 2 j ltac:(lia)). lia. Qed.
Lemma sizes_mono i j : i <= j -> sizes i <= sizes j.
Proof. intros L. induction L as [|j L IH]; [done|]. destruct (sizes_S j). lia. Qed.
Lemma sizes_max j : j <= 27 -> (Z.of_nat (n * sizes j) <= max_len sz)%Z.
Proof using.
  clear. intros L. unfold max_len. assert ((Z.of_nat (sizes j) <= 2684354557)%Z); [|nia].
  unfold sizes. rewrite Nat2Z.inj_sub by (pose proof (Nat.pow_nonzero 2 j ltac:(lia)); lia).
  rewrite Nat2Z.inj_mul, Nat2Z.inj_pow. pose proof (Z.pow_le_mono_r (Z.of_nat 2) (Z.of_nat j) 27 ltac:(lia) ltac:(lia)) as P.
  change (Z.of_nat 2 ^ 27)%Z with 134217728%Z in P. lia.
Qed.

Lemma fill x s : At s 8 3 0 0 -> forall j, j <= 27 -> exists s' k, Costs (replicate (n * sizes j - 1) (DPushBack x)) s s' k /\ At s' (Z.of_nat (sizes j)) 0 0 (n * sizes j - 1).
Proof using Hlay Hsz.
  intros A j. pose proof (n_range sz al Hlay) as NR. induction j as [|j IH]; intros J.
  - pose proof (sizes_max 0 ltac:(lia)) as MX. change (sizes 0) with 8 in *.
    destruct (pushes_at (5 * n - 1) x _ _ _ _ _ A) as (s1 & C1 & A1); [change (Z.to_nat 8) with 8; lia|lia|].
    destruct (push_full x _ _ _ _ _ A1) as (s2 & k2 & C2 & _ & _ & A2); [change (Z.to_nat 8) with 8; lia|lia|].
    change (3 - Nat.max 1 ((3 + 1) / 2)) with 1 in A2. rewrite decide_False in A2 by lia.
    destruct (pushes_at (2 * n - 1) x _ _ _ _ _ A2) as (s3 & C3 & A3); [change (Z.to_nat 8) with 8; lia|lia|].
    destruct (push_full x _ _ _ _ _ A3) as (s4 & k4 & C4 & _ & _ & A4); [change (Z.to_nat 8) with 8; lia|lia|].
    change (1 - Nat.max 1 ((1 + 1) / 2)) with 0 in A4. rewrite decide_False in A4 by lia.
    destruct (pushes_at (n - 1) x _ _ _ _ _ A4) as (s5 & C5 & A5); [change (Z.to_nat 8) with 8; lia|lia|].
    exists s5. eexists. split.
    + replace (n * 8 - 1) with ((5 * n - 1) + (1 + ((2 * n - 1) + (1 + (n - 1))))) by lia. rewrite !replicate_add.
      eapply Costs_app; [exact C1|]. eapply Costs_app; [exact C2|]. eapply Costs_app; [exact C3|]. eapply Costs_app; [exact C4|exact C5].
    + replace (n * 8 - 1) with (S (S (0 + (5 * n - 1)) + (2 * n - 1)) + (n - 1)) by lia. done.
  - destruct IH as (s1 & k1 & C1 & A1); [lia|]. pose proof (sizes_max (S j) J) as MX. destruct (sizes_S j) as [E8 L8]. rewrite E8 in *.
    destruct (push_full x _ _ _ _ _ A1) as (s2 & k2 & C2 & _ & _ & A2); [rewrite Nat2Z.id; lia|nia|].
    rewrite decide_True in A2 by done. change (0 - Nat.max 1 ((0 + 1) / 2)) with 0 in A2.
    destruct (pushes_at (n * (sizes j + 2) - 1) x _ _ _ _ _ A2) as (s3 & C3 & A3); [nia|nia|].
    exists s3. eexists. split.
    + replace (n * (2 * sizes j + 2) - 1) with ((n * sizes j - 1) + (1 + (n * (sizes j + 2) - 1))) by nia. rewrite !replicate_add.
      eapply Costs_app; [exact C1|]. eapply Costs_app; [exact C2|exact C3].
    + replace (Z.of_nat (2 * sizes j + 2)) with (2 * Z.of_nat (sizes j) + 2)%Z by lia.
      replace (n * (2 * sizes j + 2) - 1) with (S (n * sizes j - 1) + (n * (sizes j + 2) - 1)) by nia. done.
Qed.

(** One round of queue use at full length. *)
Lemma round x j s : j <= 27 -> At s (Z.of_nat (sizes j)) 1 0 (n * (sizes j - 1) - 1) ->
  exists s', Costs (replicate n (DPushBack x) ++ replicate n DPopFront) s s' (sizes j - 1) /\ At s' (Z.of_nat (sizes j)) 1 0 (n * (sizes j - 1) - 1).
Proof using Hlay Hsz.
  intros J A. pose proof (n_range sz al Hlay) as NR. pose proof (sizes_max j J) as MX. destruct (sizes_S j) as [_ L8].
  destruct (push_full x _ _ _ _ _ A) as (s1 & k1 & C1 & _ & K1 & A1); [rewrite Nat2Z.id; nia|nia|]. specialize (K1 ltac:(lia)). rewrite Nat2Z.id in K1. subst k1.
  change (1 - Nat.max 1 ((1 + 1) / 2)) with 0 in A1. rewrite decide_False in A1 by lia.
  destruct (pushes_at (n - 1) x _ _ _ _ _ A1) as (s2 & C2 & A2); [rewrite Nat2Z.id; nia|nia|].
  replace (S (n * (sizes j - 1) - 1) + (n - 1)) with (n + (n * (sizes j - 1) - 1)) in A2 by nia.
  destruct (pops_at n _ _ _ _ _ A2) as (s3 & st3 & bo3 & C3 & A3 & P3).
  destruct (At_facts _ _ _ _ _ A3) as (F1 & _). assert (st3 = 1) as -> by (clear -P3 F1 NR; nia). assert (bo3 = 0) as -> by lia.
  exists s3. split; [|done]. replace (replicate n (DPushBack x)) with (replicate 1 (DPushBack x) ++ replicate (n - 1) (DPushBack x)) by (rewrite <- replicate_add; f_equal; lia).
  replace (sizes j - 1) with ((sizes j - 1 + 0) + 0) by lia. eapply Costs_app; [eapply Costs_app; [exact C1|exact C2]|exact C3].
Qed.

Lemma rounds x j r : j <= 27 -> forall s, At s (Z.of_nat (sizes j)) 1 0 (n * (sizes j - 1) - 1) ->
  exists s', Costs (concat (replicate r (replicate n (DPushBack x) ++ replicate n DPopFront))) s s' (r * (sizes j - 1)) /\ At s' (Z.of_nat (sizes j)) 1 0 (n * (sizes j - 1) - 1).
Proof using Hlay Hsz.
  intros J. induction r as [|r IH]; intros s A; [exists s; split; [apply Costs_nil|done]|].
  destruct (round x j s J A) as (s1 & C1 & A1). destruct (IH s1 A1) as (s2 & C2 & A2). exists s2. split; [|done].
  cbn [replicate concat]. replace (S r * (sizes j - 1)) with ((sizes j - 1) + r * (sizes j - 1)) by lia. by eapply Costs_app.
Qed.

Lemma queue_cost x j s : j <= 27 -> At s 8 3 0 0 -> exists s1 k,
  Costs (replicate (n * sizes j - 1) (DPushBack x) ++ replicate n DPopFront) s s1 k /\ len sz s1 = Ok (n * (sizes j - 1) - 1) s1 /\
  forall r, exists s2, Costs (concat (replicate r (replicate n (DPushBack x) ++ replicate n DPopFront))) s1 s2 (r * (sizes j - 1)) /\ len sz s2 = Ok (n * (sizes j - 1) - 1) s2.
Proof using Hlay Hsz.
  intros J A. pose proof (n_range sz al Hlay) as NR. destruct (sizes_S j) as [_ L8]. destruct (fill x s A j J) as (s1 & k1 & C1 & A1).
  replace (n * sizes j - 1) with (n + (n * (sizes j - 1) - 1)) in A1 by nia.
  destruct (pops_at n _ _ _ _ _ A1) as (s2 & st2 & bo2 & C2 & A2 & P2).
  destruct (At_facts _ _ _ _ _ A2) as (F1 & _). assert (st2 = 1) as -> by (clear -P2 F1 NR; nia). assert (bo2 = 0) as -> by lia.
  assert (LE : forall s size st bo len, At s size st bo len -> Deque.len sz s = Ok len s).
  { intros s' size st bo l (pa & subs & leak & xs & R & <- & _). by eapply (len_ok sz al Hlay). }
  exists s2. eexists. split; [eapply Costs_app; [exact C1|exact C2]|]. split; [by eapply LE|].
  intros r. destruct (rounds x j r J s2 A2) as (s3 & C3 & A3). exists s3. split; [done|by eapply LE].
Qed.

(** ** Pushing only *)
Definition Filling (s : dstate) (len k : nat) : Prop :=
  (At s 8 3 0 len /\ len < 5 * n /\ k = 0) \/
  (At s 8 1 0 len /\ 5 * n <= len < 7 * n /\ k <= 5) \/
  (exists size, At s (Z.of_nat size) 0 0 len /\ k <= size + 4 /\ ((size = 8 /\ 7 * n <= len) \/ (18 <= size /\ n * (size - 2) <= 2 * len))).
Lemma filling_pays s len k : Filling s len k -> n * k <= 3 * len.
Proof using. clear. intros [(_ & _ & ->)|[(_ & L & K)|(size & _ & K & [(-> & L)|(S8 & L)])]]; nia. Qed.
Lemma pushes_pay xs : forall s len k, Filling s len k -> (Z.of_nat (len + length xs) <= max_len sz)%Z ->
  exists s' k', Costs (map DPushBack xs) s s' k' /\ Filling s' (len + length xs) (k + k').
Proof using Hlay Hsz.
  pose proof (n_range sz al Hlay) as NR.
  induction xs as [|x xs IH]; intros s len k F L.
  - exists s, 0. cbn [length]. rewrite !Nat.add_0_r. split; [apply Costs_nil|done].
  - cbn [length] in L. assert (X : exists s1 k1, Costs [DPushBack x] s s1 k1 /\ Filling s1 (S len) (k + k1)).
    { assert (ONE : forall size start, At s size start 0 len -> S len < n * (Z.to_nat size - start) -> exists s1, Costs [DPushBack x] s s1 0 /\ At s1 size start 0 (S len)).
      { intros size start A B. destruct (pushes_at 1 x _ _ _ _ _ A) as (s1 & C1 & A1); [lia|lia|]. exists s1. rewrite Nat.add_1_r in A1. done. }
      destruct F as [(A & B & ->)|[(A & B & K)|(size & A & K & B)]].
      - destruct (decide (S len = 5 * n)) as [E|N].
        + destruct (push_full x _ _ _ _ _ A) as (s1 & k1 & C1 & K1 & _ & A1); [change (Z.to_nat 8) with 8; lia|lia|].
          change (3 - Nat.max 1 ((3 + 1) / 2)) with 1 in A1. rewrite decide_False in A1 by lia. change (Z.to_nat 8 - 3) with 5 in K1.
          exists s1, k1. split; [done|]. right. left. split; [done|lia].
        + destruct (ONE _ _ A) as (s1 & C1 & A1); [change (Z.to_nat 8) with 8; lia|]. exists s1, 0. split; [done|]. left. split; [done|lia].
      - destruct (decide (S len = 7 * n)) as [E|N].
        + destruct (push_full x _ _ _ _ _ A) as (s1 & k1 & C1 & K1 & _ & A1); [change (Z.to_nat 8) with 8; lia|lia|].
          change (1 - Nat.max 1 ((1 + 1) / 2)) with 0 in A1. rewrite decide_False in A1 by lia. change (Z.to_nat 8 - 1) with 7 in K1.
          exists s1, k1. split; [done|]. right. right. exists 8. split; [done|]. split; [lia|]. left. lia.
        + destruct (ONE _ _ A) as (s1 & C1 & A1); [change (Z.to_nat 8) with 8; lia|]. exists s1, 0. split; [done|]. right. left. split; [done|lia].
      - destruct (At_facts _ _ _ _ _ A) as (_ & F2 & _). rewrite Nat2Z.id in F2. destruct (decide (S len = n * size)) as [E|N].
        + destruct (push_full x _ _ _ _ _ A) as (s1 & k1 & C1 & K1 & _ & A1); [rewrite Nat2Z.id; lia|lia|].
          change (0 - Nat.max 1 ((0 + 1) / 2)) with 0 in A1. rewrite decide_True in A1 by done. rewrite Nat2Z.id in K1.
          exists s1, k1. split; [done|]. right. right. exists (2 * size + 2). split; [by replace (Z.of_nat (2 * size + 2)) with (2 * Z.of_nat size + 2)%Z by lia|].
          split; [lia|]. right. split; [lia|nia].
        + destruct (ONE _ _ A) as (s1 & C1 & A1); [rewrite Nat2Z.id; lia|]. exists s1, 0. split; [done|]. right. right. exists size. split; [done|]. split; [lia|]. lia. }
    destruct X as (s1 & k1 & C1 & F1). destruct (IH s1 (S len) (k + k1) F1 ltac:(lia)) as (s2 & k2 & C2 & F2).
    exists s2, (k1 + k2). split; [change (map DPushBack (x :: xs)) with ([DPushBack x] ++ map DPushBack xs); by eapply Costs_app|].
    cbn [length]. replace (len + S (length xs)) with (S len + length xs) by lia. by replace (k + (k1 + k2)) with (k + k1 + k2) by lia.
Qed.

Lemma At_new d : heap_wf h0 -> exists s, deque_new sz al h0 d = Ok tt s /\ At s 8 3 0 0.
Proof using Hlay Hsz.
  intros W. destruct (deque_new_ok sz al Hsz Hlay h0 d W) as (s & E & (pa & b & R) & _ & Z8). exists s. split; [done|]. by exists pa, [b], [], [].
Qed.
End deque.
