(** Proofs of the properties stated in DequeProps.v. *)
From Verif Require Import Base Heap Alloc Deque DequeSpec.

From Verif Require Import HeapLemmas DequeProofs.

Lemma dx_setup : Setup 8 8 dx_heap.
Proof. split; [lia|done|]. intros b [bk H]. cbn in H. by rewrite lookup_empty in H. Qed.

Lemma map_loc_ext (f g : nat -> ptr) a b k : (forall i, i < k -> f (a + i) = g (b + i)) -> map f (seq a k) = map g (seq b k).
Proof.
  revert a b. induction k as [|k IH]; intros a b H; cbn; [done|]. f_equal.
  - specialize (H 0 ltac:(lia)). by rewrite !Nat.add_0_r in H.
  - apply IH. intros i Hi. specialize (H (S i) ltac:(lia)). by rewrite !Nat.add_succ_r in H.
Qed.

Section derived.
Context {T : Type}.
Variables (sz al : Z) (chk : bool) (h0 : heap (dcell T)).
Hypothesis SU : Setup sz al h0.
Let Hsz := su_size _ _ _ SU.
Let Hlay := su_layout _ _ _ SU.
Local Notation DR := (DRep sz al h0).

Lemma built_rep prog l s : built sz al chk h0 prog l s ->
  exists pa start subs leak bo xs d, DR s pa start subs leak bo xs /\ explains (max_len sz) prog l d [] xs /\ d_drops s = d /\
    (chk = true \/ None ∉ l -> leak = []).
Proof.
  intros (s0 & E0 & E). destruct (deque_new_ok sz al Hsz Hlay h0 [] (su_heap _ _ _ SU)) as (s0' & E0' & (pa & b & R0) & D0 & _).
  rewrite E0 in E0'. injection E0' as <-.
  destruct (run_ok sz al chk Hsz Hlay h0 prog s0 [] []) as (l' & s' & lk & d & xs & E' & (pa' & st' & subs' & bo' & R') & EX & D & LK).
  { by exists pa, 3, [b], 0. }
  rewrite E in E'. injection E' as <- <-. exists pa', st', subs', lk, bo', xs, d. split; [done|]. split; [done|].
  split; [by rewrite D, D0|done].
Qed.

Lemma runs_total prog : exists l s, built sz al chk h0 prog l s.
Proof.
  destruct (deque_new_ok sz al Hsz Hlay h0 [] (su_heap _ _ _ SU)) as (s0 & E0 & (pa & b & R0) & D0 & _).
  destruct (run_ok sz al chk Hsz Hlay h0 prog s0 [] []) as (l' & s' & lk & d & xs & E' & _).
  { by exists pa, 3, [b], 0. }
  by exists l', s', s0.
Qed.

Lemma contents_eq s pa start subs leak bo xs ys : DR s pa start subs leak bo xs -> contents sz chk s ys -> ys = xs.
Proof. intros R C. unfold contents in C. rewrite (iter_all_ok sz al chk Hlay h0 _ _ _ _ _ _ _ R) in C. by injection C. Qed.

Lemma rep_contents s pa start subs leak bo xs : DR s pa start subs leak bo xs -> contents sz chk s xs.
Proof. apply (iter_all_ok sz al chk Hlay h0). Qed.

Lemma push_all_ok ys : forall s leak xs, Rep sz al h0 s leak xs -> (Z.of_nat (length xs + length ys) <= max_len sz)%Z ->
  exists s', push_all sz al chk ys s = Ok tt s' /\ Rep sz al h0 s' leak (xs ++ ys) /\ d_drops s' = d_drops s.
Proof.
  induction ys as [|y ys IH]; intros s leak xs HR L.
  { exists s. rewrite app_nil_r. done. }
  destruct HR as (pa & start & subs & bo & R). cbn [push_all length] in *.
  destruct (push_back_ok sz al chk Hsz Hlay h0 _ _ _ _ _ _ _ y R) as [(s1 & pa1 & st1 & subs1 & E & R1 & D & _)|(s1 & lk & E & R1 & D & DS & MX & CK & L1)].
  - destruct (IH s1 leak (xs ++ [y])) as (s2 & E2 & R2 & D2); [by eexists _, _, _, _|rewrite app_length; cbn; lia|].
    rewrite <- app_assoc in R2. unfold bind. rewrite E, E2. exists s2. split; [done|]. split; [done|congruence].
  - exfalso. unfold max_arrays in MX. unfold max_len in L.
    replace 2684354557%Z with (Z.of_nat (length subs - 1)) in L by lia. lia.
Qed.

End derived.

(** ** Conservation *)
Lemma spec_call_conserves {T} (c : dcall T) xs a d xs1 : spec_call c xs = (a, d, xs1) -> no_rewrite c = true ->
  xs ++ given c ≡ₚ taken c (Some a) ++ d ++ xs1.
Proof.
  destruct c; cbn; intros E N; try (injection E as <- <- <-; cbn; solve [by rewrite ?app_nil_r|solve_Permutation]); try done.
  - injection E as <- <- <-. rewrite app_nil_r. induction xs as [|y xs _] using rev_ind; [done|].
    rewrite last_snoc, removelast_last. cbn. solve_Permutation.
  - injection E as <- <- <-. rewrite app_nil_r. by destruct xs.
  - destruct xs as [|y xs]; injection E as <- <- <-; cbn; [done|]. solve_Permutation.
  - induction xs as [|y xs _] using rev_ind.
    + cbn in E. injection E as <- <- <-. done.
    + rewrite last_snoc in E. injection E as <- <- <-. rewrite removelast_last. cbn. solve_Permutation.
  - injection E as <- <- <-. rewrite app_nil_r. destruct (xs !! i) as [y|] eqn:Hy; cbn.
    + rewrite <- (take_drop_middle _ _ _ Hy) at 1. solve_Permutation.
    + apply lookup_ge_None in Hy. by rewrite take_ge, drop_ge, app_nil_r by lia.
Qed.

Lemma explains_conserves {T} big (cs : list (dcall T)) l d xs xs' : explains big cs l d xs xs' -> forallb no_rewrite cs = true ->
  xs ++ flat_map given cs ≡ₚ all_taken cs l ++ d ++ xs'.
Proof.
  induction 1 as [xs|c cs a l d d' xs xs1 xs2 SP EX IH|c cs x l d xs xs' PU L EX IH]; intros N; cbn [forallb flat_map all_taken] in *.
  - cbn. by rewrite app_nil_r.
  - apply andb_true_iff in N as [N1 N2]. specialize (IH N2). pose proof (spec_call_conserves _ _ _ _ _ SP N1) as C.
    rewrite app_assoc, C.
    transitivity ((taken c (Some a) ++ d) ++ (xs1 ++ flat_map given cs)); [solve_Permutation|]. rewrite IH. solve_Permutation.
  - apply andb_true_iff in N as [N1 N2]. specialize (IH N2).
    assert (given c = [x]) as -> by (destruct c; cbn in PU; try done; by injection PU as <-).
    assert (taken c None = []) as -> by (by destruct c).
    transitivity (x :: (xs ++ flat_map given cs)); [solve_Permutation|]. rewrite IH. solve_Permutation.
Qed.

(** ** Queues *)
Definition d_of {T} (c : qcall T) : dcall T :=
  match c with QPush x => DPushBack x | QPop => DPopFront | QTop => DFront | QLen => DLen | QIsEmpty => DIsEmpty | QIter => DIter end.
Lemma q_run_d {T} sz al chk (cs : list (qcall T)) : forall s, q_run sz al chk cs s = d_run sz al chk (map d_of cs) s.
Proof.
  induction cs as [|c cs IH]; intros s; [done|]. cbn [q_run d_run map].
  assert (q_call sz al chk c s = d_call sz al chk (d_of c) s) as -> by (by destruct c).
  destruct (d_call sz al chk (d_of c) s); rewrite ?IH; done.
Qed.
Lemma q_pushes_d {T} (cs : list (qcall T)) : pushes (map d_of cs) = q_pushes cs.
Proof. unfold pushes, q_pushes. induction cs as [|[] cs IH]; cbn; rewrite ?IH; done. Qed.
Lemma q_spec_d {T} (cs : list (qcall T)) : forall xs, spec_run (map d_of cs) xs = ((qspec_run cs xs).1, [], (qspec_run cs xs).2).
Proof.
  induction cs as [|c cs IH]; intros xs; [done|]. cbn [map spec_run qspec_run].
  destruct c; cbn [d_of spec_call qspec_call]; rewrite IH; by destruct (qspec_run cs _).
Qed.
Lemma q_fifo {T} (cs : list (qcall T)) : forall xs,
  xs ++ q_in cs = q_out cs (map Some (qspec_run cs xs).1) ++ (qspec_run cs xs).2.
Proof.
  induction cs as [|c cs IH]; intros xs; [cbn; by rewrite app_nil_r|].
  cbn [qspec_run]. unfold q_in. cbn [flat_map]. fold (q_in cs).
  destruct c; cbn [qspec_call]; try (specialize (IH xs); destruct (qspec_run cs xs); exact IH).
  - specialize (IH (xs ++ [x])). destruct (qspec_run cs (xs ++ [x])) as [l y]. cbn in *. by rewrite <- app_assoc in IH.
  - specialize (IH (tail xs)). destruct xs as [|x xs]; [change (tail []) with (@nil T) in IH|change (tail (x :: xs)) with xs in IH].
    + change (tail []) with (@nil T). destruct (qspec_run cs []) as [l y]. exact IH.
    + change (tail (x :: xs)) with xs. destruct (qspec_run cs xs) as [l y]. cbn in *. by rewrite IH.
Qed.

Lemma L_C31_deque_refines_list :
forall (T : Type) (sz al : Z) (chk : bool) (h0 : heap (dcell T)) (prog : list (dcall T)), Setup sz al h0 ->
  exists l s xs, built sz al chk h0 prog l s /\ explains (max_len sz) prog l (d_drops s) [] xs /\ contents sz chk s xs.
Proof.
  intros T sz al chk h0 prog SU. destruct (runs_total sz al chk h0 SU prog) as (l & s & B).
  destruct (built_rep sz al chk h0 SU _ _ _ B) as (pa & st & subs & lk & bo & xs & d & R & EX & <- & _).
  exists l, s, xs. split; [done|]. split; [done|]. by eapply rep_contents.
Qed.

Lemma L_C31_deque_answers :
forall (T : Type) (sz al : Z) (chk : bool) (h0 : heap (dcell T)) (prog : list (dcall T)), Setup sz al h0 ->
  (Z.of_nat (pushes prog) <= max_len sz)%Z ->
  exists s, built sz al chk h0 prog (map Some (spec_run prog []).1.1) s /\ contents sz chk s (spec_run prog []).2 /\
    d_drops s = (spec_run prog []).1.2.
Proof.
  intros T sz al chk h0 prog SU L. destruct (runs_total sz al chk h0 SU prog) as (l & s & B).
  destruct (built_rep sz al chk h0 SU _ _ _ B) as (pa & st & subs & lk & bo & xs & d & R & EX & D & _).
  destruct (explains_fun sz al (su_layout _ _ _ SU) (max_len sz) prog l d [] xs EX) as (-> & -> & ->); [done|].
  exists s. split; [done|]. split; [|done]. by eapply rep_contents.
Qed.

Lemma L_C31_from_iter :
forall (T : Type) (sz al : Z) (chk : bool) (h0 : heap (dcell T)) (xs : list T), Setup sz al h0 ->
  (Z.of_nat (length xs) <= max_len sz)%Z ->
  exists s, from_iter sz al chk xs h0 [] = Ok tt s /\ contents sz chk s xs /\ d_drops s = [].
Proof.
  intros T sz al chk h0 xs SU L.
  destruct (deque_new_ok sz al (su_size _ _ _ SU) (su_layout _ _ _ SU) h0 [] (su_heap _ _ _ SU)) as (s0 & E0 & (pa & b & R0) & D0 & _).
  destruct (push_all_ok sz al chk h0 SU xs s0 [] []) as (s & E & (pa' & st & subs & bo & R) & D); [by exists pa, 3, [b], 0|done|].
  exists s. split; [|split; [by eapply rep_contents|congruence]].
  unfold from_iter. unfold bind. unfold deque_new in E0. rewrite E0. exact E.
Qed.

Lemma L_C32_iteration_from_both_ends :
forall (T : Type) (sz al : Z) (chk : bool) (h0 : heap (dcell T)) prog l s xs (ds : list bool), Setup sz al h0 ->
  built sz al chk h0 prog l s -> contents sz chk s xs ->
  exists it it', iter s = Ok it s /\ steps chk ds it s = Ok ((spec_steps ds xs).1, it') s.
Proof.
  intros T sz al chk h0 prog l s xs ds SU B C.
  destruct (built_rep sz al chk h0 SU _ _ _ B) as (pa & st & subs & lk & bo & xs' & d & R & _).
  rewrite (contents_eq sz al chk h0 SU _ _ _ _ _ _ _ _ R C). clear C xs.
  destruct (steps_ok sz al chk (su_layout _ _ _ SU) h0 _ _ _ _ _ _ _ ds R [] xs' []) as (l' & r' & _ & E & _).
  { by rewrite app_nil_r. }
  rewrite Nat.add_0_r in E. eexists _, _. split; [by apply (iter_ok sz al (su_layout _ _ _ SU) h0 _ _ _ _ _ _ _ R)|]. exact E.
Qed.

Lemma L_C32_references_distinct :
forall (T : Type) (sz al : Z) (chk : bool) (h0 : heap (dcell T)) prog l s xs (ds : list bool), Setup sz al h0 ->
  built sz al chk h0 prog l s -> contents sz chk s xs ->
  exists it ps, iter s = Ok it s /\ places sz chk s = Ok ps s /\ step_places chk ds it s = Ok (spec_steps ds ps).1 s /\
    NoDup ps /\ length ps = length xs /\
    forall i p x, ps !! i = Some p -> xs !! i = Some x -> read_elem p s = Ok x s.
Proof.
  intros T sz al chk h0 prog l s xs ds SU B C.
  destruct (built_rep sz al chk h0 SU _ _ _ B) as (pa & st & subs & lk & bo & xs' & d & R & _).
  rewrite (contents_eq sz al chk h0 SU _ _ _ _ _ _ _ _ R C). clear C xs.
  destruct (steps_ok sz al chk (su_layout _ _ _ SU) h0 _ _ _ _ _ _ _ ds R [] xs' []) as (l' & r' & _ & _ & E).
  { by rewrite app_nil_r. }
  rewrite Nat.add_0_r in E. eexists _, _. split; [by apply (iter_ok sz al (su_layout _ _ _ SU) h0 _ _ _ _ _ _ _ R)|].
  split; [by apply (places_ok sz al chk (su_layout _ _ _ SU) h0 _ _ _ _ _ _ _ R)|]. split; [exact E|].
  split; [by apply (places_nodup sz al (su_layout _ _ _ SU) h0 _ _ _ _ _ _ _ R)|].
  split; [by rewrite map_length, seq_length|].
  intros i p x Hp Hx. change (map ?f ?l) with (f <$> l) in Hp. apply list_lookup_fmap_Some in Hp as (j & Hj & ->).
  apply lookup_seq in Hj as [-> _]. apply read_elem_ok. by apply (dr_elems _ _ _ _ _ _ _ _ _ _ R).
Qed.

Lemma L_C32_into_iter :
forall (T : Type) (sz al : Z) (chk : bool) (h0 : heap (dcell T)) prog l s xs (ds : list bool), Setup sz al h0 ->
  built sz al chk h0 prog l s -> contents sz chk s xs ->
  exists s', into_steps sz al ds s = Ok (spec_steps ds xs).1 s' /\ contents sz chk s' (spec_steps ds xs).2 /\ d_drops s' = d_drops s.
Proof.
  intros T sz al chk h0 prog l s xs ds SU B C.
  destruct (built_rep sz al chk h0 SU _ _ _ B) as (pa & st & subs & lk & bo & xs' & d & R & _).
  rewrite (contents_eq sz al chk h0 SU _ _ _ _ _ _ _ _ R C). clear C xs.
  destruct (into_steps_ok sz al (su_layout _ _ _ SU) h0 ds s lk xs') as (s' & E & (pa' & st' & subs' & bo' & R') & D); [by eexists _, _, _, _|].
  exists s'. split; [done|]. split; [by eapply rep_contents|done].
Qed.

Lemma L_C32_iter_mut :
forall (T : Type) (sz al : Z) (chk : bool) (h0 : heap (dcell T)) prog l s xs (g : T -> T), Setup sz al h0 ->
  built sz al chk h0 prog l s -> contents sz chk s xs ->
  exists s', iter_mut_all sz chk g s = Ok xs s' /\ contents sz chk s' (map g xs).
Proof.
  intros T sz al chk h0 prog l s xs g SU B C.
  destruct (built_rep sz al chk h0 SU _ _ _ B) as (pa & st & subs & lk & bo & xs' & d & R & _).
  rewrite (contents_eq sz al chk h0 SU _ _ _ _ _ _ _ _ R C). clear C xs.
  destruct (iter_mut_all_ok sz al chk (su_layout _ _ _ SU) h0 g _ _ _ _ _ _ _ R) as (s' & E & R' & _).
  exists s'. split; [done|]. by eapply rep_contents.
Qed.

Lemma L_C33_remove :
forall (T : Type) (sz al : Z) (chk : bool) (h0 : heap (dcell T)) prog l s xs i, Setup sz al h0 ->
  built sz al chk h0 prog l s -> contents sz chk s xs ->
  exists s', remove sz al chk i s = Ok (xs !! i) s' /\ contents sz chk s' (take i xs ++ drop (S i) xs) /\ d_drops s' = d_drops s /\
    (length xs <= i -> s' = s).
Proof.
  intros T sz al chk h0 prog l s xs i SU B C.
  destruct (built_rep sz al chk h0 SU _ _ _ B) as (pa & st & subs & lk & bo & xs' & d & R & _).
  rewrite (contents_eq sz al chk h0 SU _ _ _ _ _ _ _ _ R C). clear C xs.
  destruct (remove_ok sz al chk (su_layout _ _ _ SU) h0 _ _ _ _ _ _ _ i R) as (s' & st' & subs' & bo' & E & R' & D & _).
  exists s'. split; [done|]. split; [by eapply rep_contents|]. split; [done|].
  intros L. revert E. unfold remove, bind. rewrite (len_ok sz al (su_layout _ _ _ SU) h0 _ _ _ _ _ _ _ R).
  rewrite (proj2 (Nat.leb_le _ _) L). intros E. by injection E.
Qed.

Lemma L_C34_no_undefined_behaviour :
forall (T : Type) (sz al : Z) (chk : bool) (h0 : heap (dcell T)) (prog : list (dcall T)) (ds : list bool), Setup sz al h0 ->
  exists s0 l s1 o s2 s3, deque_new sz al h0 [] = Ok tt s0 /\ d_run sz al chk prog s0 = Some (l, s1) /\
    into_steps sz al ds s1 = Ok o s2 /\ deque_drop sz al chk s2 = Ok tt s3 /\
    forall b, is_Some (h_blk h0 !! b) ->
      h_blk (d_h s1) !! b = h_blk h0 !! b /\ h_blk (d_h s2) !! b = h_blk h0 !! b /\ h_blk (d_h s3) !! b = h_blk h0 !! b.
Proof.
  intros T sz al chk h0 prog ds SU. destruct (runs_total sz al chk h0 SU prog) as (l & s & B).
  destruct (built_rep sz al chk h0 SU _ _ _ B) as (pa & st & subs & lk & bo & xs & d & R & _).
  destruct B as (s0 & E0 & E).
  destruct (into_steps_ok sz al (su_layout _ _ _ SU) h0 ds s lk xs) as (s2 & E2 & (pa2 & st2 & subs2 & bo2 & R2) & D2); [by eexists _, _, _, _|].
  destruct (deque_drop_ok sz al chk (su_layout _ _ _ SU) h0 _ _ _ _ _ _ _ R2) as (s3 & b3 & E3 & D3 & _ & _ & OW & FR).
  exists s0, l, s, (spec_steps ds xs).1, s2, s3. repeat (split; [done|]).
  intros b Hb. pose proof (su_heap _ _ _ SU b Hb) as LB.
  assert (forall s' pa' st' subs' lk' bo' xs', DRep sz al h0 s' pa' st' subs' lk' bo' xs' -> h_blk (d_h s') !! b = h_blk h0 !! b) as F.
  { intros s' pa' st' subs' lk' bo' xs' R'. pose proof (dr_shape _ _ _ _ _ _ _ _ _ _ R') as SH'.
    apply (sh_frame _ _ _ _ _ _ _ _ _ SH'). intros Hb'. apply (sh_own _ _ _ _ _ _ _ _ _ SH') in Hb' as [N _]. rewrite N in Hb. by destruct Hb. }
  split; [by eapply F|]. split; [by eapply F|]. apply FR. intros Hb'. apply OW in Hb' as [N _]. rewrite N in Hb. by destruct Hb.
Qed.

Lemma L_C34_push_back_keeps_places :
forall (T : Type) (sz al : Z) (chk : bool) (h0 : heap (dcell T)) prog l s ps (x : T) s', Setup sz al h0 ->
  built sz al chk h0 prog l s -> places sz chk s = Ok ps s -> push_back sz al chk x s = Ok tt s' ->
  exists p, places sz chk s' = Ok (ps ++ [p]) s'.
Proof.
  intros T sz al chk h0 prog l s ps x s' SU B P E.
  destruct (built_rep sz al chk h0 SU _ _ _ B) as (pa & st & subs & lk & bo & xs & d & R & _).
  rewrite (places_ok sz al chk (su_layout _ _ _ SU) h0 _ _ _ _ _ _ _ R) in P. injection P as <-.
  destruct (push_back_ok sz al chk (su_size _ _ _ SU) (su_layout _ _ _ SU) h0 _ _ _ _ _ _ _ x R) as [(s1 & pa1 & st1 & subs1 & E1 & R1 & _ & _ & LOC)|(s1 & lk1 & E1 & _)];
    rewrite E in E1; [|done]. injection E1 as <-.
  rewrite (places_ok sz al chk (su_layout _ _ _ SU) h0 _ _ _ _ _ _ _ R1).
  rewrite app_length. cbn [length]. rewrite seq_app, map_app. cbn [seq map]. eexists. f_equal. f_equal.
  apply map_loc_ext. intros i Hi. by apply LOC.
Qed.

Lemma L_C34_push_front_keeps_places :
forall (T : Type) (sz al : Z) (chk : bool) (h0 : heap (dcell T)) prog l s ps (x : T) s', Setup sz al h0 ->
  built sz al chk h0 prog l s -> places sz chk s = Ok ps s -> push_front sz al chk x s = Ok tt s' ->
  exists p, places sz chk s' = Ok (p :: ps) s'.
Proof.
  intros T sz al chk h0 prog l s ps x s' SU B P E.
  destruct (built_rep sz al chk h0 SU _ _ _ B) as (pa & st & subs & lk & bo & xs & d & R & _).
  rewrite (places_ok sz al chk (su_layout _ _ _ SU) h0 _ _ _ _ _ _ _ R) in P. injection P as <-.
  destruct (push_front_ok sz al chk (su_size _ _ _ SU) (su_layout _ _ _ SU) h0 _ _ _ _ _ _ _ x R) as [(s1 & pa1 & st1 & subs1 & bo1 & E1 & R1 & _ & _ & LOC)|(s1 & lk1 & E1 & _)];
    rewrite E in E1; [|done]. injection E1 as <-.
  rewrite (places_ok sz al chk (su_layout _ _ _ SU) h0 _ _ _ _ _ _ _ R1).
  cbn [length seq map]. eexists. f_equal. f_equal.
  apply map_loc_ext. intros i Hi. by apply LOC.
Qed.

Lemma L_C34_pops_keep_places :
forall (T : Type) (sz al : Z) (chk : bool) (h0 : heap (dcell T)) prog l s ps, Setup sz al h0 ->
  built sz al chk h0 prog l s -> places sz chk s = Ok ps s ->
  (exists o s', pop_front sz al s = Ok o s' /\ places sz chk s' = Ok (tail ps) s') /\
  (exists o s', pop_back sz al s = Ok o s' /\ places sz chk s' = Ok (removelast ps) s').
Proof.
  intros T sz al chk h0 prog l s ps SU B P.
  destruct (built_rep sz al chk h0 SU _ _ _ B) as (pa & st & subs & lk & bo & xs & d & R & _).
  rewrite (places_ok sz al chk (su_layout _ _ _ SU) h0 _ _ _ _ _ _ _ R) in P. injection P as <-. split.
  - destruct (pop_front_ok sz al (su_layout _ _ _ SU) h0 _ _ _ _ _ _ _ R) as (s' & st' & subs' & bo' & E & R' & _ & _ & LOC & _).
    eexists _, s'. split; [done|]. rewrite (places_ok sz al chk (su_layout _ _ _ SU) h0 _ _ _ _ _ _ _ R'). f_equal.
    destruct xs as [|x xs]; [done|]. cbn [length seq map tail] in *. by apply map_loc_ext.
  - destruct (pop_back_ok sz al (su_layout _ _ _ SU) h0 _ _ _ _ _ _ _ R) as (s' & subs' & E & R' & _ & _ & LOC & _).
    eexists _, s'. split; [done|]. rewrite (places_ok sz al chk (su_layout _ _ _ SU) h0 _ _ _ _ _ _ _ R'). f_equal.
    induction xs as [|x xs _] using rev_ind; [done|]. rewrite removelast_last in *.
    rewrite app_length, seq_app, map_app. cbn [length seq map]. rewrite removelast_last. by apply map_loc_ext.
Qed.

Lemma L_C35_each_element_once :
forall (T : Type) (sz al : Z) (chk : bool) (h0 : heap (dcell T)) prog l s, Setup sz al h0 ->
  built sz al chk h0 prog l s -> forallb no_rewrite prog = true ->
  exists s', deque_drop sz al chk s = Ok tt s' /\ flat_map given prog ≡ₚ all_taken prog l ++ d_drops s'.
Proof.
  intros T sz al chk h0 prog l s SU B N.
  destruct (built_rep sz al chk h0 SU _ _ _ B) as (pa & st & subs & lk & bo & xs & d & R & EX & D & _).
  destruct (deque_drop_ok sz al chk (su_layout _ _ _ SU) h0 _ _ _ _ _ _ _ R) as (s3 & b3 & E3 & D3 & _).
  exists s3. split; [done|]. rewrite D3, D. by apply (explains_conserves _ _ _ _ _ _ EX N).
Qed.

Lemma L_C35_drop_order :
forall (T : Type) (sz al : Z) (chk : bool) (h0 : heap (dcell T)) prog l s xs, Setup sz al h0 ->
  built sz al chk h0 prog l s -> contents sz chk s xs ->
  exists s', deque_drop sz al chk s = Ok tt s' /\ d_drops s' = d_drops s ++ xs.
Proof.
  intros T sz al chk h0 prog l s xs SU B C.
  destruct (built_rep sz al chk h0 SU _ _ _ B) as (pa & st & subs & lk & bo & xs' & d & R & _).
  rewrite (contents_eq sz al chk h0 SU _ _ _ _ _ _ _ _ R C).
  destruct (deque_drop_ok sz al chk (su_layout _ _ _ SU) h0 _ _ _ _ _ _ _ R) as (s3 & b3 & E3 & D3 & _). by exists s3.
Qed.

Lemma L_C36_drop_leaks_one_array :
forall (T : Type) (sz al : Z) (chk : bool) (h0 : heap (dcell T)) prog l s, Setup sz al h0 ->
  built sz al chk h0 prog l s -> chk = true \/ None ∉ l ->
  exists s' b cs, deque_drop sz al chk s = Ok tt s' /\ h_blk h0 !! b = None /\
    h_blk (d_h s') !! b = Some (Block (Z.of_nat (subarray_size sz) * sz) al cs) /\
    forall b', b' <> b -> h_blk (d_h s') !! b' = h_blk h0 !! b'.
Proof.
  intros T sz al chk h0 prog l s SU B CK.
  destruct (built_rep sz al chk h0 SU _ _ _ B) as (pa & st & subs & lk & bo & xs & d & R & EX & D & LK).
  rewrite (LK CK) in R.
  destruct (deque_drop_ok sz al chk (su_layout _ _ _ SU) h0 _ _ _ _ _ _ _ R) as (s3 & b3 & E3 & D3 & _ & (cs & EB & _) & OW & FR).
  exists s3, b3, cs. split; [done|]. split; [|split; [done|]].
  - by destruct (OW b3) as [L _]; [left|].
  - intros b' N. apply FR. intros Hb. apply elem_of_list_singleton in Hb. done.
Qed.

Lemma L_C36_all_memory_returned_refuted :
exists (sz al : Z) (h0 : heap (dcell Z)) s s' b, Setup sz al h0 /\ built sz al true h0 [] [] s /\
  deque_drop sz al true s = Ok tt s' /\ h_blk h0 !! b = None /\ is_Some (h_blk (d_h s') !! b).
Proof.
  destruct (runs_total 8 8 true dx_heap dx_setup []) as (l & s & B).
  assert (l = []) as -> by (destruct B as (s0 & _ & [= <- _]); done).
  destruct (L_C36_drop_leaks_one_array Z 8 8 true dx_heap [] [] s dx_setup B (or_introl eq_refl)) as (s' & b & cs & E & H0 & H1 & _).
  exists 8%Z, 8%Z, dx_heap, s, s', b. split; [apply dx_setup|]. split; [done|]. split; [done|]. split; [done|]. by eexists.
Qed.

Lemma L_C37_compat_round_trip :
forall (T : Type) (sz al : Z) (chk : bool) (h0 : heap (dcell T)) prog l s (ds : list bool), Setup sz al h0 ->
  built sz al chk h0 prog l s ->
  exists it o it' b e, iter s = Ok it s /\ into_compat it s = Ok (d_b s, d_e s) s /\
    steps chk ds it s = Ok (o, it') s /\ into_compat it' s = Ok (b, e) s /\ from_compat b e s = Ok it' s.
Proof.
  intros T sz al chk h0 prog l s ds SU B.
  destruct (built_rep sz al chk h0 SU _ _ _ B) as (pa & st & subs & lk & bo & xs & d & R & _).
  destruct (steps_ok sz al chk (su_layout _ _ _ SU) h0 _ _ _ _ _ _ _ ds R [] xs []) as (l' & r' & EX & E & _).
  { by rewrite app_nil_r. }
  pose proof (R_bound sz al (su_layout _ _ _ SU) R) as LB. pose proof (dr_shape _ _ _ _ _ _ _ _ _ _ R) as SH.
  assert (length xs = length l' + length (spec_steps ds xs).2 + length r') as LX by (rewrite EX at 1; rewrite !app_length; lia).
  rewrite Nat.add_0_r in E. eexists _, _, _, _, _. split; [by apply (iter_ok sz al (su_layout _ _ _ SU) h0 _ _ _ _ _ _ _ R)|].
  split. { rewrite (compat_ok sz al (su_layout _ _ _ SU) h0 _ _ _ _ _ _ _ _ SH) by lia. by rewrite (dr_b _ _ _ _ _ _ _ _ _ _ R), (dr_e _ _ _ _ _ _ _ _ _ _ R). }
  split; [exact E|].
  split; [apply (compat_ok sz al (su_layout _ _ _ SU) h0 _ _ _ _ _ _ _ _ SH); lia|].
  apply (from_compat_ok sz al (su_layout _ _ _ SU)).
Qed.

Lemma L_C38_queue_answers :
forall (T : Type) (sz al : Z) (chk : bool) (h0 : heap (dcell T)) (prog : list (qcall T)), Setup sz al h0 ->
  (Z.of_nat (q_pushes prog) <= max_len sz)%Z ->
  exists s0 s, deque_new sz al h0 [] = Ok tt s0 /\ q_run sz al chk prog s0 = Some (map Some (qspec_run prog []).1, s) /\
    contents sz chk s (qspec_run prog []).2 /\ d_drops s = [].
Proof.
  intros T sz al chk h0 prog SU L.
  destruct (L_C31_deque_answers T sz al chk h0 (map d_of prog) SU) as (s & (s0 & E0 & E) & C & D); [by rewrite q_pushes_d|].
  rewrite q_spec_d in E, C, D. cbn [fst snd] in *. exists s0, s. split; [done|]. rewrite q_run_d. done.
Qed.

Lemma L_C38_first_in_first_out :
forall (T : Type) (sz al : Z) (chk : bool) (h0 : heap (dcell T)) (prog : list (qcall T)) s0 l s xs, Setup sz al h0 ->
  (Z.of_nat (q_pushes prog) <= max_len sz)%Z ->
  deque_new sz al h0 [] = Ok tt s0 -> q_run sz al chk prog s0 = Some (l, s) -> contents sz chk s xs ->
  q_in prog = q_out prog l ++ xs.
Proof.
  intros T sz al chk h0 prog s0 l s xs SU L E0 E C.
  destruct (L_C38_queue_answers T sz al chk h0 prog SU L) as (s0' & s' & E0' & E' & C' & _).
  rewrite E0 in E0'. injection E0' as <-. rewrite E in E'. injection E' as -> <-.
  unfold contents in *. rewrite C in C'. injection C' as ->. apply (q_fifo prog []).
Qed.

Lemma L_C79_pointer_array_bounded :
forall (T : Type) (sz al : Z) (chk : bool) (h0 : heap (dcell T)) (prog : list (dcall T)) l s, Setup sz al h0 ->
  (Z.of_nat (pushes prog) <= max_len sz)%Z -> built sz al chk h0 prog l s ->
  (d_size s <= Z.max 8 (2 * Z.of_nat (peak prog [] / subarray_size sz) + 4))%Z.
Proof.
  intros T sz al chk h0 prog l s SU L (s0 & E0 & E).
  destruct (deque_new_ok sz al (su_size _ _ _ SU) (su_layout _ _ _ SU) h0 [] (su_heap _ _ _ SU)) as (s0' & E0' & (pa & b & R0) & D0 & S0).
  rewrite E0 in E0'. injection E0' as <-.
  eapply (run_size sz al chk (su_size _ _ _ SU) (su_layout _ _ _ SU) h0 prog s0 [] []); [by exists pa, 3, [b], 0|done|done| |exact E].
  rewrite S0. lia.
Qed.

Lemma L_C79_queue_use_stays_small :
forall (T : Type) (sz al : Z) (chk : bool) (h0 : heap (dcell T)) (prog : list (dcall T)) l s, Setup sz al h0 ->
  (Z.of_nat (pushes prog) <= max_len sz)%Z -> built sz al chk h0 prog l s ->
  peak prog [] < 3 * subarray_size sz -> (d_size s <= 8)%Z.
Proof.
  intros T sz al chk h0 prog l s SU L B P. pose proof (L_C79_pointer_array_bounded T sz al chk h0 prog l s SU L B) as M.
  assert (peak prog [] / subarray_size sz < 3); [|lia].
  apply Nat.div_lt_upper_bound; [|lia]. unfold subarray_size. repeat case_match; lia.
Qed.

Lemma L_C80_iterator_kept_across_changes_refuted :
exists prog l s it cs l' s', Setup 8 8 dx_heap /\ built 8 8 true dx_heap prog l s /\ iter s = Ok it s /\
  d_run 8 8 true cs s = Some (l', s') /\ steps true [true] it s' = UB.
Proof.
  destruct (runs_total 8 8 true dx_heap dx_setup (push_many 33)) as (l & s & B).
  destruct (built_rep 8 8 true dx_heap dx_setup _ _ _ B) as (pa & st & subs & lk & bo & xs & d & R & _).
  pose proof (iter_ok 8 8 (su_layout _ _ _ dx_setup) dx_heap _ _ _ _ _ _ _ R) as EI.
  assert (W : match dx_run (push_many 33) with
    | Some (_, s) => match iter s with
      | Ok it _ => match d_run 8 8 true (replicate 33 DPopFront) s with
         | Some (_, s') => is_ub (steps true [true] it s') = true
         | None => False end
      | _ => False end
    | None => False end) by (vm_compute; done).
  destruct B as (s0 & E0 & E). unfold dx_run in W. rewrite E0, E, EI in W.
  destruct (d_run 8 8 true (replicate 33 DPopFront) s) as [[l' s']|] eqn:E2; [|done].
  destruct (steps true [true] _ s') eqn:E3; try done.
  eexists _, _, _, _, _, _, _. split; [apply dx_setup|]. split; [by exists s0|]. split; [done|]. split; [exact E2|]. exact E3.
Qed.
