(** Proofs of the properties stated in RefusalDequeProps.v. *)
From Verif Require Import Base Heap Alloc Deque DequeSpec OutOfMemory Refusal RefusalSpec.
Local Open Scope nat_scope.

From Verif Require Import HeapLemmas DequeProofs ReadersProofs.

Section either.
Context {S : Type}.
(** The same, or a panic that changes nothing. *)
Definition either {B} (m1 m2 : M S B) : Prop := forall s, m2 s = m1 s \/ m2 s = Panic s.
Lemma either_refl {B} (m : M S B) : either m m.
Proof using. intros s. by left. Qed.
Lemma either_alloc {A B} (a1 a2 : M S A) (k : A -> M S B) : either a1 a2 -> either (bind a1 k) (bind a2 k).
Proof using. intros E s. unfold bind. destruct (E s) as [->| ->]; [by left|by right]. Qed.
Lemma either_bind {A B} (m : M S A) (k1 k2 : A -> M S B) : ro m -> (forall x, either (k1 x) (k2 x)) -> either (bind m k1) (bind m k2).
Proof using.
  intros R E s. unfold bind. specialize (R s). destruct (m s) as [x s'|s'|]; [|by left|by left].
  subst s'. apply E.
Qed.
Lemma either_before {A B} (m1 m2 : M S A) (k : A -> M S B) : either m1 m2 -> either (bind m1 k) (bind m2 k).
Proof using. apply either_alloc. Qed.
End either.

Section deque.
Context {T : Type}.
Variables (sz al : Z) (chk : bool).
Variable r : heap (dcell T) -> Z -> bool.
Local Notation dstate := (dstate T).

Lemma d_allocate_either csz cal n : either (Deque.allocate csz cal n) (d_allocate (Refusing r) csz cal n).
Proof using. intros s. unfold d_allocate, Deque.allocate. cbn [Refusing ai_alloc snd]. destruct (r (d_h s) (n * csz)%Z); [by right|by left]. Qed.
Lemma ptr_array_either n : either (@allocate_ptr_array T n) (ptr_array_in (Refusing r) n).
Proof using.
  intros s. unfold ptr_array_in, allocate_ptr_array, bind. destruct (d_allocate_either 8 8 n s) as [E|E]; rewrite E; [left|by right].
  unfold Deque.allocate, default_alloc. destruct (n * 8 =? 0)%Z; [done|]. by destruct (layout_ok (n * 8) 8).
Qed.
Lemma ro_u32 (x : Z) : ro (S := dstate) (u32 chk x).
Proof using. intros s. unfold u32. destruct (_ && _); [done|]. by destruct chk. Qed.
Lemma realloc_either k f : either (@realloc_ptr_array T sz chk k f) (realloc_ptr_array_in (Refusing r) sz chk k f).
Proof using.
  unfold realloc_ptr_array, realloc_ptr_array_in.
  apply either_bind; [apply ro_gets|intros s1].
  apply either_bind; [apply ro_or_ub|intros uf]. apply either_bind; [apply ro_or_ub|intros d].
  apply either_bind; [apply ro_usize|intros rr]. apply either_bind; [apply ro_usize|intros ub_].
  cbn zeta. apply either_alloc. destruct (negb f && _); [apply either_refl|]. destruct (f && _); [apply either_refl|].
  apply either_bind; [apply ro_u32|intros n1]. apply either_bind; [apply ro_u32|intros n2]. apply either_alloc, ptr_array_either.
Qed.

Variable h0 : heap (dcell T).
Hypothesis Hsz : (0 < sz)%Z.
Hypothesis Hlay : layout_ok (Z.of_nat (subarray_size sz) * sz) al = true.
Local Notation DR := (DRep sz al h0).
Local Notation n := (subarray_size sz).


(** The two pushes over the two things they call. *)
Definition pb (re : M dstate unit) (asub : M dstate ptr) (elem : T) : M dstate unit :=
  do s <- gets id;
  let e := d_e s in
  do l <- Deque.sub (di_end e) 1;
  if decide (di_cur e <> l) then
    run Deque.store (di_cur e) (DElem elem);
    do c <- Deque.add (di_cur e) 1;
    set_e (DIt c (di_begin e) (di_end e) (di_arr e))
  else
    run on_unwind (Deque.logged [elem]) (
      do k <- usize chk (d_size s - 1);
      do p <- Deque.add (d_arr s) k;
      if decide (di_arr e = p) then re else ret tt);
    do s <- gets id;
    let e := d_e s in
    run Deque.store (di_cur e) (DElem elem);
    do p <- asub;
    do slot <- Deque.add (di_arr e) 1;
    run Deque.store slot (DPtr p);
    do a <- Deque.add (di_arr e) 1;
    do e' <- set_subarray sz e a;
    set_e (DIt (di_begin e') (di_begin e') (di_end e') (di_arr e')).
Definition pf (re : M dstate unit) (asub : M dstate ptr) (elem : T) : M dstate unit :=
  do s <- gets id;
  let b := d_b s in
  run on_unwind (Deque.logged [elem]) (
    if decide (di_cur b <> di_begin b) then
      do c <- Deque.sub (di_cur b) 1;
      set_b (DIt c (di_begin b) (di_end b) (di_arr b))
    else
      run (if decide (di_arr b = d_arr s) then re else ret tt);
      do s <- gets id;
      let b := d_b s in
      do p <- asub;
      do slot <- Deque.sub (di_arr b) 1;
      run Deque.store slot (DPtr p);
      do a <- Deque.sub (di_arr b) 1;
      do b' <- set_subarray sz b a;
      do c <- Deque.sub (di_end b') 1;
      set_b (DIt c (di_begin b') (di_end b') (di_arr b')));
  do s <- gets id;
  Deque.store (di_cur (d_b s)) (DElem elem).
Lemma ro_add p k : ro (@Deque.add T p k).
Proof using. intros s. unfold Deque.add, bind, gets, or_ub. by destruct (hadd _ _ _). Qed.
Lemma ro_sub p k : ro (@Deque.sub T p k).
Proof using. intros s. unfold Deque.sub, bind, gets, or_ub. by destruct (hsub _ _ _). Qed.

Lemma pb_cases re1 re2 a1 a2 x s : either re1 re2 -> either a1 a2 ->
  pb re2 a2 x s = pb re1 a1 x s \/ pb re2 a2 x s = Panic (Deque.logged [x] s) \/
  exists s1 s2, (s1 = s \/ re1 s = Ok tt s1 /\ exists k, usize chk (d_size s - 1) s = Ok k s /\ Deque.add (d_arr s) k s = Ok (di_arr (d_e s)) s) /\
    Deque.store (di_cur (d_e s1)) (DElem x) s1 = Ok tt s2 /\ pb re2 a2 x s = Panic s2.
Proof using.
  intros ER EA. unfold pb, bind, gets, id, on_unwind, ret. cbn zeta. pose proof (ro_sub (di_end (d_e s)) 1 s) as R1.
  destruct (Deque.sub (di_end (d_e s)) 1 s) as [l s'|s'|]; [|by left|by left]. subst s'.
  case_decide as Q; [by left|]. pose proof (ro_usize chk (d_size s - 1) s) as R2.
  destruct (usize chk (d_size s - 1) s) as [k s'|s'|] eqn:EU; [|by left|by left]. subst s'.
  pose proof (ro_add (d_arr s) k s) as R3. destruct (Deque.add (d_arr s) k s) as [p s'|s'|] eqn:ED; [|by left|by left]. subst s'.
  assert (TAIL : forall s1, (s1 = s \/ re1 s = Ok tt s1 /\ di_arr (d_e s) = p) -> re2 s = Ok tt s1 \/ s1 = s -> True) by done. clear TAIL.
  assert (TAIL : forall s1, match Deque.store (di_cur (d_e s1)) (DElem x) s1 with
    | Ok _ s2 => a2 s2 = a1 s2 \/ a2 s2 = Panic s2 | _ => True end).
  { intros s1. destruct (Deque.store _ _ s1) as [[] s2|s2|]; [apply EA|done|done]. }
  case_decide as P.
  - subst p. destruct (ER s) as [->| ->]; [|by right; left].
    destruct (re1 s) as [[] s1|s1|] eqn:E1; [|by left|by left]. specialize (TAIL s1).
    destruct (Deque.store (di_cur (d_e s1)) (DElem x) s1) as [[] s2|s2|] eqn:ES; [|by left|by left].
    destruct TAIL as [->| ->]; [by left|]. right. right. exists s1, s2. split; [right; split; [done|by exists k]|done].
  - specialize (TAIL s). destruct (Deque.store (di_cur (d_e s)) (DElem x) s) as [[] s2|s2|] eqn:ES; [|by left|by left].
    destruct TAIL as [->| ->]; [by left|]. right. right. exists s, s2. split; [by left|done].
Qed.
Lemma pf_cases re1 re2 a1 a2 x s : either re1 re2 -> either a1 a2 ->
  pf re2 a2 x s = pf re1 a1 x s \/
  exists s1, (s1 = s \/ re1 s = Ok tt s1 /\ di_arr (d_b s) = d_arr s /\ di_cur (d_b s) = di_begin (d_b s)) /\ pf re2 a2 x s = Panic (Deque.logged [x] s1).
Proof using.
  intros ER EA. unfold pf, bind, gets, id, on_unwind, ret. cbn zeta. case_decide as Q; [by left|].
  case_decide as P.
  - destruct (ER s) as [->| ->]; [|right; exists s; split; [by left|done]].
    destruct (re1 s) as [[] s1|s1|] eqn:E1; [|by left|by left]. destruct (EA s1) as [->| ->]; [by left|].
    right. exists s1. split; [by right|done].
  - destruct (EA s) as [->| ->]; [by left|]. right. exists s. split; [by left|done].
Qed.

(** Writing just past the end changes nothing that counts. *)
Lemma rep_scribble s pa start subs leak bo xs x : DR s pa start subs leak bo xs ->
  exists s', Deque.store (di_cur (d_e s)) (DElem x) s = Ok tt s' /\ DR s' pa start subs leak bo xs /\ d_drops s' = d_drops s.
Proof using Hlay.
  clear r. intros R. pose proof (dr_shape _ _ _ _ _ _ _ _ _ _ R) as SH. pose proof (R_bound sz al Hlay R) as LB.
  rewrite (dr_e _ _ _ _ _ _ _ _ _ _ R). cbn [dit_at di_cur].
  destruct (store_elem sz al Hlay SH s (bo + length xs) x eq_refl LB) as (h1 & E1 & SH1 & _ & O1).
  eexists. split; [exact E1|]. split; [|done]. destruct R. split; try done. intros i y Hy. pose proof (lookup_lt_Some _ _ _ Hy).
  cbn [d_h with_h]. rewrite O1 by lia. auto.
Qed.
Lemma subarray_either : either (@allocate_subarray T sz al) (subarray_in (Refusing r) sz al).
Proof using. apply d_allocate_either. Qed.

Lemma push_back_in_ok s pa start subs leak bo xs x : DR s pa start subs leak bo xs ->
  push_back_in (Refusing r) sz al chk x s = Deque.push_back sz al chk x s \/
  exists s' pa' start', push_back_in (Refusing r) sz al chk x s = Panic s' /\ DR s' pa' start' subs leak bo xs /\
    (d_drops s' = d_drops s ++ [x] \/ d_drops s' = d_drops s).
Proof using Hsz Hlay.
  intros R. destruct (pb_cases _ _ _ _ x s (realloc_either 1 false) subarray_either) as [E|[E|(s1 & s2 & C & ES & E)]].
  - left. exact E.
  - right. exists (Deque.logged [x] s), pa, start. split; [exact E|]. split; [by apply log_rep|by left].
  - right. assert (X : exists pa' start', DR s1 pa' start' subs leak bo xs /\ d_drops s1 = d_drops s).
    { destruct C as [->|(E1 & k & EU & ED)]; [by exists pa, start|].
      pose proof (dr_shape _ _ _ _ _ _ _ _ _ _ R) as SH. pose proof (size_big sz al Hlay _ (sh_size _ _ _ _ _ _ _ _ _ SH)) as SB.
      pose proof (sh_u32 _ _ _ _ _ _ _ _ _ SH) as U. unfold u32_lim in U. pose proof (dr_len _ _ _ _ _ _ _ _ _ _ R) as LK.
      destruct (sh_pa _ _ _ _ _ _ _ _ _ SH) as (pcs & EP & LC).
      rewrite (usize_ok sz al chk Hlay) in EU by (unfold usize_lim; lia). injection EU as <-.
      rewrite (dr_e _ _ _ _ _ _ _ _ _ _ R), (dr_arr _ _ _ _ _ _ _ _ _ _ R) in ED. cbn [dit_at di_arr] in ED.
      rewrite (add_ok _ _ _ _ _ EP) in ED by (cbn; lia). injection ED as ED.
      assert (EQ : start + length subs = Z.to_nat (d_size s)) by lia.
      destruct (realloc_ok sz al chk Hlay h0 false s _ _ _ _ _ _ R EQ) as [(s1' & pa1 & st1 & E1' & R1 & _ & DD & _)|(s1' & lk & E1' & _)]; [|congruence].
      rewrite E1 in E1'. injection E1' as <-. by exists pa1, st1. }
    destruct X as (pa' & start' & R1 & DD). destruct (rep_scribble _ _ _ _ _ _ _ x R1) as (s2' & ES' & R2 & D2).
    rewrite ES in ES'. injection ES' as <-. exists s2, pa', start'. split; [exact E|]. split; [done|]. right. congruence.
Qed.
Lemma push_front_in_ok s pa start subs leak bo xs x : DR s pa start subs leak bo xs ->
  push_front_in (Refusing r) sz al chk x s = Deque.push_front sz al chk x s \/
  exists s' pa' start', push_front_in (Refusing r) sz al chk x s = Panic s' /\ DR s' pa' start' subs leak bo xs /\
    d_drops s' = d_drops s ++ [x].
Proof using Hsz Hlay.
  intros R. destruct (pf_cases _ _ _ _ x s (realloc_either 1 true) subarray_either) as [E|(s1 & C & E)].
  - left. exact E.
  - right. assert (X : exists pa' start', DR s1 pa' start' subs leak bo xs /\ d_drops s1 = d_drops s).
    { destruct C as [->|(E1 & P & Q)]; [by exists pa, start|].
      rewrite (dr_b _ _ _ _ _ _ _ _ _ _ R), (dr_arr _ _ _ _ _ _ _ _ _ _ R) in P. cbn [dit_at di_arr] in P. injection P as P.
      assert (EQ : start = 0) by lia.
      destruct (realloc_ok sz al chk Hlay h0 true s _ _ _ _ _ _ R EQ) as [(s1' & pa1 & st1 & E1' & R1 & _ & DD & _)|(s1' & lk & E1' & _)]; [|congruence].
      rewrite E1 in E1'. injection E1' as <-. by exists pa1, st1. }
    destruct X as (pa' & start' & R1 & DD). exists (Deque.logged [x] s1), pa', start'. split; [exact E|]. split; [by apply log_rep|].
    cbn. by rewrite DD.
Qed.
End deque.

Section runs.
Context {T : Type}.
Variables (sz al : Z) (chk : bool).
Variable h0 : heap (dcell T).
Hypothesis Hsz : (0 < sz)%Z.
Hypothesis Hlay : layout_ok (Z.of_nat (subarray_size sz) * sz) al = true.
Local Notation Rep := (Rep sz al h0).
Lemma call_in_ok r c s leak xs : Rep s leak xs ->
  (exists a d xs1 s', d_call_in (Refusing r) sz al chk c s = Ok a s' /\ spec_call c xs = (a, d, xs1) /\ Rep s' leak xs1 /\ d_drops s' = d_drops s ++ d) \/
  (exists x s' leak', d_call_in (Refusing r) sz al chk c s = Panic s' /\ pushed c = Some x /\ Rep s' leak' xs /\ (chk = true -> leak' = leak) /\
    (d_drops s' = d_drops s ++ [x] \/ d_drops s' = d_drops s /\ c = DPushBack x)).
Proof using Hsz Hlay.
  intros (pa & start & subs & bo & R).
  assert (X : d_call_in (Refusing r) sz al chk c s = d_call sz al chk c s \/
    exists x s' pa' start', d_call_in (Refusing r) sz al chk c s = Panic s' /\ pushed c = Some x /\ DRep sz al h0 s' pa' start' subs leak bo xs /\
      (d_drops s' = d_drops s ++ [x] \/ d_drops s' = d_drops s /\ c = DPushBack x)).
  { destruct c; try (by left); cbn [d_call_in d_call].
    - destruct (push_back_in_ok sz al chk r h0 Hsz Hlay _ _ _ _ _ _ _ x R) as [E|(s' & pa' & st' & E & R' & D)]; unfold bind; rewrite E; [by left|right].
      exists x, s', pa', st'. split; [done|]. split; [done|]. split; [done|]. destruct D; [by left|by right].
    - destruct (push_front_in_ok sz al chk r h0 Hsz Hlay _ _ _ _ _ _ _ x R) as [E|(s' & pa' & st' & E & R' & D)]; unfold bind; rewrite E; [by left|right].
      exists x, s', pa', st'. split; [done|]. split; [done|]. split; [done|]. by left. }
  destruct X as [->|(x & s' & pa' & st' & E & P & R' & D)].
  - destruct (call_ok sz al chk Hsz Hlay h0 c _ _ _ _ _ _ _ R) as [(a & d & xs1 & s1 & pa1 & st1 & subs1 & bo1 & E & SP & R1 & D & _)|(x & s1 & lk & E & PU & ML & R1 & D & _ & CK)].
    + left. exists a, d, xs1, s1. split; [done|]. split; [done|]. split; [by eexists _, _, _, _|done].
    + right. exists x, s1, lk. split; [done|]. split; [done|]. split; [by eexists _, _, _, _|]. split; [done|by left].
  - right. exists x, s', leak. split; [done|]. split; [done|]. split; [by eexists _, _, _, _|done].
Qed.
Lemma run_in_ok cs : forall s leak xs, Rep s leak xs ->
  exists l s' leak' d lost xs', d_run_in sz al chk cs s = Some (l, s') /\ Rep s' leak' xs' /\ bears (map fst cs) l d lost xs xs' /\
    d_drops s' = d_drops s ++ d /\ (chk = true -> leak' = leak).
Proof using Hsz Hlay.
  induction cs as [|[c r] cs IH]; intros s leak xs HR.
  { exists [], s, leak, [], [], xs. split; [done|]. split; [done|]. split; [constructor|]. split; [by rewrite app_nil_r|done]. }
  cbn [d_run_in map fst].
  destruct (call_in_ok r c _ _ _ HR) as [(a & d & xs1 & s1 & E & SP & R1 & D)|(x & s1 & lk & E & PU & R1 & CK & D)].
  - destruct (IH s1 leak xs1 R1) as (l & s2 & lk2 & d2 & lost & xs2 & E2 & R2 & EX & D2 & LK).
    rewrite E, E2. cbn [option_map fst snd]. exists (Some a :: l), s2, lk2, (d ++ d2), lost, xs2. split; [done|]. split; [done|].
    split; [by econstructor|]. split; [by rewrite D2, D, app_assoc|done].
  - destruct (IH s1 lk xs R1) as (l & s2 & lk2 & d2 & lost & xs2 & E2 & R2 & EX & D2 & LK).
    rewrite E, E2. cbn [option_map fst snd].
    assert (CK2 : chk = true -> lk2 = leak) by (intros CT; rewrite (LK CT); by apply CK).
    destruct D as [D|[D ->]].
    + exists (None :: l), s2, lk2, (x :: d2), lost, xs2. split; [done|]. split; [done|].
      split; [by apply be_dropped|]. split; [by rewrite D2, D, <- app_assoc|done].
    + exists (None :: l), s2, lk2, d2, (x :: lost), xs2. split; [done|]. split; [done|].
      split; [by apply be_lost|]. split; [by rewrite D2, D|done].
Qed.
End runs.

Lemma L_C104_deque :
forall (T : Type) (sz al : Z) (chk : bool) (h0 : heap (dcell T)), Setup sz al h0 ->
  forall (prog : list (dcall T * (heap (dcell T) -> Z -> bool))) s0, deque_new sz al h0 [] = Ok tt s0 ->
  exists l s lost xs s', d_run_in sz al chk prog s0 = Some (l, s) /\ contents sz chk s xs /\
    bears (map fst prog) l (d_drops s) lost [] xs /\
    deque_drop sz al chk s = Ok tt s' /\ d_drops s' = d_drops s ++ xs.
Proof.
  intros T sz al chk h0 [Hsz Hlay W] prog s0 E0. destruct (deque_new_ok sz al Hsz Hlay h0 [] W) as (s & E & (pa & b & R) & D & _).
  rewrite E0 in E. injection E as <-.
  destruct (run_in_ok sz al chk h0 Hsz Hlay prog s0 [] []) as (l & s' & lk & d & lost & xs & EX & (pa' & st' & subs' & bo' & R') & B & DD & _); [by eexists _, _, _, _|].
  destruct (deque_drop_ok sz al chk Hlay h0 _ _ _ _ _ _ _ R') as (s2 & b2 & ED & D2 & _).
  exists l, s', lost, xs, s2. split; [done|]. split; [by eapply (iter_all_ok sz al chk Hlay)|].
  split; [by rewrite DD, D|done].
Qed.

Lemma L_C104_push_back_loses_refuted :
exists (prog : list (dcall Z * (heap (dcell Z) -> Z -> bool))) s0 l s s',
  deque_new 8 8 dx_heap [] = Ok tt s0 /\ d_run_in 8 8 true prog s0 = Some (l, s) /\
  In (DPushBack 31%Z) (map fst prog) /\ last l = Some None /\ deque_drop 8 8 true s = Ok tt s' /\ ~ In 31%Z (d_drops s').
Proof.
  destruct (deque_new_ok 8 8 ltac:(done) ltac:(done) dx_heap []) as (s0 & E0 & _).
  { intros b [bk H]. cbn in H. by rewrite lookup_empty in H. }
  set (prog := map (fun c => (c, fun (_ : heap (dcell Z)) (_ : Z) => false)) (push_many 31) ++ [(DPushBack 31%Z, fun _ _ => true)]).
  destruct (L_C104_deque Z 8 8 true dx_heap ltac:(split; [done|done|intros b [bk H]; cbn in H; by rewrite lookup_empty in H]) prog s0 E0)
    as (l & s & lost & xs & s' & ER & _ & _ & ED & DD).
  exists prog, s0, l, s, s'. split; [done|]. split; [done|]. split; [unfold prog; rewrite map_app; apply in_or_app; right; by left|].
  assert (X : match deque_new 8 8 dx_heap [] with
    | Ok _ s0 => match d_run_in 8 8 true prog s0 with
      | Some (l, s) => last l = Some None /\ match deque_drop 8 8 true s with Ok _ s' => forallb (fun x => x <? 31)%Z (d_drops s') = true | _ => False end
      | None => False end
    | _ => False end) by (by vm_compute).
  rewrite E0, ER, ED in X. destruct X as [X1 X2]. split; [done|]. split; [done|].
  intros I. rewrite forallb_forall in X2. specialize (X2 _ I). done.
Qed.
