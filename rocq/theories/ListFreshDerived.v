(** Proofs of the properties stated in ListFreshProps.v. *)
From Verif Require Import Base Alloc AddrMem FixedPool FixedPoolSpec FixedPoolProofs LinkedList LinkedListSpec LinkedListProofs LinkedListCalls LinkedListRuns LinkedListFixed LinkedListDerived ListFresh ListFreshSpec.
Local Open Scope Z_scope.

Lemma fresh_word {T} (m : mem T) p bytes align : 8 <= bytes -> m_word (mem_alloc m p bytes align) !! p = None.
Proof.
  intros H. unfold mem_alloc. cbn [m_word]. apply map_filter_lookup_None. right. intros w _. unfold meets. cbn. lia.
Qed.

Section fresh_nodes.
Context {A T : Type}.
Variables (aa : AddrAlloc A T) (chk : bool) (nsz nal s B : Z) (nul : bool) (I : A -> mem T -> list Z -> Prop).
Hypothesis Hsz : 16 <= nsz.
Hypothesis Hs : (8 | s).
Hypothesis HB : B < u32_lim.
Hypothesis AO : AllocOK aa chk nsz nal s B nul I.
Hypothesis FR : FreeOK aa chk nsz s I.
Local Notation lstate := (lstate A T).
Local Notation LRep := (LRep s B I).

(** The node that the allocator gives next is not initialised. *)
Definition next_new (st : lstate) : Prop := forall p a' m', allocate aa chk nsz nal 1 (l_alloc st, l_mem st) = Ok p (a', m') -> p <> 0 ->
  m_word m' !! p = None \/ m_val m' !! p = None.

Lemma create_i st xs ps x : LRep st xs ps -> next_new st -> Z.of_nat (length xs) < B ->
  create_node_i aa chk nsz nal x st = match create_node aa chk nsz nal x st with Panic s' => Panic s' | _ => UB end.
Proof using Hsz Hs HB AO.
  intros H NEW LT. pose proof H as [EN ES HI R V LB].
  destruct (ao_alloc _ _ _ _ _ _ _ _ AO _ _ _ HI) as (p & a' & m' & E & _ & _); [by rewrite (Forall2_length _ _ _ V)|].
  pose proof (NEW _ _ _ E) as F. unfold create_node, create_node_i. unfold bind, on_unwind. rewrite (in_alloc_ok _ _ _ _ _ E).
  destruct (Z.eqb_spec p 0) as [->|NE]; [done|]. assert (node_init m' p = false) as NI by (unfold node_init; destruct (F NE) as [-> | ->]; [done|]; by destruct (m_word m' !! p), (m_word m' !! (p + 8))).
  unfold gets. cbn [l_mem]. rewrite NI.
  unfold put_val, bind, gets, or_ub, set_mem, modify. cbn [l_mem]. by destruct (store_val _ _ _ _).
Qed.

Lemma pushes_i st xs ps x : LRep st xs ps -> next_new st -> Z.of_nat (length xs) < B ->
  (nul = true /\ exists st', LRep st' xs ps /\ push_back aa chk nsz nal x st = Panic st' /\ push_front aa chk nsz nal x st = Panic st' /\
     push_back_i aa chk nsz nal x st = Panic st' /\ push_front_i aa chk nsz nal x st = Panic st') \/
  ((exists st1 ps1, push_back aa chk nsz nal x st = Ok tt st1 /\ LRep st1 (xs ++ [x]) ps1) /\
   (exists st2 ps2, push_front aa chk nsz nal x st = Ok tt st2 /\ LRep st2 (x :: xs) ps2) /\
   push_back_i aa chk nsz nal x st = UB /\ push_front_i aa chk nsz nal x st = UB).
Proof using Hsz Hs HB AO.
  intros H NEW LT. pose proof (create_i _ _ _ x H NEW LT) as EC. unfold push_back_i, push_front_i, push_back, push_front.
  destruct (create_ok aa chk nsz nal s B nul I AO _ _ _ x H LT) as [(E0 & st' & E & H' & _)|(p & st' & E & EN & ES & HI & R & V & D)].
  { left. split; [done|]. exists st'. split; [done|]. unfold bind. by rewrite EC, E. }
  right. rewrite E in EC. unfold bind. rewrite EC, E.
  destruct (link_ok _ _ _ _ _ _ _ _ Hsz Hs HB AO _ _ _ _ _ _ _ true EN ES HI R V LT eq_refl) as (st1 & E1 & H1 & _).
  destruct (link_ok _ _ _ _ _ _ _ _ Hsz Hs HB AO _ _ _ _ _ _ _ false EN ES HI R V LT eq_refl) as (st2 & E2 & H2 & _).
  unfold bind in E1, E2. unfold gets at 1. rewrite EN. split; [by exists st1, (ps ++ [p])|]. unfold gets at 1. rewrite EN.
  assert (GN : get_next s st' = Ok (first_of s ps) st').
  { unfold get_next. apply get_word_ok; [|apply (ring_ends _ _ _ R)]. eapply (alloc_words aa chk nsz nal s B nul I Hsz Hs AO); [exact HI|constructor]. }
  rewrite GN. split; [by exists st2, (p :: ps)|]. done.
Qed.

(** Every call, whether the allocator refuses or not. *)
Lemma call_i c st xs ps : LRep st xs ps -> (adds c = true -> next_new st) -> Z.of_nat (length xs + length (pushed c)) <= B ->
  exists o xs' ps', ((exists a, l_call aa chk nsz nal c st = Ok a o) \/ nul = true /\ l_call aa chk nsz nal c st = Panic o) /\ LRep o xs' ps' /\
    (forall a, l_call aa chk nsz nal c st = Ok a o -> snd (spec_call c xs) = xs') /\
    l_call_i aa chk nsz nal c st = if adds c && negb (length xs =? length xs')%nat then UB else l_call aa chk nsz nal c st.
Proof using Hsz Hs HB AO FR.
  intros H NEW LE.
  assert (OTHER : adds c = false -> l_call_i aa chk nsz nal c st = l_call aa chk nsz nal c st ->
    exists o xs' ps', ((exists a, l_call aa chk nsz nal c st = Ok a o) \/ nul = true /\ l_call aa chk nsz nal c st = Panic o) /\ LRep o xs' ps' /\
    (forall a, l_call aa chk nsz nal c st = Ok a o -> snd (spec_call c xs) = xs') /\
    l_call_i aa chk nsz nal c st = if adds c && negb (length xs =? length xs')%nat then UB else l_call aa chk nsz nal c st).
  { intros -> ->. destruct (call_ok _ _ _ _ _ _ _ _ Hsz Hs HB AO _ _ _ c H (fun _ => FR) LE) as [(o & qs & a & d & xs' & S & E & HO & _)|(E0 & k & o & qs & _ & E & HO & _)].
    - exists o, xs', qs. split; [left; by exists a|]. split; [done|]. split; [by rewrite S|done].
    - eexists o, _, qs. split; [by right|]. split; [done|]. split; [by rewrite E|done]. }
  destruct c as [x|x| | | | |x|x| | | | | |[|y ys]| |g]; cbn [adds pushed length] in *; try (by apply OTHER); clear OTHER; cbn [l_call l_call_i spec_call snd andb].
  - destruct (pushes_i _ _ _ x H (NEW eq_refl) ltac:(lia)) as [(E0 & o & HO & E1 & _ & E2 & _)|((o & qs & E1 & HO) & _ & E2 & _)]; unfold bind; rewrite E1, E2.
    + exists o, xs, ps. rewrite Nat.eqb_refl. split; [by right|]. done.
    + exists o, (xs ++ [x]), qs. rewrite app_length. cbn [length]. rewrite (proj2 (Nat.eqb_neq (length xs) (length xs + 1))) by lia.
      split; [left; by eexists|]. done.
  - destruct (pushes_i _ _ _ x H (NEW eq_refl) ltac:(lia)) as [(E0 & o & HO & _ & E1 & _ & E2)|(_ & (o & qs & E1 & HO) & _ & E2)]; unfold bind; rewrite E1, E2.
    + exists o, xs, ps. rewrite Nat.eqb_refl. split; [by right|]. done.
    + exists o, (x :: xs), qs. cbn [length]. rewrite (proj2 (Nat.eqb_neq (length xs) (S (length xs)))) by lia.
      split; [left; by eexists|]. done.
  - destruct (pushes_i _ _ _ y H (NEW eq_refl) ltac:(lia)) as [(E0 & o & HO & E1 & _ & E2 & _)|((st1 & ps1 & E1 & H1) & _ & E2 & _)].
    + exists (logged ys o), xs, ps. cbn [extend extend_i]. unfold bind, on_unwind. rewrite E1, E2, Nat.eqb_refl.
      split; [by right|]. split; [by apply rep_logged|]. done.
    + assert (EQ : extend aa chk nsz nal (y :: ys) st = extend aa chk nsz nal ys st1) by (cbn [extend]; unfold bind, on_unwind; by rewrite E1).
      assert (ER : extend_i aa chk nsz nal (y :: ys) st = UB) by (cbn [extend_i]; unfold bind, on_unwind; by rewrite E2).
      unfold bind. rewrite EQ, ER.
      destruct (extend_ok _ _ _ _ _ _ _ _ Hsz Hs HB AO _ _ _ ys H1 ltac:(rewrite app_length; cbn; lia)) as [(o & qs & E & HO & _)|(EN & k & o & qs & K & E & HO & _)]; rewrite E.
      * exists o, ((xs ++ [y]) ++ ys), (ps1 ++ qs). split; [left; by eexists|]. split; [done|]. split; [by rewrite <- app_assoc|].
        rewrite !app_length. cbn [length]. by rewrite (proj2 (Nat.eqb_neq _ _)) by lia.
      * exists o, ((xs ++ [y]) ++ take k ys), qs. split; [by right|]. split; [done|]. split; [done|].
        rewrite !app_length. cbn [length]. by rewrite (proj2 (Nat.eqb_neq _ _)) by lia.
Qed.
Lemma adds_len (c : lcall T) xs : adds c = true -> length (snd (spec_call c xs)) <> length xs.
Proof using.
  destruct (spec_call c xs) as [[a d] xs'] eqn:S. cbn [snd]. rewrite (spec_len _ _ _ _ _ S).
  destruct c as [x|x| | | | |x|x| | | | | |[|y ys]| |g]; cbn; try done; lia.
Qed.
Lemma runs_i cs : nul = false -> (forall st xs ps, LRep st xs ps -> next_new st) -> forall st xs ps, LRep st xs ps -> Z.of_nat (peak cs (length xs)) <= B ->
  l_run_i aa chk nsz nal cs st = if existsb adds cs then None else l_run aa chk nsz nal cs st.
Proof using Hsz Hs HB AO FR.
  intros N NEW. induction cs as [|c cs IH]; intros st xs ps H LE; [done|]. cbn [l_run_i l_run existsb peak] in *.
  assert (LC : Z.of_nat (length xs + length (pushed c)) <= B).
  { destruct (len_call_ge c (length xs)) as [[_ ->]|E]; [cbn; pose proof (lr_bound _ _ _ _ _ _ H); lia|]. rewrite <- E. pose proof (peak_ge cs (len_call c (length xs))). lia. }
  destruct (call_i c _ _ _ H (fun _ => NEW _ _ _ H) LC) as (o & xs' & qs & [(a & E)|(E0 & _)] & HO & S & ->); [|by rewrite N in E0].
  specialize (S _ E). destruct (adds c) eqn:RE.
  - apply (adds_len _ xs) in RE. rewrite S in RE. rewrite (proj2 (Nat.eqb_neq _ _)) by lia. done.
  - cbn [andb orb]. rewrite E. rewrite (IH _ _ _ HO); [by destruct (existsb adds cs)|].
    destruct (spec_call c xs) as [[a2 d] xs2] eqn:SC. cbn [snd] in S. subst xs2. rewrite (spec_len _ _ _ _ _ SC). lia.
Qed.

(** Calls on an empty list that add nothing store no values. *)
Lemma empty_keeps c st a o : LRep st [] [] -> adds c = false -> l_call aa chk nsz nal c st = Ok a o -> m_val (l_mem o) = m_val (l_mem st).
Proof using Hsz Hs HB AO FR.
  intros H AD. pose proof H as [EN ES HI R V LB]. destruct (ends _ _ _ _ _ _ _ _ Hsz Hs AO _ _ _ H) as [GN GP]. cbn [first_of last_of last] in GN, GP.
  pose proof (front_place_ok _ _ _ _ _ _ _ _ Hsz Hs AO _ _ _ H) as FP. pose proof (back_place_ok _ _ _ _ _ _ _ _ Hsz Hs AO _ _ _ H) as BP. cbn [head last] in FP, BP.
  destruct c as [x|x| | | | |x|x| | | | | |[|y ys]| |g]; cbn [adds] in AD; try done; cbn [l_call].
  - unfold pop_back, bind, gets. rewrite EN, GP, Z.eqb_refl. by intros [= _ <-].
  - unfold pop_front, bind, gets. rewrite EN, GN, Z.eqb_refl. by intros [= _ <-].
  - unfold bind. rewrite FP. by intros [= _ <-].
  - unfold bind. rewrite BP. by intros [= _ <-].
  - unfold bind. rewrite FP. by intros [= _ <-].
  - unfold bind. rewrite BP. by intros [= _ <-].
  - unfold clear, bind, gets. rewrite EN, GN.
    assert (CL : forall f, clear_loop aa chk nsz f s st = Ok tt st) by (intros [|f]; cbn [clear_loop]; unfold bind, gets; rewrite EN, Z.eqb_refl; done).
    rewrite CL, (init_sentinel_ok _ _ _ _ _ _ _ _ Hsz Hs AO _ _ _ EN HI). by intros [= _ <-].
  - by intros [= _ <-].
  - by intros [= _ <-].
  - by intros [= _ <-].
  - by intros [= _ <-].
  - by intros [= _ <-].
  - unfold bind. rewrite (iter_all_ok _ _ _ _ _ _ _ _ Hsz Hs HB AO _ _ _ H). by intros [= _ <-].
  - unfold iter_mut_all, bind, gets, iter, size_, ret. unfold bind, gets. rewrite EN.
    assert (CL : forall f, iter_mut_loop chk nsz f g (LIter s s (l_size st)) st = Ok [] st).
    { intros f. assert (EI : iter_next chk (LIter s s (l_size st)) st = Ok (None, LIter s s (l_size st)) st).
      { unfold iter_next, bind. cbn [it_current it_sentinel]. by rewrite GN, Z.eqb_refl. }
      destruct f; cbn [iter_mut_loop]; unfold bind; by rewrite EI. }
    unfold ret. rewrite CL. by intros [= _ <-].
Qed.

(** A list that has been empty ever since. *)
Lemma runs_new cs (J : gmap Z T -> Prop) : nul = false -> (forall st, LRep st [] [] -> J (m_val (l_mem st)) -> next_new st) ->
  forall st, LRep st [] [] -> J (m_val (l_mem st)) -> Z.of_nat (peak cs 0) <= B ->
  l_run_i aa chk nsz nal cs st = if existsb adds cs then None else l_run aa chk nsz nal cs st.
Proof using Hsz Hs HB AO FR.
  intros N NEW. induction cs as [|c cs IH]; intros st H HJ LE; [done|]. cbn [l_run_i l_run existsb peak] in *.
  assert (LC : Z.of_nat (0 + length (pushed c)) <= B).
  { destruct (len_call_ge c 0) as [[_ ->]|E]; [cbn; pose proof (lr_bound _ _ _ _ _ _ H); cbn in *; lia|]. rewrite <- E. pose proof (peak_ge cs (len_call c 0)). lia. }
  destruct (call_i c _ _ _ H (fun _ => NEW _ H HJ) LC) as (o & xs' & qs & [(a & E)|(E0 & _)] & HO & S & ->); [|by rewrite N in E0].
  specialize (S _ E). destruct (adds c) eqn:RE.
  - apply (adds_len _ []) in RE. rewrite S in RE. rewrite (proj2 (Nat.eqb_neq _ _)) by (cbn in *; lia). done.
  - cbn [andb orb]. rewrite E. assert (xs' = []) as ->.
    { rewrite <- S. destruct c as [x|x| | | | |x|x| | | | | |[|y ys]| |g]; by cbn in *. }
    assert (qs = []) as -> by (apply nil_length_inv; by rewrite (Forall2_length _ _ _ (lr_vals _ _ _ _ _ _ HO))).
    rewrite (IH _ HO); [by destruct (existsb adds cs)| |].
    + by rewrite (empty_keeps c _ _ _ H RE E).
    + assert (len_call c 0 = 0%nat) as EL by (destruct c as [x|x| | | | |x|x| | | | | |[|y ys]| |g]; by cbn in *). rewrite EL in LE. lia.
Qed.
End fresh_nodes.

Lemma default_new {T} (pick : mem T -> Z -> Z -> Z) strict chk nsz nal (m0 : mem T) obj a m L p a' m' :
  ListSetup m0 obj 24 nsz nal -> DI nsz nal m0 a m L ->
  allocate (DefaultAddrAlloc pick strict) chk nsz nal 1 (a, m) = Ok p (a', m') -> p <> 0 -> m_word m' !! p = None.
Proof.
  intros LS _ E NE. pose proof (list_layout_facts _ _ (ls_node _ _ _ _ _ LS)) as (_ & Z16 & _). revert E. unfold allocate, bind. rewrite Z.mul_1_l, usizeZ_ok by lia.
  cbn [aa_alloc DefaultAddrAlloc]. unfold default_alloc_raw. cbn [fst snd]. destruct (nsz =? 0); [done|]. destruct (layout_ok nsz nal); [|done].
  destruct (pick m nsz nal =? 0); intros [= <- _ <-]; [done|]. apply fresh_word. lia.
Qed.

Lemma new_vals {T} chk nsz nal obj base len (m : mem T) s0 : fixed_new_at chk nsz nal obj base len m = Ok tt s0 -> m_val (l_mem s0) = m_val m.
Proof.
  assert (SW : forall a w (st st' : lstate (opool unit) T), put_word a w st = Ok tt st' -> m_val (l_mem st') = m_val (l_mem st)).
  { intros a w st st'. unfold put_word, bind, gets, or_ub, store_word, set_mem, modify. destruct (word_at (l_mem st) a); [|done]. by intros [= <-]. }
  unfold fixed_new_at, init_sentinel_node, bind, gets, set_prev, set_next. cbn [l_node].
  destruct (put_word (obj + 8) obj _) as [[] s1|s1|] eqn:E1; [|done|done]. destruct (put_word obj obj s1) as [[] s2|s2|] eqn:E2; [|done|done].
  apply SW in E1, E2. cbn [l_mem] in E1. rewrite <- E1, <- E2. unfold in_alloc, opool_init, bind, in_pool. cbn [fst snd].
  destruct (pool_init chk nsz nal base len (o_pool (l_alloc s2), l_mem s2)) as [[] [q m1]|[q m1]|] eqn:E3; [|done|done]. cbn. intros [= <-]. cbn [l_mem].
  revert E3. unfold pool_init, debug_assert, bind, usizeZ, ret, panic, modify.
  repeat (match goal with |- context [if ?b then _ else _] => destruct b end; try done); cbn [snd]; intros [= _ ->]; done.
Qed.

Lemma fx_i {T} (pick : mem T -> Z -> Z -> Z) chk nsz nal obj n bytes base len m0 (prog : list (lcall T)) s0 :
  FX m0 nsz nal obj n bytes base len -> honest pick -> room pick (m_live m0) nsz nal (peak prog 0) -> short prog ->
  (forall a, base <= a < base + len -> m_val m0 !! a = None) ->
  fixed_new_at chk nsz nal obj base len m0 = Ok tt s0 ->
  l_run_i (FixedListAlloc pick false chk nsz nal) chk nsz nal prog s0 =
  if existsb adds prog then None else l_run (FixedListAlloc pick false chk nsz nal) chk nsz nal prog s0.
Proof.
  intros H HP HR SH HV E0. assert (HL : Z.of_nat (peak prog 0) < u32_lim) by exact SH.
  destruct (fx_new chk nsz nal obj n bytes base len m0 H s0 E0) as (D0 & EL & ET & (LS & PS & HO & H16 & HC & PAD) & _ & R0).
  specialize (R0 (Z.of_nat (peak prog 0)) ltac:(lia)). rewrite <- EL in HR.
  assert (AO := general_ok pick false chk nsz nal obj bytes base len (l_mem s0) LS PS H16 HO HP PAD false (peak prog 0) (fun _ => HR)).
  assert (FR := general_frees pick false chk nsz nal obj bytes base len (l_mem s0) LS PS H16 HO HP PAD false (peak prog 0) (fun _ => HR) eq_refl).
  pose proof (list_layout_facts _ _ (ls_node _ _ _ _ _ LS)) as (_ & Z16 & _).
  apply (runs_new _ chk nsz nal obj _ false _ (fx_sz _ _ _ _ _ _ _ _ H) (fx_al _ _ _ _ _ _ _ _ H) HL AO FR prog (fun v => forall a, base <= a < base + len -> v !! a = None)); [done| |done| |lia].
  - intros st R HJ p a' m' E NE. pose proof (lr_alloc _ _ _ _ _ _ R) as (slots & avail & over & OI & P).
    revert E. unfold allocate, bind. rewrite Z.mul_1_l, usizeZ_ok by lia. cbn [aa_alloc FixedListAlloc OPoolAlloc].
    destruct (opool_alloc_ok pick false base len nsz nal (l_mem s0) PS HP PAD chk _ _ slots avail over OI) as (p1 & q1 & m1 & E1 & C). rewrite E1. intros [= <- _ <-].
    destruct avail as [|x avail].
    + destruct C as (_ & [(-> & _)|(_ & _ & -> & _)]); [done|]. left. apply fresh_word. lia.
    + destruct C as (-> & -> & _). right. apply HJ.
      assert (Hx : x ∈ slots ++ x :: avail) by (apply elem_of_app; right; constructor).
      destruct (slot_bounds base len nsz nal _ PS _ _ _ _ _ (oi_pool _ _ _ _ _ _ _ _ _ _ OI) Hx) as (? & ? & _).
      pose proof (end_ok base len nsz nal _ PS). lia.
  - intros a Ha. rewrite (new_vals _ _ _ _ _ _ _ _ E0). by apply HV.
Qed.

Lemma L_C126_programs_partial :
forall (T : Type) (pick : mem T -> Z -> Z -> Z) (chk : bool) (nsz nal obj : Z) (m0 : mem T) (prog prog' : list (lcall T)) l s,
  ListSetup m0 obj 24 nsz nal -> honest pick -> room pick (m_live m0) nsz nal (peak prog 0 + length (concat (map pushed prog'))) ->
  Z.of_nat (peak prog 0 + length (concat (map pushed prog'))) < u32_lim ->
  built pick false chk nsz nal obj m0 prog l s ->
  l_run_i (DefaultAddrAlloc pick false) chk nsz nal prog' s =
  if existsb adds prog' then None else l_run (DefaultAddrAlloc pick false) chk nsz nal prog' s.
Proof.
  intros T pick chk nsz nal obj m0 prog prog' l s LS HP HR SH HB. assert (SH' : short prog) by (unfold short; lia).
  destruct (def_built pick false chk nsz nal obj m0 prog LS HP SH' (or_introl eq_refl) l s HB) as (xs & ps & R & _).
  set (K := (peak prog 0 + length (concat (map pushed prog')))%nat) in *.
  assert (AO := default_ok pick false chk nsz nal obj 24 m0 false K LS HP (fun _ => HR) ltac:(lia)).
  assert (FR := default_frees pick false chk nsz nal obj 24 m0 false K LS (fun _ => HR) eq_refl).
  assert (R' := lrep_mono _ _ (Z.of_nat K) _ _ _ _ R ltac:(pose proof (lr_bound _ _ _ _ _ _ R); lia)).
  apply (runs_i _ _ _ _ _ _ _ _ (def_sz _ _ _ _ LS) (ls_align _ _ _ _ _ LS) SH AO FR) with (xs := xs) (ps := ps).
  - done.
  - intros st ys qs RS p a' m' E NE. left. eapply default_new; [exact LS|apply RS|exact E|done].
  - done.
  - pose proof (lr_bound _ _ _ _ _ _ R) as LB. assert (forall n, peak prog' n <= n + length (concat (map pushed prog')))%nat as P.
    { clear. induction prog' as [|c cs IH]; intros n; cbn [peak map concat]; [lia|]. rewrite app_length. pose proof (IH (len_call c n)) as X.
      assert (len_call c n <= n + length (pushed c))%nat by (destruct c; cbn; lia). lia. }
    specialize (P (length xs)). lia.
Qed.

Lemma L_C126_calls_partial :
forall (T : Type) (pick : mem T -> Z -> Z -> Z) (chk : bool) (nsz nal obj : Z) (m0 : mem T) (prog : list (lcall T)) c l s xs,
  ListSetup m0 obj 24 nsz nal -> honest pick -> Z.of_nat (peak prog 0 + length (pushed c)) < u32_lim ->
  built pick false chk nsz nal obj m0 prog l s -> contents chk nsz s xs ->
  exists s' xs', ((exists a, l_call (DefaultAddrAlloc pick false) chk nsz nal c s = Ok a s') \/ l_call (DefaultAddrAlloc pick false) chk nsz nal c s = Panic s') /\
    contents chk nsz s' xs' /\
    l_call_i (DefaultAddrAlloc pick false) chk nsz nal c s =
    if adds c && negb (length xs =? length xs')%nat then UB else l_call (DefaultAddrAlloc pick false) chk nsz nal c s.
Proof.
  intros T pick chk nsz nal obj m0 prog c l s xs LS HP SH HB HC. assert (SH' : short prog) by (unfold short; lia).
  destruct (def_built pick false chk nsz nal obj m0 prog LS HP SH' (or_introl eq_refl) l s HB) as (xs0 & ps & R & _).
  assert (AO := default_ok pick false chk nsz nal obj 24 m0 true (peak prog 0 + length (pushed c)) LS HP ltac:(done) ltac:(lia)).
  assert (FR := default_frees pick false chk nsz nal obj 24 m0 true (peak prog 0) LS ltac:(done) eq_refl).
  pose proof (lr_bound _ _ _ _ _ _ R) as LB.
  assert (R' := lrep_mono _ _ (Z.of_nat (peak prog 0 + length (pushed c))) _ _ _ _ R ltac:(lia)).
  pose proof (rep_contents _ chk nsz nal obj _ true _ (def_sz _ _ _ _ LS) (ls_align _ _ _ _ _ LS) SH AO _ _ _ R') as HC'.
  unfold contents in HC, HC'. rewrite HC in HC'. injection HC' as <-.
  destruct (call_i _ _ _ _ _ _ _ _ (def_sz _ _ _ _ LS) (ls_align _ _ _ _ _ LS) SH AO FR) with (c := c) (st := s) (xs := xs) (ps := ps) as (o & xs' & qs & E & HO & _ & ER).
  - done.
  - intros _ p a' m' E NE. left. eapply default_new; [exact LS|apply R'|exact E|done].
  - lia.
  - exists o, xs'. split; [destruct E as [E|[_ E]]; [by left|by right]|]. split; [|done].
    by eapply (rep_contents _ chk nsz nal obj _ true _ (def_sz _ _ _ _ LS) (ls_align _ _ _ _ _ LS) SH AO).
Qed.

Lemma L_C126_new_fixed_partial :
forall (T : Type) (pick : mem T -> Z -> Z -> Z) (chk : bool) (nsz nal obj : Z) (n : nat) (m0 : mem T) (prog : list (lcall T)) s,
  honest pick -> room pick (m_live m0) nsz nal (peak prog 0) -> short prog ->
  (FixedSetup m0 obj nsz nal n /\ (forall a, obj <= a < obj + fixed_list_bytes nsz nal (Z.of_nat n) -> m_val m0 !! a = None) /\
     fixed_list_new chk nsz nal (Z.of_nat n) obj m0 = Ok tt s) \/
  (ConformantSetup m0 obj nsz nal n /\ (forall a, obj <= a < obj + conformant_bytes nsz (Z.of_nat n) -> m_val m0 !! a = None) /\
     conformant_new chk nsz nal (Z.of_nat n) obj m0 = Ok tt s) ->
  l_run_i (FixedListAlloc pick false chk nsz nal) chk nsz nal prog s =
  if existsb adds prog then None else l_run (FixedListAlloc pick false chk nsz nal) chk nsz nal prog s.
Proof.
  intros T pick chk nsz nal obj n m0 prog s HP HR SH [(FS & HV & E)|(FS & HV & E)].
  - pose proof (fixed_fx _ _ _ _ _ FS) as H. apply (fx_i pick chk nsz nal obj n _ _ _ m0 prog s H HP HR SH); [|exact E].
    intros a Ha. apply HV. destruct H as (LS & PS & HO & _). pose proof (fx_sz _ _ _ _ _ _ _ _ (fixed_fx _ _ _ _ _ FS)). unfold fixed_list_bytes. lia.
  - pose proof (conformant_fx _ _ _ _ _ FS) as H. apply (fx_i pick chk nsz nal obj n _ _ _ m0 prog s H HP HR SH); [|exact E].
    intros a Ha. apply HV. destruct H as (LS & PS & HO & _).
    assert (base_list_size + ((Z.of_nat n + 1) * nsz - 1) <= conformant_bytes nsz (Z.of_nat n)); [|unfold base_list_size in *; lia].
    unfold conformant_bytes. pose proof (round_up_spec (base_list_size + ((Z.of_nat n + 1) * nsz - 1)) 8 ltac:(lia)) as [_ X]. unfold round_up in X. unfold pad_to. lia.
Qed.

Lemma L_C126_nodes_refuted :
exists (prog : list (lcall Z)) (s : lstate unit Z),
  ListSetup (lx_mem 24) 4096 24 24 8 /\ honest lx_pick /\ room lx_pick (m_live (lx_mem 24)) 24 8 (peak prog 0) /\ short prog /\
  list_new 4096 tt (lx_mem 24) = Ok tt s /\
  is_Some (l_run (DefaultAddrAlloc lx_pick false) true 24 8 prog s) /\
  l_run_i (DefaultAddrAlloc lx_pick false) true 24 8 prog s = None.
Proof.
  eexists [LPushBack 1], _.
  split; [by apply LinkedListDerived.lx_setup|]. split; [apply LinkedListDerived.fit_honest|]. split; [apply LinkedListDerived.lx_room; cbn; lia|].
  split; [done|]. split; [reflexivity|]. split; [|by vm_compute]. eexists. by vm_compute.
Qed.
