(** Proofs of the properties stated in DequeFreshProps.v. *)
From Verif Require Import Base Heap Alloc Deque DequeSpec DequeFresh.

Lemma bind_inv {S A B} (f : M S A) (g : A -> M S B) s y s' : bind f g s = Ok y s' -> exists x s1, f s = Ok x s1 /\ g x s1 = Ok y s'.
Proof. unfold bind. destruct (f s) as [x s1|s1|]; [|done|done]. by exists x, s1. Qed.
Lemma bind_of {S A B} (f : M S A) (g : A -> M S B) s x s' : f s = Ok x s' -> bind f g s = g x s'.
Proof. unfold bind. by intros ->. Qed.
Lemma bind_if {S A B} (f : M S A) (g : A -> M S B) s (b : bool) x s' : f s = (if b then Ok x s' else UB) -> bind f g s = if b then g x s' else UB.
Proof. unfold bind. intros ->. by destruct b. Qed.
Lemma bind_ub {S A B} (f : M S A) (g : A -> M S B) s : f s = UB -> bind f g s = UB.
Proof. unfold bind. by intros ->. Qed.
Lemma gets_inv {S B} (f : S -> B) s x s' : gets f s = Ok x s' -> x = f s /\ s' = s.
Proof. by intros [= <- <-]. Qed.
Lemma or_ub_inv {S B} (o : option B) (s : S) x s' : or_ub o s = Ok x s' -> o = Some x /\ s' = s.
Proof. destruct o; [by intros [= <- <-]|done]. Qed.
Lemma usize_inv {S} chk r (s : S) x s' : usize chk r s = Ok x s' -> s' = s /\ ((0 <= r < usize_lim)%Z -> Z.of_nat x = r).
Proof.
  unfold usize. destruct ((0 <=? r) && (r <? usize_lim))%Z eqn:E.
  - intros [= <- <-]. split; [done|]. lia.
  - destruct chk; [done|]. intros [= _ <-]. split; [done|]. lia.
Qed.
Lemma u32_inv {S} chk r (s : S) x s' : u32 chk r s = Ok x s' -> s' = s /\ ((0 <= r < u32_lim)%Z -> x = r).
Proof.
  unfold u32. destruct ((0 <=? r) && (r <? u32_lim))%Z eqn:E.
  - intros [= <- <-]. by split.
  - destruct chk; [done|]. intros [= _ <-]. split; [done|]. lia.
Qed.

Section calls.
Context {T : Type}.
Variables sz al : Z.
Variable chk : bool.
Local Notation dstate := (dstate T).

(** The fields other than memory and the end iterator, or the begin iterator. *)
Definition same (s s' : dstate) : Prop := d_arr s' = d_arr s /\ d_size s' = d_size s /\ d_b s' = d_b s /\ d_e s' = d_e s.
Lemma add_inv p n (s : dstate) q s' : add p n s = Ok q s' -> s' = s /\ forall b o, p = Ptr b o -> q = Ptr b (o + n).
Proof.
  unfold add. intros H. apply bind_inv in H as (h & s1 & H1 & H). apply gets_inv in H1 as [-> ->]. apply or_ub_inv in H as [H ->]. split; [done|].
  intros b o ->. unfold hadd in H. destruct (cells_of _ _); [|done]. destruct (_ <=? _); [|done]. by injection H as <-.
Qed.
Lemma sub_inv p n (s : dstate) q s' : sub p n s = Ok q s' -> s' = s.
Proof. unfold sub. intros H. apply bind_inv in H as (h & s1 & H1 & H). apply gets_inv in H1 as [-> ->]. by apply or_ub_inv in H as [H ->]. Qed.
Lemma set_sub_inv i a (s : dstate) b s' : set_subarray sz i a s = Ok b s' -> s' = s /\ di_arr b = a.
Proof.
  unfold set_subarray. intros H. apply bind_inv in H as (p & s1 & H1 & H). apply bind_inv in H as (e & s2 & H2 & H). apply add_inv in H2 as [-> _].
  injection H as <- <-. split; [|done]. revert H1. unfold read_ptr, bind, gets. destruct (hload _ _) as [[q|x]|]; [|done|done]. by intros [= _ <-].
Qed.
Lemma store_inv p c (s : dstate) s' : store p c s = Ok tt s' -> same s s'.
Proof.
  unfold store. intros H. apply bind_inv in H as (h & s1 & H1 & H). apply gets_inv in H1 as [-> ->]. apply bind_inv in H as (h' & s2 & H2 & H).
  apply or_ub_inv in H2 as [H2 ->]. by injection H as <-.
Qed.
Lemma alloc_inv c a n (s : dstate) p s' : allocate c a n s = Ok p s' -> same s s' /\
  exists k, hslice (d_h s') p k = hslice (d_h s') p k /\ p = Ptr (h_next (d_h s)) 0 /\
    cells_of (d_h s') (h_next (d_h s)) = Some (replicate (Z.to_nat (n * c / c)) None).
Proof.
  unfold allocate, default_alloc. cbn [fst snd]. destruct (_ =? 0)%Z; [done|]. destruct (layout_ok _ _); [|done]. intros [= <- <-].
  split; [done|]. exists 0. split; [done|]. split; [done|]. unfold cells_of. cbn. by rewrite lookup_insert.
Qed.
Lemma same_trans s1 s2 s3 : same s1 s2 -> same s2 s3 -> same s1 s3.
Proof. intros (A1 & A2 & A3 & A4) (B1 & B2 & B3 & B4). unfold same. by rewrite B1, B2, B3, B4. Qed.

(** A new array is not initialised. *)
Lemma alloc_young n (s : dstate) p s' : (0 < n)%Z -> allocate_ptr_array n s = Ok p s' -> allocate_ptr_array_i true n s = UB.
Proof.
  intros HN E. unfold allocate_ptr_array_i. rewrite (bind_of _ _ _ _ _ E). apply alloc_inv in E as (_ & _ & _ & -> & C).
  unfold slice_of, bind, gets, hslice, hraw. rewrite C. rewrite Z.div_mul by lia. rewrite replicate_length, Nat.add_0_l, Nat.leb_refl.
  rewrite drop_0, take_ge by (rewrite replicate_length; lia). destruct (Z.to_nat n) as [|k] eqn:E; [lia|]. done.
Qed.

Lemma new_young (h : heap (dcell T)) d s : deque_new sz al h d = Ok tt s -> deque_new_i sz al true h d = UB.
Proof.
  unfold deque_new, deque_new_i, init, init_i. intros H. apply bind_inv in H as (u & s1 & H1 & H). rewrite (bind_of _ _ _ _ _ H1).
  apply bind_inv in H as (p & s2 & H2 & H). unfold bind at 1. by rewrite (alloc_young INITIAL_PTR_ARRAY_SIZE _ _ _ eq_refl H2).
Qed.

(** What making room at one end does. *)
Definition all_set (s : dstate) : bool := match hslice (d_h s) (d_arr s) (Z.to_nat (d_size s)) with Some _ => true | None => false end.

Lemma copy_inv p n a b c (s : dstate) s' : copy_within p n a b c s = Ok tt s' -> same s s' /\ (a <= b)%nat /\ (b <= n)%nat /\ (c + (b - a) <= n)%nat.
Proof.
  unfold copy_within. destruct ((a <=? b) && (b <=? n) && (c + (b - a) <=? n)) eqn:E; [|done]. intros H.
  apply bind_inv in H as (q1 & s1 & H1 & H). apply add_inv in H1 as [-> _]. apply bind_inv in H as (q2 & s2 & H2 & H). apply add_inv in H2 as [-> _].
  apply bind_inv in H as (h & s3 & H3 & H). apply gets_inv in H3 as [-> ->]. apply bind_inv in H as (h' & s4 & H4 & H). apply or_ub_inv in H4 as [_ ->].
  injection H as <-. split; [done|]. lia.
Qed.
Lemma pdiff_inv p b o d : pdiff p (Ptr b o) = Some d -> p = Ptr b (o + d).
Proof. destruct p as [|b' o']; [done|]. cbn. destruct ((b' =? b) && (o <=? o')) eqn:E; [|done]. intros [= <-]. f_equal; lia. Qed.

(** The end of [realloc_ptr_array]. *)
Lemma tail_inv ns used (s s' : dstate) : 
  (do s <- gets id; do a <- add (d_arr s) ns; do b <- set_subarray sz (d_b s) a; run set_b b;
   do k <- usize chk (Z.of_nat (ns + used) - 1); do a <- add (d_arr s) k; do e <- set_subarray sz (d_e s) a; set_e e) s = Ok tt s' ->
  d_size s' = d_size s /\ forall b o, d_arr s = Ptr b o ->
    di_arr (d_b s') = Ptr b (o + ns) /\ ((0 < Z.of_nat (ns + used) <= usize_lim)%Z -> di_arr (d_e s') = Ptr b (o + (ns + used - 1))).
Proof.
  intros H. apply bind_inv in H as (s0 & s1 & H1 & H). apply gets_inv in H1 as [-> ->]. cbn [id] in H.
  apply bind_inv in H as (a & s2 & H2 & H). apply add_inv in H2 as [-> A1]. apply bind_inv in H as (b & s3 & H3 & H). apply set_sub_inv in H3 as [-> B1].
  apply bind_inv in H as ([] & s4 & H4 & H). injection H4 as <-. apply bind_inv in H as (k & s5 & H5 & H). apply usize_inv in H5 as [-> K].
  apply bind_inv in H as (a2 & s6 & H6 & H). apply add_inv in H6 as [-> A2]. apply bind_inv in H as (e & s7 & H7 & H). apply set_sub_inv in H7 as [-> E1].
  injection H as <-. cbn. split; [done|]. intros bb o EA. rewrite B1, E1. split; [by apply A1|]. intros HK. rewrite (A2 bb o EA). f_equal. lia.
Qed.

Lemma realloc_i front (s s' : dstate) : d_arr s <> Null -> (0 <= d_size s)%Z -> (2 * d_size s + 2 < u32_lim)%Z ->
  realloc_ptr_array sz chk 1 front s = Ok tt s' ->
  (d_size s' = d_size s /\ di_arr (d_b s') <> di_arr (d_b s) /\ di_arr (d_e s') <> di_arr (d_e s) /\
   realloc_ptr_array_i sz chk true true 1 front s = if all_set s then Ok tt s' else UB) \/
  (d_size s' <> d_size s /\ realloc_ptr_array_i sz chk true true 1 front s = UB).
Proof.
  intros NN H0 HL H. unfold realloc_ptr_array in H. unfold realloc_ptr_array_i. change u32_lim with 4294967296%Z in *.
  apply bind_inv in H as (s0 & s1 & H1 & H). apply gets_inv in H1 as [-> ->]. cbn [id] in H. rewrite (bind_of (gets id) _ s s s eq_refl).
  destruct (d_arr s) as [|bb oo] eqn:EA; [done|].
  apply bind_inv in H as (uf & s2 & H2 & H). rewrite (bind_of _ _ _ _ _ H2). apply or_ub_inv in H2 as [H2 ->]. apply pdiff_inv in H2.
  apply bind_inv in H as (d & s3 & H3 & H). rewrite (bind_of _ _ _ _ _ H3). apply or_ub_inv in H3 as [H3 ->]. rewrite H2 in H3. apply pdiff_inv in H3.
  apply bind_inv in H as (r & s4 & H4 & H). rewrite (bind_of _ _ _ _ _ H4). apply usize_inv in H4 as [-> R].
  apply bind_inv in H as (ub_ & s5 & H5 & H). rewrite (bind_of _ _ _ _ _ H5). apply usize_inv in H5 as [-> UBK].
  cbn [is_null] in *.
  assert (SL : slice_of true (Ptr bb oo) (Z.to_nat (d_size s)) s = if all_set s then Ok tt s else UB).
  { unfold slice_of, all_set, bind, gets. rewrite EA. by destruct (hslice _ _ _). }
  rewrite !(bind_if _ _ _ _ _ _ SL).
  apply bind_inv in H as (ns & s6 & H6 & H).
  destruct (negb front && (1 <=? uf)) eqn:C1; [|destruct (front && (1 <=? ub_)) eqn:C2].
  - left. pose proof H6 as H6'. apply bind_inv in H6 as (ns1 & s7 & H7 & H6). apply usize_inv in H7 as [-> NS].
    apply bind_inv in H6 as ([] & s8 & H8 & H6). injection H6 as -> <-. apply copy_inv in H8 as ((E1 & E2 & E3 & E4) & L1 & L2 & L3).
    assert (DV : ((uf + 1) / 2 <= uf)%nat) by (pose proof (Nat.div_lt_upper_bound (uf + 1) 2 (uf + 1)); lia).
    specialize (NS ltac:(unfold usize_lim; lia)).
    pose proof (tail_inv _ _ _ _ H) as (T1 & T2). specialize (T2 bb oo ltac:(by rewrite E1)) as (T2 & T3). specialize (T3 ltac:(unfold usize_lim; lia)).
    split; [by rewrite T1|]. rewrite T2, T3, H2, H3. split; [intros [= ?]; lia|]. split; [intros [= ?]; lia|].
    destruct (all_set s); [|done]. rewrite (bind_of _ _ _ _ _ H6'). exact H.
  - left. pose proof H6 as H6'.
    assert (MX : (1 <= 1 `max` (ub_ `div` 2))%nat) by lia. remember (1 `max` (ub_ `div` 2)) as mx eqn:EM; clear EM.
    apply bind_inv in H6 as ([] & s8 & H8 & H6). injection H6 as <- <-. apply copy_inv in H8 as ((E1 & E2 & E3 & E4) & L1 & L2 & L3).
    pose proof (tail_inv _ _ _ _ H) as (T1 & T2). specialize (T2 bb oo ltac:(by rewrite E1)) as (T2 & T3). specialize (T3 ltac:(unfold usize_lim; lia)).
    split; [by rewrite T1|]. rewrite T2, T3, H2, H3. split; [intros [= ?]; lia|]. split; [intros [= ?]; lia|].
    destruct (all_set s); [|done]. rewrite (bind_of _ _ _ _ _ H6'). exact H.
  - right. apply bind_inv in H6 as (n1 & s7 & H7 & H6). pose proof H7 as H7'. apply u32_inv in H7 as [-> N1]. change (Z.of_nat 1 mod 4294967296)%Z with 1%Z in N1.
    apply bind_inv in H6 as (n2 & s8 & H8 & H6). pose proof H8 as H8'. apply u32_inv in H8 as [-> N2]. change u32_lim with 4294967296%Z in N1, N2.
    specialize (N1 ltac:(lia)). specialize (N2 ltac:(lia)).
    apply bind_inv in H6 as (na & s9 & H9 & H6).
    split.
    + pose proof (tail_inv _ _ _ _ H) as (T1 & _). rewrite T1.
      apply bind_inv in H6 as (u & sa & HA & H6). apply bind_inv in H6 as (t & sb & HB & H6). apply bind_inv in H6 as (src & sc & HC & H6).
      apply bind_inv in H6 as (h & sd & HD & H6). apply bind_inv in H6 as (h' & se & HE & H6). apply bind_inv in H6 as (u2 & sf & HF & H6).
      apply bind_inv in H6 as (u3 & sg & HG & H6). apply bind_inv in H6 as (u4 & sh & HH & H6). injection H6 as _ <-. injection HH as _ <-. cbn. lia.
    + assert (NP : (0 < n2)%Z) by lia.
      destruct (all_set s); [|done]. apply bind_ub. rewrite (bind_of _ _ _ _ _ H7'), (bind_of _ _ _ _ _ H8'). apply bind_ub.
      exact (alloc_young _ _ _ _ NP H9).
Qed.

Lemma push_back_young x (s s' : dstate) : d_arr s <> Null -> (0 <= d_size s)%Z -> (2 * d_size s + 2 < u32_lim)%Z ->
  push_back sz al chk x s = Ok tt s' ->
  push_back_i sz al chk true true x s =
  if decide (d_size s' = d_size s /\ (di_arr (d_b s') = di_arr (d_b s) \/ all_set s = true)) then Ok tt s' else UB.
Proof.
  intros NN H0 HL H. pose proof H as HH. unfold push_back in H. unfold push_back_i.
  apply bind_inv in H as (s0 & s1 & H1 & H). apply gets_inv in H1 as [-> ->]. cbn [id] in H. rewrite (bind_of (gets id) _ s s s eq_refl).
  apply bind_inv in H as (l & s2 & H2 & H). rewrite (bind_of _ _ _ _ _ H2). apply sub_inv in H2 as ->.
  destruct (decide (di_cur (d_e s) <> l)) as [NL|NL].
  { rewrite H. rewrite decide_True; [done|].
    apply bind_inv in H as ([] & s3 & H3 & H). apply store_inv in H3 as (E1 & E2 & E3 & E4). apply bind_inv in H as (c & s4 & H4 & H). apply add_inv in H4 as [-> _].
    injection H as <-. cbn. rewrite E2, E3. auto. }
  apply bind_inv in H as ([] & s3 & H3 & H). unfold on_unwind in H3.
  assert (REST : d_size s' = d_size s3 /\ d_b s' = d_b s3).
  { clear HH H3. apply bind_inv in H as (s4 & s5 & H4 & H). apply gets_inv in H4 as [-> ->]. cbn [id] in H.
    apply bind_inv in H as ([] & s6 & H6 & H). apply store_inv in H6. apply bind_inv in H as (p & s7 & H7 & H). apply alloc_inv in H7 as [H7 _].
    apply bind_inv in H as (sl & s8 & H8 & H). apply add_inv in H8 as [-> _]. apply bind_inv in H as ([] & s9 & H9 & H). apply store_inv in H9.
    apply bind_inv in H as (a & sa & HA & H). apply add_inv in HA as [-> _]. apply bind_inv in H as (e & sb & HB & H). apply set_sub_inv in HB as [-> _].
    injection H as <-. pose proof (same_trans _ _ _ (same_trans _ _ _ H6 H7) H9) as (E1 & E2 & E3 & E4). cbn. by rewrite E2, E3. }
  destruct REST as [RS RB]. rewrite RS, RB.
  destruct ((do k <- usize chk (d_size s - 1); do p <- add (d_arr s) k; if decide (di_arr (d_e s) = p) then realloc_ptr_array sz chk 1 false else ret tt) s)
    as [[] sx|sx|] eqn:EX; [|done|done]. injection H3 as ->.
  apply bind_inv in EX as (k & s4 & H4 & EX). apply bind_inv in EX as (p & s5 & H5 & EX).
  unfold bind at 1, on_unwind. rewrite (bind_of _ _ _ _ _ H4), (bind_of _ _ _ _ _ H5).
  apply usize_inv in H4 as [-> _]. apply add_inv in H5 as [-> _].
  destruct (decide (di_arr (d_e s) = p)).
  - destruct (realloc_i _ _ _ NN H0 HL EX) as [(E1 & E2 & _ & ->)|(E1 & ->)].
    + destruct (all_set s) eqn:AS.
      * rewrite decide_True by (split; auto). exact H.
      * rewrite decide_False by (intros [_ [?|?]]; done). done.
    + rewrite decide_False by (intros [? _]; done). done.
  - injection EX as <-. rewrite decide_True by auto. exact H.
Qed.

Lemma push_front_young x (s s' : dstate) : d_arr s <> Null -> (0 <= d_size s)%Z -> (2 * d_size s + 2 < u32_lim)%Z ->
  push_front sz al chk x s = Ok tt s' ->
  push_front_i sz al chk true true x s =
  if decide (d_size s' = d_size s /\ (di_arr (d_e s') = di_arr (d_e s) \/ all_set s = true)) then Ok tt s' else UB.
Proof.
  intros NN H0 HL H. unfold push_front in H. unfold push_front_i.
  apply bind_inv in H as (s0 & s1 & H1 & H). apply gets_inv in H1 as [-> ->]. cbn [id] in H. rewrite (bind_of (gets id) _ s s s eq_refl).
  apply bind_inv in H as ([] & s3 & H3 & H). unfold on_unwind in H3.
  assert (REST : d_size s' = d_size s3 /\ d_e s' = d_e s3).
  { clear H3. apply bind_inv in H as (s4 & s5 & H4 & H). apply gets_inv in H4 as [-> ->]. apply store_inv in H as (_ & E2 & _ & E4). done. }
  destruct REST as [RS RB]. rewrite RS, RB. unfold bind at 1, on_unwind.
  destruct (decide (di_cur (d_b s) <> di_begin (d_b s))) as [NL|NL].
  { destruct ((do c <- sub (di_cur (d_b s)) 1; set_b (DIt c (di_begin (d_b s)) (di_end (d_b s)) (di_arr (d_b s)))) s) as [[] sx|sx|] eqn:EX; [|done|done].
    injection H3 as ->. rewrite decide_True; [exact H|]. apply bind_inv in EX as (c & s4 & H4 & EX). apply sub_inv in H4 as ->. injection EX as <-. auto. }
  match type of H3 with match ?e with _ => _ end = _ => destruct e as [[] sx|sx|] eqn:EX; [|done|done] end. injection H3 as ->.
  apply bind_inv in EX as ([] & s4 & H4 & EX).
  assert (KEEP : d_size s3 = d_size s4 /\ d_e s3 = d_e s4).
  { clear H4 H. apply bind_inv in EX as (s5 & s6 & H5 & EX). apply gets_inv in H5 as [-> ->]. cbn [id] in EX.
    apply bind_inv in EX as (p & s7 & H7 & EX). apply alloc_inv in H7 as [H7 _]. apply bind_inv in EX as (sl & s8 & H8 & EX). apply sub_inv in H8 as ->.
    apply bind_inv in EX as ([] & s9 & H9 & EX). apply store_inv in H9. apply bind_inv in EX as (a & sa & HA & EX). apply sub_inv in HA as ->.
    apply bind_inv in EX as (b & sb & HB & EX). apply set_sub_inv in HB as [-> _]. apply bind_inv in EX as (c & sc & HC & EX). apply sub_inv in HC as ->.
    injection EX as <-. pose proof (same_trans _ _ _ H7 H9) as (E1 & E2 & E3 & E4). cbn. by rewrite E2, E4. }
  destruct KEEP as [KS KE]. rewrite KS, KE. unfold bind at 1.
  destruct (decide (di_arr (d_b s) = d_arr s)).
  - destruct (realloc_i _ _ _ NN H0 HL H4) as [(E1 & _ & E2 & ->)|(E1 & ->)].
    + destruct (all_set s) eqn:AS.
      * rewrite decide_True by (split; auto). rewrite EX. exact H.
      * rewrite decide_False by (intros [_ [?|?]]; done). done.
    + rewrite decide_False by (intros [? _]; done). done.
  - injection H4 as <-. cbn [ret]. rewrite EX. rewrite decide_True by auto. exact H.
Qed.
End calls.
Lemma mapM_set {B} (l : list (option B)) : is_Some (mapM id l) <-> forall k, k < length l -> exists c, l !! k = Some (Some c).
Proof.
  rewrite mapM_is_Some, Forall_lookup. split.
  - intros H k Hk. apply lookup_lt_is_Some_2 in Hk as [o E]. destruct (H _ _ E) as [c Hc]. unfold id in Hc. subst o. by exists c.
  - intros H k o E. destruct (H k) as [c E2]; [by eapply lookup_lt_Some|]. rewrite E in E2. injection E2 as ->. by exists c.
Qed.

(** Every pointer of the array holds a value. *)
Definition initialised {T} (s : dstate T) : Prop :=
  forall k, (Z.of_nat k < d_size s)%Z -> exists p c, hadd (d_h s) (d_arr s) k = Some p /\ hload (d_h s) p = Some c.
(** Calls until a larger array is taken, then one that moves the pointers of that array. *)
Definition dfx_calls : list (dcall Z) := repeat (DPushBack 1%Z) 33 ++ [DPushFront 2%Z].

Lemma all_set_iff {T} (s : dstate T) : (0 < d_size s)%Z -> all_set s = true <-> initialised s.
Proof.
  intros HP. unfold all_set, initialised, hslice, hraw, hadd. destruct (d_arr s) as [|b o].
  { split; [done|]. intros H. destruct (H 0 ltac:(lia)) as (p & c & E & L). injection E as <-. done. }
  destruct (cells_of (d_h s) b) as [cs|] eqn:C.
  2:{ split; [done|]. intros H. destruct (H 0 ltac:(lia)) as (p & c & E & L). done. }
  destruct (o + Z.to_nat (d_size s) <=? length cs) eqn:LE.
  - pose proof (mapM_set (take (Z.to_nat (d_size s)) (drop o cs))) as MS. rewrite take_length, drop_length in MS.
    destruct (mapM id _) as [vs|] eqn:EM.
    + split; [|done]. intros _ k Hk. destruct MS as [MS _]. destruct (MS ltac:(by eexists) k ltac:(lia)) as [c E].
      rewrite lookup_take, lookup_drop in E by lia. exists (Ptr b (o + k)), c. split.
      * destruct (o + k <=? length cs) eqn:E2; [done|lia].
      * cbn. by rewrite C, E.
    + split; [done|]. intros H. destruct MS as [_ MS]. destruct MS as [vs E]; [|done].
      intros k Hk. destruct (H k ltac:(lia)) as (p & c & E & L). destruct (o + k <=? length cs); [|done]. injection E as <-.
      cbn in L. rewrite C in L. exists c. rewrite lookup_take, lookup_drop by lia. destruct (cs !! (o + k)); [|done]. cbn in L. by subst.
  - split; [done|]. intros H. destruct (H (Z.to_nat (d_size s) - 1) ltac:(lia)) as (p & c & E & L).
    destruct (o + (Z.to_nat (d_size s) - 1) <=? length cs); [|done]. injection E as <-. cbn in L. rewrite C in L.
    destruct (cs !! (o + (Z.to_nat (d_size s) - 1))) eqn:E; [|done]. apply lookup_lt_Some in E. lia.
Qed.
Lemma all_set_false {T} (s : dstate T) : (0 < d_size s)%Z -> ~ initialised s -> all_set s = false.
Proof. intros HP N. destruct (all_set s) eqn:E; [|done]. by apply all_set_iff in E. Qed.
(** ** Programs *)
Section programs.
Context {T : Type}.
Variables sz al : Z.
Variable chk : bool.
Local Notation dstate := (dstate T).
Hypothesis LAY : ~ ((Z.of_nat (subarray_size sz) * sz)%Z = 64%Z /\ al = 8%Z).
Variables (b : nat) (arr : ptr).

(** The array in block [b] is initialised. *)
Definition Q (s : dstate) : Prop := d_arr s = arr /\ d_size s = 8%Z /\ b < h_next (d_h s) /\
  exists cs, h_blk (d_h s) !! b = Some (Block 64 8 cs) /\ length cs = 8 /\ Forall is_Some cs.
Definition keeps {A} (m : M dstate A) : Prop := forall s x s', Q s -> m s = Ok x s' -> Q s'.

Lemma k_bind {A B} (m : M dstate A) (k : A -> M dstate B) : keeps m -> (forall x, keeps (k x)) -> keeps (bind m k).
Proof. intros H1 H2 s x s' HQ E. apply bind_inv in E as (y & s1 & E1 & E2). exact (H2 y s1 x s' (H1 s y s1 HQ E1) E2). Qed.
Lemma k_ret {A} (x : A) : keeps (ret x).
Proof. by intros s y s' HQ [= _ <-]. Qed.
Lemma k_ub {A} : keeps (ub (A := A)).
Proof. done. Qed.
Lemma k_panic {A} : keeps (panic (A := A)).
Proof. done. Qed.
Lemma k_gets {A} (f : dstate -> A) : keeps (gets f).
Proof. by intros s y s' HQ [= _ <-]. Qed.
Lemma k_or_ub {A} (o : option A) : keeps (or_ub o).
Proof. destruct o; [apply k_ret|apply k_ub]. Qed.
Lemma k_usize r : keeps (usize chk r).
Proof. intros s y s' HQ E. by apply usize_inv in E as [-> _]. Qed.
Lemma k_add p k : keeps (add p k).
Proof. intros s y s' HQ E. by apply add_inv in E as [-> _]. Qed.
Lemma k_sub p k : keeps (sub p k).
Proof. intros s y s' HQ E. by apply sub_inv in E as ->. Qed.
Lemma k_set_sub i a : keeps (set_subarray sz i a).
Proof. intros s y s' HQ E. by apply set_sub_inv in E as [-> _]. Qed.
Lemma k_set_b i : keeps (set_b i).
Proof. by intros s y s' HQ [= _ <-]. Qed.
Lemma k_set_e i : keeps (set_e i).
Proof. by intros s y s' HQ [= _ <-]. Qed.
Lemma k_log l : keeps (modify (logged l)).
Proof. by intros s y s' HQ [= _ <-]. Qed.
Lemma k_unwind {A} f (m : M dstate A) : keeps m -> keeps (on_unwind f m).
Proof. intros H s x s' HQ E. unfold on_unwind in E. destruct (m s) as [y s1|s1|] eqn:E1; [|done|done]. injection E as <- <-. exact (H _ _ _ HQ E1). Qed.
Lemma Q_put (s : dstate) p vs h' : Q s -> Forall is_Some vs -> hput (d_h s) p vs = Some h' -> Q (DState (d_arr s) (d_size s) (d_b s) (d_e s) h' (d_drops s)).
Proof.
  intros (A1 & A2 & A3 & cs & A4 & A5 & A6) FV. unfold hput. destruct p as [|b' o]; [done|]. destruct (h_blk (d_h s) !! b') as [bk|] eqn:EB; [|done].
  destruct (o + length vs <=? length (bk_cells bk)) eqn:LE; [|done]. intros [= <-]. split; [done|]. split; [done|]. split; [done|]. cbn.
  destruct (decide (b' = b)) as [->|NB].
  - rewrite A4 in EB. injection EB as <-. rewrite lookup_insert. cbn in *. eexists. split; [done|]. split.
    + rewrite !app_length, take_length, drop_length. lia.
    + apply Forall_app. split; [by apply Forall_take|]. apply Forall_app. split; [done|]. by apply Forall_drop.
  - rewrite lookup_insert_ne by done. by exists cs.
Qed.
Lemma k_store p c : keeps (store p c).
Proof.
  intros s [] s' HQ H. unfold store in H. apply bind_inv in H as (h & s1 & H1 & H). apply gets_inv in H1 as [-> ->]. apply bind_inv in H as (h' & s2 & H2 & H).
  apply or_ub_inv in H2 as [H2 ->]. injection H as <-. apply (Q_put s p [Some c]); [done| |done]. by repeat constructor.
Qed.
Lemma k_alloc c a n : keeps (allocate c a n).
Proof.
  intros s p s' (A1 & A2 & A3 & cs & A4 & A5 & A6). unfold allocate, default_alloc. cbn [fst snd]. destruct (_ =? 0)%Z; [done|]. destruct (layout_ok _ _); [|done]. intros [= _ <-].
  split; [done|]. split; [done|]. cbn. split; [lia|]. exists cs. rewrite lookup_insert_ne by lia. done.
Qed.
Lemma k_free p : keeps (free_subarray sz al p).
Proof.
  intros s [] s' (A1 & A2 & A3 & cs & A4 & A5 & A6). unfold free_subarray, deallocate, default_free. cbn [fst snd]. destruct (layout_ok _ _); [|done].
  destruct (hfree _ _ _ _) as [h|] eqn:E; [|done]. intros [= <-]. unfold hfree in E. destruct p as [|b' [|o]]; [done| |done].
  destruct (h_blk (d_h s) !! b') as [bk|] eqn:EB; [|done]. destruct ((bk_bytes bk =? _) && (bk_align bk =? al))%Z eqn:EL; [|done]. injection E as <-.
  assert (b' <> b). { intros ->. rewrite A4 in EB. injection EB as <-. apply andb_true_iff in EL as [E1 E2]. apply Z.eqb_eq in E1, E2. cbn [bk_bytes bk_align] in E1, E2. by apply LAY. }
  split; [done|]. split; [done|]. cbn. split; [done|]. exists cs. by rewrite lookup_delete_ne.
Qed.
Lemma k_read_ptr p : keeps (read_ptr p).
Proof. apply k_bind; [apply k_gets|]. intros h. destruct (hload _ _) as [[q|x]|]; [apply k_ret|apply k_ub|apply k_ub]. Qed.
Lemma k_read_elem p : keeps (read_elem p).
Proof. apply k_bind; [apply k_gets|]. intros h. destruct (hload _ _) as [[q|x]|]; [apply k_ub|apply k_ret|apply k_ub]. Qed.
Ltac kp := repeat first [apply k_ret | apply k_ub | apply k_panic | apply k_gets | apply k_or_ub | apply k_usize | apply k_add | apply k_sub | apply k_set_sub
  | apply k_set_b | apply k_set_e | apply k_log | apply k_store | apply k_alloc | apply k_free | apply k_read_ptr | apply k_read_elem | apply k_unwind
  | assumption | match goal with
      | |- keeps (bind _ _) => apply k_bind; [|intros ?]
      | |- keeps (let _ := _ in _) => cbv zeta
      | |- keeps (if ?c then _ else _) => destruct c
      | |- keeps (match ?c with None => _ | Some _ => _ end) => destruct c
      | |- keeps (match ?c with [] => _ | _ :: _ => _ end) => destruct c
      end].
Lemma k_next it : keeps (raw_next chk it).
Proof. unfold raw_next. kp. Qed.
Lemma k_next_back it : keeps (raw_next_back chk it).
Proof. unfold raw_next_back. kp. Qed.
Lemma k_iter : keeps iter.
Proof. unfold iter, from_compat. kp. Qed.
Lemma k_skip nx k : (forall it, keeps (nx it)) -> forall it, keeps (skip nx k it).
Proof. intros H. induction k as [|k IH]; intros it; cbn [skip]; [kp|]. apply k_bind; [apply H|]. intros r. destruct (fst r); [apply IH|kp]. Qed.
Lemma k_rotate nx f : (forall it, keeps (nx it)) -> forall c n, keeps (rotate nx f c n).
Proof.
  intros H. induction f as [|f IH]; intros c n; cbn [rotate]; [kp|]. apply k_bind; [apply H|]. intros r. apply k_bind; [apply H|]. intros r2.
  destruct (fst r), (fst r2); kp. apply IH.
Qed.
Lemma k_for {A} f (body : ptr -> M dstate A) : (forall p, keeps (body p)) -> forall it, keeps (for_iter chk f it body).
Proof.
  intros H. induction f as [|f IH]; intros it; cbn [for_iter]; [kp|]. apply k_bind; [apply k_next|]. intros r. destruct (fst r); [|kp].
  apply k_bind; [apply H|]. intros a. apply k_bind; [apply IH|]. intros l. kp.
Qed.
Lemma k_pop_back : keeps (pop_back sz al).
Proof. unfold pop_back, is_empty. kp. Qed.
Lemma k_pop_front : keeps (pop_front sz al).
Proof. unfold pop_front, is_empty. kp. Qed.
Lemma k_len : keeps (len sz).
Proof. unfold len. kp. Qed.
Lemma k_remove i : keeps (remove sz al chk i).
Proof.
  unfold remove. apply k_bind; [apply k_len|]. intros n. kp; try apply k_iter; try (apply k_skip; intros; first [apply k_next|apply k_next_back]);
    try (apply k_rotate; intros; first [apply k_next|apply k_next_back]); [apply k_pop_front|apply k_pop_back].
Qed.
Lemma k_call c : pushed c = None -> keeps (d_call sz al chk c).
Proof.
  intros NP. destruct c; try done; cbn [d_call]; (apply k_bind; [|intros ?; apply k_ret]).
  - apply k_pop_back.
  - apply k_pop_front.
  - unfold front, read_opt. apply k_bind; [apply k_iter|]. intros. apply k_bind; [apply k_next|]. intros. kp.
  - unfold back, read_opt. apply k_bind; [apply k_iter|]. intros. apply k_bind; [apply k_next_back|]. intros. kp.
  - unfold front_mut_set, assign_opt. apply k_bind; [apply k_iter|]. intros. apply k_bind; [apply k_next|]. intros. kp.
  - unfold back_mut_set, assign_opt. apply k_bind; [apply k_iter|]. intros. apply k_bind; [apply k_next_back|]. intros. kp.
  - apply k_len.
  - unfold is_empty. kp.
  - apply k_remove.
  - unfold iter_all. apply k_bind; [apply k_gets|]. intros. apply k_bind; [apply k_iter|]. intros. apply k_for. intros. kp.
  - unfold iter_mut_all. apply k_bind; [apply k_gets|]. intros. apply k_bind; [apply k_iter|]. intros. apply k_for. intros. kp.
Qed.
Lemma Q_init (s : dstate) : arr = Ptr b 0 -> Q s -> initialised s.
Proof.
  intros EA (A1 & A2 & A3 & cs & A4 & A5 & A6) k Hk. rewrite A2 in Hk. rewrite A1, EA. unfold hadd, hload, cells_of. rewrite A4. cbn.
  destruct (k <=? length cs) eqn:LE; [|lia]. destruct (lookup_lt_is_Some_2 cs k ltac:(lia)) as [o E]. destruct (Forall_lookup_1 _ _ _ _ A6 E) as [c ->].
  exists (Ptr b k), c. rewrite A4. cbn. by rewrite E.
Qed.

(** Making room keeps the array initialised, or takes another. *)
Lemma copy_Q n i j k (s s' : dstate) : arr = Ptr b 0 -> Q s -> copy_within (Ptr b 0) n i j k s = Ok tt s' -> Q s'.
Proof.
  intros EA HQ. unfold copy_within. destruct (_ && _) eqn:E; [|done]. intros H.
  apply bind_inv in H as (q1 & s1 & H1 & H). apply add_inv in H1 as [-> P1]. apply bind_inv in H as (q2 & s2 & H2 & H). apply add_inv in H2 as [-> _].
  apply bind_inv in H as (h & s3 & H3 & H). apply gets_inv in H3 as [-> ->]. apply bind_inv in H as (h' & s4 & H4 & H). apply or_ub_inv in H4 as [HC ->].
  injection H as <-. rewrite (P1 b 0 eq_refl) in HC. unfold hcopy in HC. destruct (hraw _ _ _) as [vs|] eqn:ER; [|done].
  apply (Q_put s q2 vs); [done| |done]. destruct HQ as (A1 & A2 & A3 & cs & A4 & A5 & A6). unfold hraw, cells_of in ER. rewrite A4 in ER. cbn in ER.
  destruct (i + (j - i) <=? length cs); [|done]. injection ER as <-. apply Forall_take. by apply Forall_drop.
Qed.
Lemma realloc_Q front (s s' : dstate) : arr = Ptr b 0 -> Q s -> realloc_ptr_array sz chk 1 front s = Ok tt s' -> Q s' \/ d_size s' <> 8%Z.
Proof.
  intros EA HQ H. pose proof HQ as (A1 & A2 & _). unfold realloc_ptr_array in H.
  apply bind_inv in H as (s0 & s1 & H1 & H). apply gets_inv in H1 as [-> ->]. cbn [id] in H. rewrite A1, EA, A2 in H.
  apply bind_inv in H as (uf & s2 & H2 & H). apply or_ub_inv in H2 as [_ ->].
  apply bind_inv in H as (d & s3 & H3 & H). apply or_ub_inv in H3 as [_ ->].
  apply bind_inv in H as (r & s4 & H4 & H). apply usize_inv in H4 as [-> _].
  apply bind_inv in H as (ub_ & s5 & H5 & H). apply usize_inv in H5 as [-> _].
  apply bind_inv in H as (ns & s6 & H6 & H). cbn [is_null] in H6.
  assert (TL : keeps (do s <- gets id; do a <- add (d_arr s) ns; do b <- set_subarray sz (d_b s) a; run set_b b;
     do k <- usize chk (Z.of_nat (ns + (d + 1)) - 1); do a <- add (d_arr s) k; do e <- set_subarray sz (d_e s) a; set_e e)) by kp.
  destruct (negb front && (1 <=? uf)); [|destruct (front && (1 <=? ub_))].
  - left. apply bind_inv in H6 as (ns1 & s7 & H7 & H6). apply usize_inv in H7 as [-> _]. apply bind_inv in H6 as ([] & s8 & H8 & H6). injection H6 as <- <-.
    exact (TL _ _ _ (copy_Q _ _ _ _ _ _ EA HQ H8) H).
  - left. apply bind_inv in H6 as ([] & s8 & H8 & H6). injection H6 as <- <-. exact (TL _ _ _ (copy_Q _ _ _ _ _ _ EA HQ H8) H).
  - right. apply bind_inv in H6 as (n1 & s7 & H7 & H6). apply u32_inv in H7 as [-> N1]. change (Z.of_nat 1 mod u32_lim)%Z with 1%Z in N1.
    apply bind_inv in H6 as (n2 & s8 & H8 & H6). apply u32_inv in H8 as [-> N2]. change u32_lim with 4294967296%Z in N1, N2.
    specialize (N1 ltac:(lia)). specialize (N2 ltac:(lia)).
    apply bind_inv in H6 as (na & s9 & H9 & H6). pose proof (tail_inv _ _ _ _ _ _ H) as (T1 & _). rewrite T1.
    apply bind_inv in H6 as (u & sa & HA & H6). apply bind_inv in H6 as (t & sb & HB & H6). apply bind_inv in H6 as (src & sc & HC & H6).
    apply bind_inv in H6 as (h & sd & HD & H6). apply bind_inv in H6 as (h' & se & HE & H6). apply bind_inv in H6 as (u2 & sf & HF & H6).
    apply bind_inv in H6 as (u3 & sg & HG & H6). apply bind_inv in H6 as (u4 & sh & HH & H6). injection H6 as _ <-. injection HH as _ <-. cbn. lia.
Qed.

Lemma push_back_Q x (s s' : dstate) : arr = Ptr b 0 -> Q s -> push_back sz al chk x s = Ok tt s' -> d_size s' = 8%Z -> Q s'.
Proof.
  intros EA HQ H ES. unfold push_back in H. apply bind_inv in H as (s0 & s1 & H1 & H). apply gets_inv in H1 as [-> ->]. cbn [id] in H.
  apply bind_inv in H as (l & s2 & H2 & H). apply sub_inv in H2 as ->. destruct (decide (di_cur (d_e s) <> l)) as [NL|NL].
  { refine ((_ : keeps _) _ _ _ HQ H). kp. }
  apply bind_inv in H as ([] & s3 & H3 & H).
  assert (d_size s' = d_size s3) as RS.
  { clear H3 HQ ES. apply bind_inv in H as (s4 & s5 & H4 & H). apply gets_inv in H4 as [-> ->]. cbn [id] in H.
    apply bind_inv in H as ([] & s6 & H6 & H). apply store_inv in H6. apply bind_inv in H as (p & s7 & H7 & H). apply alloc_inv in H7 as [H7 _].
    apply bind_inv in H as (sl & s8 & H8 & H). apply add_inv in H8 as [-> _]. apply bind_inv in H as ([] & s9 & H9 & H). apply store_inv in H9.
    apply bind_inv in H as (a & sa & HA & H). apply add_inv in HA as [-> _]. apply bind_inv in H as (e & sb & HB & H). apply set_sub_inv in HB as [-> _].
    injection H as <-. pose proof (same_trans _ _ _ (same_trans _ _ _ H6 H7) H9) as (E1 & E2 & E3 & E4). cbn. by rewrite E2. }
  assert (Q s3 \/ d_size s3 <> 8%Z) as [Q3|N3].
  { unfold on_unwind in H3. match type of H3 with match ?e with _ => _ end = _ => destruct e as [[] sx|sx|] eqn:EX; [|done|done] end. injection H3 as ->.
    apply bind_inv in EX as (k & s4 & H4 & EX). apply usize_inv in H4 as [-> _]. apply bind_inv in EX as (p & s5 & H5 & EX). apply add_inv in H5 as [-> _].
    destruct (decide _); [exact (realloc_Q _ _ _ EA HQ EX)|]. injection EX as <-. by left. }
  - refine ((_ : keeps _) _ _ _ Q3 H). kp.
  - by rewrite <- RS in N3.
Qed.
Lemma push_front_Q x (s s' : dstate) : arr = Ptr b 0 -> Q s -> push_front sz al chk x s = Ok tt s' -> d_size s' = 8%Z -> Q s'.
Proof.
  intros EA HQ H ES. unfold push_front in H. apply bind_inv in H as (s0 & s1 & H1 & H). apply gets_inv in H1 as [-> ->]. cbn [id] in H.
  apply bind_inv in H as ([] & s3 & H3 & H).
  assert (d_size s' = d_size s3) as RS.
  { clear H3. apply bind_inv in H as (s4 & s5 & H4 & H). apply gets_inv in H4 as [-> ->]. by apply store_inv in H as (_ & E2 & _ & E4). }
  assert (Q s3) as Q3. 2:{ refine ((_ : keeps _) _ _ _ Q3 H). kp. }
  unfold on_unwind in H3. match type of H3 with match ?e with _ => _ end = _ => destruct e as [[] sx|sx|] eqn:EX; [|done|done] end. injection H3 as ->.
  destruct (decide _) as [NL|NL]; [refine ((_ : keeps _) _ _ _ HQ EX); kp|].
  apply bind_inv in EX as ([] & s4 & H4 & EX).
  assert (d_size s3 = d_size s4) as KS.
  { clear H4 H ES RS. apply bind_inv in EX as (s5 & s6 & H5 & EX). apply gets_inv in H5 as [-> ->]. cbn [id] in EX.
    apply bind_inv in EX as (p & s7 & H7 & EX). apply alloc_inv in H7 as [H7 _]. apply bind_inv in EX as (sl & s8 & H8 & EX). apply sub_inv in H8 as ->.
    apply bind_inv in EX as ([] & s9 & H9 & EX). apply store_inv in H9. apply bind_inv in EX as (a & sa & HA & EX). apply sub_inv in HA as ->.
    apply bind_inv in EX as (b' & sb & HB & EX). apply set_sub_inv in HB as [-> _]. apply bind_inv in EX as (c & sc & HC & EX). apply sub_inv in HC as ->.
    injection EX as <-. pose proof (same_trans _ _ _ H7 H9) as (E1 & E2 & E3 & E4). cbn. by rewrite E2. }
  assert (Q s4 \/ d_size s4 <> 8%Z) as [Q4|N4].
  { destruct (decide _); [exact (realloc_Q _ _ _ EA HQ H4)|]. injection H4 as <-. by left. }
  - refine ((_ : keeps _) _ _ _ Q4 EX). kp.
  - by rewrite <- KS, <- RS in N4.
Qed.

(** One call, and a program. *)
Lemma call_Q c a (s s' : dstate) : arr = Ptr b 0 -> Q s -> d_call sz al chk c s = Ok a s' ->
  (d_size s' = 8%Z -> Q s' /\ d_call_i sz al chk true true c s = Ok a s') /\ (d_size s' <> 8%Z -> d_call_i sz al chk true true c s = UB).
Proof.
  intros EA HQ H. pose proof HQ as (A1 & A2 & _).
  assert (NN : d_arr s <> Null) by (by rewrite A1, EA). assert (H0 : (0 <= d_size s)%Z) by lia. assert (HP : (0 < d_size s)%Z) by lia.
  assert (HL : (2 * d_size s + 2 < u32_lim)%Z) by (rewrite A2; done).
  assert (AS : all_set s = true) by (apply all_set_iff; [done|]; by apply Q_init).
  destruct (pushed c) eqn:EP.
  2:{ pose proof (k_call c EP _ _ _ HQ H) as HQ'. pose proof HQ' as (_ & A2' & _).
      assert (d_call_i sz al chk true true c s = d_call sz al chk c s) as -> by (by destruct c). split; [by split|done]. }
  destruct c; try done; cbn [d_call d_call_i] in *; apply bind_inv in H as ([] & s1 & H1 & H); injection H as <- <-.
  - pose proof (push_back_young sz al chk x s s1 NN H0 HL H1) as PY. split; intros E.
    + split; [by apply (push_back_Q x s)|]. rewrite decide_True in PY by (rewrite E, A2; auto). by rewrite (bind_of _ _ _ _ _ PY).
    + rewrite decide_False in PY by (rewrite A2; by intros [? _]). by apply bind_ub.
  - pose proof (push_front_young sz al chk x s s1 NN H0 HL H1) as PY. split; intros E.
    + split; [by apply (push_front_Q x s)|]. rewrite decide_True in PY by (rewrite E, A2; auto). by rewrite (bind_of _ _ _ _ _ PY).
    + rewrite decide_False in PY by (rewrite A2; by intros [? _]). by apply bind_ub.
Qed.
Lemma run_Q cs : forall (s s' : dstate) l, arr = Ptr b 0 -> Q s -> d_run sz al chk cs s = Some (l, s') -> None ∉ l ->
  ((forall k l1 s1, d_run sz al chk (take k cs) s = Some (l1, s1) -> d_size s1 = 8%Z) -> d_run_i sz al chk true true cs s = Some (l, s')) /\
  (forall k l1 s1, d_run sz al chk (take k cs) s = Some (l1, s1) -> d_size s1 <> 8%Z -> d_run_i sz al chk true true cs s = None).
Proof.
  induction cs as [|c cs IH]; intros s s' l EA HQ H NL.
  { cbn in *. split; [done|]. intros k l1 s1 E N. rewrite take_nil in E. injection E as <- <-. by destruct HQ as (_ & ? & _). }
  cbn [d_run d_run_i] in *. destruct (d_call sz al chk c s) as [a s1|s1|] eqn:EC; [|destruct (d_run _ _ _ _ _) as [[l2 s2]|]; [|done]; injection H as <- <-; exfalso; apply NL; left|done].
  destruct (d_run sz al chk cs s1) as [[l2 s2]|] eqn:ER; [|done]. injection H as <- <-. cbn [fst snd] in *. apply not_elem_of_cons in NL as [_ NL].
  destruct (call_Q c a s s1 EA HQ EC) as [C1 C2]. destruct (decide (d_size s1 = 8%Z)) as [E8|N8].
  - destruct (C1 E8) as [Q1 ->]. destruct (IH _ _ _ EA Q1 ER NL) as [I1 I2]. split.
    + intros HK. rewrite I1; [done|]. intros k l1 s3 E. apply (HK (S k) (Some a :: l1) s3). cbn. rewrite EC, E. done.
    + intros [|k] l1 s3 E N.
      { cbn in E. injection E as _ <-. by destruct HQ as (_ & ? & _). }
      cbn in E. rewrite EC in E. destruct (d_run sz al chk (take k cs) s1) as [[l4 s4]|] eqn:E4; [|done]. injection E as _ ->. by rewrite (I2 _ _ _ E4 N).
  - rewrite (C2 N8). split; [|done]. intros HK. exfalso. apply N8. apply (HK 1 [Some a] s1). cbn. rewrite EC, take_0. done.
Qed.
End programs.

Lemma new_Q {T} sz al (h : heap (dcell T)) d s : deque_new sz al h d = Ok tt s -> ~ ((Z.of_nat (subarray_size sz) * sz)%Z = 64%Z /\ al = 8%Z) ->
  exists b, Q b (Ptr b 0) s.
Proof.
  intros H LAY. unfold deque_new, init in H. apply bind_inv in H as ([] & s1 & H1 & H). injection H1 as <-.
  apply bind_inv in H as (p & s2 & H2 & H). cbn in H2. injection H2 as <- <-. 
  apply bind_inv in H as (h1 & s3 & H3 & H). apply gets_inv in H3 as [-> ->]. apply bind_inv in H as (h2 & s4 & H4 & H). apply or_ub_inv in H4 as [H4 ->].
  cbn in H4. rewrite lookup_insert in H4. cbn in H4. injection H4 as <-. apply bind_inv in H as ([] & s5 & H5 & H).
  assert (Q (h_next h) Null s5) as Q5.
  { injection H5 as <-. split; [done|]. split; [done|]. cbn. split; [lia|]. eexists. rewrite lookup_insert. split; [done|]. split; [done|]. by repeat constructor. }
  exists (h_next h). clear H5. revert H Q5. generalize (h_next h) as b. intros b H Q5.
  apply bind_inv in H as (a & s6 & H6 & H). apply (k_alloc 0%Z b Null _ _ _ _ _ _ Q5) in H6 as Q6. clear H6 Q5.
  apply bind_inv in H as (sl & s7 & H7 & H). apply add_inv in H7 as [-> _]. apply bind_inv in H as ([] & s8 & H8 & H). apply (k_store 0%Z b Null _ _ _ _ _ Q6) in H8 as Q8.
  apply bind_inv in H as (sl2 & s9 & H9 & H). apply add_inv in H9 as [-> _]. apply bind_inv in H as (sx & sa & HA & H). apply gets_inv in HA as [-> ->].
  apply bind_inv in H as (i1 & sb & HB & H). apply set_sub_inv in HB as [-> _]. apply bind_inv in H as ([] & sc & HC & H). injection HC as <-.
  apply bind_inv in H as (i2 & sd & HD & H). apply set_sub_inv in HD as [-> _]. apply bind_inv in H as ([] & se & HE & H). injection HE as <-.
  injection H as <-. destruct Q8 as (A1 & A2 & A3 & A4). by split_and!.
Qed.
Lemma layouts sz al : (0 < sz)%Z -> (al | sz)%Z -> ~ ((Z.of_nat (subarray_size sz) * sz)%Z = 64%Z /\ al = 8%Z).
Proof.
  intros HS [k Hk] [E ->]. unfold subarray_size in E. destruct (sz <=? 4)%Z eqn:E1; [lia|]. destruct (sz <=? 8)%Z eqn:E2; [lia|].
  destruct (sz <=? 16)%Z eqn:E3; [lia|]. destruct (sz <=? 32)%Z eqn:E4; lia.
Qed.

Lemma L_C127_programs_partial :
forall (T : Type) (sz al : Z) (chk : bool) (h : heap (dcell T)) (d : list T) (cs : list (dcall T)) (l : list (option (danswer T))) (s s' : dstate T),
  (0 < sz)%Z -> (al | sz)%Z ->
  deque_new sz al h d = Ok tt s -> d_run sz al chk cs s = Some (l, s') -> None ∉ l ->
  ((forall k l1 s1, d_run sz al chk (take k cs) s = Some (l1, s1) -> d_size s1 = 8%Z) -> d_run_i sz al chk true true cs s = Some (l, s')) /\
  (forall k l1 s1, d_run sz al chk (take k cs) s = Some (l1, s1) -> d_size s1 <> 8%Z -> d_run_i sz al chk true true cs s = None).
Proof.
intros T sz al chk h d cs l s s' HS HD HN HR NL. pose proof (layouts _ _ HS HD) as LAY. destruct (new_Q _ _ _ _ _ HN LAY) as [b HQ].
exact (run_Q sz al chk LAY b (Ptr b 0) cs s s' l eq_refl HQ HR NL).
Qed.

Lemma L_C127_creation_partial :
forall (T : Type) (sz al : Z) (h : heap (dcell T)) (d : list T) (s : dstate T),
  deque_new sz al h d = Ok tt s -> deque_new_i sz al true h d = UB.
Proof.
intros T sz al h d s. apply new_young.
Qed.

Lemma L_C127_push_back_partial :
forall (T : Type) (sz al : Z) (chk : bool) (x : T) (s s' : dstate T),
  d_arr s <> Null -> (0 < d_size s)%Z -> (2 * d_size s + 2 < u32_lim)%Z ->
  push_back sz al chk x s = Ok tt s' ->
  (d_size s' = d_size s -> di_arr (d_b s') = di_arr (d_b s) \/ initialised s -> push_back_i sz al chk true true x s = Ok tt s') /\
  (d_size s' = d_size s -> di_arr (d_b s') <> di_arr (d_b s) -> ~ initialised s -> push_back_i sz al chk true true x s = UB) /\
  (d_size s' <> d_size s -> push_back_i sz al chk true true x s = UB).
Proof.
intros T sz al chk x s s' NN HP HL H. rewrite (push_back_young sz al chk x s s' NN ltac:(lia) HL H). split_and!.
- intros E [B|I]; rewrite decide_True; auto. split; [done|]. right. by apply all_set_iff.
- intros E B I. rewrite decide_False; [done|]. intros [_ [?|A]]; [done|]. by rewrite all_set_false in A.
- intros E. rewrite decide_False; [done|]. by intros [? _].
Qed.

Lemma L_C127_push_front_partial :
forall (T : Type) (sz al : Z) (chk : bool) (x : T) (s s' : dstate T),
  d_arr s <> Null -> (0 < d_size s)%Z -> (2 * d_size s + 2 < u32_lim)%Z ->
  push_front sz al chk x s = Ok tt s' ->
  (d_size s' = d_size s -> di_arr (d_e s') = di_arr (d_e s) \/ initialised s -> push_front_i sz al chk true true x s = Ok tt s') /\
  (d_size s' = d_size s -> di_arr (d_e s') <> di_arr (d_e s) -> ~ initialised s -> push_front_i sz al chk true true x s = UB) /\
  (d_size s' <> d_size s -> push_front_i sz al chk true true x s = UB).
Proof.
intros T sz al chk x s s' NN HP HL H. rewrite (push_front_young sz al chk x s s' NN ltac:(lia) HL H). split_and!.
- intros E [B|I]; rewrite decide_True; auto. split; [done|]. right. by apply all_set_iff.
- intros E B I. rewrite decide_False; [done|]. intros [_ [?|A]]; [done|]. by rewrite all_set_false in A.
- intros E. rewrite decide_False; [done|]. by intros [? _].
Qed.

Lemma L_C127_slices_refuted :
exists (cs : list (dcall Z)) (s : dstate Z),
  deque_new 40 8 dx_heap [] = Ok tt s /\ is_Some (d_run 40 8 true cs s) /\ d_run_i 40 8 true false true cs s = None.
Proof.
exists dfx_calls. destruct (deque_new 40 8 dx_heap []) as [[] s|s|] eqn:E; [|by vm_compute in E|by vm_compute in E].
exists s. split; [done|].
assert (A : match deque_new 40 8 dx_heap [] with Ok _ s => (match d_run 40 8 true dfx_calls s with Some _ => true | None => false end) && (match d_run_i 40 8 true false true dfx_calls s with Some _ => false | None => true end) | _ => false end = true) by (vm_compute; reflexivity).
rewrite E in A. destruct (d_run 40 8 true dfx_calls s), (d_run_i 40 8 true false true dfx_calls s); try done.
Qed.
