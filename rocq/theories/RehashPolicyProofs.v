(** Facts about the growth policy. *)
From Verif Require Import Base VectorMap VectorMapProofs RehashPolicy.
From Coq Require Import Znumtheory.
Local Open Scope nat_scope.

(** ** Rounding to 24 bits *)
Lemma f32_small n : (n < 2 ^ 24)%Z -> f32 n = n.
Proof.
  intros H. unfold f32. case_match; [done|]. exfalso.
  assert (Z.log2 n <= 23)%Z; [|lia].
  destruct (Z.le_gt_cases n 0) as [N|N]; [rewrite Z.log2_nonpos; lia|].
  enough (Z.log2 n < 24)%Z by lia. by apply Z.log2_lt_pow2.
Qed.

(** Above 2^24 the result is a multiple of the unit [u] of the last of 24 bits,
    next below or next above [n], whichever is nearer. *)
Lemma f32_big n : (2 ^ 24 <= n)%Z ->
  exists e q, (0 < e)%Z /\ (2 ^ 23 <= q < 2 ^ 24)%Z /\ (q * 2 ^ e <= n < (q + 1) * 2 ^ e)%Z /\
  ((f32 n = q * 2 ^ e /\ 2 * (n - q * 2 ^ e) <= 2 ^ e /\ (2 * (n - q * 2 ^ e) = 2 ^ e -> Z.Even q)) \/
   (f32 n = (q + 1) * 2 ^ e /\ 2 ^ e <= 2 * (n - q * 2 ^ e) /\ (2 * (n - q * 2 ^ e) = 2 ^ e -> Z.Even (q + 1))))%Z.
Proof.
  intros H. exists (Z.log2 n - 23)%Z, (n / 2 ^ (Z.log2 n - 23))%Z.
  assert (L : (24 <= Z.log2 n)%Z) by (by apply Z.log2_le_pow2; lia).
  assert (Hn : (0 < n)%Z) by lia.
  pose proof (Z.log2_spec n Hn) as [S1 S2].
  set (e := (Z.log2 n - 23)%Z) in *.
  assert (E1 : (2 ^ Z.log2 n = 2 ^ 23 * 2 ^ e)%Z) by (rewrite <- Z.pow_add_r by lia; f_equal; lia).
  assert (E2 : (2 ^ Z.succ (Z.log2 n) = 2 ^ 24 * 2 ^ e)%Z) by (rewrite <- Z.pow_add_r by lia; f_equal; lia).
  rewrite E1 in S1. rewrite E2 in S2.
  assert (U : (0 < 2 ^ e)%Z) by (apply Z.pow_pos_nonneg; lia).
  unfold f32. fold e. rewrite (proj2 (Z.leb_gt e 0)) by lia.
  set (u := (2 ^ e)%Z) in *.
  pose proof (Z.div_mod n u ltac:(lia)) as DM. pose proof (Z.mod_pos_bound n u U) as MB.
  set (q := (n / u)%Z) in *. set (r := (n mod u)%Z) in *.
  split; [lia|]. split; [nia|]. split; [nia|].
  replace (n - q * u)%Z with r by nia.
  destruct (u <? 2 * r)%Z eqn:C1; cbn [orb].
  { right. repeat split; [nia..|lia]. }
  destruct (2 * r =? u)%Z eqn:C2; cbn [andb].
  - destruct (Z.odd q) eqn:C3.
    + right. split; [done|]. split; [lia|]. intros _.
      rewrite Z.add_1_r, Z.Even_succ. by apply Z.odd_spec.
    + left. split; [done|]. split; [lia|]. intros _. apply Z.even_spec.
      by rewrite <- Z.negb_odd, C3.
  - left. split; [done|]. split; [lia|]. lia.
Qed.

Lemma f32_mono n m : (n <= m)%Z -> (f32 n <= f32 m)%Z.
Proof.
  intros L. destruct (Z.lt_ge_cases m (2 ^ 24)) as [Hm|Hm].
  { rewrite !f32_small by lia. done. }
  destruct (f32_big m Hm) as (e & q & E0 & Q & B & R).
  assert (Hq : (q * 2 ^ e <= f32 m)%Z).
  { assert (0 < 2 ^ e)%Z by (apply Z.pow_pos_nonneg; lia). destruct R as [[-> _]|[-> _]]; nia. }
  assert (P2 : (2 <= 2 ^ e)%Z) by (change 2%Z with (2 ^ 1)%Z at 1; apply Z.pow_le_mono_r; lia).
  destruct (Z.lt_ge_cases n (2 ^ 24)) as [Hn|Hn].
  { rewrite (f32_small n) by lia. nia. }
  destruct (f32_big n Hn) as (e' & q' & E0' & Q' & B' & R').
  assert (P2' : (0 < 2 ^ e')%Z) by (apply Z.pow_pos_nonneg; lia).
  destruct (Z.lt_trichotomy e' e) as [C|[->|C]].
  - assert (2 ^ e' * 2 <= 2 ^ e)%Z.
    { rewrite Z.mul_comm, <- Z.pow_succ_r by lia. apply Z.pow_le_mono_r; lia. }
    assert (f32 n <= 2 ^ 24 * 2 ^ e')%Z by (destruct R' as [[-> _]|[-> _]]; nia).
    nia.
  - assert (q' <= q)%Z by nia.
    destruct (Z.eq_dec q' q) as [->|N].
    + destruct R' as [(-> & R1 & R2)|(-> & R1 & R2)], R as [(-> & R3 & R4)|(-> & R3 & R4)]; try nia.
      assert (n = m) by lia. subst.
      destruct (R2 ltac:(lia)) as [a Ha], (R4 ltac:(lia)) as [b Hb]. lia.
    + destruct R' as [[-> _]|[-> _]]; nia.
  - assert (2 ^ e * 2 <= 2 ^ e')%Z.
    { rewrite Z.mul_comm, <- Z.pow_succ_r by lia. apply Z.pow_le_mono_r; lia. }
    nia.
Qed.

(** ** Prime numbers *)
(** No odd number from [d] on (at most [f] of them) whose square is at most [n]
    divides [n]. *)
Fixpoint no_div (f : nat) (n d : Z) : bool :=
  if (n <? d * d)%Z then true
  else match f with
       | O => false
       | S f' => negb (n mod d =? 0)%Z && no_div f' n (d + 2)
       end.

Definition prime_test (n : Z) : bool :=
  (n =? 2)%Z || ((2 <? n)%Z && Z.odd n && no_div (Z.to_nat (Z.sqrt n)) n 3).

Lemma no_div_ok f n d : (0 < d)%Z -> Z.Odd d -> no_div f n d = true ->
  forall x, Z.Odd x -> (d <= x)%Z -> (x * x <= n)%Z -> (n mod x <> 0)%Z.
Proof.
  revert d. induction f as [|f IH]; intros d Hd O H x Ox Hx Hn; cbn in H.
  - case_match; [nia|done].
  - case_match; [nia|]. apply andb_prop in H as [H1 H2].
    destruct (Z.eq_dec x d) as [->|N]; [lia|].
    apply (IH (d + 2)%Z); try done; [lia| |].
    + destruct O as [k ->]. exists (k + 1)%Z. lia.
    + destruct O as [k ->], Ox as [j ->]. lia.
Qed.

Lemma prime_test_ok n : prime_test n = true -> prime n.
Proof.
  intros H. unfold prime_test in H. apply orb_prop in H as [H|H].
  { apply Z.eqb_eq in H. subst. apply prime_2. }
  apply andb_prop in H as [[H1 H2]%andb_prop H3].
  assert (O : Z.Odd n) by (by apply Z.odd_spec).
  assert (K : forall a b, (1 < a)%Z -> (1 < b)%Z -> n = (a * b)%Z -> (a <= b)%Z -> False).
  { intros a b Ha Hb En L.
    assert (Oa : Z.Odd a).
    { destruct (Z.Even_or_Odd a) as [[c Hc]|?]; [|done]. destruct O as [k Hk].
      exfalso. clear - En Hc Hk. assert (2 * (c * b) = 2 * k + 1)%Z by nia. lia. }
    apply (no_div_ok _ n 3 ltac:(lia) ltac:(by exists 1%Z) H3 a Oa); [|nia|].
    - destruct Oa as [k ->]. lia.
    - rewrite En, Z.mul_comm. apply Z.mod_mul. lia. }
  apply prime_alt. split; [lia|]. intros a Ha [b Hb].
  assert (1 < b)%Z by nia.
  destruct (Z.le_gt_cases a b).
  - apply (K a b); [lia..|nia|lia].
  - apply (K b a); [lia..|nia|lia].
Qed.

Lemma primes_prime : Forall prime PRIMES.
Proof.
  assert (forallb prime_test PRIMES = true) by (vm_compute; reflexivity).
  apply Forall_forall. intros p Hp. apply prime_test_ok.
  eapply forallb_forall in H; [exact H|]. by apply elem_of_list_In.
Qed.

Fixpoint increasing (l : list Z) : bool :=
  match l with
  | x :: ((y :: _) as l') => (x <=? y)%Z && increasing l'
  | _ => true
  end.

Lemma increasing_ok l : increasing l = true -> forall i j x y, i < j -> l !! i = Some x -> l !! j = Some y -> (x <= y)%Z.
Proof.
  induction l as [|a l IH]; intros H i j x y L Hi Hj; [done|].
  destruct j as [|j]; [lia|]. cbn in Hj.
  destruct i as [|i].
  - cbn in Hi. injection Hi as ->. destruct l as [|b l]; [done|].
    cbn in H. apply andb_prop in H as [H1 H2].
    destruct j as [|j].
    + cbn in Hj. injection Hj as ->. lia.
    + specialize (IH H2 0 (S j) b y ltac:(lia) eq_refl Hj). lia.
  - cbn in Hi. destruct l as [|b l]; [done|]. cbn in H. apply andb_prop in H as [H1 H2].
    apply (IH H2 i j); [lia|done..].
Qed.

Lemma primes_increasing i j x y : i < j -> PRIMES !! i = Some x -> PRIMES !! j = Some y -> (x <= y)%Z.
Proof. apply increasing_ok. vm_compute. reflexivity. Qed.

(** ** What one call can answer, whatever the state *)
Lemma policy_answers chk bc ec add nr p nr' :
  get_rehash_required chk bc ec add nr = Ok (Some p) nr' ->
  p ∈ PRIMES /\ nr' = as_u32 (f32 p).
Proof.
  unfold get_rehash_required. generalize PRIMES. intros PR. unfold bind at 1. intros H.
  destruct (u32 chk (ec + add) nr) as [n s| |] eqn:U; [|done..].
  assert (s = nr) as -> by (unfold u32 in U; repeat case_match; unfold ret, panic in U; by simplify_eq).
  unfold bind at 1, gets in H. cbn [id] in H.
  destruct (nr <? n)%Z; [|done].
  set (b := if (bc =? 1)%Z then 0%Z else bc) in *.
  destruct (f32 b <? f32 n)%Z; [|done].
  unfold bind at 1 in H.
  destruct (lower_bound_by _ PR) as [r|]; [|done].
  cbn [or_ub] in H. unfold ret at 1 in H.
  destruct (PR !! fst r) as [q|] eqn:EP; [|done].
  unfold bind, modify, ret in H. injection H as <- <-.
  split; [|done]. by eapply elem_of_list_lookup_2.
Qed.

(** The search finds the least prime of the table that is at least [x]. *)
Lemma least_prime x :
  exists i c, lower_bound_by (fun p => p <? x)%Z PRIMES = Some (i, c) /\
  match PRIMES !! i with
  | Some p => (x <= p)%Z /\ forall q, q ∈ PRIMES -> (x <= q)%Z -> (p <= q)%Z
  | None => forall q, q ∈ PRIMES -> (q < x)%Z
  end.
Proof.
  destruct (split_at (fun p => p <? x)%Z PRIMES) as (l1 & l2 & E & F1 & F2).
  { intros i j a b L Ha Hb Lb. pose proof (primes_increasing i j a b L Ha Hb). lia. }
  destruct (lower_bound_by_ok (fun p => p <? x)%Z l1 l2 F1 F2) as (c & EL & _).
  exists (length l1), c. rewrite E. split; [done|].
  pose proof (proj1 (Forall_forall _ _) F1) as G1. pose proof (proj1 (Forall_forall _ _) F2) as G2.
  destruct l2 as [|p l2].
  - rewrite app_nil_r, lookup_ge_None_2 by lia. intros q Hq. specialize (G1 q Hq). cbn in G1. lia.
  - rewrite list_lookup_middle by done. split.
    + specialize (G2 p ltac:(left)). cbn in G2. lia.
    + intros q Hq Lq. apply elem_of_app in Hq as [Hq|Hq].
      * specialize (G1 q Hq). cbn in G1. lia.
      * apply elem_of_cons in Hq as [->|Hq]; [lia|].
        apply elem_of_list_lookup in Hq as [i Hi].
        apply (primes_increasing (length l1) (S (length l1 + i))); [lia| |].
        -- rewrite E. by rewrite list_lookup_middle.
        -- rewrite E. rewrite lookup_app_r by lia.
           by replace (S (length l1 + i) - length l1) with (S i) by lia.
Qed.

(** ** The states a table goes through *)
(** Bucket count, the element count at which the policy looks again, and the
    number of entries the bucket count lasts for (one more rehashes). *)
Record stage : Type := Stage { g_buckets : Z; g_resize : Z; g_lasts : Z }.

Definition stages : list stage := [
  Stage 1 0 0;
  Stage 2 2 2;
  Stage 5 5 5;
  Stage 11 11 11;
  Stage 23 23 23;
  Stage 47 47 47;
  Stage 97 97 97;
  Stage 199 199 199;
  Stage 409 409 409;
  Stage 823 823 823;
  Stage 1741 1741 1741;
  Stage 3739 3739 3739;
  Stage 7517 7517 7517;
  Stage 15173 15173 15173;
  Stage 30727 30727 30727;
  Stage 62233 62233 62233;
  Stage 126271 126271 126271;
  Stage 256279 256279 256279;
  Stage 520241 520241 520241;
  Stage 1056323 1056323 1056323;
  Stage 2144977 2144977 2144977;
  Stage 4355707 4355707 4355707;
  Stage 8844859 8844859 8844859;
  Stage 17961079 17961080 17961081;
  Stage 36473443 36473444 36473445;
  Stage 74066549 74066552 74066555;
  Stage 150406843 150406848 150406856;
  Stage 305431229 305431232 305431248;
  Stage 620239453 620239424 620239455;
  Stage 1259520799 1259520768 1259520832;
  Stage 2557710269 2557710336 2557710464
]%Z.

Definition real_buckets (bc : Z) : Z := if (bc =? 1)%Z then 0%Z else bc.

(** Within a stage nothing happens. *)
Definition stage_quiet (g : stage) : bool :=
  ((f32 (g_lasts g) <=? f32 (real_buckets (g_buckets g))) &&
   (as_u32 (f32 (real_buckets (g_buckets g))) =? g_resize g) &&
   (0 <=? g_resize g) && (g_lasts g + 1 <? u32_lim) && (0 <=? g_lasts g))%Z.

Lemma stages_quiet : forallb stage_quiet stages = true.
Proof. vm_compute. reflexivity. Qed.

(** At its end comes the next one; the last one ends in a panic. *)
Definition stage_turns (g : stage) (o : option stage) : bool :=
  match get_rehash_required true (g_buckets g) (g_lasts g) 1 (g_resize g), o with
  | Ok (Some p) nr', Some g' => (p =? g_buckets g') && (nr' =? g_resize g')
  | Panic nr', None => (nr' =? g_resize g)
  | _, _ => false
  end%Z.

Fixpoint stages_turn (l : list stage) : bool :=
  match l with
  | [] => true
  | g :: l' => stage_turns g (head l') && stages_turn l'
  end.

Lemma stages_turn_ok : stages_turn stages = true.
Proof. vm_compute. reflexivity. Qed.

(** Facts about neighbouring stages. *)
Definition stage_grows (g g' : stage) : bool :=
  ((2 * g_buckets g <=? g_buckets g') && (g_lasts g + 1 <=? g_lasts g') && (g_lasts g <? g_buckets g'))%Z.

Fixpoint stages_grow (l : list stage) : bool :=
  match l with
  | g :: ((g' :: _) as l') => stage_grows g g' && stages_grow l'
  | _ => true
  end.

Lemma stages_grow_ok : stages_grow stages = true.
Proof. vm_compute. reflexivity. Qed.

Definition last_stage : stage := Stage 2557710269 2557710336 2557710464.
Definition grow_limit : Z := 2557710464.

Lemma stages_next (l : list stage) (P : stage -> option stage -> Prop) :
  (forall l1 g l2, l = l1 ++ g :: l2 -> P g (head l2)) ->
  forall g, g ∈ l -> exists o, P g o /\ (o = None -> last l = Some g) /\ (forall g', o = Some g' -> g' ∈ l).
Proof.
  intros H g Hg. apply elem_of_list_split in Hg as (l1 & l2 & ->).
  exists (head l2). split; [by apply (H l1)|]. destruct l2 as [|g' l2]; cbn.
  - split; [|done]. intros _. by rewrite last_snoc.
  - split; [done|]. intros ? [=<-]. rewrite elem_of_app, !elem_of_cons. tauto.
Qed.

Lemma stages_turn_split l l1 g l2 : stages_turn l = true -> l = l1 ++ g :: l2 -> stage_turns g (head l2) = true.
Proof.
  revert l. induction l1 as [|a l1 IH]; intros l H ->; cbn in H; apply andb_prop in H as [H1 H2]; [done|].
  by apply (IH _ H2).
Qed.

Lemma stages_grow_split l l1 g g' l2 : stages_grow l = true -> l = l1 ++ g :: g' :: l2 -> stage_grows g g' = true.
Proof.
  revert l. induction l1 as [|a l1 IH]; intros l H ->.
  - cbn in H. by apply andb_prop in H as [H _].
  - apply (IH (l1 ++ g :: g' :: l2)); [|done].
    destruct l1; cbn in H |- *; apply andb_prop in H as [_ H]; exact H.
Qed.

(** The state of the policy inside a stage. *)
Definition in_stage (g : stage) (bc nr ec : Z) : Prop :=
  g ∈ stages /\ bc = g_buckets g /\ nr = g_resize g /\ (0 <= ec <= g_lasts g)%Z.

Lemma stage_start : in_stage (Stage 1 0 0) 1 0 0.
Proof. unfold in_stage. cbn. split; [left|lia]. Qed.

Lemma stage_less g bc nr ec ec' : in_stage g bc nr ec -> (0 <= ec' <= ec)%Z -> in_stage g bc nr ec'.
Proof. unfold in_stage. intros (? & ? & ? & ?) ?. repeat split; try done; lia. Qed.

Lemma u32_ok {S} chk r (s : S) : (0 <= r < u32_lim)%Z -> u32 chk r s = Ok r s.
Proof. intros H. unfold u32. by rewrite (proj2 (Z.leb_le _ _)), (proj2 (Z.ltb_lt _ _)) by lia. Qed.

Lemma policy_quiet g bc nr ec chk : in_stage g bc nr ec -> (ec < g_lasts g)%Z ->
  get_rehash_required chk bc ec 1 nr = Ok None nr.
Proof.
  intros (Hg & -> & -> & B) L.
  pose proof stages_quiet as Q. eapply forallb_forall in Q; [|by apply elem_of_list_In].
  unfold stage_quiet in Q.
  unfold get_rehash_required. generalize PRIMES. intros PR. unfold bind at 1. rewrite u32_ok by lia.
  unfold bind at 1, gets. cbn [id].
  destruct (g_resize g <? ec + 1)%Z eqn:C; [|done].
  fold (real_buckets (g_buckets g)).
  pose proof (f32_mono (ec + 1) (g_lasts g) ltac:(lia)).
  rewrite (proj2 (Z.ltb_ge _ _)) by lia.
  unfold bind, modify, ret. f_equal. lia.
Qed.

Lemma policy_chk g chk : g ∈ stages ->
  get_rehash_required chk (g_buckets g) (g_lasts g) 1 (g_resize g) =
  get_rehash_required true (g_buckets g) (g_lasts g) 1 (g_resize g).
Proof.
  intros Hg. pose proof stages_quiet as Q. eapply forallb_forall in Q; [|by apply elem_of_list_In].
  unfold stage_quiet in Q. unfold get_rehash_required. generalize PRIMES. intros PR. unfold bind at 1 6. by rewrite !u32_ok by lia.
Qed.

Lemma stage_before l1 g g' l2 z : stages = l1 ++ g :: g' :: l2 -> z ∈ stages -> (g_buckets z < g_buckets g')%Z -> (g_lasts z <= g_lasts g)%Z.
Proof.
  intros E Hz L.
  assert (Q : forallb (fun xy => forallb (fun z => (g_buckets (snd xy) <=? g_buckets z) || (g_lasts z <=? g_lasts (fst xy)))%Z stages)
    (combine stages (tl stages)) = true) by (vm_compute; reflexivity).
  eapply forallb_forall in Q; [eapply forallb_forall in Q; [|by apply elem_of_list_In]|].
  2: { rewrite E. instantiate (1 := (g, g')). clear. induction l1 as [|x l1 IH]; [by left|].
       destruct l1 as [|y l1]; cbn in *; tauto. }
  cbn [fst snd] in Q. lia.
Qed.

Lemma policy_turn g bc nr ec chk : in_stage g bc nr ec -> ec = g_lasts g ->
  (g = last_stage /\ get_rehash_required chk bc ec 1 nr = Panic nr) \/
  (exists g', in_stage g' (g_buckets g') (g_resize g') (ec + 1) /\
     (2 * bc <= g_buckets g')%Z /\ (ec < g_buckets g')%Z /\
     (forall z, z ∈ stages -> (g_buckets z < g_buckets g')%Z -> (g_lasts z <= ec)%Z) /\
     get_rehash_required chk bc ec 1 nr = Ok (Some (g_buckets g')) (g_resize g')).
Proof.
  intros (Hg & -> & -> & B) ->. rewrite (policy_chk g chk Hg).
  apply elem_of_list_split in Hg as (l1 & l2 & E).
  pose proof (stages_turn_split _ _ _ _ stages_turn_ok E) as T. unfold stage_turns in T.
  destruct l2 as [|g' l2]; cbn [head] in T.
  - left. assert (L : last stages = Some g) by (by rewrite E, last_snoc).
    vm_compute in L. injection L as <-. split; [done|].
    case_match; [by repeat case_match|f_equal; lia|done].
  - right. exists g'. pose proof (stages_grow_split _ _ _ _ _ stages_grow_ok E) as GR.
    unfold stage_grows in GR. split; [|split; [|split; [|split]]].
    + split; [|split; [done|split; [done|lia]]].
      rewrite E, elem_of_app, !elem_of_cons. tauto.
    + lia.
    + lia.
    + intros z. by apply (stage_before l1 g g' l2).
    + repeat case_match; try done. f_equal; [f_equal; lia|lia].
Qed.

Lemma stage_small g bc nr ec : in_stage g bc nr ec -> (ec <= 17961079)%Z -> (bc <> 1)%Z -> (ec <= bc)%Z.
Proof.
  intros (Hg & -> & -> & B) L N.
  assert (Q : forallb (fun g => (g_buckets g =? 1) || (g_lasts g <=? g_buckets g) || (17961079 <=? g_buckets g))%Z stages = true)
    by (vm_compute; reflexivity).
  eapply forallb_forall in Q; [|by apply elem_of_list_In]. lia.
Qed.

Lemma stage_over g bc nr ec : in_stage g bc nr ec -> (ec <= bc + 195)%Z.
Proof.
  intros (Hg & -> & -> & B).
  assert (Q : forallb (fun g => (g_lasts g <=? g_buckets g + 195))%Z stages = true) by (vm_compute; reflexivity).
  eapply forallb_forall in Q; [|by apply elem_of_list_In]. lia.
Qed.

Lemma stage_limit g bc nr ec : in_stage g bc nr ec -> (ec <= grow_limit)%Z.
Proof.
  intros (Hg & -> & -> & B).
  assert (Q : forallb (fun g => (g_lasts g <=? grow_limit))%Z stages = true) by (vm_compute; reflexivity).
  eapply forallb_forall in Q; [|by apply elem_of_list_In]. lia.
Qed.

(** Only the last stage reaches the limit. *)
Lemma stage_at_limit g bc nr ec : in_stage g bc nr ec -> (ec = grow_limit)%Z -> g = last_stage.
Proof.
  intros (Hg & -> & -> & B) ->.
  assert (Q : forallb (fun g => (g_lasts g <? grow_limit) || (g_buckets g =? 2557710269) && (g_resize g =? 2557710336))%Z stages = true) by (vm_compute; reflexivity).
  assert (Q2 : forallb (fun g => (g_lasts g <=? grow_limit))%Z stages = true) by (vm_compute; reflexivity).
  eapply forallb_forall in Q; [|by apply elem_of_list_In].
  eapply forallb_forall in Q2; [|by apply elem_of_list_In].
  destruct g as [a b c]. cbn in *. unfold last_stage, grow_limit in *. f_equal; lia.
Qed.

Lemma stage_range g bc nr ec : in_stage g bc nr ec -> (1 <= bc < 2557710270)%Z /\ (bc = 1 -> ec = 0)%Z.
Proof.
  intros (Hg & -> & -> & B).
  assert (Q : forallb (fun g => (1 <=? g_buckets g) && (g_buckets g <? 2557710270) && ((g_lasts g =? 0) || negb (g_buckets g =? 1)))%Z stages = true) by (vm_compute; reflexivity).
  eapply forallb_forall in Q; [|by apply elem_of_list_In]. lia.
Qed.

Lemma stage_prime g bc nr ec : in_stage g bc nr ec -> bc <> 1%Z -> bc ∈ PRIMES.
Proof.
  intros (Hg & -> & -> & B) N.
  assert (Q : forallb (fun g => (g_buckets g =? 1)%Z || existsb (Z.eqb (g_buckets g)) PRIMES) stages = true) by (vm_compute; reflexivity).
  eapply forallb_forall in Q; [|by apply elem_of_list_In].
  apply orb_prop in Q as [Q|Q]; [lia|].
  apply existsb_exists in Q as (x & Hx & Ex). apply Z.eqb_eq in Ex as ->. by apply elem_of_list_In.
Qed.

Lemma stage_first g nr ec : in_stage g 1 nr ec -> g_lasts g = 0%Z.
Proof.
  intros (Hg & E & _ & _).
  assert (Q : forallb (fun g => (g_lasts g =? 0) || negb (g_buckets g =? 1))%Z stages = true) by (vm_compute; reflexivity).
  eapply forallb_forall in Q; [|by apply elem_of_list_In]. lia.
Qed.

(** A stage ends only when (almost) every bucket could have an entry. *)
Lemma stage_filled g bc nr ec : in_stage g bc nr ec -> (bc <= g_lasts g + 1)%Z.
Proof.
  intros (Hg & -> & _ & _).
  assert (Q : forallb (fun g => (g_buckets g <=? g_lasts g + 1))%Z stages = true) by (vm_compute; reflexivity).
  eapply forallb_forall in Q; [|by apply elem_of_list_In]. lia.
Qed.
