(** Proofs of the properties stated in RefusalLaterProps.v. *)
From Verif Require Import Base Heap Alloc HashTable HashTableSpec OutOfMemory Refusal RefusalSpec.
Local Open Scope nat_scope.

From Verif Require Import HeapLemmas RehashPolicy HashLooseProofs.
From Verif Require HashTableProofs HashTableMore HashTableDerived.

Section later.
Context {K V : Type}.
Variables (nsz nal : Z) (eb : nat) (chk : bool) (hash : K -> Z) (eqb : K -> K -> bool).
Hypothesis Hnsz : (0 < nsz)%Z.
Hypothesis Hlay : layout_ok nsz nal = true.
Hypothesis KH : KeyHash eqb hash.
Local Notation tstate := (tstate K V).
Local Notation TR := (HashTableProofs.TRep nsz nal eb hash eqb).
Local Notation LR := (LRep (V := V) nsz nal eb hash eqb).
Local Notation entries cs := (map (@snd nat (K * V)) (concat cs)).
Local Notation hcalls := (list (hcall K V * (heap (tcell K V) -> Z -> bool))).

Lemma run_app p1 p2 : forall (s s1 s2 : tstate) l1 l2, h_run nsz nal eb chk hash eqb p1 s = Some (l1, s1) ->
  h_run nsz nal eb chk hash eqb p2 s1 = Some (l2, s2) -> h_run nsz nal eb chk hash eqb (p1 ++ p2) s = Some (l1 ++ l2, s2).
Proof using.
  induction p1 as [|c p1 IH]; intros s s1 s2 l1 l2 E1 E2; cbn [h_run app] in *; [by simplify_eq|].
  destruct (h_call nsz nal eb chk hash eqb c s) as [a s3|s3|]; [| |done];
    destruct (h_run nsz nal eb chk hash eqb p1 s3) as [[l3 s4]|] eqn:E; simplify_eq; by rewrite (IH _ _ _ _ _ E E2).
Qed.

Lemma loosen h0 s cs arrs cnt : TR h0 s cs arrs cnt -> arrs <> [] -> (t_ec s <= roomy)%Z -> LR h0 s cs arrs.
Proof using. intros [] N E. by split. Qed.

Lemma refused_perm c (m1 m2 : list (K * V)) d m' : m1 ≡ₚ m2 -> distinct eqb m1 -> distinct eqb m' -> refused eqb c m1 d m' -> refused eqb c m2 d m'.
Proof using Hlay KH nsz nal hash.
  intros P D D'. assert (LP : forall k, look eqb k m1 = look eqb k m2) by (intros k; by apply (HashTableProofs.look_perm nsz nal hash eqb Hlay KH)).
  destruct c; cbn [refused]; try done; try (rewrite LP, P; done).
  intros (kvs1 & k & v & kvs2 & d1 & m3 & -> & SP & LK & PD & PM).
  pose proof (HashTableProofs.extend_perm nsz nal hash eqb Hlay KH kvs1 _ _ P D) as XP. rewrite SP in XP.
  destruct (spec_extend eqb kvs1 m2) as [[b d2] m4] eqn:SP2. destruct XP as (<- & <- & P4).
  exists kvs1, k, v, kvs2, d1, m4. split; [done|]. split; [done|]. split; [|by rewrite PD, PM, P4].
  rewrite <- LK. symmetry. apply (HashTableProofs.look_perm nsz nal hash eqb Hlay KH); [done|].
  by apply (HashTableProofs.distinct_perm nsz nal hash eqb Hlay KH m' m3).
Qed.

Variable hh : heap (tcell K V).
Hypothesis SU : Setup nsz nal eb hash eqb hh.
Lemma h_run_in_ok (prog : hcalls) : forall h0 s cs arrs m, LR h0 s cs arrs -> entries cs ≡ₚ m ->
  (t_ec s + Z.of_nat (keys_given (map fst prog)) <= roomy)%Z ->
  exists l s' cs' arrs' d' d m', h_run_in nsz nal eb chk hash eqb prog s = Some (l, s') /\ LR h0 s' cs' arrs' /\ entries cs' ≡ₚ m' /\
    withstands eqb prog l d m m' /\ t_drops s' = t_drops s ++ d' /\ d' ≡ₚ d.
Proof using Hnsz Hlay KH SU.
  induction prog as [|[c r] prog IH]; intros h0 s cs arrs m R P RM; cbn [h_run_in].
  - exists [], s, cs, arrs, [], [], m. split; [done|]. split; [done|]. split; [done|]. split; [by constructor|]. split; [by rewrite app_nil_r|done].
  - change (keys_given (map fst ((c, r) :: prog))) with (keys_in c + keys_given (map fst prog)) in RM.
    destruct (h_call_in_ok nsz nal eb chk hash eqb Hnsz Hlay KH r c h0 s cs arrs R ltac:(lia)) as (a & s1 & cs1 & arrs1 & d1' & d1 & m1 & RS & R1 & E1 & D1 & PD1 & DID).
    pose proof (lr_keys _ _ _ _ _ _ _ _ _ R) as DI.
    assert (exists d2 m2, d1 ≡ₚ d2 /\ m1 ≡ₚ m2 /\ did eqb r c m a d2 m2) as (d2 & m2 & PD2 & PM2 & DID2).
    { destruct DID as [(a0 & SP & SA)|(-> & RF & X)].
      - pose proof (HashTableProofs.spec_call_perm nsz nal hash eqb Hlay KH c _ _ P DI) as CP. rewrite SP in CP.
        destruct (spec_call eqb c m) as [[a2 d2] m2] eqn:SP2. destruct CP as (C1 & C2 & C3). exists d2, m2. split; [done|]. split; [done|].
        left. exists a2. split; [done|]. by eapply HashTableProofs.same_answer_trans.
      - exists d1, m1. split; [done|]. split; [done|]. right. split; [done|]. split; [|done]. apply (refused_perm c (entries cs)); [done|done| |done].
        apply (HashTableProofs.distinct_perm nsz nal hash eqb Hlay KH (entries cs1)); [done|apply (lr_keys _ _ _ _ _ _ _ _ _ R1)]. }
    assert (EC : (t_ec s1 <= t_ec s + Z.of_nat (keys_in c))%Z).
    { rewrite (lr_ec _ _ _ _ _ _ _ _ _ R1), (lr_ec _ _ _ _ _ _ _ _ _ R). rewrite (lr_ec _ _ _ _ _ _ _ _ _ R) in RM. unfold roomy in RM.
      rewrite <- !(map_length (@snd nat (K * V))) in *. rewrite (Permutation_length E1). destruct DID as [(a0 & SP & SA)|(_ & RF & _)].
      - destruct (HashTableMore.call_fits nsz nal eb hash eqb hh SU c (entries cs)) as (? & ? & ? & SP' & LE); [unfold max_entries; lia|]. rewrite SP' in SP. injection SP as _ _ <-. lia.
      - destruct c; cbn [refused keys_in] in *; try done; try (destruct RF as (_ & _ & ->); lia).
        destruct RF as (kvs1 & k & v & kvs2 & d3 & m3 & -> & SP & _ & _ & ->). rewrite app_length in *. cbn [length] in *.
        destruct (HashTableMore.extend_fits nsz nal eb hash eqb hh SU kvs1 (entries cs)) as (? & ? & SP' & LE); [unfold max_entries; lia|]. rewrite SP' in SP. injection SP as _ <-. lia. }
    destruct (IH h0 s1 cs1 arrs1 m2 R1) as (l & s' & cs' & arrs' & d' & d & m' & RN & R' & E' & WS & DD & PD); [by rewrite E1|lia|].
    exists (a :: l), s', cs', arrs', (d1' ++ d'), (d2 ++ d), m'. split.
    { destruct (h_call_in (Refusing r) nsz nal eb chk hash eqb c s) as [x s2|s2|]; cbn in RS; [| |done]; injection RS as <- ->; by rewrite RN. }
    split; [done|]. split; [done|]. split; [|split; [by rewrite DD, D1, app_assoc|by rewrite PD1, PD2, PD]].
    destruct DID2 as [(a0 & SP & SA)|(-> & RF & h & n & X)]; [by eapply wi_answer|by eapply wi_refused].
Qed.
End later.

Lemma L_C104_hash_table_goes_on :
forall (K V : Type) nsz nal eb chk hash eqb (h0 : heap (tcell K V)), Setup nsz nal eb hash eqb h0 ->
  forall prog l s es, built nsz nal eb chk hash eqb h0 prog l s ->
  h_call nsz nal eb chk hash eqb HIter s = Ok (HPairs es) s ->
  (exists p1 p2, prog = p1 ++ p2 /\ snd (spec_run eqb p1 []) <> []) ->
  forall later : list (hcall K V * (heap (tcell K V) -> Z -> bool)),
  (Z.of_nat (length es + keys_given (map fst later)) <= 2147483648)%Z ->
  exists l' s1 s2 d es', h_run_in nsz nal eb chk hash eqb later s = Some (l', s1) /\ withstands eqb later l' d es es' /\
    t_drops s1 ≡ₚ t_drops s ++ d /\ ht_drop nsz nal eb s1 = Ok tt s2 /\ t_drops s2 ≡ₚ t_drops s1 ++ parts es'.
Proof.
  intros K V nsz nal eb chk hash eqb h0 SU prog l s es B IT (p1 & p2 & -> & HELD) later RM. pose proof SU as [Hnsz Hlay KH HW SK].
  pose proof (HashTableProofs.h_run_ok nsz nal eb chk hash eqb Hnsz Hlay KH p1 h0 _ _ _ _ [] (HashTableProofs.TRep_new nsz nal eb hash eqb Hlay h0 [] HW SK) (Permutation_refl _)) as H.
  destruct (spec_run eqb p1 []) as [[l0 d0] m0]. destruct H as (l1 & s1 & cs1 & arrs1 & d1 & RN & _ & T1 & E1 & _). cbn [snd] in HELD.
  assert (NA1 : arrs1 <> []).
  { intros ->. destruct (HashTableProofs.TRep_small nsz nal eb hash eqb Hlay h0 s1 cs1 _ T1) as (_ & C & _). apply HELD. rewrite C in E1. cbn in E1. by apply Permutation_nil in E1. }
  pose proof (HashTableProofs.h_run_ok nsz nal eb chk hash eqb Hnsz Hlay KH p2 h0 _ _ _ _ m0 T1 E1) as H.
  destruct (spec_run eqb p2 m0) as [[l2 d2] m2]. destruct H as (l3 & s3 & cs & arrs & d3 & RN2 & _ & T & E2 & _ & _ & GR).
  assert (NA : arrs <> []).
  { destruct GR as [[_ ->]|[L _]]; [done|]. destruct arrs; [cbn in L; lia|done]. }
  assert (s3 = s) as ->.
  { unfold built in B. rewrite (run_app nsz nal eb chk hash eqb _ _ _ _ _ _ _ RN RN2) in B. congruence. }
  pose proof (HashTableProofs.h_call_ok nsz nal eb chk hash eqb Hnsz Hlay KH HIter h0 _ _ _ _ T) as HI. cbn [spec_call] in HI.
  destruct HI as (a' & s' & cs' & arrs' & d' & HI & SA & T' & EN & DD & PD & _). rewrite IT in HI. cbn in HI. injection HI as <- <-. cbn in SA.
  assert (EC : t_ec s = Z.of_nat (length es)).
  { rewrite (HashTableProofs.tr_ec _ _ _ _ _ _ _ _ _ _ T), <- (map_length (@snd nat (K * V))). by rewrite SA. }
  assert (LR : LRep nsz nal eb hash eqb h0 s cs arrs) by (eapply loosen; [exact T|done|unfold roomy; lia]).
  destruct (h_run_in_ok nsz nal eb chk hash eqb Hnsz Hlay KH h0 SU later h0 s cs arrs es LR (symmetry SA)) as (l' & s4 & cs4 & arrs4 & d4' & d4 & es' & X1 & X2 & X3 & X4 & X5 & X6); [unfold roomy; lia|].
  destruct (ht_drop_ok nsz nal eb hash eqb Hnsz Hlay h0 s4 cs4 arrs4 X2) as (s5 & DR & D5 & _).
  exists l', s4, s5, d4, es'. split; [done|]. split; [done|]. split; [by rewrite X5, X6|]. split; [done|].
  rewrite D5. rewrite HashTableProofs.dropped_perm. by rewrite (HashTableProofs.parts_perm _ _ X3).
Qed.
