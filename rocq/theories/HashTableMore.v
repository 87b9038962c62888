(** Consequences of the hash table invariant for tables built by programs. *)
From Verif Require Import Base Heap Alloc HeapLemmas RehashPolicy RehashPolicyProofs HashTable HashTableSpec HashTableProofs.

Section more.
Context {K V : Type}.
Variables (nsz nal : Z) (eb : nat) (chk : bool) (hash : K -> Z) (eqb : K -> K -> bool) (h0 : heap (tcell K V)).
Hypothesis SU : Setup nsz nal eb hash eqb h0.
Let Hnsz := su_size _ _ _ _ _ _ SU.
Let Hlay := su_layout _ _ _ _ _ _ SU.
Let KH := su_keys _ _ _ _ _ _ SU.

Notation TR := (TRep nsz nal eb hash eqb h0).
Notation call := (h_call nsz nal eb chk hash eqb).
Notation runs := (h_run nsz nal eb chk hash eqb).
Notation entries cs := (map snd (concat cs)).

Lemma run_start prog :
  let '(l, d, m) := spec_run eqb prog [] in
  exists l' s cs arrs, built nsz nal eb chk hash eqb h0 prog l' s /\ Forall2 same_answer l' l /\
    TR s cs arrs (Z.of_nat (keys_given prog)) /\ entries cs ≡ₚ m /\ t_drops s ≡ₚ d.
Proof.
  pose proof (TRep_new nsz nal eb hash eqb Hlay h0 [] (su_heap _ _ _ _ _ _ SU) (su_static _ _ _ _ _ _ SU)) as R0.
  pose proof (h_run_ok nsz nal eb chk hash eqb Hnsz Hlay KH prog _ _ _ _ _ [] R0 (Permutation_refl _)) as H.
  destruct (spec_run eqb prog []) as [[l d] m].
  destruct H as (l' & s' & cs' & arrs' & d' & RN & F & R & P & D & PD & _).
  exists l', s', cs', arrs'. split; [done|]. split; [done|]. rewrite Z.add_0_l in R. split; [done|]. split; [done|].
  cbn in D. by rewrite D.
Qed.

Lemma built_rep prog l s : built nsz nal eb chk hash eqb h0 prog l s ->
  exists cs arrs, TR s cs arrs (Z.of_nat (keys_given prog)) /\
    let '(l0, d, m) := spec_run eqb prog [] in Forall2 same_answer l l0 /\ entries cs ≡ₚ m /\ t_drops s ≡ₚ d.
Proof.
  intros B. pose proof (run_start prog) as H. destruct (spec_run eqb prog []) as [[l0 d] m].
  destruct H as (l' & s' & cs & arrs & B' & F & R & P & D). unfold built in *. rewrite B in B'. injection B' as <- <-.
  by exists cs, arrs.
Qed.

Lemma TR_get s cs arrs cnt k : TR s cs arrs cnt -> get hash eqb k s = Ok (look eqb k (entries cs)) s.
Proof. intros R. by eapply get_ok. Qed.

Lemma TR_holds s cs arrs cnt : TR s cs arrs cnt -> holds hash eqb s (fun k => look eqb k (entries cs)).
Proof. intros R k. by eapply TR_get. Qed.

(** One call on any represented table. *)
Lemma call_rep c s cs arrs cnt : TR s cs arrs cnt ->
  let '(a, d, m') := spec_call eqb c (entries cs) in
  exists a' s' cs' arrs' d', result (call c s) = Some (a', s') /\ same_answer a' a /\
    TR s' cs' arrs' (cnt + Z.of_nat (keys_in c)) /\ entries cs' ≡ₚ m' /\ t_drops s' = t_drops s ++ d' /\ d' ≡ₚ d /\ Grown s arrs s' arrs'.
Proof. intros R. by apply h_call_ok. Qed.

Lemma result_ok {S A} (o : outcome S A) a s : result o = Some (Some a, s) -> o = Ok a s.
Proof. destruct o; cbn; congruence. Qed.
Lemma result_panic {S A} (o : outcome S A) s : result o = Some (None, s) -> o = Panic s.
Proof. destruct o; cbn; congruence. Qed.

Lemma same_exact (a b : option (hanswer K V)) : same_answer a b -> (forall l, b <> Some (HPairs l)) -> a = b.
Proof. destruct a as [[]|], b as [[]|]; cbn; try done. intros _ H. by destruct (H l0). Qed.

Lemma iter_call s cs arrs cnt : TR s cs arrs cnt -> call HIter s = Ok (HPairs (entries cs)) s.
Proof.
  intros R. destruct (iter_ok _ _ _ _ _ Hlay _ _ _ _ _ R) as (a & ps & by_ & it & _ & E & IT & AT & _).
  cbn [h_call]. unfold bind at 1. rewrite IT. unfold bind at 1, gets at 1. unfold bind at 1.
  rewrite (iter_all_ok nsz nal Hlay by_ s a ps E (concat cs) (fuel s) it AT); [done|].
  by eapply all_fuel.
Qed.

Lemma distinct_of s cs arrs cnt : TR s cs arrs cnt -> distinct eqb (entries cs).
Proof. intros R. exact (tr_keys _ _ _ _ _ _ _ _ _ _ R). Qed.

Lemma look_iff m k e : distinct eqb m -> (e ∈ m /\ eqb (fst e) k = true) <-> look (V := V) eqb k m = Some e.
Proof.
  intros D. split.
  - intros [H E]. eapply look_some; eauto.
  - intros H. eapply look_in; eauto.
Qed.

Lemma eqb_sym_false a b : eqb a b = false -> eqb b a = false.
Proof. intros E. destruct (eqb b a) eqn:Q; [|done]. by rewrite (kh_sym _ _ KH _ _ Q) in E. Qed.

Lemma eqb_swap a b : eqb a b = eqb b a.
Proof. destruct (eqb a b) eqn:E; symmetry; [by apply (kh_sym _ _ KH)|by apply eqb_sym_false]. Qed.

(** Equal keys are the same to every other key. *)
Lemma eqb_same a b c : eqb a b = true -> eqb c a = eqb c b.
Proof.
  intros E. destruct (eqb c a) eqn:Q.
  - symmetry. by apply (kh_trans _ _ KH) with a.
  - destruct (eqb c b) eqn:Q2; [|done]. rewrite (kh_trans _ _ KH c b a Q2) in Q; [done|]. by apply (kh_sym _ _ KH).
Qed.

Lemma look_cons k k' v (m : list (K * V)) : look eqb k' ((k, v) :: m) = if eqb k k' then Some (k, v) else look eqb k' m.
Proof. done. Qed.

Lemma look_change k k' f (m : list (K * V)) : look eqb k' (change eqb k f m) =
  if eqb k k' then option_map (fun e => (fst e, f (snd e))) (look eqb k' m) else look eqb k' m.
Proof.
  induction m as [|[k1 v1] m IH]; [by destruct (eqb k k')|].
  cbn [change map fst snd]. fold (change eqb k f m).
  destruct (eqb k1 k) eqn:E1; rewrite !look_cons, IH; destruct (eqb k1 k') eqn:E2, (eqb k k') eqn:E3; try done.
  - rewrite <- (eqb_same _ _ k E2), (eqb_swap k k1), E1 in E3. done.
  - rewrite (eqb_same _ _ k1 E3) in E1. congruence.
Qed.

Lemma look_without k k' (m : list (K * V)) : look eqb k' (without eqb k m) = if eqb k k' then None else look eqb k' m.
Proof.
  induction m as [|[k1 v1] m IH]; [by destruct (eqb k k')|].
  cbn [without List.filter fst]. fold (without eqb k m). destruct (eqb k1 k) eqn:E1; cbn [negb]; rewrite !look_cons, ?look_cons, IH.
  - destruct (eqb k k') eqn:E3; [done|]. destruct (eqb k1 k') eqn:E2; [|done].
    rewrite <- (eqb_same _ _ k E2), (eqb_swap k k1), E1 in E3. done.
  - destruct (eqb k k') eqn:E3; [|done]. rewrite (eqb_same _ _ k1 E3) in E1. by rewrite E1.
Qed.

Lemma holds_perm s cs arrs cnt m : TR s cs arrs cnt -> entries cs ≡ₚ m -> holds hash eqb s (fun k => look eqb k m).
Proof.
  intros R P k. rewrite (TR_get _ _ _ _ _ R). f_equal. eapply look_perm; eauto. by eapply distinct_of.
Qed.

Lemma holds_get s (m : K -> option (K * V)) cs arrs cnt k : holds hash eqb s m -> TR s cs arrs cnt -> m k = look eqb k (entries cs).
Proof. intros H R. specialize (H k). rewrite (TR_get _ _ _ _ _ R) in H. by injection H. Qed.

(** ** Conservation *)
Lemma parts_cons (e : K * V) m : parts (e :: m) = inl (fst e) :: inr (snd e) :: parts m.
Proof. done. Qed.

Lemma parts_change k v e (m : list (K * V)) : distinct eqb m -> look eqb k m = Some e ->
  exists X, parts m ≡ₚ inr (snd e) :: X /\ parts (change eqb k (fun _ => v) m) ≡ₚ inr v :: X.
Proof.
  intros D L. destruct (look_in eqb k m e L) as [Hi Q]. apply elem_of_list_split in Hi as (l1 & l2 & ->). destruct e as [k0 v0].
  rewrite (change_split nsz nal hash eqb Hlay KH k (fun _ => v) l1 l2 k0 v0 D Q).
  exists (inl k0 :: parts l1 ++ parts l2). rewrite !parts_app, !parts_cons. cbn [fst snd]. split; solve_Permutation.
Qed.

Lemma parts_without k e (m : list (K * V)) : distinct eqb m -> look eqb k m = Some e ->
  parts m ≡ₚ inl (fst e) :: inr (snd e) :: parts (without eqb k m).
Proof.
  intros D L. destruct (look_in eqb k m e L) as [Hi Q]. apply elem_of_list_split in Hi as (l1 & l2 & ->). destruct e as [k0 v0].
  rewrite (without_split nsz nal hash eqb Hlay KH k l1 l2 k0 v0 D Q).
  rewrite !parts_app, !parts_cons. cbn [fst snd]. solve_Permutation.
Qed.

Lemma extend_parts (kvs : list (K * V)) : forall m : list (K * V), distinct eqb m ->
  let '(b, d, m1) := spec_extend eqb kvs m in parts m ++ parts kvs ≡ₚ d ++ parts m1.
Proof.
  induction kvs as [|[k v] kvs IH]; intros m D; cbn [spec_extend].
  - cbn. by rewrite app_nil_r.
  - destruct (look eqb k m) as [e|] eqn:L; [|destruct (full m) eqn:F].
    + assert (D' : distinct eqb (change eqb k (fun _ => v) m)).
      { apply (distinct_keys nsz nal eqb Hlay m _); [|exact D]. by rewrite change_keys. }
      specialize (IH _ D'). destruct (spec_extend eqb kvs (change eqb k (fun _ => v) m)) as [[b d] m1].
      destruct (parts_change k v e m D L) as (X & P1 & P2). rewrite P1. rewrite P2 in IH. rewrite parts_cons. cbn [fst snd].
      transitivity (inl k :: inr (snd e) :: (inr v :: X) ++ parts kvs); [solve_Permutation|]. rewrite IH. done.
    + rewrite parts_cons. cbn [fst snd]. solve_Permutation.
    + assert (D' : distinct eqb ((k, v) :: m)) by (eapply distinct_push; eauto).
      specialize (IH _ D'). destruct (spec_extend eqb kvs ((k, v) :: m)) as [[b d] m1]. rewrite <- IH, !parts_cons. cbn [fst snd]. solve_Permutation.
Qed.

Lemma call_parts (c : hcall K V) (m : list (K * V)) : distinct eqb m -> no_rewrite c = true ->
  let '(a, d, m1) := spec_call eqb c m in parts m ++ with_given c a ≡ₚ d ++ taken c a ++ parts m1.
Proof.
  intros D NR. destruct c; cbn [spec_call]; try (cbn; by rewrite ?app_nil_r).
  - destruct (look eqb k m) as [e|] eqn:L; [|destruct (full m) eqn:F].
    + destruct (parts_change k v e m D L) as (X & P1 & P2). cbn [with_given given taken]. rewrite P1, P2. solve_Permutation.
    + cbn. solve_Permutation.
    + cbn [with_given given taken]. rewrite parts_cons. cbn [fst snd]. solve_Permutation.
  - destruct (look eqb k m) as [e|] eqn:L.
    + destruct (parts_change k v e m D L) as (X & P1 & P2). cbn [with_given given taken]. rewrite P1, P2. solve_Permutation.
    + cbn. solve_Permutation.
  - destruct (look eqb k m) as [e|] eqn:L.
    + cbn [with_given given taken]. rewrite (parts_without k e m D L). solve_Permutation.
    + cbn. by rewrite app_nil_r.
  - destruct (look eqb k m) as [e|] eqn:L.
    + cbn [with_given given taken]. rewrite (parts_without k e m D L). solve_Permutation.
    + cbn. rewrite (without_none eqb k m L). by rewrite app_nil_r.
  - destruct f; [done|]. cbn [changes]. destruct (look eqb k m) as [e|] eqn:L; [|destruct (full m) eqn:F].
    + cbn. solve_Permutation.
    + cbn. solve_Permutation.
    + cbn [with_given given taken]. rewrite parts_cons. cbn [fst snd]. solve_Permutation.
  - destruct f; [done|]. cbn [changes]. destruct (look eqb k m) as [e|] eqn:L; [|destruct (full m) eqn:F].
    + cbn. solve_Permutation.
    + cbn. solve_Permutation.
    + cbn [with_given given taken]. rewrite parts_cons. cbn [fst snd]. solve_Permutation.
  - destruct f; [done|]. cbn. solve_Permutation.
  - pose proof (extend_parts kvs m D) as H. destruct (spec_extend eqb kvs m) as [[b d] m1]. cbn [with_given given].
    destruct b; cbn [taken app]; done.
Qed.

Lemma keys_of_app (l1 l2 : list (K + V)) : keys_of (l1 ++ l2) = keys_of l1 ++ keys_of l2.
Proof. unfold keys_of. by rewrite flat_map_app. Qed.
Lemma keys_of_parts (m : list (K * V)) : keys_of (parts m) = map fst m.
Proof. induction m as [|e m IH]; [done|]. cbn. by f_equal. Qed.
Lemma keys_of_perm (l1 l2 : list (K + V)) : l1 ≡ₚ l2 -> keys_of l1 ≡ₚ keys_of l2.
Proof.
  induction 1 as [|x l1 l2 _ IH|x y l|l1 l2 l3 _ IH1 _ IH2]; [done| | |by etrans].
  - cbn. destruct x; cbn; by rewrite ?IH.
  - cbn. destruct x, y; cbn; try done. apply Permutation_swap.
Qed.

Lemma changes_keys k f (m : list (K * V)) : map fst (changes eqb k f m) = map fst m.
Proof. destruct f; [|done]. apply change_keys. Qed.

Lemma look_changes_none k f (m : list (K * V)) : look eqb k (changes eqb k f m) = None -> look eqb k m = None.
Proof.
  destruct f as [f|]; [|done]. cbn [changes]. rewrite look_change, (kh_refl _ _ KH). by destruct (look eqb k m).
Qed.

Lemma call_keys (c : hcall K V) (m : list (K * V)) : distinct eqb m ->
  let '(a, d, m1) := spec_call eqb c m in keys_of (parts m ++ with_given c a) ≡ₚ keys_of (d ++ taken c a ++ parts m1).
Proof.
  intros D. destruct (no_rewrite c) eqn:NR.
  { pose proof (call_parts c m D NR) as H. destruct (spec_call eqb c m) as [[a d] m1]. by apply keys_of_perm. }
  destruct c as [| | | | | |k f v|k f v|k f| | | | | |g]; try done; cbn [spec_call].
  - destruct (look eqb k (changes eqb k f m)) as [e|] eqn:L; [|destruct (full m)]; cbn [with_given given taken];
      rewrite !keys_of_app, !keys_of_parts, ?changes_keys; cbn; solve_Permutation.
  - destruct (look eqb k (changes eqb k f m)) as [e|] eqn:L; [|destruct (full m)]; cbn [with_given given taken];
      rewrite !keys_of_app, !keys_of_parts, ?changes_keys; cbn; solve_Permutation.
  - cbn [with_given given taken]. rewrite !keys_of_app, !keys_of_parts, ?changes_keys. cbn. solve_Permutation.
  - cbn [with_given given taken]. rewrite !keys_of_app, !keys_of_parts, map_map. cbn. by rewrite app_nil_r.
Qed.

Lemma same_given c (a b : option (hanswer K V)) : same_answer a b -> with_given c a = with_given c b /\ taken c a = taken c b.
Proof.
  intros H. destruct a as [[]|], b as [[]|]; cbn in H; try done; try (injection H as <-; done); try (injection H as <- <-; done).
Qed.

Lemma run_parts prog : forall s cs arrs cnt l s', TR s cs arrs cnt -> runs prog s = Some (l, s') ->
  exists cs' arrs', TR s' cs' arrs' (cnt + Z.of_nat (keys_given prog)) /\
    keys_of (t_drops s ++ parts (entries cs) ++ all_given prog l) ≡ₚ keys_of (t_drops s' ++ all_taken prog l ++ parts (entries cs')) /\
    (forallb no_rewrite prog = true -> t_drops s ++ parts (entries cs) ++ all_given prog l ≡ₚ t_drops s' ++ all_taken prog l ++ parts (entries cs')).
Proof.
  induction prog as [|c prog IH]; intros s cs arrs cnt l s' R RN; cbn [h_run] in RN.
  - injection RN as <- <-. exists cs, arrs. unfold keys_given. cbn. rewrite Z.add_0_r, app_nil_r. done.
  - pose proof (call_rep c _ _ _ _ R) as H. pose proof (call_keys c _ (distinct_of _ _ _ _ R)) as CK.
    pose proof (call_parts c _ (distinct_of _ _ _ _ R)) as CP. destruct (spec_call eqb c (entries cs)) as [[a d] m1].
    destruct H as (a' & s1 & cs1 & arrs1 & d1 & RS & SA & R1 & P1 & D1 & PD1 & _).
    assert (exists l1, runs prog s1 = Some (l1, s') /\ l = a' :: l1) as (l1 & RN1 & ->).
    { destruct (call c s); cbn in RS; [| |done]; injection RS as <- <-; (destruct (runs prog s0) as [[l1 s2]|]; [|done]);
        injection RN as <- <-; eauto. }
    destruct (IH _ _ _ _ _ _ R1 RN1) as (cs' & arrs' & R' & IK & IP). exists cs', arrs'. split.
    { eapply (TRep_cnt _ _ _ _ _ Hlay); [exact R'|]. unfold keys_given. cbn. lia. }
    destruct (same_given c _ _ SA) as [GA TA]. cbn [all_given all_taken]. rewrite GA, TA. rewrite D1 in IK, IP.
    pose proof (parts_perm _ _ P1) as PP1. split.
    + pose proof (keys_of_perm _ _ PD1) as KD1. pose proof (keys_of_perm _ _ PP1) as KP1.
      rewrite !keys_of_app in *. rewrite KP1, KD1 in IK.
      transitivity ((keys_of (parts (entries cs)) ++ keys_of (with_given c a)) ++ keys_of (t_drops s) ++ keys_of (all_given prog l1)); [solve_Permutation|].
      rewrite CK. transitivity (keys_of (taken c a) ++ (keys_of (t_drops s) ++ keys_of d) ++ keys_of (parts m1) ++ keys_of (all_given prog l1)); [solve_Permutation|].
      rewrite IK. solve_Permutation.
    + cbn [forallb]. intros [N1 N2]%andb_prop. specialize (CP N1). specialize (IP N2). rewrite PP1, PD1 in IP.
      transitivity ((parts (entries cs) ++ with_given c a) ++ t_drops s ++ all_given prog l1); [solve_Permutation|].
      rewrite CP. transitivity (taken c a ++ (t_drops s ++ d) ++ parts m1 ++ all_given prog l1); [solve_Permutation|].
      rewrite IP. solve_Permutation.
Qed.

Lemma built_drop prog l s : built nsz nal eb chk hash eqb h0 prog l s ->
  exists s' arrs, ht_drop nsz nal eb s = Ok tt s' /\
    keys_of (all_given prog l) ≡ₚ keys_of (t_drops s' ++ all_taken prog l) /\
    (forallb no_rewrite prog = true -> all_given prog l ≡ₚ t_drops s' ++ all_taken prog l) /\
    (forall b, b ∉ arrs -> h_blk (t_h s') !! b = h_blk h0 !! b) /\
    (forall b, b ∈ arrs -> h_blk h0 !! b = None /\ exists ps, Slots ((Z.of_nat (length ps) + 1) * 8) (t_h s') b ps) /\
    NoDup arrs /\ (arrs = [] <-> t_bc s = 1%Z) /\ (2 ^ (Z.of_nat (length arrs) - 1) <= Z.max 1 (Z.of_nat (keys_given prog)))%Z.
Proof.
  intros B. pose proof (TRep_new nsz nal eb hash eqb Hlay h0 [] (su_heap _ _ _ _ _ _ SU) (su_static _ _ _ _ _ _ SU)) as R0.
  destruct (run_parts _ _ _ _ _ _ _ R0 B) as (cs & arrs & R & PK & PP).
  destruct (ht_drop_ok nsz nal eb hash eqb Hnsz Hlay _ _ _ _ _ R) as (s' & DR & DD & FR & AR & ND).
  exists s', arrs. split; [done|]. cbn in PK, PP. rewrite DD. pose proof (dropped_perm cs) as DP. split; [|split; [|split; [done|split; [done|split; [done|split]]]]].
  - rewrite PK. rewrite !keys_of_app. rewrite (keys_of_perm _ _ DP). solve_Permutation.
  - intros N. rewrite (PP N), DP. solve_Permutation.
  - destruct (tr_arr _ _ _ _ _ _ _ _ _ _ R) as (a & ps & by_ & _ & _ & _ & [(_ & -> & E)|(old & -> & E)]); [done|].
    split; [done|lia].
  - destruct (tr_few _ _ _ _ _ _ _ _ _ _ R) as [-> | F]; [cbn; lia|]. lia.
Qed.

(** ** Number of rehashes *)
Lemma rehashes_ok prog : forall s cs arrs cnt, TR s cs arrs cnt ->
  exists s' cs' arrs', TR s' cs' arrs' (cnt + Z.of_nat (keys_given prog)) /\
    rehashes nsz nal eb chk hash eqb prog s + length arrs <= length arrs'.
Proof.
  induction prog as [|c prog IH]; intros s cs arrs cnt R; cbn [rehashes].
  - exists s, cs, arrs. unfold keys_given. cbn. by rewrite Z.add_0_r.
  - pose proof (call_rep c _ _ _ _ R) as H. destruct (spec_call eqb c (entries cs)) as [[a d] m1].
    destruct H as (a' & s1 & cs1 & arrs1 & d1 & RS & SA & R1 & P1 & D1 & PD1 & GR).
    destruct (IH _ _ _ _ R1) as (s' & cs' & arrs' & R' & L). exists s', cs', arrs'. split.
    { eapply (TRep_cnt _ _ _ _ _ Hlay); [exact R'|]. unfold keys_given. cbn. lia. }
    assert (LE : (if (t_bc s1 =? t_bc s)%Z then 0 else 1) + length arrs <= length arrs1).
    { destruct GR as [[E ->]|[LT _]]; [rewrite E, Z.eqb_refl; lia|]. destruct (t_bc s1 =? t_bc s)%Z; lia. }
    destruct (call c s); cbn in RS; [| |done]; injection RS as <- <-; lia.
Qed.

Lemma rehashes_log prog :
  (Z.of_nat (rehashes nsz nal eb chk hash eqb prog (ht_new eb h0 [])) <= Z.log2 (Z.of_nat (keys_given prog)) + 1)%Z.
Proof.
  pose proof (TRep_new nsz nal eb hash eqb Hlay h0 [] (su_heap _ _ _ _ _ _ SU) (su_static _ _ _ _ _ _ SU)) as R0.
  destruct (rehashes_ok prog _ _ _ _ R0) as (s' & cs' & arrs' & R & L). cbn [length] in L.
  pose proof (Z.log2_nonneg (Z.of_nat (keys_given prog))) as LN.
  destruct (tr_few _ _ _ _ _ _ _ _ _ _ R) as [-> | F]; [cbn in L; lia|].
  rewrite Z.add_0_l in F. destruct (decide (length arrs' = 0)) as [E|NE]; [lia|].
  assert (P : (0 < Z.of_nat (keys_given prog))%Z).
  { assert (0 < 2 ^ (Z.of_nat (length arrs') - 1))%Z by (apply Z.pow_pos_nonneg; lia). lia. }
  apply Z.log2_le_mono in F. rewrite Z.log2_pow2 in F by lia. lia.
Qed.

(** ** Panics *)
Lemma extend_fits kvs : forall (m : list (K * V)), (Z.of_nat (length m + length kvs) <= max_entries)%Z ->
  exists d m1, spec_extend eqb kvs m = (true, d, m1) /\ length m1 <= length m + length kvs.
Proof.
  induction kvs as [|[k v] kvs IH]; intros m L; cbn [spec_extend].
  - exists [], m. split; [done|]. cbn. lia.
  - cbn [length] in *. destruct (look eqb k m) as [e|] eqn:LK.
    + destruct (IH (change eqb k (fun _ => v) m)) as (d & m1 & -> & L1).
      { unfold change. rewrite map_length. lia. }
      eexists _, m1. split; [done|]. unfold change in L1. rewrite map_length in L1. lia.
    + assert (full m = false) as -> by (unfold full; lia).
      destruct (IH ((k, v) :: m)) as (d & m1 & -> & L1); [cbn; lia|]. eexists _, m1. split; [done|]. cbn in L1. lia.
Qed.

Lemma call_fits c (m : list (K * V)) : (Z.of_nat (length m + keys_in c) <= max_entries)%Z ->
  exists a d m1, spec_call eqb c m = (Some a, d, m1) /\ length m1 <= length m + keys_in c.
Proof.
  intros L. assert (LC : forall k f (m : list (K * V)), length (change eqb k f m) = length m) by (intros; unfold change; by rewrite map_length).
  assert (LW : forall k (m : list (K * V)), length (without eqb k m) <= length m).
  { intros k m'. induction m' as [|e m' IH]; [done|]. unfold without in *. cbn. destruct (negb _); cbn; lia. }
  assert (LCS : forall k f (m : list (K * V)), length (changes eqb k f m) = length m) by (intros k [f|] m'; cbn; [apply LC|done]).
  destruct c; cbn [spec_call keys_in] in *.
  - destruct (look eqb k m) as [e|]; [|assert (full m = false) as -> by (unfold full; lia)]; repeat eexists; rewrite ?LC; cbn; lia.
  - repeat eexists; lia.
  - repeat eexists; lia.
  - destruct (look eqb k m) as [e|]; repeat eexists; rewrite ?LC; lia.
  - destruct (look eqb k m) as [e|]; repeat eexists; specialize (LW k m); lia.
  - repeat eexists; specialize (LW k m); lia.
  - destruct (look eqb k (changes eqb k f m)) as [e|]; [|assert (full m = false) as -> by (unfold full; lia)]; repeat eexists; rewrite ?LCS; cbn; lia.
  - destruct (look eqb k (changes eqb k f m)) as [e|]; [|assert (full m = false) as -> by (unfold full; lia)]; repeat eexists; rewrite ?LCS; cbn; lia.
  - repeat eexists; rewrite LCS; lia.
  - destruct (extend_fits kvs m L) as (d & m1 & -> & L1). by repeat eexists.
  - repeat eexists; lia.
  - repeat eexists; lia.
  - repeat eexists; cbn; lia.
  - repeat eexists; lia.
  - repeat eexists; rewrite map_length; lia.
Qed.

Lemma run_fits prog : forall (m : list (K * V)), (Z.of_nat (length m + keys_given prog) <= max_entries)%Z ->
  let '(l, _, _) := spec_run eqb prog m in Forall (fun a => a <> None) l.
Proof.
  induction prog as [|c prog IH]; intros m L; cbn [spec_run]; [constructor|].
  unfold keys_given in *. cbn [map sum_list sum_list_with] in L. cbn in L.
  destruct (call_fits c m) as (a & d & m1 & -> & L1); [lia|]. specialize (IH m1).
  destruct (spec_run eqb prog m1) as [[l d2] m2]. constructor; [done|]. apply IH. lia.
Qed.

Lemma same_none (a b : option (hanswer K V)) : same_answer a b -> a = None <-> b = None.
Proof. destruct a as [[]|], b as [[]|]; cbn; intros; split; congruence || done. Qed.

End more.
