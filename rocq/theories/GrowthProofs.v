(** Amortised cost of growth. *)
From Verif Require Import Base Heap HeapLemmas Alloc AllocContract Vector VectorSpec VectorProofs VectorStill GrowthSpec.

Definition adds {T} (c : call T) : nat := match c with CPush _ | CInsert _ _ => 1 | _ => 0 end.
Lemma added_cons {T} (c : call T) cs : added (c :: cs) = adds c + added cs.
Proof. by destruct c. Qed.
Lemma spec_same_room {T} (fits : nat -> bool) (cl : T -> T) (c : call T) xs cap a d xs' cap' : one_by_one c = true -> spec_call fits cl c (SVec xs cap) = (a, d, SVec xs' cap') ->
  (cap' = cap /\ is_clear c = false /\ length xs' <= length xs + adds c) \/
  (is_clear c = true /\ xs' = [] /\ cap' = 0) \/
  (length xs = cap /\ length xs' = S (length xs) /\ adds c = 1 /\ cap' = if cap =? 0 then 1 else 2 * cap).
Proof.
  intros O E. destruct c; try done; cbn [spec_call items room is_clear adds] in *; unfold with_room, room_for_one in E; cbn [items room] in E.
  - destruct (Nat.eqb_spec (length xs) cap) as [L|L].
    + destruct (_ || _); injection E as <- <- <- <-; [right; right|left]; rewrite ?app_length; cbn [length]; repeat split; lia.
    + rewrite Nat.eqb_refl in E. cbn [orb] in E. injection E as <- <- <- <-. left. rewrite app_length. cbn [length]. repeat split; lia.
  - injection E as <- <- <- <-. left. repeat split. rewrite <- (firstn_all xs) at 2.
    destruct xs as [|x xs _] using rev_ind; [done|]. rewrite removelast_last, firstn_all, app_length. lia.
  - destruct (Nat.leb_spec i (length xs)); [|injection E as <- <- <- <-; left; repeat split; lia].
    destruct (Nat.eqb_spec (length xs) cap) as [L|L].
    + destruct (_ || _); injection E as <- <- <- <-; [right; right|left]; rewrite ?app_length; cbn [length]; rewrite ?take_length, ?drop_length; repeat split; lia.
    + rewrite Nat.eqb_refl in E. cbn [orb] in E. injection E as <- <- <- <-. left. rewrite app_length. cbn [length]. rewrite take_length, drop_length. repeat split; lia.
  - injection E as <- <- <- <-. left. repeat split. rewrite app_length, take_length, drop_length. lia.
  - injection E as <- <- <- <-. right. by left.
  - destruct (xs !! i); injection E as <- <- <- <-; left; rewrite ?insert_length; repeat split; lia.
  - destruct (xs !! i); [destruct (xs !! j)|]; injection E as <- <- <- <-; left; rewrite ?insert_length; repeat split; lia.
  - injection E as <- <- <- <-. left. repeat split; lia.
  - injection E as <- <- <- <-. left. repeat split; lia.
  - injection E as <- <- <- <-. left. repeat split; lia.
  - injection E as <- <- <- <-. left. repeat split; lia.
  - injection E as <- <- <- <-. left. repeat split; lia.
Qed.

Section vec.
Context {A T : Type}.
Variable AI : AllocImpl A T.
Variables sz al : Z.
Variables chk nd : bool.
Hypothesis Hsz : (0 < sz)%Z.
Variable AS : AllocSpec AI sz al.
Variable clone : T -> option T.
Variable cl : T -> T.
Hypothesis Hcl : forall x, clone x = Some (cl x).
Notation st := (vstate A T).
Notation Rep := (VectorProofs.Rep AI sz al AS).

Definition cost_of (c : call T) (s s' : st) : nat :=
  match c with
  | CClear => 0
  | _ => if decide (v_begin (st_v s') = v_begin (st_v s)) then 0 else match Vector.len sz s with Ok n _ => n | _ => 0 end
  end.

Lemma relocated_cons c cs s : relocated AI sz al chk nd clone (c :: cs) s =
  match step AI sz al chk nd clone c s with
  | None => 0
  | Some (_, s') => cost_of c s s' + relocated AI sz al chk nd clone cs s'
  end.
Proof. done. Qed.

Lemma relocated_ok cs : forall s xs cap l d xs' cap', Rep s xs cap -> forallb one_by_one cs = true ->
  spec_calls (as_fits AS) cl cs (SVec xs cap) = (l, d, SVec xs' cap') -> chk = true \/ forallb (modest sz) cs = true ->
  relocated AI sz al chk nd clone cs s + (2 * length xs' - cap') <= (2 * length xs - cap) + 2 * added cs.
Proof using AS Hcl Hsz.
  induction cs as [|c cs IH]; intros s xs cap l d xs' cap' R O HS K.
  - cbn in *. injection HS as <- <- <- <-. lia.
  - rewrite relocated_cons, added_cons. cbn [forallb spec_calls] in O, HS. apply andb_prop in O as [O1 O2].
    destruct (spec_call _ cl c (SVec xs cap)) as [[a d1] [xs1 cap1]] eqn:E1. destruct (spec_calls _ cl cs (SVec xs1 cap1)) as [[l2 d2] [xs2 cap2]] eqn:E2.
    injection HS as <- <- <- <-.
    assert (M : nd = false \/ is_move c = true) by (right; by destruct c).
    assert (K1 : chk = true \/ modest sz c = true) by (destruct K as [->|K]; [by left|right; cbn in K; by apply andb_prop in K as [? _]]).
    assert (K2 : chk = true \/ forallb (modest sz) cs = true) by (destruct K as [->|K]; [by left|right; cbn in K; by apply andb_prop in K as [_ ?]]).
    destruct (step_modest AI sz al chk nd Hsz AS clone cl Hcl c s xs cap a d1 xs1 cap1 R M E1 K1) as (s1 & Es & (R1 & _)).
    rewrite Es. specialize (IH s1 xs1 cap1 l2 d2 xs2 cap2 R1 O2 E2 K2).
    assert (CO : cost_of c s s1 <= length xs).
    { unfold cost_of. rewrite (len_ok AI sz al Hsz AS _ _ _ R). destruct c; try (destruct (decide _)); lia. }
    destruct (spec_same_room _ _ _ _ _ _ _ _ _ O1 E1) as [(-> & NC & L)|[(C & -> & _)|(F & L & E & ->)]].
    + assert (cost_of c s s1 = 0).
      { pose proof (step_still AI sz al chk nd Hsz AS clone cl Hcl c s xs cap a d1 xs1 s1 R M K1 NC E1 Es) as B.
        unfold cost_of. destruct c; try done; by rewrite decide_True. }
      lia.
    + destruct c; try done. cbn [cost_of adds] in *. cbn [length] in IH. lia.
    + rewrite E. destruct (Nat.eqb_spec cap 0); lia.
Qed.
End vec.

(** A reservation takes a new block. *)
Section fresh.
Context {T : Type}.
Variables sz al : Z.
Variables chk nd : bool.
Hypothesis Hsz : (0 < sz)%Z.
Hypothesis Hal : (0 < al)%Z.
Variable clone : T -> option T.
Variable cl : T -> T.
Hypothesis Hcl : forall x, clone x = Some (cl x).
Notation AI := (DefaultAllocator T).
Notation AS := (DefaultSpec (C := T) sz al Hsz Hal).
Notation st := (vstate unit T).
Notation Rep := (VectorProofs.Rep AI sz al AS).

Lemma bind_ok {S B C} (m : M S B) (k : B -> M S C) s c s' : bind m k s = Ok c s' -> exists b s1, m s = Ok b s1 /\ k b s1 = Ok c s'.
Proof. unfold bind. destruct (m s) as [b s1|s1|]; [|done|done]. eauto. Qed.
Lemma usize_state {S} r n (s s' : S) : usize chk r s = Ok n s' -> s' = s.
Proof. unfold usize, ret, panic. destruct (_ && _); [by intros [= <- <-]|]. destruct chk; [done|]. by intros [= <- <-]. Qed.
Lemma allocate_fresh n (s s' : st) p : allocate AI sz al chk n s = Ok p s' -> p = Ptr (h_next (st_h s)) 0 /\ st_v s' = st_v s.
Proof using.
  clear. unfold allocate. intros E. apply bind_ok in E as (b & s1 & E1 & E). apply usize_state in E1 as ->.
  unfold lift_alloc in E. cbn [ai_alloc DefaultAllocator] in E. unfold default_alloc in E.
  destruct (_ =? 0)%Z; [done|]. destruct (layout_ok _ _); [|done]. by injection E as <- <-.
Qed.
Lemma reserve_moves n s xs cap s' : Rep s xs cap -> 0 < n -> reserve AI sz al chk n s = Ok tt s' -> v_begin (st_v s') = Ptr (h_next (st_h s)) 0.
Proof.
  intros R Hn E. unfold reserve in E. destruct (Nat.eqb_spec n 0); [lia|].
  unfold bind at 1 in E. rewrite (len_ok AI sz al Hsz AS _ _ _ R) in E. unfold bind at 1 in E. rewrite (capacity_ok AI sz al Hsz AS _ _ _ R) in E.
  apply bind_ok in E as (nc & s1 & E1 & E). apply usize_state in E1 as ->.
  apply bind_ok in E as (p & s1 & E1 & E). apply allocate_fresh in E1 as (-> & _).
  unfold bind at 1, gets at 1 in E. apply bind_ok in E as (u & s2 & _ & E).
  apply bind_ok in E as (e & s3 & _ & E). apply bind_ok in E as (k & s4 & _ & E).
  unfold set_v, modify in E. by injection E as <-.
Qed.
Lemma begin_old s xs cap : Rep s xs cap -> v_begin (st_v s) <> Ptr (h_next (st_h s)) 0.
Proof.
  intros (W & _ & [(E & _)|(b & bk & j & E & _ & _ & _ & Hb & _)]); rewrite E; cbn [v_begin]; [done|].
  intros [= ->]. by rewrite (wf_fresh _ W) in Hb.
Qed.
Lemma append_moves buf s xs cap s' : Rep s xs cap -> cap < length xs + length buf -> (Z.of_nat (length xs + length buf) < usize_lim)%Z ->
  append AI sz al chk nd clone buf s = Ok tt s' -> v_begin (st_v s') = Ptr (h_next (st_h s)) 0.
Proof.
  intros R L U E. unfold append in E. unfold bind at 1 in E. rewrite (len_ok AI sz al Hsz AS _ _ _ R) in E.
  unfold bind at 1 in E. rewrite (usize_ok' chk _ (length xs + length buf)) in E by lia. unfold ret at 1 in E.
  unfold bind at 1 in E. rewrite (capacity_ok AI sz al Hsz AS _ _ _ R) in E.
  rewrite (proj2 (Nat.ltb_lt _ _) L) in E. apply bind_ok in E as ([] & s1 & E1 & E).
  unfold bind at 1 in E1. rewrite (capacity_ok AI sz al Hsz AS _ _ _ R) in E1.
  unfold bind at 1 in E1. rewrite (usize_ok' chk _ (length xs + length buf - cap)) in E1 by lia. unfold ret at 1 in E1. assert (P : 0 < length xs + length buf - cap) by lia. rewrite <- (reserve_moves _ _ _ _ _ R P E1).
  match type of E with ?m s1 = _ => assert (H : still m) end.
  { apply (still_set_end (fun v h => hadd h (v_end v) (length buf)) (fun v _ => if is_null (v_begin v) then clone_from_slice nd clone Null buf
          else do p <- from_heap (fun h => hadd h (v_begin v) (length xs)); clone_from_slice nd clone p buf)); keep_still. }
  specialize (H s1). by rewrite E in H.
Qed.

Lemma fits_less n m : n <= m -> as_fits AS m = true -> as_fits AS n = true.
Proof. cbn [as_fits DefaultSpec]. unfold default_fits. intros. nia. Qed.

Lemma appends_cost n x : nd = false -> forall s xs, Rep s xs (length xs) -> as_fits AS (length xs + n) = true ->
  2 * relocated AI sz al chk nd clone (replicate n (CAppend [x])) s + n = n * (2 * length xs + n).
Proof.
  intros ND. induction n as [|n IH]; intros s xs R F; [cbn; lia|].
  change (replicate (S n) (CAppend [x])) with (CAppend [x] :: replicate n (CAppend [x])). rewrite relocated_cons.
  assert (F1 : as_fits AS (length xs + 1) = true) by (eapply fits_less; [|exact F]; lia).
  pose proof (fits_usize AI sz al Hsz AS _ F1) as U.
  destruct (append_ok AI sz al chk nd Hsz AS clone cl Hcl s xs (length xs) [x] R ND) as (s1 & E & (R1 & _)).
  { cbn [length]. rewrite Nat.max_r by lia. rewrite F1. by rewrite orb_true_r. }
  cbn [length] in R1. rewrite Nat.max_r in R1 by lia.
  pose proof (append_moves [x] s xs _ s1 R ltac:(cbn; lia) U E) as B.
  unfold step. cbn [exec]. unfold bind at 1. rewrite E. unfold ret. cbn [cost_of]. rewrite B.
  rewrite decide_False by (intros X; by apply (begin_old _ _ _ R)). rewrite (len_ok AI sz al Hsz AS _ _ _ R).
  assert (L1 : length (xs ++ map cl [x]) = length xs + 1) by (by rewrite app_length).
  rewrite <- L1 in R1. specialize (IH s1 _ R1). rewrite L1 in IH. specialize (IH ltac:(by replace (length xs + 1 + n) with (length xs + S n) by lia)). lia.
Qed.

Lemma reserves_cost n x : forall s xs, Rep s xs (length xs) -> as_fits AS (length xs + n) = true ->
  2 * relocated AI sz al chk nd clone (concat (replicate n [CReserve 1; CPush x])) s + n = n * (2 * length xs + n).
Proof.
  induction n as [|n IH]; intros s xs R F; [cbn; lia|].
  change (concat (replicate (S n) [CReserve 1; CPush x])) with (CReserve 1 :: CPush x :: concat (replicate n [CReserve 1; CPush x])). rewrite !relocated_cons.
  assert (F1 : as_fits AS (length xs + 1) = true) by (eapply fits_less; [|exact F]; lia).
  destruct (reserve_ok AI sz al chk nd Hsz AS s xs (length xs) 1 R ltac:(lia) F1) as (s1 & E & (R1 & _)).
  pose proof (reserve_moves 1 s xs _ s1 R ltac:(lia) E) as B.
  unfold step at 1. cbn [exec]. unfold bind at 1. rewrite E. unfold ret at 1. cbn [cost_of]. rewrite B.
  rewrite decide_False by (intros X; by apply (begin_old _ _ _ R)). rewrite (len_ok AI sz al Hsz AS _ _ _ R).
  assert (SP : spec_call (as_fits AS) cl (CPush x) (SVec xs (length xs + 1)) = (AUnit, [], SVec (xs ++ [x]) (length xs + 1))).
  { cbn [spec_call items room]. unfold with_room, room_for_one. cbn [items room]. destruct (Nat.eqb_spec (length xs) (length xs + 1)); [lia|]. by rewrite Nat.eqb_refl. }
  destruct (step_refines AI sz al chk nd Hsz AS clone cl Hcl (CPush x) s1 xs (length xs + 1) _ _ _ _ R1 (or_intror eq_refl) SP ltac:(by right)) as (s2 & E2 & (R2 & _)).
  rewrite relocated_cons, E2. pose proof (step_still AI sz al chk nd Hsz AS clone cl Hcl (CPush x) s1 xs (length xs + 1) AUnit [] (xs ++ [x]) s2 R1 (or_intror eq_refl) (or_intror (calm_modest AI sz al Hsz AS clone cl Hcl _ _ _ _ _ _ _ R1 SP ltac:(done))) eq_refl SP E2) as B2.
  unfold cost_of. rewrite B2, decide_True by done.
  assert (L1 : length (xs ++ [x]) = length xs + 1) by (by rewrite app_length).
  rewrite <- L1 in R2. specialize (IH s2 _ R2). rewrite L1 in IH. specialize (IH ltac:(by replace (length xs + 1 + n) with (length xs + S n) by lia)). lia.
Qed.
End fresh.

(** ** Hash tables *)
From Verif Require Import HashTable HashTableSpec HashTableProofs HashTableMore RehashPolicy RehashPolicyProofs.

Definition spent_in (l : list stage) (bc : Z) : Z := fold_right (fun g a => if (g_buckets g <? bc)%Z then (g_lasts g + a)%Z else a) 0%Z l.
Lemma spent_cons g l bc : spent_in (g :: l) bc = if (g_buckets g <? bc)%Z then (g_lasts g + spent_in l bc)%Z else spent_in l bc.
Proof. done. Qed.
Lemma spent_mono l bc bc' : (bc <= bc')%Z -> forallb (fun g => 0 <=? g_lasts g)%Z l = true -> (spent_in l bc <= spent_in l bc')%Z.
Proof.
  intros L. induction l as [|g l IH]; [cbn; lia|]. rewrite !spent_cons; cbn [forallb]. intros [H1 H2]%andb_prop. specialize (IH H2).
  destruct (Z.ltb_spec (g_buckets g) bc), (Z.ltb_spec (g_buckets g) bc'); lia.
Qed.
Lemma spent_step l bc bc' g : (bc < bc')%Z -> forallb (fun g => 0 <=? g_lasts g)%Z l = true -> g ∈ l -> g_buckets g = bc ->
  (spent_in l bc + g_lasts g <= spent_in l bc')%Z.
Proof.
  intros L. induction l as [|g' l IH]; [intros _ I; by apply elem_of_nil in I|]. rewrite !spent_cons; cbn [forallb]. intros [H1 H2]%andb_prop I E.
  apply elem_of_cons in I as [<-|I].
  - pose proof (spent_mono l bc bc' ltac:(lia) H2). destruct (Z.ltb_spec (g_buckets g) bc), (Z.ltb_spec (g_buckets g) bc'); lia.
  - specialize (IH H2 I E). destruct (Z.ltb_spec (g_buckets g') bc), (Z.ltb_spec (g_buckets g') bc'); lia.
Qed.
Lemma lasts_nonneg : forallb (fun g => 0 <=? g_lasts g)%Z stages = true.
Proof. by vm_compute. Qed.
(** All stages before a bucket count together hold at most twice what the last of them does. *)
Lemma spent_bound g cnt : g ∈ stages -> (forall z, z ∈ stages -> (g_buckets z < g_buckets g)%Z -> (g_lasts z < cnt)%Z) -> (0 <= cnt)%Z ->
  (spent_in stages (g_buckets g) <= 2 * cnt)%Z.
Proof.
  intros I H C.
  assert (Q : forallb (fun g => (spent_in stages (g_buckets g) <=? 0)%Z ||
    existsb (fun z => ((g_buckets z <? g_buckets g) && (spent_in stages (g_buckets g) <=? 2 * g_lasts z))%Z) stages) stages = true) by (vm_compute; reflexivity).
  eapply forallb_forall in Q; [|by apply elem_of_list_In]. apply orb_prop in Q as [Q|Q]; [lia|].
  apply existsb_exists in Q as (z & Iz & Q). apply andb_prop in Q as [Q1 Q2]. specialize (H z ltac:(by apply elem_of_list_In) ltac:(lia)). lia.
Qed.

Section table.
Context {K V : Type}.
Variables nsz nal : Z.
Variable eb : nat.
Variable chk : bool.
Variable hash : K -> Z.
Variable eqb : K -> K -> bool.
Variable h0 : heap (tcell K V).
Hypothesis SU : Setup nsz nal eb hash eqb h0.

Lemma redistributed_ok prog : forall s cs arrs cnt, TRep nsz nal eb hash eqb h0 s cs arrs cnt ->
  exists s' cs' arrs', TRep nsz nal eb hash eqb h0 s' cs' arrs' (cnt + Z.of_nat (keys_given prog)) /\
    (redistributed nsz nal eb chk hash eqb prog s + spent_in stages (t_bc s) <= spent_in stages (t_bc s'))%Z.
Proof using SU.
  induction prog as [|c prog IH]; intros s cs arrs cnt R; cbn [redistributed].
  - exists s, cs, arrs. change (keys_given []) with 0. rewrite Z.add_0_r. split; [done|lia].
  - pose proof (call_rep nsz nal eb chk hash eqb h0 SU c _ _ _ _ R) as H. destruct (spec_call eqb c (map snd (concat cs))) as [[a d] m1].
    destruct H as (a' & s1 & cs1 & arrs1 & d1 & RS & SA & R1 & P1 & D1 & PD1 & GR).
    destruct (IH _ _ _ _ R1) as (s' & cs' & arrs' & R' & L). exists s', cs', arrs'. split.
    { eapply (TRep_cnt _ _ _ _ _ (su_layout _ _ _ _ _ _ SU)); [exact R'|]. change (keys_given (c :: prog)) with (keys_in c + keys_given prog). lia. }
    assert (LE : ((if (t_bc s1 =? t_bc s)%Z then 0 else t_ec s) + spent_in stages (t_bc s) <= spent_in stages (t_bc s1))%Z).
    { destruct (tr_stage _ _ _ _ _ _ _ _ _ _ R) as (g & Ig & Eg & _ & Bg).
      destruct GR as [[E _]|[_ LT]]; [rewrite E, Z.eqb_refl; lia|]. destruct (Z.eqb_spec (t_bc s1) (t_bc s)) as [E|NE]; [rewrite E; lia|].
      assert (1 <= t_bc s)%Z.
      { assert (Q : forallb (fun g => 1 <=? g_buckets g)%Z stages = true) by (vm_compute; reflexivity).
        eapply forallb_forall in Q; [|by apply elem_of_list_In]. lia. }
      pose proof (spent_step stages (t_bc s) (t_bc s1) g ltac:(lia) lasts_nonneg Ig ltac:(lia)). lia. }
    destruct (h_call nsz nal eb chk hash eqb c s); cbn in RS; [| |done]; injection RS as <- <-; lia.
Qed.

Lemma redistributed_linear prog :
  (redistributed nsz nal eb chk hash eqb prog (ht_new eb h0 []) <= 2 * Z.of_nat (keys_given prog))%Z.
Proof using SU.
  pose proof (TRep_new nsz nal eb hash eqb (su_layout _ _ _ _ _ _ SU) h0 [] (su_heap _ _ _ _ _ _ SU) (su_static _ _ _ _ _ _ SU)) as R0.
  destruct (redistributed_ok prog _ _ _ _ R0) as (s' & cs' & arrs' & R & L). rewrite Z.add_0_l in R.
  destruct (tr_stage _ _ _ _ _ _ _ _ _ _ R) as (g & Ig & Eg & _ & Bg).
  pose proof (tr_cnt _ _ _ _ _ _ _ _ _ _ R). pose proof (tr_grown _ _ _ _ _ _ _ _ _ _ R) as G. rewrite Eg in G.
  pose proof (spent_bound g _ Ig G ltac:(lia)) as B. rewrite Eg in L.
  assert (0 <= spent_in stages (t_bc (ht_new eb h0 [])))%Z by (by vm_compute). lia.
Qed.
End table.
