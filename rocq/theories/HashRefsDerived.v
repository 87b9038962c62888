(** Proofs of the properties stated in HashRefsProps.v. *)
From Verif Require Import Base Heap Alloc HashTable HashTableSpec HashRefs HashRefsSpec.
Local Open Scope nat_scope.

From Verif Require Import HeapLemmas RehashPolicy RehashPolicyProofs HashTableProofs HashTableMore.
Local Open Scope nat_scope.

(** ** Checking changes nothing, or ends in undefined behaviour *)
Definition refines {S A} (m' m : M S A) : Prop := forall s, m' s = m s \/ m' s = UB.

Lemma refines_refl {S A} (m : M S A) : refines m m.
Proof. by left. Qed.
Lemma refines_bind {S A B} (m' m : M S A) (f' f : A -> M S B) :
  refines m' m -> (forall a, refines (f' a) (f a)) -> refines (bind m' f') (bind m f).
Proof.
  intros H F s. unfold bind. destruct (H s) as [E|E]; rewrite E; [|by right].
  destruct (m s); [apply F|by left|by left].
Qed.
Lemma refines_unwind {S A} g (m' m : M S A) : refines m' m -> refines (on_unwind g m') (on_unwind g m).
Proof. intros H s. unfold on_unwind. destruct (H s) as [E|E]; rewrite E; [by left|by right]. Qed.

Section refs.
Context {K V : Type}.
Variables (nsz nal : Z) (eb : nat) (chk : bool) (hash : K -> Z) (eqb : K -> K -> bool) (R : hrules).

Lemma refines_allowed {A} ok (m' m : M (tstate K V) A) : refines m' m -> refines (bind (allowed ok) (fun _ => m')) m.
Proof using. intros H s. unfold allowed, bind, gets. cbn [id]. destruct (ok s); cbn [ret]; [apply H|by right]. Qed.

Lemma refines_for_each {A} (f' f : A -> M (tstate K V) unit) l : (forall a, refines (f' a) (f a)) -> refines (for_each l f') (for_each l f).
Proof using. intros H. induction l; [apply refines_refl|]. by apply refines_bind. Qed.

Lemma free_buckets_refines : refines (free_buckets_r (K := K) (V := V) nsz nal eb R) (free_buckets nsz nal eb).
Proof using.
  unfold free_buckets_r, free_buckets. apply refines_bind; [apply refines_refl|]. intros s. destruct (1 <? t_bc s)%Z; [|apply refines_refl].
  apply refines_bind; [|intros ?; apply refines_refl]. apply refines_for_each. intros i.
  apply refines_bind; [apply refines_refl|]. intros slot. apply refines_bind; [apply refines_refl|]. intros p.
  destruct (is_null p); [apply refines_refl|]. destruct (hr_held R); [by right|apply refines_refl].
Qed.

Lemma insert_impl_refines target k v : refines (insert_impl_r (K := K) (V := V) nsz nal eb chk hash R target k v) (insert_impl nsz nal eb chk hash target k v).
Proof using.
  unfold insert_impl_r, insert_impl. apply refines_bind; [|intros ?; apply refines_refl]. apply refines_unwind.
  apply refines_bind; [apply refines_refl|]. intros o. apply refines_bind; [|intros ?; apply refines_refl].
  destruct o; [|apply refines_refl]. apply refines_bind; [|intros ?; apply refines_refl]. apply refines_allowed, refines_refl.
Qed.

Lemma insert_refines k v : refines (insert_r (K := K) (V := V) nsz nal eb chk hash eqb R k v) (insert nsz nal eb chk hash eqb k v).
Proof using.
  unfold insert_r, insert. apply refines_bind; [apply refines_refl|]. intros t. apply refines_bind; [apply refines_refl|]. intros [p|]; [apply refines_refl|].
  apply refines_bind; [apply insert_impl_refines|]. intros ?. apply refines_refl.
Qed.

Lemma entry_mod_refines k f : refines (entry_mod_r (K := K) (V := V) eb hash eqb R k f) (entry_mod eb hash eqb k f).
Proof using.
  unfold entry_mod_r, entry_mod. apply refines_bind; [|intros ?; apply refines_refl].
  unfold entry_r, entry. apply refines_bind; [apply refines_refl|]. intros t. apply refines_bind; [apply refines_refl|]. intros [p|]; [apply refines_refl|].
  apply refines_allowed, refines_refl.
Qed.

Lemma or_insert_with_refines e v : refines (or_insert_with_r (K := K) (V := V) nsz nal eb chk hash R e v) (or_insert_with nsz nal eb chk hash e v).
Proof using.
  destruct e as [p|[t k]]; [apply refines_refl|]. cbn [or_insert_with_r or_insert_with].
  apply refines_bind; [apply insert_impl_refines|]. intros ?; apply refines_refl.
Qed.

Lemma insert_all_refines kvs : refines (insert_all_r (K := K) (V := V) nsz nal eb chk hash eqb R kvs) (insert_all nsz nal eb chk hash eqb kvs).
Proof using.
  induction kvs as [|[k v] kvs IH]; [apply refines_refl|]. cbn [insert_all_r insert_all].
  apply refines_bind; [apply refines_unwind, insert_refines|]. intros o. apply refines_bind; [apply refines_refl|]. intros ?; apply IH.
Qed.

Lemma h_call_refines c : refines (h_call_r (K := K) (V := V) nsz nal eb chk hash eqb R c) (h_call nsz nal eb chk hash eqb c).
Proof using.
  destruct c; cbn [h_call_r h_call]; try apply refines_refl.
  - apply refines_bind; [apply insert_refines|]. intros ?; apply refines_refl.
  - apply refines_bind; [apply entry_mod_refines|]. intros e. apply refines_bind; [|intros ?; apply refines_refl].
    apply refines_bind; [apply or_insert_with_refines|]. intros ?; apply refines_refl.
  - apply refines_bind; [apply entry_mod_refines|]. intros e. apply refines_bind; [apply or_insert_with_refines|]. intros ?; apply refines_refl.
  - apply refines_bind; [apply entry_mod_refines|]. intros e. apply refines_refl.
  - apply refines_bind; [apply insert_all_refines|]. intros ?; apply refines_refl.
  - apply refines_bind; [|intros ?; apply refines_refl]. apply refines_bind; [apply free_buckets_refines|]. intros ?; apply refines_refl.
  - apply refines_bind; [|intros ?; apply refines_refl]. apply refines_allowed, refines_refl.
  - apply refines_bind; [|intros ?; apply refines_refl]. apply refines_allowed, refines_refl.
Qed.

Lemma h_run_refines prog : forall s, h_run_r nsz nal eb chk hash eqb R prog s = h_run (K := K) (V := V) nsz nal eb chk hash eqb prog s \/
  h_run_r nsz nal eb chk hash eqb R prog s = None.
Proof using.
  induction prog as [|c prog IH]; intros s; [by left|]. cbn [h_run_r h_run]. destruct (h_call_refines c s) as [E|E]; rewrite E; [|by right].
  destruct (h_call nsz nal eb chk hash eqb c s) as [a s'|s'|]; [| |by left]; (destruct (IH s') as [Q|Q]; rewrite Q; [by left|by right]).
Qed.

Lemma h_run_app p1 p2 : forall s, h_run_r nsz nal eb chk hash eqb R (p1 ++ p2) s =
  match h_run_r (K := K) (V := V) nsz nal eb chk hash eqb R p1 s with
  | Some (l, s') => match h_run_r nsz nal eb chk hash eqb R p2 s' with Some (l', s'') => Some (l ++ l', s'') | None => None end
  | None => None
  end.
Proof using.
  induction p1 as [|c p1 IH]; intros s; cbn [app h_run_r].
  - by destruct (h_run_r nsz nal eb chk hash eqb R p2 s) as [[l s']|].
  - destruct (h_call_r nsz nal eb chk hash eqb R c s) as [a s'|s'|]; [| |done]; rewrite IH;
      (destruct (h_run_r nsz nal eb chk hash eqb R p1 s') as [[l s'']|]; [|done]);
      by destruct (h_run_r nsz nal eb chk hash eqb R p2 s'') as [[l' s3]|].
Qed.
End refs.

Section reps.
Context {K V : Type}.
Variables (nsz nal : Z) (eb : nat) (chk : bool) (hash : K -> Z) (eqb : K -> K -> bool) (h0 : heap (tcell K V)).
Hypothesis SU : Setup nsz nal eb hash eqb h0.

Lemma no_keys s cs arrs : TRep nsz nal eb hash eqb h0 s cs arrs 0 -> arrs = [].
Proof using.
  intros R. destruct (tr_few _ _ _ _ _ _ _ _ _ _ R) as [H|H]; [done|].
  destruct arrs as [|a arrs]; [done|]. exfalso. cbn [length] in H.
  assert (0 < 2 ^ (Z.of_nat (S (length arrs)) - 1))%Z by (apply Z.pow_pos_nonneg; lia). lia.
Qed.

Lemma rep_static s cs cnt : TRep nsz nal eb hash eqb h0 s cs [] cnt -> on_static eb s = true.
Proof using.
  intros R. destruct (tr_arr _ _ _ _ _ _ _ _ _ _ R) as (a & ps & by_ & EA & _ & _ & [(-> & _ & _)|(old & ? & _)]); [|done].
  unfold on_static. by apply bool_decide_eq_true_2.
Qed.

(** The first insertion rehashes. *)
Lemma first_rehash s cs cnt : TRep nsz nal eb hash eqb h0 s cs [] cnt -> exists bc s0, rehash_required chk s = Ok (Some bc) s0 /\ t_arr s0 = t_arr s.
Proof using SU.
  intros R. pose proof (su_layout _ _ _ _ _ _ SU) as Hlay. pose proof (su_size _ _ _ _ _ _ SU) as Hnsz.
  destruct (TRep_small _ _ _ _ _ Hlay _ _ _ _ R) as (B & C & _).
  destruct (grow_ok nsz nal eb chk hash eqb Hnsz Hlay (su_keys _ _ _ _ _ _ SU) h0 s cs [] cnt R) as [[E _]|[_ (o & s0 & s1 & cs1 & arrs1 & g & Q & RH & EQ & R1 & NA & G & _)]].
  { exfalso. pose proof (tr_ec _ _ _ _ _ _ _ _ _ _ R) as EC. rewrite C in EC. cbn in EC. rewrite EC in E. discriminate. }
  destruct o as [bc|].
  - exists bc, s0. split; [done|]. unfold rehash_required in Q. destruct (get_rehash_required _ _ _ _ _) in Q; [|done|done]. by injection Q as _ <-.
  - exfalso. subst s1. rewrite (EQ eq_refl) in *. apply NA.
    destruct (tr_arr _ _ _ _ _ _ _ _ _ _ R1) as (a & ps & by_ & EA & _ & _ & [(_ & Z & _)|(old & _ & X)]); [done|lia].
Qed.

Lemma insert_impl_static s cs cnt t k v : TRep nsz nal eb hash eqb h0 s cs [] cnt ->
  insert_impl_r nsz nal eb chk hash (HRules true false false) t k v s = UB.
Proof using SU.
  intros R. destruct (first_rehash _ _ _ R) as (bc & s0 & Q & A). pose proof (rep_static _ _ _ R) as ST.
  unfold insert_impl_r. unfold bind at 1, on_unwind. unfold bind at 1. rewrite Q. unfold bind at 1, rehash_r. unfold bind at 1, allowed.
  unfold bind at 1, bind at 1, bind at 1, gets. cbn [id].
  unfold buckets_mut_ok. unfold on_static in *. cbn [hr_static hr_reach andb]. rewrite A, ST. done.
Qed.

Lemma insert_static s cs cnt k v : TRep nsz nal eb hash eqb h0 s cs [] cnt ->
  insert_r nsz nal eb chk hash eqb (HRules true false false) k v s = UB.
Proof using SU.
  intros R. pose proof (su_layout _ _ _ _ _ _ SU) as Hlay. pose proof (su_keys _ _ _ _ _ _ SU) as KH.
  destruct (TRep_small _ _ _ _ _ Hlay _ _ _ _ R) as (B & C & _).
  assert (LK : look eqb k (map snd (concat cs)) = None) by (by rewrite C).
  unfold insert_r. unfold bind at 1, on_unwind. rewrite (proj2 (target_ok _ _ _ _ _ Hlay _ _ _ _ _ k R)).
  unfold bind at 1. rewrite (absent_ok _ _ _ _ _ Hlay KH _ _ _ _ _ k R LK). unfold bind at 1.
  by rewrite (insert_impl_static _ _ _ _ _ _ R).
Qed.

Lemma entry_static s cs cnt k f : TRep nsz nal eb hash eqb h0 s cs [] cnt ->
  entry_mod_r eb hash eqb (HRules true false false) k f s = UB.
Proof using SU.
  intros R. pose proof (su_layout _ _ _ _ _ _ SU) as Hlay. pose proof (su_keys _ _ _ _ _ _ SU) as KH.
  destruct (TRep_small _ _ _ _ _ Hlay _ _ _ _ R) as (B & C & _).
  assert (LK : look eqb k (map snd (concat cs)) = None) by (by rewrite C).
  unfold entry_mod_r, entry_r. unfold bind at 1. unfold bind at 1, on_unwind. rewrite (proj2 (target_ok _ _ _ _ _ Hlay _ _ _ _ _ k R)).
  unfold bind at 1. rewrite (absent_ok _ _ _ _ _ Hlay KH _ _ _ _ _ k R LK). unfold bind at 1, allowed. unfold bind at 1, gets. cbn [id hr_static andb].
  rewrite (rep_static _ _ _ R). done.
Qed.

Lemma slot_static c s cs cnt : TRep nsz nal eb hash eqb h0 s cs [] cnt -> takes_slot c = true ->
  h_call_r nsz nal eb chk hash eqb (HRules true false false) c s = UB.
Proof using SU.
  intros R T. destruct c as [k v| | | | | |k f v|k f v|k f|kvs| | | | |]; try done; cbn [h_call_r].
  - unfold bind at 1. by rewrite (insert_static _ _ _ _ _ R).
  - unfold bind at 1. by rewrite (entry_static _ _ _ _ _ R).
  - unfold bind at 1. by rewrite (entry_static _ _ _ _ _ R).
  - unfold bind at 1. by rewrite (entry_static _ _ _ _ _ R).
  - destruct kvs as [|[k v] kvs]; [done|]. cbn [insert_all_r]. unfold bind at 1. unfold bind at 1, on_unwind. by rewrite (insert_static _ _ _ _ _ R).
Qed.

Lemma call_next c s cs arrs cnt : TRep nsz nal eb hash eqb h0 s cs arrs cnt ->
  exists a s' cs' arrs', result (h_call nsz nal eb chk hash eqb c s) = Some (a, s') /\
    TRep nsz nal eb hash eqb h0 s' cs' arrs' (cnt + Z.of_nat (keys_in c)) /\
    map snd (concat cs') ≡ₚ snd (spec_call eqb c (map snd (concat cs))) /\ Grown s arrs s' arrs'.
Proof using SU.
  intros R. pose proof (su_layout _ _ _ _ _ _ SU) as Hlay. pose proof (su_size _ _ _ _ _ _ SU) as Hnsz. pose proof (su_keys _ _ _ _ _ _ SU) as KH.
  pose proof (h_call_ok nsz nal eb chk hash eqb Hnsz Hlay KH c _ _ _ _ _ R) as H. destruct (spec_call eqb c (map snd (concat cs))) as [[a d] m'].
  destruct H as (a' & s' & cs' & arrs' & d' & H1 & _ & H3 & H4 & _ & _ & G). by exists a', s', cs', arrs'.
Qed.

Lemma slot_keys c : takes_slot c = false -> @keys_in K V c = 0.
Proof using. clear. by destruct c as [| | | | | | | | |[]| | | | |]. Qed.

(** ** Freeing the nodes *)
Definition each_bucket (s0 : tstate K V) (X : ptr -> M (tstate K V) unit) (i : nat) : M (tstate K V) unit :=
  do slot <- or_ub (hadd (t_h s0) (t_arr s0) i);
  do p <- read_slot slot;
  if is_null p then ret tt else X p.

Lemma each_empty by_ (s : tstate K V) a ps X : t_arr s = Ptr a 0 -> Slots by_ (t_h s) a ps ->
  forall rps i, drop i ps = rps -> Forall (fun p => p = Null) rps -> for_each (seq i (length rps)) (each_bucket s X) s = Ok tt s.
Proof using SU.
  pose proof (su_layout _ _ _ _ _ _ SU) as Hlay. intros EA SL. induction rps as [|p rps IH]; intros i D F; [done|]. inversion F as [|? ? P F']; subst.
  assert (Hi : ps !! i = Some Null) by (rewrite <- (Nat.add_0_r i), <- lookup_drop, D; done).
  cbn [length seq for_each]. unfold bind at 1, each_bucket at 1. rewrite EA.
  unfold bind at 1. rewrite (hadd_slots nsz nal Hlay by_ _ _ _ _ SL) by (apply lookup_lt_Some in Hi; lia). cbn [or_ub]. unfold ret at 1.
  unfold bind at 1. rewrite (read_slot_ok by_ _ _ _ _ _ SL Hi). cbn [is_null]. unfold ret at 1. apply IH; [|done].
  by rewrite (drop_S _ _ _ Hi) in D; injection D.
Qed.

Lemma each_full by_ (s : tstate K V) a ps : t_arr s = Ptr a 0 -> Slots by_ (t_h s) a ps ->
  forall rps i, drop i ps = rps -> ~ Forall (fun p => p = Null) rps -> for_each (seq i (length rps)) (each_bucket s (fun _ => ub)) s = UB.
Proof using SU.
  pose proof (su_layout _ _ _ _ _ _ SU) as Hlay. intros EA SL. induction rps as [|p rps IH]; intros i D F; [by destruct F|].
  assert (Hi : ps !! i = Some p) by (rewrite <- (Nat.add_0_r i), <- lookup_drop, D; done).
  cbn [length seq for_each]. unfold bind at 1, each_bucket at 1. rewrite EA.
  unfold bind at 1. rewrite (hadd_slots nsz nal Hlay by_ _ _ _ _ SL) by (apply lookup_lt_Some in Hi; lia). cbn [or_ub]. unfold ret at 1.
  unfold bind at 1. rewrite (read_slot_ok by_ _ _ _ _ _ SL Hi). destruct p; cbn [is_null]; [|done]. unfold ret at 1. apply IH.
  - by rewrite (drop_S _ _ _ Hi) in D; injection D.
  - intros Q. apply F. by constructor.
Qed.

Lemma chains_null (h : heap (tcell K V)) ps cs : Forall2 (chain nsz nal h) ps cs -> Forall (fun p => p = Null) ps <-> concat cs = [].
Proof using.
  clear. induction 1 as [|p c ps cs C F IH]; [done|]. cbn [concat]. split.
  - intros H. inversion H as [|? ? P Q]; subst. destruct c as [|e c]; cbn in C; [by apply IH|]. destruct C as (nx & ? & _). done.
  - intros H. apply app_eq_nil in H as [-> H]. constructor; [exact C|]. by apply IH.
Qed.

Lemma free_held s cs arrs cnt : TRep nsz nal eb hash eqb h0 s cs arrs cnt ->
  free_buckets_r nsz nal eb (HRules false false true) s = match concat cs with [] => free_buckets nsz nal eb s | _ => UB end.
Proof using SU.
  intros R. pose proof (su_layout _ _ _ _ _ _ SU) as Hlay.
  destruct (tr_arr _ _ _ _ _ _ _ _ _ _ R) as (a & ps & by_ & EA & SL & F & OR).
  pose proof (Forall2_length _ _ _ F) as L. pose proof (tr_bc _ _ _ _ _ _ _ _ _ _ R) as BC.
  pose proof (chains_null _ _ _ F) as CN.
  destruct OR as [(-> & -> & B1)|(old & -> & B)].
  { destruct (TRep_small _ _ _ _ _ Hlay _ _ _ _ R) as (_ & C & _). rewrite C. unfold free_buckets_r, free_buckets. unfold bind, gets. cbn [id]. by rewrite B1. }
  set (rest := for_each (seq 0 (Z.to_nat (t_bc s))) (fun i => bind (or_ub (hadd (t_h s) (t_arr s) i)) (fun slot => write_slot (K := K) (V := V) eb slot Null))).
  assert (E1 : free_buckets_r nsz nal eb (HRules false false true) s =
    (if (1 <? t_bc s)%Z then bind (for_each (seq 0 (Z.to_nat (t_bc s))) (each_bucket s (fun _ => ub))) (fun _ => rest) else ret tt) s) by done.
  assert (E2 : free_buckets nsz nal eb s =
    (if (1 <? t_bc s)%Z then bind (for_each (seq 0 (Z.to_nat (t_bc s))) (each_bucket s (fun p => bind (gets fuel) (fun f => free_bucket nsz nal f p)))) (fun _ => rest) else ret tt) s) by done.
  rewrite E1, E2, (proj2 (Z.ltb_lt _ _) B). clear E1 E2.
  assert (N : Z.to_nat (t_bc s) = length ps) by lia. unfold bind at 1 2. rewrite N.
  destruct (concat cs) as [|e l] eqn:C.
  - rewrite !(each_empty by_ s a ps _ EA SL ps 0) by (by apply CN || by rewrite drop_0). done.
  - rewrite (each_full by_ s a ps EA SL ps 0); [done|by rewrite drop_0|]. rewrite CN. done.
Qed.

Lemma call_held c s : c <> HClear -> h_call_r nsz nal eb chk hash eqb (HRules false false true) c s = h_call (K := K) (V := V) nsz nal eb chk hash eqb c s.
Proof using.
  clear. intros N. by destruct c.
Qed.

End reps.

Lemma extend_keeps {K V} (eqb : K -> K -> bool) kvs : forall m : list (K * V), m <> [] -> snd (spec_extend eqb kvs m) <> [].
Proof.
  induction kvs as [|[k v] kvs IH]; intros m N; cbn [spec_extend]; [done|]. destruct (look eqb k m) eqn:L.
  - specialize (IH (change eqb k (fun _ => v) m)). destruct (spec_extend eqb kvs _) as [[b d] m']. apply IH. by destruct m.
  - destruct (full m); [done|]. by apply IH.
Qed.

Lemma first_key {K V} (eqb : K -> K -> bool) (c : hcall K V) : keys_in c <> 0 -> snd (spec_call eqb c []) <> [].
Proof.
  destruct c as [| | | | | |k f v|k f v|k f|kvs| | | | |]; try done; intros N; cbn [spec_call].
  - destruct f; done.
  - destruct f; done.
  - destruct kvs as [|[k v] kvs]; [done|]. cbn [spec_extend look List.find full length Z.of_nat].
    pose proof (extend_keeps eqb kvs [(k, v)] ltac:(done)) as E. cbn. destruct (spec_extend eqb kvs [(k, v)]) as [[b d] m']. exact E.
Qed.

Section built.
Context {K V : Type}.
Variables (nsz nal : Z) (eb : nat) (chk : bool) (hash : K -> Z) (eqb : K -> K -> bool) (h0 : heap (tcell K V)).
Hypothesis SU : Setup nsz nal eb hash eqb h0.

Lemma static_run prog : forall s cs, TRep nsz nal eb hash eqb h0 s cs [] 0 ->
  h_run_r nsz nal eb chk hash eqb (HRules true false false) prog s =
    if existsb takes_slot prog then None else h_run nsz nal eb chk hash eqb prog s.
Proof using SU.
  induction prog as [|c prog IH]; intros s cs R; [done|]. cbn [h_run_r existsb h_run]. destruct (takes_slot c) eqn:T; cbn [orb].
  - by rewrite (slot_static nsz nal eb chk hash eqb h0 SU c _ _ _ R T).
  - assert (E : h_call_r nsz nal eb chk hash eqb (HRules true false false) c s = h_call nsz nal eb chk hash eqb c s).
    { destruct c as [| | | | | | | | |[]| | | | |]; done. }
    rewrite E. destruct (call_next nsz nal eb chk hash eqb h0 SU c _ _ _ _ R) as (a & s' & cs' & arrs' & RS & R' & _).
    rewrite (slot_keys c T) in R'. pose proof (no_keys _ _ _ _ _ _ _ _ _ R') as ->.
    destruct (h_call nsz nal eb chk hash eqb c s); cbn in RS; [| |done]; injection RS as <- <-; rewrite (IH _ _ R');
      by destruct (existsb takes_slot prog).
Qed.

Lemma grown_run prog : forall s cs arrs cnt l s', TRep nsz nal eb hash eqb h0 s cs arrs cnt ->
  h_run nsz nal eb chk hash eqb prog s = Some (l, s') -> arrs <> [] \/ keys_given prog <> 0 ->
  exists cs' arrs' cnt', TRep nsz nal eb hash eqb h0 s' cs' arrs' cnt' /\ arrs' <> [].
Proof using SU.
  pose proof (su_layout _ _ _ _ _ _ SU) as Hlay.
  induction prog as [|c prog IH]; intros s cs arrs cnt l s' R E N; cbn [h_run] in E.
  - injection E as <- <-. destruct N as [N|N]; [|done]. by exists cs, arrs, cnt.
  - destruct (call_next nsz nal eb chk hash eqb h0 SU c _ _ _ _ R) as (a & s1 & cs1 & arrs1 & RS & R1 & P & G).
    assert (E1 : exists l1, h_run nsz nal eb chk hash eqb prog s1 = Some (l1, s')).
    { destruct (h_call nsz nal eb chk hash eqb c s); cbn in RS; [| |done]; injection RS as <- <-;
        (destruct (h_run nsz nal eb chk hash eqb prog _) as [[l1 s2]|]; [|done]; injection E as <- <-; by exists l1). }
    destruct E1 as [l1 E1]. eapply IH; [exact R1|exact E1|].
    destruct arrs as [|b arrs].
    + destruct N as [N|N]; [done|]. destruct (decide (keys_in c = 0)) as [Z|Z].
      * right. unfold keys_given in *. cbn in N. lia.
      * left. intros ->. destruct (TRep_small _ _ _ _ _ Hlay _ _ _ _ R) as (_ & C & _). destruct (TRep_small _ _ _ _ _ Hlay _ _ _ _ R1) as (_ & C1 & _).
        rewrite C, C1 in P. cbn in P. apply (first_key eqb c Z). by apply Permutation_nil in P.
    + left. destruct G as [[_ ->]|[L _]]; [done|]. intros ->. cbn in L. lia.
Qed.

Lemma held_run prog : forall s cs arrs cnt m, TRep nsz nal eb hash eqb h0 s cs arrs cnt -> map snd (concat cs) ≡ₚ m ->
  ((forall p1 p2, prog = p1 ++ HClear :: p2 -> snd (spec_run eqb p1 m) = []) ->
    h_run_r nsz nal eb chk hash eqb (HRules false false true) prog s = h_run nsz nal eb chk hash eqb prog s) /\
  (forall p1 p2, prog = p1 ++ HClear :: p2 -> snd (spec_run eqb p1 m) <> [] ->
    h_run_r nsz nal eb chk hash eqb (HRules false false true) prog s = None).
Proof using SU.
  induction prog as [|c prog IH]; intros s cs arrs cnt m R P.
  { split; [done|]. intros p1 p2 E. by destruct p1. }
  destruct (call_next nsz nal eb chk hash eqb h0 SU c _ _ _ _ R) as (a & s1 & cs1 & arrs1 & RS & R1 & P1 & _).
  pose proof (spec_call_perm nsz nal hash eqb (su_layout _ _ _ _ _ _ SU) (su_keys _ _ _ _ _ _ SU) c _ _ P (tr_keys _ _ _ _ _ _ _ _ _ _ R)) as X.
  destruct (spec_call eqb c (map snd (concat cs))) as [[a0 d0] m0]. cbn [snd] in P1.
  assert (SC : snd (spec_run eqb [] (snd (spec_call eqb c m))) = snd (spec_call eqb c m)) by done.
  destruct (spec_call eqb c m) as [[a1 d1] m1] eqn:ESC. destruct X as (_ & _ & PM). cbn [snd] in PM.
  assert (P1' : map snd (concat cs1) ≡ₚ m1) by (by rewrite P1).
  destruct (IH _ _ _ _ _ R1 P1') as [IA IB].
  assert (SR : forall q, snd (spec_run eqb (c :: q) m) = snd (spec_run eqb q m1)).
  { intros q. cbn [spec_run]. rewrite ESC. by destruct (spec_run eqb q m1) as [[? ?] ?]. }
  assert (CL : h_call_r nsz nal eb chk hash eqb (HRules false false true) c s =
    match c with HClear => if decide (m = []) then h_call nsz nal eb chk hash eqb c s else UB | _ => h_call nsz nal eb chk hash eqb c s end).
  { destruct c; try (by apply call_held). cbn [h_call_r h_call]. unfold clear_r, clear. unfold bind at 1 2. unfold bind at 1 2.
    rewrite (free_held nsz nal eb hash eqb h0 SU _ _ _ _ R). destruct (decide (m = [])) as [->|NE].
    - apply Permutation_sym, Permutation_nil in P. apply map_eq_nil in P. rewrite P. done.
    - destruct (concat cs); [|done]. cbn in P. by apply Permutation_nil in P. }
  split.
  - intros H. cbn [h_run_r h_run]. rewrite CL.
    assert (E : match c with HClear => if decide (m = []) then h_call nsz nal eb chk hash eqb c s else UB | _ => h_call nsz nal eb chk hash eqb c s end =
      h_call nsz nal eb chk hash eqb c s).
    { destruct c; try done. rewrite decide_True; [done|]. by apply (H [] prog). }
    rewrite E. destruct (h_call nsz nal eb chk hash eqb c s); cbn in RS; [| |done]; injection RS as <- <-;
      (rewrite IA; [done|]; intros p1 p2 ->; rewrite <- SR; by apply (H (c :: p1) p2)).
  - intros p1 p2 E NE. cbn [h_run_r]. rewrite CL. destruct p1 as [|c' p1].
    + cbn in E. injection E as -> ->. rewrite decide_False by done. done.
    + cbn in E. injection E as <- ->. rewrite SR in NE. specialize (IB p1 p2 eq_refl NE).
      assert (E : forall o, o = h_call nsz nal eb chk hash eqb c s \/ o = UB ->
        match o with UB => None | Ok a s' => match h_run_r nsz nal eb chk hash eqb (HRules false false true) (p1 ++ HClear :: p2) s' with Some (l, s'') => Some (Some a :: l, s'') | None => None end
        | Panic s' => match h_run_r nsz nal eb chk hash eqb (HRules false false true) (p1 ++ HClear :: p2) s' with Some (l, s'') => Some (None :: l, s'') | None => None end end = None).
      { intros o [-> | ->]; [|done]. destruct (h_call nsz nal eb chk hash eqb c s); cbn in RS; [| |done]; injection RS as <- <-; by rewrite IB. }
      apply E. destruct c; try (by left). destruct (decide (m = [])); [by left|by right].
Qed.
End built.

(** ** The first growth, to two buckets, and the second *)
Section two.
Context {K V : Type}.
Variables (nsz nal : Z) (eb : nat) (chk : bool) (hash : K -> Z) (eqb : K -> K -> bool) (h0 : heap (tcell K V)).
Hypothesis SU : Setup nsz nal eb hash eqb h0.
Local Notation RR := (HRules false true false).
Local Notation REP := (TRep nsz nal eb hash eqb h0).

Lemma bind_same {S A B} (m' m : M S A) (f : A -> M S B) s : m' s = m s -> bind m' f s = bind m f s.
Proof using. unfold bind. by intros ->. Qed.
Lemma bind_next {S A B} (m : M S A) (f' f : A -> M S B) s : (forall a s1, m s = Ok a s1 -> f' a s1 = f a s1) -> bind m f' s = bind m f s.
Proof using. unfold bind. intros H. destruct (m s); [by apply H|done|done]. Qed.
Lemma unwind_same {S A} g (m' m : M S A) s : m' s = m s -> on_unwind g m' s = on_unwind g m s.
Proof using. unfold on_unwind. by intros ->. Qed.

Lemma stage_two g bc nr ec : in_stage g bc nr ec -> (bc <= 2)%Z -> (bc = 1 /\ g_lasts g = 0)%Z \/ (bc = 2 /\ g_lasts g = 2)%Z.
Proof using.
  intros (I & -> & _) L.
  assert (Q : forallb (fun g => (2 <? g_buckets g) || ((g_buckets g =? 1) && (g_lasts g =? 0)) || ((g_buckets g =? 2) && (g_lasts g =? 2)))%Z stages = true) by (vm_compute; reflexivity).
  eapply forallb_forall in Q; [|by apply elem_of_list_In]. lia.
Qed.

Lemma two_cases s cs arrs cnt : REP s cs arrs cnt -> (t_bc s <= 2)%Z ->
  (arrs = [] /\ t_bc s = 1%Z /\ concat cs = []) \/
  (arrs <> [] /\ t_bc s = 2%Z /\ length (concat cs) <= 2 /\ exists g, in_stage g (t_bc s) (t_nr s) (t_ec s) /\ g_lasts g = 2%Z).
Proof using SU.
  intros R B. pose proof (su_layout _ _ _ _ _ _ SU) as Hlay. destruct arrs as [|b arrs].
  { destruct (TRep_small _ _ _ _ _ Hlay _ _ _ _ R) as (? & ? & _). by left. }
  right. split; [done|]. destruct (tr_arr _ _ _ _ _ _ _ _ _ _ R) as (a & ps & by_ & _ & _ & _ & [(_ & ? & _)|(old & _ & B1)]); [done|].
  destruct (tr_stage _ _ _ _ _ _ _ _ _ _ R) as [g G]. pose proof (stage_two _ _ _ _ G B) as Q. pose proof G as (_ & _ & _ & L).
  pose proof (tr_ec _ _ _ _ _ _ _ _ _ _ R) as EC. split; [lia|]. split; [lia|]. exists g. split; [done|]. lia.
Qed.

Lemma two_low s cs arrs cnt : REP s cs arrs cnt -> (t_bc s <= 2)%Z -> REP s cs arrs (Z.max 1 (t_ec s)).
Proof using.
  intros R B. destruct R. split; try done; [lia| |].
  - destruct arrs as [|b arrs]; [by left|]. right. cbn [length] in *. destruct arrs as [|b' arrs]; [cbn; lia|]. exfalso. cbn [length] in *.
    assert (2 ^ 2 <= 2 ^ Z.of_nat (S (S (length arrs))))%Z by (apply Z.pow_le_mono_r; lia). lia.
  - intros g I L. assert (Q : in_stage g (g_buckets g) (g_resize g) 0 \/ (g_lasts g < 0)%Z).
    { destruct (Z.lt_ge_cases (g_lasts g) 0); [by right|]. left. repeat split; try done; lia. }
    destruct Q as [Q|Q]; [|lia]. pose proof (stage_two _ _ _ _ Q ltac:(lia)). lia.
Qed.

Lemma zero_low s cs cnt : REP s cs [] cnt -> REP s cs [] 0.
Proof using SU.
  intros R. pose proof (su_layout _ _ _ _ _ _ SU) as Hlay. destruct (TRep_small _ _ _ _ _ Hlay _ _ _ _ R) as (B & C & _).
  destruct R. split; try done; [rewrite tr_ec, C; cbn; lia|by left|].
  intros g I L. assert (Q : forallb (fun g => 1 <=? g_buckets g)%Z stages = true) by (vm_compute; reflexivity).
  eapply forallb_forall in Q; [|by apply elem_of_list_In]. lia.
Qed.

Lemma low_two s cs arrs cnt : REP s cs arrs cnt -> (cnt <= 2)%Z -> (t_bc s <= 2)%Z.
Proof using.
  intros R L. destruct (Z.le_gt_cases (t_bc s) 2) as [|G]; [done|]. pose proof (tr_grown _ _ _ _ _ _ _ _ _ _ R (Stage 2 2 2)) as Q.
  cbn in Q. assert (I : Stage 2 2 2 ∈ stages) by (unfold stages; right; left). specialize (Q I). lia.
Qed.

Lemma required_keeps s o s0 : rehash_required (K := K) (V := V) chk s = Ok o s0 -> t_bc s0 = t_bc s.
Proof using. unfold rehash_required. destruct (get_rehash_required _ _ _ _ _); [|done|done]. by intros [= _ <-]. Qed.

Lemma impl_ok s t k v : (t_bc s <= 1)%Z \/ rehash_required chk s = Ok None s ->
  insert_impl_r nsz nal eb chk hash RR t k v s = insert_impl (K := K) (V := V) nsz nal eb chk hash t k v s.
Proof using.
  intros C. unfold insert_impl_r, insert_impl. apply bind_same, unwind_same, bind_next. intros o s0 Q. apply bind_same.
  destruct o as [bc|]; [|done]. destruct C as [C|C]; [|congruence]. apply bind_same. unfold rehash_r, allowed. unfold bind at 1. unfold bind at 1, gets.
  cbn [id]. unfold buckets_mut_ok. cbn [hr_static hr_reach andb]. rewrite (required_keeps _ _ _ Q), (proj2 (Z.ltb_ge _ _) C). done.
Qed.

Lemma impl_two s cs arrs cnt t k v : REP s cs arrs cnt -> (t_bc s <= 2)%Z ->
  insert_impl_r nsz nal eb chk hash RR t k v s = if length (concat cs) =? 2 then UB else insert_impl nsz nal eb chk hash t k v s.
Proof using SU.
  intros R B. destruct (two_cases _ _ _ _ R B) as [(-> & B1 & C)|(_ & B2 & L & g & G & GL)].
  { rewrite C. cbn [length Nat.eqb]. apply impl_ok. left. lia. }
  pose proof (tr_ec _ _ _ _ _ _ _ _ _ _ R) as EC. destruct (length (concat cs) =? 2) eqn:E.
  - destruct (policy_turn g _ _ _ chk G) as [[-> _]|(g' & _ & _ & _ & _ & Q)]; [apply Nat.eqb_eq in E; lia|done|].
    assert (Q' : exists s0, rehash_required chk s = Ok (Some (g_buckets g')) s0) by (unfold rehash_required; rewrite Q; by eexists).
    destruct Q' as [s0 Q']. unfold insert_impl_r. unfold bind at 1, on_unwind. unfold bind at 1. rewrite Q'. unfold bind at 1, rehash_r. unfold bind at 1, allowed.
    unfold bind at 1, bind at 1, bind at 1, gets. cbn [id]. unfold buckets_mut_ok. cbn [hr_static hr_reach andb]. rewrite (required_keeps _ _ _ Q'), B2. done.
  - apply Nat.eqb_neq in E. apply impl_ok. right. pose proof (policy_quiet g _ _ _ chk G ltac:(lia)) as Q. unfold rehash_required. rewrite Q. by destruct s.
Qed.

Lemma insert_two s cs arrs cnt k v : REP s cs arrs cnt -> (t_bc s <= 2)%Z ->
  match look eqb k (map snd (concat cs)) with
  | Some e => insert_r nsz nal eb chk hash eqb RR k v s = insert nsz nal eb chk hash eqb k v s
  | None => insert_r nsz nal eb chk hash eqb RR k v s = if length (concat cs) =? 2 then UB else insert nsz nal eb chk hash eqb k v s
  end.
Proof using SU.
  intros R B. pose proof (su_layout _ _ _ _ _ _ SU) as Hlay. pose proof (su_keys _ _ _ _ _ _ SU) as KH.
  pose proof (proj2 (target_ok _ _ _ _ _ Hlay _ _ _ _ _ k R)) as T.
  destruct (look eqb k (map snd (concat cs))) as [[k0 v0]|] eqn:LK.
  - destruct (found_ok _ _ _ _ _ Hlay KH _ _ _ _ _ _ _ _ R LK) as (_ & b & nx & FF & _).
    unfold insert_r, insert, on_unwind. unfold bind at 1. rewrite T. unfold bind at 1. rewrite FF. symmetry. unfold bind at 1. rewrite T. unfold bind at 1. by rewrite FF.
  - pose proof (absent_ok _ _ _ _ _ Hlay KH _ _ _ _ _ k R LK) as FF.
    unfold insert_r, insert, on_unwind. unfold bind at 1. rewrite T. unfold bind at 1. rewrite FF. unfold bind at 1. rewrite (impl_two _ _ _ _ _ _ _ R B).
    destruct (length (concat cs) =? 2); [done|]. symmetry. unfold bind at 1. rewrite T. unfold bind at 1. by rewrite FF.
Qed.

Lemma entry_mod_reach k f s : entry_mod_r eb hash eqb RR k f s = entry_mod (K := K) (V := V) eb hash eqb k f s.
Proof using. done. Qed.

Lemma without_short k (m : list (K * V)) : length (without eqb k m) <= length m.
Proof using. clear. unfold without. induction m as [|e m IH]; [done|]. cbn. destruct (negb _); cbn; lia. Qed.

Lemma extend_longer kvs : forall m : list (K * V), length m <= length (snd (spec_extend eqb kvs m)).
Proof using.
  clear. induction kvs as [|[k v] kvs IH]; intros m; cbn [spec_extend]; [done|]. destruct (look eqb k m) eqn:L.
  - specialize (IH (change eqb k (fun _ => v) m)). unfold change in *. rewrite map_length in IH. by destruct (spec_extend eqb kvs _) as [[b d] m'].
  - destruct (full m); [done|]. specialize (IH ((k, v) :: m)). cbn [length] in IH. destruct (spec_extend eqb kvs _) as [[b d] m']. cbn in *. lia.
Qed.

Lemma call_len c (m m' : list (K * V)) : m ≡ₚ m' -> distinct eqb m -> length (snd (spec_call eqb c m)) = length (snd (spec_call eqb c m')).
Proof using SU.
  intros P D. pose proof (spec_call_perm nsz nal hash eqb (su_layout _ _ _ _ _ _ SU) (su_keys _ _ _ _ _ _ SU) c _ _ P D) as X.
  destruct (spec_call eqb c m) as [[a d] m1], (spec_call eqb c m') as [[a' d'] m1']. destruct X as (_ & _ & X). cbn [snd]. by rewrite X.
Qed.
Lemma extend_len kvs (m m' : list (K * V)) : m ≡ₚ m' -> distinct eqb m -> length (snd (spec_extend eqb kvs m)) = length (snd (spec_extend eqb kvs m')).
Proof using SU.
  intros P D. pose proof (call_len (HExtend kvs) _ _ P D) as Q. cbn [spec_call] in Q.
  by destruct (spec_extend eqb kvs m) as [[? ?] ?], (spec_extend eqb kvs m') as [[? ?] ?].
Qed.

Lemma small_full s cs arrs cnt : REP s cs arrs cnt -> (t_bc s <= 2)%Z -> full (map snd (concat cs)) = false.
Proof using SU.
  intros R B. unfold full. rewrite map_length. apply Z.eqb_neq. destruct (two_cases _ _ _ _ R B) as [(_ & _ & C)|(_ & _ & L & _)]; [rewrite C; done|].
  unfold max_entries. lia.
Qed.

Lemma extend_two kvs : forall s cs arrs cnt, REP s cs arrs cnt -> (t_bc s <= 2)%Z ->
  if 3 <=? length (snd (spec_extend eqb kvs (map snd (concat cs)))) then insert_all_r nsz nal eb chk hash eqb RR kvs s = UB
  else insert_all_r nsz nal eb chk hash eqb RR kvs s = insert_all nsz nal eb chk hash eqb kvs s /\
    forall a s', result (insert_all nsz nal eb chk hash eqb kvs s) = Some (a, s') -> (t_bc s' <= 2)%Z.
Proof using SU.
  pose proof (su_layout _ _ _ _ _ _ SU) as Hlay. pose proof (su_size _ _ _ _ _ _ SU) as Hnsz. pose proof (su_keys _ _ _ _ _ _ SU) as KH.
  induction kvs as [|[k v] kvs IH]; intros s cs arrs cnt R B; cbn [spec_extend insert_all insert_all_r].
  { assert (L : length (map snd (concat cs)) <= 2) by (rewrite map_length; destruct (two_cases _ _ _ _ R B) as [(_ & _ & C)|(_ & _ & L & _)]; [rewrite C; cbn; lia|done]).
    cbn [snd]. rewrite (proj2 (Nat.leb_gt _ _)) by lia. split; [done|]. by intros a s' [= <- <-]. }
  pose proof (insert_two _ _ _ _ k v R B) as IR.
  pose proof (insert_ok nsz nal eb chk hash eqb Hnsz Hlay KH _ _ _ _ _ k v (two_low _ _ _ _ R B)) as IN. rewrite (small_full _ _ _ _ R B) in *.
  destruct (look eqb k (map snd (concat cs))) as [e|] eqn:LK.
  - destruct IN as (s1 & cs1 & IN & R1 & _ & E1 & _ & B1). pose proof (TRep_logged nsz nal eb hash eqb h0 _ _ _ _ [inr (snd e)] R1) as R1'.
    specialize (IH _ _ _ _ R1'). cbn [t_bc logged] in IH. rewrite B1 in IH. specialize (IH B). rewrite E1 in IH.
    destruct (spec_extend eqb kvs _) as [[b d] m1]. cbn [snd] in *.
    assert (EX : forall G : M (tstate K V) unit, bind (on_unwind (logged (pair_parts kvs)) (insert nsz nal eb chk hash eqb k v))
       (fun o => bind (match o with Some old => drop_all [inr old] | None => ret tt end) (fun _ => G)) s = G (logged [inr (snd e)] s1)).
    { intros G. unfold bind at 1, on_unwind. rewrite IN. done. }
    assert (ER : bind (on_unwind (logged (pair_parts kvs)) (insert_r nsz nal eb chk hash eqb RR k v))
       (fun o => bind (match o with Some old => drop_all [inr old] | None => ret tt end) (fun _ => insert_all_r nsz nal eb chk hash eqb RR kvs)) s =
       insert_all_r nsz nal eb chk hash eqb RR kvs (logged [inr (snd e)] s1)).
    { unfold bind at 1, on_unwind. rewrite IR, IN. done. }
    rewrite ER, EX. exact IH.
  - destruct IN as (s1 & cs1 & arrs1 & IN & R1 & _ & E1 & _ & _).
    assert (X3 : length (snd (spec_extend eqb kvs ((k, v) :: map snd (concat cs)))) = length (snd (spec_extend eqb kvs (map snd (concat cs1))))).
    { rewrite (extend_len kvs _ _ E1 (tr_keys _ _ _ _ _ _ _ _ _ _ R1)). done. }
    rewrite X3. destruct (length (concat cs) =? 2) eqn:E2.
    + apply Nat.eqb_eq in E2. pose proof (extend_longer kvs (map snd (concat cs1))) as LG. rewrite E1 in LG at 1. cbn [length] in LG. rewrite map_length in LG.
      rewrite (proj2 (Nat.leb_le _ _)) by lia. unfold bind at 1, on_unwind. by rewrite IR.
    + apply Nat.eqb_neq in E2. pose proof (tr_ec _ _ _ _ _ _ _ _ _ _ R) as EC.
      assert (L : length (concat cs) <= 1) by (destruct (two_cases _ _ _ _ R B) as [(_ & _ & C)|(_ & _ & L & _)]; [rewrite C; cbn; lia|lia]).
      specialize (IH _ _ _ _ R1 (low_two _ _ _ _ R1 ltac:(lia))).
      assert (EX : forall G : M (tstate K V) unit, bind (on_unwind (logged (pair_parts kvs)) (insert nsz nal eb chk hash eqb k v))
         (fun o => bind (match o with Some old => drop_all [inr old] | None => ret tt end) (fun _ => G)) s = G s1).
      { intros G. unfold bind at 1, on_unwind. rewrite IN. done. }
      assert (ER : bind (on_unwind (logged (pair_parts kvs)) (insert_r nsz nal eb chk hash eqb RR k v))
         (fun o => bind (match o with Some old => drop_all [inr old] | None => ret tt end) (fun _ => insert_all_r nsz nal eb chk hash eqb RR kvs)) s =
         insert_all_r nsz nal eb chk hash eqb RR kvs s1).
      { unfold bind at 1, on_unwind. rewrite IR, IN. done. }
      rewrite ER, EX. exact IH.
Qed.

(** The entry calls. *)
Lemma entry_two s cs arrs cnt k f : REP s cs arrs cnt -> (t_bc s <= 2)%Z ->
  match look eqb k (changes eqb k f (map snd (concat cs))) with
  | Some e => exists p s' k' v' nx, entry_mod eb hash eqb k f s = Ok (inl p) s' /\ (t_bc s' <= 2)%Z /\ node_at p s' = Ok (k', v', nx) s'
  | None => exists t, entry_mod eb hash eqb k f s = Ok (inr (t, k)) s
  end.
Proof using SU.
  intros R B. pose proof (su_layout _ _ _ _ _ _ SU) as Hlay. pose proof (su_size _ _ _ _ _ _ SU) as Hnsz. pose proof (su_keys _ _ _ _ _ _ SU) as KH.
  pose proof (entry_mod_ok nsz nal eb hash eqb Hlay KH _ _ _ _ _ k f R) as H.
  destruct (look eqb k _) as [e|].
  - destruct H as (b & nx & s' & cs' & E & _ & _ & _ & _ & _ & B' & N). exists (Ptr b 0), s', (fst e), (snd e), nx. split; [done|]. split; [lia|done].
  - destruct H as (E & _). by eexists.
Qed.

Lemma or_with_two s cs arrs cnt k f v : REP s cs arrs cnt -> (t_bc s <= 2)%Z ->
  let m := map snd (concat cs) in
  let call_r := bind (entry_mod_r eb hash eqb RR k f) (fun e => or_insert_with_r nsz nal eb chk hash RR e v) in
  let call := bind (entry_mod eb hash eqb k f) (fun e => or_insert_with nsz nal eb chk hash e v) in
  match look eqb k (changes eqb k f m) with
  | Some _ => call_r s = call s /\ exists a s', call s = Ok (false, a) s' /\ (t_bc s' <= 2)%Z
  | None => call_r s = if length m =? 2 then UB else call s
  end.
Proof using SU.
  intros R B m call_r call. pose proof (entry_two _ _ _ _ k f R B) as H. fold m in H. destruct (look eqb k (changes eqb k f m)) as [e|].
  - destruct H as (p & s' & k' & v' & nx & E & B' & N).
    assert (X : call s = Ok (false, v') s') by (unfold call, bind; rewrite E; cbn; unfold bind; by rewrite N).
    assert (X' : call_r s = Ok (false, v') s') by (unfold call_r, bind; rewrite entry_mod_reach, E; cbn; unfold bind; by rewrite N).
    split; [congruence|]. by exists v', s'.
  - destruct H as (t & E). unfold call_r, call, bind. rewrite entry_mod_reach, E. cbn [or_insert_with_r or_insert_with]. unfold bind.
    rewrite (impl_two _ _ _ _ _ _ _ R B). unfold m. rewrite map_length. by destruct (length (concat cs) =? 2).
Qed.

Lemma bind_assoc {S A B C} (m : M S A) (f : A -> M S B) (g : B -> M S C) s : bind m (fun a => bind (f a) g) s = bind (bind m f) g s.
Proof using. unfold bind. by destruct (m s). Qed.

(** Each call: it breaks the rule, or leaves at most two buckets. *)
Lemma two_call c s cs arrs cnt : REP s cs arrs cnt -> (t_bc s <= 2)%Z ->
  if (negb (bool_decide (arrs = [])) && iterates c) || (3 <=? length (snd (spec_call eqb c (map snd (concat cs)))))
  then h_call_r nsz nal eb chk hash eqb RR c s = UB
  else h_call_r nsz nal eb chk hash eqb RR c s = h_call nsz nal eb chk hash eqb c s /\
    forall a s', result (h_call nsz nal eb chk hash eqb c s) = Some (a, s') -> (t_bc s' <= 2)%Z.
Proof using SU.
  intros R B. pose proof (su_layout _ _ _ _ _ _ SU) as Hlay. pose proof (su_size _ _ _ _ _ _ SU) as Hnsz. pose proof (su_keys _ _ _ _ _ _ SU) as KH.
  pose proof (tr_ec _ _ _ _ _ _ _ _ _ _ R) as EC.
  assert (L : length (map snd (concat cs)) <= 2) by (rewrite map_length; destruct (two_cases _ _ _ _ R B) as [(_ & _ & C)|(_ & _ & L & _)]; [rewrite C; cbn; lia|done]).
  assert (NEXT : keys_in c = 0 \/ (keys_in c = 1 /\ length (map snd (concat cs)) <= 1) ->
    forall a s', result (h_call nsz nal eb chk hash eqb c s) = Some (a, s') -> (t_bc s' <= 2)%Z).
  { intros KI a s' RS. destruct (call_next nsz nal eb chk hash eqb h0 SU c _ _ _ _ (two_low _ _ _ _ R B)) as (a1 & s1 & cs1 & arrs1 & RS1 & R1 & _).
    rewrite RS in RS1. injection RS1 as <- <-. eapply low_two; [exact R1|]. rewrite map_length in *. lia. }
  assert (SHORT : keys_in c = 0 -> length (snd (spec_call eqb c (map snd (concat cs)))) <= 2).
  { intros KI. destruct c as [| |k|k|k|k| | |k f|[]| | | | |g]; try done; cbn [spec_call snd].
    - destruct (look eqb k _); [|done]. cbn [snd]. unfold change. by rewrite map_length.
    - destruct (look eqb k _); [|done]. cbn [snd]. etransitivity; [apply without_short|done].
    - etransitivity; [apply without_short|done].
    - destruct f; [|done]. cbn [changes]. unfold change. by rewrite map_length.
    - cbn. lia.
    - by rewrite map_length. }
  destruct (decide (keys_in c = 0)) as [KI|KI].
  { specialize (SHORT KI). rewrite (proj2 (Nat.leb_gt _ _)) by lia. rewrite orb_false_r.
    destruct (iterates c) eqn:IT; rewrite ?andb_true_r, ?andb_false_r.
    - assert (G : iter_r RR s = if (1 <? t_bc s)%Z then UB else iter s).
      { unfold iter_r, allowed, bind, gets, buckets_imut_ok. cbn [id hr_reach andb]. by destruct (1 <? t_bc s)%Z. }
      destruct (two_cases _ _ _ _ R B) as [(-> & B1 & C)|(NA & B2 & _)].
      + rewrite bool_decide_eq_true_2 by done. cbn [negb]. split; [|apply NEXT; by left]. rewrite B1 in G. cbn in G.
        destruct c; try done; cbn [h_call_r h_call]; by apply bind_same.
      + rewrite bool_decide_eq_false_2 by done. cbn [negb]. rewrite B2 in G. cbn in G. destruct c; try done; cbn [h_call_r]; unfold bind at 1; by rewrite G.
    - split; [|apply NEXT; by left]. destruct c as [| | | | | | | | |[]| | | | |]; done. }
  assert (IT : iterates c = false) by (by destruct c). rewrite IT, andb_false_r. cbn [orb].
  destruct c as [k v| | | | | |k f v|k f v| |kvs| | | | |]; try done; cbn [h_call_r h_call spec_call].
  - pose proof (insert_two _ _ _ _ k v R B) as IR. pose proof (insert_ok nsz nal eb chk hash eqb Hnsz Hlay KH _ _ _ _ _ k v R) as IN.
    destruct (look eqb k _) as [e|] eqn:LK; cbn [snd].
    + unfold change. rewrite map_length, (proj2 (Nat.leb_gt _ _)) by lia. split; [by apply bind_same|].
      destruct IN as (s1 & cs1 & IN & _ & _ & _ & _ & B1). intros a s'. unfold bind. rewrite IN. cbn. intros [= _ <-]. lia.
    + rewrite (small_full _ _ _ _ R B). cbn [snd length]. rewrite map_length in *. destruct (length (concat cs) =? 2) eqn:E2.
      * apply Nat.eqb_eq in E2. rewrite (proj2 (Nat.leb_le _ _)) by lia. unfold bind. by rewrite IR.
      * apply Nat.eqb_neq in E2. rewrite (proj2 (Nat.leb_gt _ _)) by lia. split; [by apply bind_same|]. apply NEXT. cbn [keys_in]. right. split; [done|lia].
  - pose proof (or_with_two _ _ _ _ k f v R B) as H. cbv zeta in H. unfold or_insert_r, or_insert.
    assert (X : forall (e' : M (tstate K V) (ptr + ptr * K)) (w : ptr + ptr * K -> M (tstate K V) (bool * V)),
      bind e' (fun e => bind (bind (w e) (fun r => bind (if negb (fst r) then drop_all [inr v] else ret tt) (fun _ => ret (snd r)))) (fun v => ret (HRef true v))) s =
      bind (bind e' w) (fun r => bind (bind (if negb (fst r) then drop_all [inr v] else ret tt) (fun _ => ret (snd r))) (fun v => ret (@HRef K V true v))) s).
    { intros e' w. unfold bind. destruct (e' s) as [x s1|s1|]; [|done|done]. by destruct (w x s1). }
    destruct (look eqb k _) as [e|] eqn:LK; cbn [snd].
    + assert (LN : length (changes eqb k f (map snd (concat cs))) <= 2) by (destruct f; [cbn [changes]; unfold change; by rewrite map_length|done]).
      rewrite (proj2 (Nat.leb_gt _ _)) by lia. destruct H as (H & a & s' & E & B'). split.
      * etransitivity; [apply X|]. symmetry. etransitivity; [apply X|]. symmetry. by apply bind_same.
      * intros a' s2 RS. assert (Q : t_bc s2 = t_bc s'); [|lia].
        match type of RS with result ?z = _ => assert (Y : z = Ok (HRef true a) (logged [inr v] s')) end.
        { etransitivity; [apply X|]. unfold bind at 1. rewrite E. done. }
        rewrite Y in RS. cbn in RS. by injection RS as _ <-.
    + rewrite (small_full _ _ _ _ R B). cbn [snd length]. rewrite map_length in *. destruct (length (concat cs) =? 2) eqn:E2.
      * apply Nat.eqb_eq in E2. rewrite (proj2 (Nat.leb_le _ _)) by lia. etransitivity; [apply X|]. unfold bind at 1. by rewrite H.
      * apply Nat.eqb_neq in E2. rewrite (proj2 (Nat.leb_gt _ _)) by lia. split; [|apply NEXT; cbn [keys_in]; right; split; [done|lia]].
        etransitivity; [apply X|]. symmetry. etransitivity; [apply X|]. symmetry. by apply bind_same.
  - pose proof (or_with_two _ _ _ _ k f v R B) as H. cbv zeta in H. rewrite !bind_assoc.
    destruct (look eqb k _) as [e|] eqn:LK; cbn [snd].
    + assert (LN : length (changes eqb k f (map snd (concat cs))) <= 2) by (destruct f; [cbn [changes]; unfold change; by rewrite map_length|done]).
      rewrite (proj2 (Nat.leb_gt _ _)) by lia. destruct H as (H & a & s' & E & B'). split; [by apply bind_same|].
      intros a' s2. unfold bind at 1. rewrite E. cbn. by intros [= _ <-].
    + rewrite (small_full _ _ _ _ R B). cbn [snd length]. rewrite map_length in *. destruct (length (concat cs) =? 2) eqn:E2.
      * apply Nat.eqb_eq in E2. rewrite (proj2 (Nat.leb_le _ _)) by lia. unfold bind at 1. by rewrite H.
      * apply Nat.eqb_neq in E2. rewrite (proj2 (Nat.leb_gt _ _)) by lia. split; [by apply bind_same|]. intros a s'. rewrite <- bind_assoc.
        apply NEXT. cbn [keys_in]. right. split; [done|lia].
  - pose proof (extend_two kvs _ _ _ _ R B) as H. destruct (spec_extend eqb kvs _) as [[b d] m1]. cbn [snd] in *.
    destruct (3 <=? length m1); [unfold bind; by rewrite H|]. destruct H as [H1 H2]. split; [by apply bind_same|].
    intros a s'. unfold bind. destruct (insert_all nsz nal eb chk hash eqb kvs s) as [u s1|s1|]; cbn in *; [| |done]; intros [= _ <-]; by eapply H2.
Qed.

Lemma two_run prog : forall s cs arrs cnt m, REP s cs arrs cnt -> (t_bc s <= 2)%Z -> map snd (concat cs) ≡ₚ m ->
  h_run_r nsz nal eb chk hash eqb RR prog s =
    if over_reaches eqb (negb (bool_decide (arrs = []))) m prog then None else h_run nsz nal eb chk hash eqb prog s.
Proof using SU.
  pose proof (su_layout _ _ _ _ _ _ SU) as Hlay.
  induction prog as [|c prog IH]; intros s cs arrs cnt m R B P; [done|]. cbn [h_run_r h_run over_reaches].
  pose proof (two_call c _ _ _ _ R B) as H. rewrite (call_len c _ _ P (tr_keys _ _ _ _ _ _ _ _ _ _ R)) in H.
  destruct (negb (bool_decide (arrs = [])) && iterates c || (3 <=? length (snd (spec_call eqb c m)))) eqn:E; cbn [orb].
  { by rewrite H. }
  destruct H as [H NB]. rewrite H.
  assert (R0 : exists cnt0, REP s cs arrs cnt0 /\ (arrs = [] -> cnt0 = 0%Z)).
  { destruct arrs; [exists 0%Z; split; [by eapply zero_low|done]|exists cnt; by split]. }
  destruct R0 as (cnt0 & R0 & CZ).
  destruct (call_next nsz nal eb chk hash eqb h0 SU c _ _ _ _ R0) as (a & s1 & cs1 & arrs1 & RS & R1 & P1 & G).
  assert (PM : map snd (concat cs1) ≡ₚ snd (spec_call eqb c m)).
  { pose proof (spec_call_perm nsz nal hash eqb Hlay (su_keys _ _ _ _ _ _ SU) c _ _ P (tr_keys _ _ _ _ _ _ _ _ _ _ R)) as X.
    destruct (spec_call eqb c (map snd (concat cs))) as [[? ?] ?], (spec_call eqb c m) as [[? ?] ?]. destruct X as (_ & _ & X). cbn [snd] in *. by rewrite P1. }
  assert (HA : negb (bool_decide (arrs1 = [])) = negb (bool_decide (arrs = [])) || negb (keys_in c =? 0)).
  { destruct arrs as [|b arrs].
    - rewrite (bool_decide_eq_true_2 (@nil nat = [])) by done. cbn [negb orb]. rewrite (CZ eq_refl) in *. destruct (keys_in c =? 0) eqn:KZ; cbn [negb].
      + apply Nat.eqb_eq in KZ. rewrite KZ in R1. pose proof (no_keys _ _ _ _ _ _ _ _ _ R1) as ->. by rewrite bool_decide_eq_true_2.
      + apply Nat.eqb_neq in KZ. rewrite bool_decide_eq_false_2; [done|]. intros ->.
        destruct (TRep_small _ _ _ _ _ Hlay _ _ _ _ R) as (_ & C & _). destruct (TRep_small _ _ _ _ _ Hlay _ _ _ _ R1) as (_ & C1 & _).
        rewrite C, C1 in P1. cbn in P1. apply (first_key eqb c KZ). by apply Permutation_nil in P1.
    - rewrite (bool_decide_eq_false_2 (b :: arrs = [])) by done. cbn [negb orb]. rewrite bool_decide_eq_false_2; [done|].
      destruct G as [[_ ->]|[L _]]; [done|]. intros ->. cbn in L. lia. }
  specialize (NB _ _ RS). pose proof (IH _ _ _ _ _ R1 NB PM) as Q. rewrite HA in Q.
  destruct (h_call nsz nal eb chk hash eqb c s); cbn in RS; [| |done]; injection RS as <- <-; rewrite Q; by destruct (over_reaches eqb _ _ prog).
Qed.
End two.

Lemma L_C121_static_array_refuted :
forall (K V : Type) nsz nal eb chk hash eqb (h0 : heap (tcell K V)), Setup nsz nal eb hash eqb h0 ->
  forall prog, h_run_r nsz nal eb chk hash eqb (HRules true false false) prog (ht_new eb h0 []) =
    if existsb takes_slot prog then None else h_run nsz nal eb chk hash eqb prog (ht_new eb h0 []).
Proof.
  intros K V nsz nal eb chk hash eqb h0 SU prog. eapply static_run; [exact SU|].
  apply (TRep_new nsz nal eb hash eqb (su_layout _ _ _ _ _ _ SU) h0 [] (su_heap _ _ _ _ _ _ SU) (su_static _ _ _ _ _ _ SU)).
Qed.

Lemma L_C121_reach_partial :
forall (K V : Type) nsz nal eb chk hash eqb (h0 : heap (tcell K V)), Setup nsz nal eb hash eqb h0 ->
  forall prog, h_run_r nsz nal eb chk hash eqb (HRules false true false) prog (ht_new eb h0 []) =
    if over_reaches eqb false [] prog then None else h_run nsz nal eb chk hash eqb prog (ht_new eb h0 []).
Proof.
  intros K V nsz nal eb chk hash eqb h0 SU prog.
  pose proof (TRep_new nsz nal eb hash eqb (su_layout _ _ _ _ _ _ SU) h0 [] (su_heap _ _ _ _ _ _ SU) (su_static _ _ _ _ _ _ SU)) as R.
  rewrite (two_run nsz nal eb chk hash eqb h0 SU prog _ _ _ _ [] R); [|cbn; lia|done]. by rewrite bool_decide_eq_true_2.
Qed.

Lemma L_C121_reach_refuted :
forall (K V : Type) nsz nal eb chk hash eqb (h0 : heap (tcell K V)), Setup nsz nal eb hash eqb h0 ->
  forall p1 c p2, keys_given p1 <> 0 -> iterates c = true ->
  h_run_r nsz nal eb chk hash eqb (HRules false true false) (p1 ++ c :: p2) (ht_new eb h0 []) = None.
Proof.
  intros K V nsz nal eb chk hash eqb h0 SU p1 c p2 KG IT. rewrite h_run_app.
  pose proof (TRep_new nsz nal eb hash eqb (su_layout _ _ _ _ _ _ SU) h0 [] (su_heap _ _ _ _ _ _ SU) (su_static _ _ _ _ _ _ SU)) as R.
  destruct (h_run_refines nsz nal eb chk hash eqb (HRules false true false) p1 (ht_new eb h0 [])) as [E|E]; rewrite E; [|done].
  destruct (h_run nsz nal eb chk hash eqb p1 (ht_new eb h0 [])) as [[l s]|] eqn:E1; [|done].
  destruct (grown_run nsz nal eb chk hash eqb h0 SU p1 _ _ _ _ _ _ R E1 (or_intror KG)) as (cs & arrs & cnt & R1 & NA).
  destruct (tr_arr _ _ _ _ _ _ _ _ _ _ R1) as (a & ps & by_ & EA & _ & _ & [(_ & -> & _)|(old & _ & B)]); [done|].
  assert (G : iter_r (HRules false true false) s = UB).
  { unfold iter_r, allowed, bind, gets, buckets_imut_ok. cbn [id hr_reach andb]. by rewrite (proj2 (Z.ltb_lt _ _) B). }
  cbn [h_run_r]. destruct c; try done; cbn [h_call_r]; unfold bind at 1; by rewrite G.
Qed.

Lemma L_C121_held_reference :
forall (K V : Type) nsz nal eb chk hash eqb (h0 : heap (tcell K V)), Setup nsz nal eb hash eqb h0 ->
  forall prog, let run_held := h_run_r nsz nal eb chk hash eqb (HRules false false true) prog (ht_new eb h0 []) in
  ((forall p1 p2, prog = p1 ++ HClear :: p2 -> snd (spec_run eqb p1 []) = []) ->
    run_held = h_run nsz nal eb chk hash eqb prog (ht_new eb h0 [])) /\
  (forall p1 p2, prog = p1 ++ HClear :: p2 -> snd (spec_run eqb p1 []) <> [] -> run_held = None).
Proof.
  intros K V nsz nal eb chk hash eqb h0 SU prog. pose proof (TRep_new nsz nal eb hash eqb (su_layout _ _ _ _ _ _ SU) h0 [] (su_heap _ _ _ _ _ _ SU) (su_static _ _ _ _ _ _ SU)) as R0. eapply held_run; [exact SU|exact R0|done].
Qed.

Lemma L_C121_drop_refuted :
forall (K V : Type) nsz nal eb chk hash eqb (h0 : heap (tcell K V)), Setup nsz nal eb hash eqb h0 ->
  forall prog l s es, built nsz nal eb chk hash eqb h0 prog l s ->
  h_call nsz nal eb chk hash eqb HIter s = Ok (HPairs es) s ->
  ht_drop_r nsz nal eb (HRules false false true) s = match es with [] => ht_drop nsz nal eb s | _ => UB end.
Proof.
  intros K V nsz nal eb chk hash eqb h0 SU prog l s es B HI.
  destruct (built_rep _ _ _ _ _ _ _ SU _ _ _ B) as (cs & arrs & R & _).
  rewrite (iter_call _ _ _ chk _ _ _ SU _ _ _ _ R) in HI. injection HI as <-.
  unfold ht_drop_r. rewrite (free_held nsz nal eb hash eqb h0 SU _ _ _ _ R). by destruct (concat cs).
Qed.
