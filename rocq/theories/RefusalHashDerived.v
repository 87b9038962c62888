(** Proofs of the properties stated in RefusalHashProps.v. *)
From Verif Require Import Base Heap Alloc HashTable HashTableSpec OutOfMemory Refusal RefusalSpec.
Local Open Scope nat_scope.

From Verif Require Import HeapLemmas RehashPolicy HashTableProofs ReadersProofs RefusalDequeDerived HashTableDerived.

Section blind.
Context {K V : Type}.
Local Notation tstate := (tstate K V).
Definition with_nr (nr : Z) (s : tstate) : tstate := TState (t_arr s) (t_bc s) (t_ec s) nr (t_h s) (t_drops s).
Definition recall {B} (nr : Z) (o : outcome tstate B) : outcome tstate B :=
  match o with Ok x s => Ok x (with_nr nr s) | Panic s => Panic (with_nr nr s) | UB => UB end.
(** Computations that neither read nor write the size at which to grow. *)
Definition blind {B} (m : M tstate B) : Prop := forall nr s, m (with_nr nr s) = recall nr (m s).
Lemma blind_bind {A B} (m : M tstate A) (k : A -> M tstate B) : blind m -> (forall x, blind (k x)) -> blind (bind m k).
Proof using. intros Hm Hk nr s. unfold bind. rewrite Hm. destruct (m s) as [x s'|s'|]; [apply Hk|done|done]. Qed.
Lemma blind_id {B} (k : tstate -> M tstate B) : (forall s, blind (k s)) -> (forall nr s s0, k (with_nr nr s) s0 = k s s0) -> blind (bind (gets id) k).
Proof using. intros Hk E nr s. unfold bind, gets, id. rewrite E. apply Hk. Qed.
Lemma blind_gets {B} (f : tstate -> B) : (forall nr s, f (with_nr nr s) = f s) -> blind (gets f).
Proof using. intros E nr s. unfold gets. cbn. by rewrite E. Qed.
Lemma blind_modify f : (forall nr s, f (with_nr nr s) = with_nr nr (f s)) -> blind (modify f).
Proof using. intros E nr s. unfold modify. cbn. by rewrite E. Qed.
Lemma blind_ret {B} (x : B) : blind (ret x).
Proof using. done. Qed.
Lemma blind_ub {B} : blind (B := B) ub.
Proof using. done. Qed.
Lemma blind_panic {B} : blind (B := B) panic.
Proof using. done. Qed.
Lemma blind_or_ub {B} (o : option B) : blind (or_ub o).
Proof using. by destruct o. Qed.
Lemma blind_u32 chk x : blind (u32 chk x).
Proof using. intros nr s. unfold u32. destruct (_ && _); [done|]. by destruct chk. Qed.
Lemma blind_unwind {B} f (m : M tstate B) : (forall nr s, f (with_nr nr s) = with_nr nr (f s)) -> blind m -> blind (on_unwind f m).
Proof using. intros E Hm nr s. unfold on_unwind. rewrite Hm. destruct (m s); [done| |done]. cbn. by rewrite E. Qed.
End blind.
Create HintDb blind.
#[local] Hint Resolve blind_ret blind_ub blind_panic blind_or_ub blind_u32 : blind.
Ltac blind_step :=
  match goal with
  | |- blind (bind (gets id) _) => apply blind_id; [intros ?|done]
  | |- blind (bind _ _) => apply blind_bind; [|intros ?]
  | |- blind (gets _) => apply blind_gets; done
  | |- blind (modify _) => apply blind_modify; done
  | |- blind (on_unwind _ _) => apply blind_unwind; [done|]
  | |- blind (let '(_, _) := ?x in _) => destruct x
  | |- blind (if ?b then _ else _) => destruct b
  | |- blind (match ?x with _ => _ end) => destruct x
  | |- _ => solve [auto with blind]
  | |- blind (let x := _ in _) => intros x
  end.
Ltac blinds := repeat blind_step.

Section blinds.
Context {K V : Type}.
Variables (nsz nal : Z) (eb : nat) (chk : bool) (hash : K -> Z) (eqb : K -> K -> bool).
Local Notation tstate := (tstate K V).
Local Notation M := (M tstate).
Lemma b_read p : blind (@read_slot K V p).
Proof using. unfold read_slot. blinds. Qed.
Lemma b_store p c : blind (@store K V eb p c).
Proof using. unfold store, set_h. blinds. Qed.
Lemma b_node p : blind (@node_at K V p).
Proof using. unfold node_at. blinds. Qed.
Lemma b_dealloc p sz al n : blind (@deallocate K V p sz al n).
Proof using. intros nr s. unfold deallocate. cbn. by destruct (default_free p (n * sz) al ((), t_h s)) as [? [? ?]|?|]. Qed.
Lemma b_drop l : blind (@drop_all K V l).
Proof using. unfold drop_all. blinds. Qed.
Hint Resolve b_read b_store b_node b_dealloc b_drop : blind.
Lemma b_write p q : blind (@write_slot K V eb p q).
Proof using. apply b_store. Qed.
Lemma b_index bc k : blind (@bucket_index K V hash bc k).
Proof using. unfold bucket_index. blinds. Qed.
Hint Resolve b_write b_index : blind.
Lemma b_for {A} (l : list A) (f : A -> M unit) : (forall x, blind (f x)) -> blind (for_each l f).
Proof using. intros F. induction l as [|x l IH]; cbn [for_each]; blinds. Qed.
Lemma b_slot k : blind (@bucket_for_key K V hash k).
Proof using. unfold bucket_for_key. blinds. Qed.
Lemma b_slot_mut k : blind (@bucket_for_key_mut K V hash k).
Proof using. unfold bucket_for_key_mut. blinds. Qed.
Lemma b_find_in f : forall p k, blind (@find_in_bucket K V eqb f p k).
Proof using. induction f as [|f IH]; intros p k; cbn [find_in_bucket]; blinds. Qed.
Hint Resolve b_slot b_slot_mut b_find_in : blind.
Lemma b_find p k : blind (@find_from K V eqb p k).
Proof using. unfold find_from. blinds. Qed.
Hint Resolve b_find : blind.
Lemma b_get k : blind (@get K V hash eqb k).
Proof using. unfold get. blinds. Qed.
Lemma b_get_mut k v : blind (@get_mut_set K V eb hash eqb k v).
Proof using. unfold get_mut_set. blinds. Qed.
Lemma b_free f : forall p, blind (@free_bucket K V nsz nal f p).
Proof using. induction f as [|f IH]; intros p; cbn [free_bucket]; blinds. Qed.
Hint Resolve b_free b_get b_get_mut : blind.
Lemma b_free_buckets : blind (@free_buckets K V nsz nal eb).
Proof using. unfold free_buckets. blinds; apply b_for; intros ?; blinds. Qed.
Lemma b_entry k : blind (@entry K V hash eqb k).
Proof using. unfold entry. blinds. Qed.
Hint Resolve b_free_buckets b_entry : blind.
Lemma b_entry_mod k f : blind (@entry_mod K V eb hash eqb k f).
Proof using. unfold entry_mod, and_modify. blinds. Qed.
Lemma b_rplace a : blind (@read_place K V a).
Proof using. unfold read_place. blinds. Qed.
Lemma b_wplace a q : blind (@write_place K V eb a q).
Proof using. unfold write_place. blinds. Qed.
Hint Resolve b_rplace b_wplace b_entry_mod : blind.
Lemma b_find_place f : forall a k, blind (@find_place K V eqb f a k).
Proof using. induction f as [|f IH]; intros a k; cbn [find_place]; blinds. Qed.
Hint Resolve b_find_place : blind.
Lemma b_remove k : blind (@remove_entry K V nsz nal eb chk hash eqb k).
Proof using. unfold remove_entry, set_ec. blinds. Qed.
Lemma b_next_bucket n : forall p, blind (@next_bucket K V p n).
Proof using. induction n as [|n IH]; intros p; cbn [next_bucket]; blinds. Qed.
Hint Resolve b_remove b_next_bucket : blind.
Lemma b_iter : blind (@iter K V).
Proof using. unfold iter. blinds. Qed.
Lemma b_next it : blind (@iter_next K V it).
Proof using. unfold iter_next. blinds. Qed.
Hint Resolve b_iter b_next : blind.
Lemma b_iter_all f : forall it, blind (@iter_all K V f it).
Proof using. induction f as [|f IH]; intros it; cbn [iter_all]; blinds. Qed.
Lemma b_iter_mut f g : forall it, blind (@iter_mut_all K V eb f g it).
Proof using. induction f as [|f IH]; intros it; cbn [iter_mut_all]; blinds. Qed.
Hint Resolve b_iter_all b_iter_mut : blind.
Lemma b_call (c : hcall K V) : brings_in c = false -> blind (h_call nsz nal eb chk hash eqb c).
Proof using.
  destruct c; intros E; try done; cbn [h_call]; unfold contains_key, remove, drop_entry, clear, len, is_empty, set_ec; blinds.
Qed.
Lemma b_run (cs : list (hcall K V)) : forall nr (s : tstate) l s', forallb (fun c => negb (brings_in c)) cs = true -> h_run nsz nal eb chk hash eqb cs s = Some (l, s') ->
  h_run nsz nal eb chk hash eqb cs (with_nr (K := K) (V := V) nr s) = Some (l, with_nr nr s').
Proof using.
  induction cs as [|c cs IH]; intros nr s l s' F E; cbn [h_run forallb] in *; [by simplify_eq|].
  apply andb_prop in F as [F1 F2]. apply negb_true_iff in F1. rewrite (b_call c F1).
  destruct (h_call nsz nal eb chk hash eqb c s) as [a s1|s1|]; [| |done]; cbn [recall];
    destruct (h_run _ _ _ _ _ _ cs s1) as [[l1 s2]|] eqn:E1; simplify_eq; by rewrite (IH nr _ _ _ F2 E1).
Qed.
End blinds.

Section refuse.
Context {K V : Type}.
Variables (nsz nal : Z) (eb : nat) (chk : bool) (hash : K -> Z) (eqb : K -> K -> bool).
Variable r : heap (tcell K V) -> Z -> bool.
Variable h0 : heap (tcell K V).
Hypothesis Hnsz : (0 < nsz)%Z.
Hypothesis Hlay : layout_ok nsz nal = true.
Hypothesis KH : KeyHash eqb hash.
Local Notation tstate := (tstate K V).
Local Notation M := (M tstate).
Local Notation TR := (TRep nsz nal eb hash eqb h0).
Local Notation R := (Refusing r).
Local Notation entries cs := (map (@snd nat (K * V)) (concat cs)).

Lemma bind_eq {S A B} (m : Base.M S A) (k : A -> Base.M S B) s :
  bind m k s = match m s with Ok x s' => k x s' | Panic s' => Panic s' | UB => UB end.
Proof using. done. Qed.
Lemma t_allocate_either csz cal n : either (HashTable.allocate csz cal n) (t_allocate R csz cal n).
Proof using. intros s. unfold t_allocate, HashTable.allocate. cbn [Refusing ai_alloc snd]. destruct (r (t_h s) (n * csz)%Z); [by right|by left]. Qed.
Lemma ro_u32_t (x : Z) : ro (S := tstate) (u32 chk x).
Proof using. intros s. unfold u32. destruct (_ && _); [done|]. by destruct chk. Qed.
Lemma rehash_either bc : either (@rehash K V nsz nal eb chk hash bc) (rehash_in R nsz nal eb chk hash bc).
Proof using.
  unfold rehash, rehash_in. apply either_bind; [apply ro_u32_t|intros n]. intros s. rewrite !bind_eq.
  destruct (t_allocate_either 8 8 n s) as [E|E]; rewrite E; [|by right]. left.
  unfold HashTable.allocate, default_alloc. destruct (n * 8 =? 0)%Z; [done|]. by destruct (layout_ok (n * 8) 8).
Qed.

(** A state that is sound but for the size at which to grow. *)
Definition Stale (s' : tstate) (cs : list (list (nat * (K * V)))) : Prop :=
  exists nr s arrs cnt, s' = with_nr nr s /\ TR s cs arrs cnt.
Lemma Stale_logged s cs d : Stale s cs -> Stale (HashTable.logged d s) cs.
Proof using. intros (nr & s1 & arrs & cnt & -> & T). exists nr, (HashTable.logged d s1), arrs, cnt. split; [done|]. by apply TRep_logged. Qed.
Lemma with_nr_id (s : tstate) : with_nr (t_nr s) s = s.
Proof using. by destruct s. Qed.
Lemma Stale_self s cs arrs cnt : TR s cs arrs cnt -> Stale s cs.
Proof using. intros T. exists (t_nr s), s, arrs, cnt. split; [symmetry; apply with_nr_id|done]. Qed.

Definition pre (rh : Z -> M unit) (al : M ptr) (target : ptr) (k : K) : M (ptr * ptr) :=
  do o <- rehash_required chk;
  do target <- match o with
               | Some bc => run rh bc; bucket_for_key_mut hash k
               | None => ret target
               end;
  do node <- al;
  ret (target, node).
Lemma alloc_stale s cs arrs cnt (t : ptr) : TR s cs arrs cnt ->
  (do node <- t_allocate R nsz nal 1; ret (t, node)) s = (do node <- HashTable.allocate nsz nal 1; ret (t, node)) s \/
  exists s' cs', (do node <- t_allocate R nsz nal 1; ret (t, node)) s = Panic s' /\ Stale s' cs' /\ entries cs' ≡ₚ entries cs /\ t_drops s' = t_drops s.
Proof using.
  intros T. rewrite !bind_eq. destruct (t_allocate_either nsz nal 1 s) as [E|E]; rewrite E; [by left|right].
  exists s, cs. split; [done|]. split; [by eapply Stale_self|done].
Qed.
Lemma pre_ok s cs arrs cnt t k : TR s cs arrs cnt ->
  let m1 := pre (rehash nsz nal eb chk hash) (HashTable.allocate nsz nal 1) t k in
  let m2 := pre (rehash_in R nsz nal eb chk hash) (t_allocate R nsz nal 1) t k in
  m2 s = m1 s \/ exists s' cs', m2 s = Panic s' /\ Stale s' cs' /\ entries cs' ≡ₚ entries cs /\ t_drops s' = t_drops s.
Proof using Hnsz Hlay KH.
  intros T. unfold pre. cbn zeta. rewrite !(bind_eq (rehash_required chk)).
  destruct (grow_ok nsz nal eb chk hash eqb Hnsz Hlay KH h0 s cs arrs cnt T) as [[EC P]|[EC (o & s0 & s1 & cs1 & arrs1 & g & Q & RH & EQ & R1 & NA & G & PM & DR & EE & GR)]].
  { left. by rewrite P. }
  rewrite Q. destruct o as [n|].
  - assert (exists nr, s0 = with_nr nr s) as [nr ->].
    { unfold rehash_required in Q. destruct (get_rehash_required _ _ _ _ _) as [o nr|nr|]; simplify_eq. by exists nr. }
    rewrite !(bind_eq (bind _ _)), !(bind_eq (rehash_in _ _ _ _ _ _ _)), !(bind_eq (rehash _ _ _ _ _ _)).
    destruct (rehash_either n (with_nr nr s)) as [E|E]; rewrite E.
    + rewrite RH. destruct (target_ok nsz nal eb hash eqb Hlay h0 s1 cs1 arrs1 (cnt + 1) k R1) as [_ B]. rewrite B.
      destruct (alloc_stale _ _ _ _ (slot_of hash s1 k) R1) as [A|(s' & cs' & A & ST & EN & D)]; [by left|right].
      exists s', cs'. split; [done|]. split; [done|]. split; [|congruence]. rewrite EN. unfold entries. by apply Permutation_map.
    + right. exists (with_nr nr s), cs. split; [done|]. split; [|done]. by exists nr, s, arrs, cnt.
  - rewrite (EQ eq_refl) in *. rewrite !(bind_eq (ret t)). cbn [ret]. unfold ret at 1 3. by eapply alloc_stale.
Qed.

Lemma insert_impl_in_ok s cs arrs cnt t k v : TR s cs arrs cnt ->
  insert_impl_in R nsz nal eb chk hash t k v s = insert_impl nsz nal eb chk hash t k v s \/
  exists s' cs', insert_impl_in R nsz nal eb chk hash t k v s = Panic (HashTable.logged [inr v; inl k] s') /\
    Stale s' cs' /\ entries cs' ≡ₚ entries cs /\ t_drops s' = t_drops s.
Proof using Hnsz Hlay KH.
  intros T. unfold insert_impl_in, insert_impl. rewrite !(bind_eq (on_unwind _ _)). unfold on_unwind.
  pose proof (pre_ok s cs arrs cnt t k T) as H. unfold pre in H. cbn zeta in H. destruct H as [E|(s' & cs' & E & ST & EN & D)]; rewrite E; [by left|right].
  by exists s', cs'.
Qed.

(** [m2] does as [m1], or panics with the entries [m'] and having dropped [d]. *)
Definition Bad (s : tstate) (d : list (K + V)) (m : list (K * V)) (s' : tstate) : Prop :=
  exists cs', Stale s' cs' /\ entries cs' ≡ₚ m /\ exists d', t_drops s' = t_drops s ++ d' /\ d' ≡ₚ d.
Lemma insert_in_ok s cs arrs cnt k v : TR s cs arrs cnt ->
  insert_in R nsz nal eb chk hash eqb k v s = insert nsz nal eb chk hash eqb k v s \/
  exists s', insert_in R nsz nal eb chk hash eqb k v s = Panic s' /\ look eqb k (entries cs) = None /\ Bad s [inl k; inr v] (entries cs) s'.
Proof using Hnsz Hlay KH.
  intros T. unfold insert_in, insert. rewrite !(bind_eq (on_unwind _ _)). unfold on_unwind.
  destruct (target_ok nsz nal eb hash eqb Hlay h0 s cs arrs cnt k T) as [_ B]. rewrite B. rewrite !(bind_eq (find_from _ _ _)).
  destruct (look eqb k (entries cs)) as [[k0 v0]|] eqn:LK.
  - destruct (found_ok nsz nal eb hash eqb Hlay KH h0 s cs arrs cnt k k0 v0 T LK) as (_ & b & nx & FF & NAT & U). rewrite FF. by left.
  - rewrite (absent_ok nsz nal eb hash eqb Hlay KH h0 s cs arrs cnt k T LK).
    rewrite !(bind_eq (insert_impl_in _ _ _ _ _ _ _ _ _)), !(bind_eq (insert_impl _ _ _ _ _ _ _ _)).
    destruct (insert_impl_in_ok s cs arrs cnt (slot_of hash s k) k v T) as [E|(s' & cs' & E & ST & EN & D)]; rewrite E; [by left|right].
    eexists. split; [done|]. split; [done|]. exists cs'. split; [by apply Stale_logged|]. split; [done|].
    exists [inr v; inl k]. split; [cbn; by rewrite D|]. apply Permutation_swap.
Qed.
Lemma insert_all_in_ok kvs : forall s cs arrs cnt, TR s cs arrs cnt ->
  insert_all_in R nsz nal eb chk hash eqb kvs s = insert_all nsz nal eb chk hash eqb kvs s \/
  exists s' kvs1 k v kvs2 d1 m1, insert_all_in R nsz nal eb chk hash eqb kvs s = Panic s' /\ kvs = kvs1 ++ (k, v) :: kvs2 /\
    spec_extend eqb kvs1 (entries cs) = (true, d1, m1) /\ look eqb k m1 = None /\ distinct eqb m1 /\ Bad s (d1 ++ [inl k; inr v] ++ parts kvs2) m1 s'.
Proof using Hnsz Hlay KH.
  induction kvs as [|[k v] kvs IH]; intros s cs arrs cnt T; cbn [insert_all_in insert_all]; [by left|].
  rewrite !(bind_eq (on_unwind _ _)). unfold on_unwind.
  destruct (insert_in_ok s cs arrs cnt k v T) as [E|(s' & E & LK & (cs' & ST & EN & d' & D & PD))]; rewrite E.
  2: { right. eexists _, [], k, v, kvs, [], (entries cs). split; [done|]. split; [done|]. split; [done|]. split; [done|].
    split; [apply (tr_keys _ _ _ _ _ _ _ _ _ _ T)|].
    exists cs'. split; [by apply Stale_logged|]. split; [done|]. exists (d' ++ pair_parts kvs). split; [cbn; by rewrite D, app_assoc|].
    cbn [app]. rewrite PD. done. }
  pose proof (insert_ok nsz nal eb chk hash eqb Hnsz Hlay KH h0 s cs arrs cnt k v T) as IN.
  destruct (look eqb k (entries cs)) as [e|] eqn:LK.
  - destruct IN as (s1 & cs1 & IN & R1 & _ & E1 & D1 & _). rewrite IN. rewrite !(bind_eq (drop_all _)). cbn [drop_all].
    unfold drop_all, modify. pose proof (TRep_logged nsz nal eb hash eqb h0 s1 cs1 arrs cnt [inr (snd e)] R1) as R2.
    destruct (IH _ _ _ _ R2) as [X|(s' & kvs1 & k' & v' & kvs2 & d1 & m1 & X & -> & SP & LK' & DI & (cs' & ST & EN & d' & D & PD))]; [by left|right].
    exists s', ((k, v) :: kvs1), k', v', kvs2, (inl k :: inr (snd e) :: d1), m1. split; [done|]. split; [done|].
    cbn [spec_extend]. rewrite LK, <- E1, SP. split; [done|]. split; [done|]. split; [done|]. exists cs'. split; [done|]. split; [done|].
    exists (inl k :: inr (snd e) :: d'). split; [rewrite D; cbn; rewrite D1, <- !app_assoc; done|]. rewrite PD. done.
  - destruct (full (entries cs)) eqn:FU.
    { rewrite IN. by left. }
    destruct IN as (s1 & cs1 & arrs1 & IN & R1 & _ & E1 & D1 & _). rewrite IN. rewrite !(bind_eq (ret tt)). unfold ret at 1 3.
    destruct (IH _ _ _ _ R1) as [X|(s' & kvs1 & k' & v' & kvs2 & d1 & m1 & X & -> & SP & LK' & DI & (cs' & ST & EN & d' & D & PD))]; [by left|right].
    pose proof (extend_perm nsz nal hash eqb Hlay KH kvs1 _ _ E1 (tr_keys _ _ _ _ _ _ _ _ _ _ R1)) as XP. rewrite SP in XP.
    destruct (spec_extend eqb kvs1 ((k, v) :: entries cs)) as [[b' d2] m2] eqn:SP2. destruct XP as (<- & <- & PM).
    exists s', ((k, v) :: kvs1), k', v', kvs2, d1, m2. split; [done|]. split; [done|].
    cbn [spec_extend]. rewrite LK, FU, SP2. split; [done|].
    split; [rewrite <- LK'; symmetry; by apply (look_perm nsz nal hash eqb Hlay KH)|]. split; [by eapply (distinct_perm nsz nal hash eqb Hlay KH)|].
    exists cs'. split; [done|]. split; [by rewrite EN|]. exists d'. split; [congruence|done].
Qed.

Lemma extend_full kvs : forall (m : list (K * V)) d m', spec_extend eqb kvs m = (false, d, m') ->
  exists kvs1 k v kvs2 d1, kvs = kvs1 ++ (k, v) :: kvs2 /\ spec_extend eqb kvs1 m = (true, d1, m') /\ look eqb k m' = None /\
    d = d1 ++ [inl k; inr v] ++ parts kvs2.
Proof using.
  induction kvs as [|[k v] kvs IH]; intros m d m' E; cbn [spec_extend] in E; [done|].
  destruct (look eqb k m) as [e|] eqn:LK.
  - destruct (spec_extend eqb kvs (change eqb k (fun _ => v) m)) as [[b d1] m1] eqn:E1. simplify_eq.
    destruct (IH _ _ _ E1) as (kvs1 & k' & v' & kvs2 & d2 & -> & SP & LK' & ->).
    exists ((k, v) :: kvs1), k', v', kvs2, (inl k :: inr (snd e) :: d2). cbn [app spec_extend]. rewrite LK, SP. done.
  - destruct (full m) eqn:FU.
    + simplify_eq. exists [], k, v, kvs, []. done.
    + destruct (IH _ _ _ E) as (kvs1 & k' & v' & kvs2 & d2 & -> & SP & LK' & ->).
      exists ((k, v) :: kvs1), k', v', kvs2, d2. cbn [app spec_extend]. rewrite LK, FU, SP. done.
Qed.
Lemma look_changes_None k f (m : list (K * V)) : look eqb k (changes eqb k f m) = None -> look eqb k m = None.
Proof using.
  destruct f as [f|]; [|done]. cbn [changes]. unfold look, change. induction m as [|e m IH]; cbn; [done|].
  destruct (eqb (fst e) k) eqn:E; cbn; rewrite E; [done|]. exact IH.
Qed.
Lemma spec_panic c (m : list (K * V)) d m' : spec_call eqb c m = (None, d, m') -> refused eqb c m d m'.
Proof using.
  destruct c; cbn [spec_call refused]; intros E; try done.
  all: try (destruct (look eqb k m); [done|]; destruct (full m); by simplify_eq).
  all: try (destruct (look eqb k m); by simplify_eq).
  all: try (destruct (look eqb k (changes eqb k f m)) eqn:LK; [done|]; apply look_changes_None in LK; destruct (full m); by simplify_eq).
  destruct (spec_extend eqb kvs m) as [[b d1] m1] eqn:SP. destruct b; simplify_eq.
    destruct (extend_full _ _ _ _ SP) as (kvs1 & k & v & kvs2 & d1 & -> & SP1 & LK & ->).
    exists kvs1, k, v, kvs2, d1, m'. done.
Qed.

Lemma h_call_in_ok c s cs arrs cnt m : TR s cs arrs cnt -> entries cs ≡ₚ m ->
  h_call_in R nsz nal eb chk hash eqb c s = h_call nsz nal eb chk hash eqb c s \/
  exists s' d m', h_call_in R nsz nal eb chk hash eqb c s = Panic s' /\ refused eqb c m d m' /\ Bad s d m' s'.
Proof using Hnsz Hlay KH.
  intros T PM. pose proof (tr_keys _ _ _ _ _ _ _ _ _ _ T) as DS.
  pose proof (fun k => look_perm nsz nal hash eqb Hlay KH k _ _ PM DS) as LP. destruct c; cbn [h_call_in]; try (by left); cbn [h_call].
  - rewrite !(bind_eq (insert_in _ _ _ _ _ _ _ _ _)), !(bind_eq (insert _ _ _ _ _ _ _ _)).
    destruct (insert_in_ok s cs arrs cnt k v T) as [E|(s' & E & LK & B)]; rewrite E; [by left|right].
    exists s', [inl k; inr v], (entries cs). split; [done|]. split; [|done]. cbn [refused]. split; [by rewrite <- LP|by split].
  - rewrite !(bind_eq (entry_mod _ _ _ _ _)). pose proof (entry_mod_ok nsz nal eb hash eqb Hlay KH h0 s cs arrs cnt k f T) as EM.
    destruct (look eqb k (changes eqb k f (entries cs))) as [e|] eqn:LK.
    + destruct EM as (b & nx & s' & cs' & EM & _). rewrite EM. by left.
    + destruct EM as (EM & LK' & _). rewrite EM. unfold or_insert_in, or_insert, or_insert_with_in, or_insert_with.
      rewrite !(bind_eq (bind _ _)), !(bind_eq (insert_impl_in _ _ _ _ _ _ _ _ _)), !(bind_eq (insert_impl _ _ _ _ _ _ _ _)).
      destruct (insert_impl_in_ok s cs arrs cnt (slot_of hash s k) k v T) as [E|(s' & cs' & E & ST & EN & D)]; rewrite E; [by left|right].
      eexists _, [inl k; inr v], (entries cs). split; [done|]. split; [cbn [refused]; split; [by rewrite <- LP|by split]|]. exists cs'. split; [by apply Stale_logged|]. split; [done|].
      exists [inr v; inl k]. split; [cbn; by rewrite D|]. apply Permutation_swap.
  - rewrite !(bind_eq (entry_mod _ _ _ _ _)). pose proof (entry_mod_ok nsz nal eb hash eqb Hlay KH h0 s cs arrs cnt k f T) as EM.
    destruct (look eqb k (changes eqb k f (entries cs))) as [e|] eqn:LK.
    + destruct EM as (b & nx & s' & cs' & EM & _). rewrite EM. by left.
    + destruct EM as (EM & LK' & _). rewrite EM. unfold or_insert_with_in, or_insert_with.
      rewrite !(bind_eq (bind _ _)), !(bind_eq (insert_impl_in _ _ _ _ _ _ _ _ _)), !(bind_eq (insert_impl _ _ _ _ _ _ _ _)).
      destruct (insert_impl_in_ok s cs arrs cnt (slot_of hash s k) k v T) as [E|(s' & cs' & E & ST & EN & D)]; rewrite E; [by left|right].
      eexists _, [inl k; inr v], (entries cs). split; [done|]. split; [cbn [refused]; split; [by rewrite <- LP|by split]|]. exists cs'. split; [by apply Stale_logged|]. split; [done|].
      exists [inr v; inl k]. split; [cbn; by rewrite D|]. apply Permutation_swap.
  - rewrite !(bind_eq (insert_all_in _ _ _ _ _ _ _ _)), !(bind_eq (insert_all _ _ _ _ _ _ _)).
    match goal with |- context [insert_all_in _ _ _ _ _ _ _ ?l s] => destruct (insert_all_in_ok l s cs arrs cnt T) as [E|(s' & kvs1 & k & v & kvs2 & d1 & m1 & E & EQ & SP & LK & DI & B)] end; rewrite E; [by left|right].
    eexists _, _, m1. split; [done|]. split; [|exact B]. cbn [refused].
    pose proof (extend_perm nsz nal hash eqb Hlay KH kvs1 _ _ PM DS) as XP. rewrite SP in XP.
    destruct (spec_extend eqb kvs1 m) as [[b' d2] m2] eqn:SP2. destruct XP as (<- & <- & PM2).
    exists kvs1, k, v, kvs2, d1, m2. split; [done|]. split; [done|]. split; [|by rewrite PM2].
    rewrite <- LK. symmetry. by apply (look_perm nsz nal hash eqb Hlay KH).
Qed.

(** What a stale table still does. *)
Lemma stale_run prog s cs m : Stale s cs -> entries cs ≡ₚ m -> forallb (fun c => negb (brings_in c)) prog = true ->
  let '(l, d, m') := spec_run eqb prog m in
  exists l' s1 s2 d1 d2, h_run nsz nal eb chk hash eqb prog s = Some (l', s1) /\ Forall2 same_answer l' l /\
    t_drops s1 = t_drops s ++ d1 /\ d1 ≡ₚ d /\
    ht_drop nsz nal eb s1 = Ok tt s2 /\ t_drops s2 = t_drops s1 ++ d2 /\ d2 ≡ₚ parts m'.
Proof using Hnsz Hlay KH.
  intros (nr & s0 & arrs & cnt & -> & T) P NB.
  pose proof (h_run_ok nsz nal eb chk hash eqb Hnsz Hlay KH prog h0 s0 cs arrs cnt m T P) as H.
  destruct (spec_run eqb prog m) as [[l d] m']. destruct H as (l' & s1 & cs1 & arrs1 & d1 & RN & SA & R1 & E1 & D1 & PD & _).
  destruct (ht_drop_ok nsz nal eb hash eqb Hnsz Hlay h0 s1 cs1 arrs1 _ R1) as (s2 & DR & D2 & _).
  exists l', (with_nr nr s1), (with_nr nr s2), d1, (dropped cs1). split; [by apply b_run|]. split; [done|]. split; [done|]. split; [done|].
  split; [unfold ht_drop in *; rewrite b_free_buckets, DR; done|]. split; [done|]. rewrite dropped_perm. by apply parts_perm.
Qed.
End refuse.

Lemma L_C104_hash_table :
forall (K V : Type) nsz nal eb chk hash eqb (h0 : heap (tcell K V)), Setup nsz nal eb hash eqb h0 ->
  forall prog l s es, built nsz nal eb chk hash eqb h0 prog l s ->
  h_call nsz nal eb chk hash eqb HIter s = Ok (HPairs es) s ->
  forall c refuse,
  match h_call_in (Refusing refuse) nsz nal eb chk hash eqb c s with
  | Ok a s' => h_call nsz nal eb chk hash eqb c s = Ok a s'
  | Panic s' =>
    exists d es', refused eqb c es d es' /\ t_drops s' ≡ₚ t_drops s ++ d /\
      forall later, forallb (fun c => negb (brings_in c)) later = true ->
      let '(l, d1, es1) := spec_run eqb later es' in
      exists l' s1 s2, h_run nsz nal eb chk hash eqb later s' = Some (l', s1) /\ Forall2 same_answer l' l /\
        t_drops s1 ≡ₚ t_drops s' ++ d1 /\ ht_drop nsz nal eb s1 = Ok tt s2 /\ t_drops s2 ≡ₚ t_drops s1 ++ parts es1
  | UB => False
  end.
Proof.
  intros K V nsz nal eb chk hash eqb h0 [Hnsz Hlay KH HW SK] prog l s es B IT c r.
  pose proof (h_run_ok nsz nal eb chk hash eqb Hnsz Hlay KH prog h0 _ _ _ _ [] (TRep_new nsz nal eb hash eqb Hlay h0 [] HW SK) (Permutation_refl _)) as H.
  destruct (spec_run eqb prog []) as [[l0 d0] m0]. destruct H as (l1 & s1 & cs & arrs & d1 & RN & _ & T & E1 & _).
  unfold built in B. rewrite B in RN. injection RN as <- <-.
  pose proof (h_call_ok nsz nal eb chk hash eqb Hnsz Hlay KH HIter h0 _ _ _ _ T) as HI. cbn [spec_call] in HI.
  destruct HI as (a' & s' & cs' & arrs' & d' & HI & SA & T' & EN & DD & PD & _). rewrite IT in HI. cbn in HI. injection HI as <- <-. cbn in SA.
  assert (REST : forall s' d m' cs', Stale nsz nal eb hash eqb h0 s' cs' -> map snd (concat cs') ≡ₚ m' -> refused eqb c es d m' ->
    t_drops s' ≡ₚ t_drops s ++ d ->
    exists d es', refused eqb c es d es' /\ t_drops s' ≡ₚ t_drops s ++ d /\
      forall later, forallb (fun c => negb (brings_in c)) later = true ->
      let '(l, d1, es1) := spec_run eqb later es' in
      exists l' s1 s2, h_run nsz nal eb chk hash eqb later s' = Some (l', s1) /\ Forall2 same_answer l' l /\
        t_drops s1 ≡ₚ t_drops s' ++ d1 /\ ht_drop nsz nal eb s1 = Ok tt s2 /\ t_drops s2 ≡ₚ t_drops s1 ++ parts es1).
  { intros s2 d m' cs2 ST EN2 RF DR. exists d, m'. split; [done|]. split; [done|]. intros later NB.
    pose proof (stale_run nsz nal eb chk hash eqb h0 Hnsz Hlay KH later s2 cs2 m' ST EN2 NB) as SR.
    destruct (spec_run eqb later m') as [[l2 d2] m2]. destruct SR as (l3 & s3 & s4 & d3 & d4 & X1 & X2 & X3 & X4 & X5 & X6 & X7).
    exists l3, s3, s4. split; [done|]. split; [done|]. split; [by rewrite X3, X4|]. split; [done|]. by rewrite X6, X7. }
  destruct (h_call_in_ok nsz nal eb chk hash eqb r h0 Hnsz Hlay KH c s cs arrs _ es T (symmetry SA)) as [E|(s2 & d & m' & E & RF & (cs2 & ST & EN2 & d2 & D2 & PD2))]; rewrite E.
  - pose proof (h_call_ok nsz nal eb chk hash eqb Hnsz Hlay KH c h0 _ _ _ _ T) as HC.
    pose proof (spec_call_perm nsz nal hash eqb Hlay KH c _ _ (symmetry SA) (tr_keys _ _ _ _ _ _ _ _ _ _ T)) as CP.
    destruct (spec_call eqb c (map snd (concat cs))) as [[a d] m']. destruct HC as (a2 & s2 & cs2 & arrs2 & d2 & HC & SA2 & T2 & EN2 & D2 & PD2 & _).
    destruct (h_call nsz nal eb chk hash eqb c s) as [x s3|s3|]; [done| |done]. cbn in HC. simplify_eq.
    destruct a; [done|]. destruct (spec_call eqb c es) as [[a3 d3] m3] eqn:SC. destruct CP as (CP1 & CP2 & CP3). destruct a3; [done|].
    eapply REST; [by eapply Stale_self|by rewrite EN2|by apply spec_panic|]. by rewrite D2, PD2, CP2.
  - eapply REST; [exact ST|exact EN2|exact RF|]. by rewrite D2, PD2.
Qed.

Lemma L_C104_refused_first_insert_refuted :
exists s nr, h_call_in (Refusing (fun _ _ => true)) 24 8 0 true hx_hash Z.eqb (HInsert 1 10)%Z (ht_new 0 hx_heap []) = Panic s /\
  rehash_required true s = Ok None nr /\ t_arr s = Ptr 0 0 /\ t_bc s = 1%Z /\
  (exists s1, bucket_for_key_mut hx_hash 2%Z s = Ok (Ptr 0 0) s1) /\
  (forall q (s1 : tstate Z Z), write_slot 0 (Ptr 0 0) q s1 = UB) /\
  h_call 24 8 0 true hx_hash Z.eqb (HInsert 2 20)%Z s = UB.
Proof.
  eexists _, _. split; [vm_compute; reflexivity|]. split; [vm_compute; reflexivity|]. split; [done|]. split; [done|].
  split; [eexists; vm_compute; reflexivity|]. split; [done|]. vm_compute. reflexivity.
Qed.
