(** Proofs of the properties stated in OutOfMemoryProps.v. *)
From Verif Require Import Base Heap Alloc AddrMem HashTable HashTableSpec Deque DequeSpec FixedPoolSpec LinkedList LinkedListSpec Vector VectorSpec String OutOfMemory OutOfMemorySpec.
Local Open Scope nat_scope.

From Verif Require Import HeapLemmas FixedPoolProofs LinkedListProofs LinkedListCalls LinkedListRuns LinkedListDerived.
Local Open Scope nat_scope.

(** ** Runs compared: with memory, and without *)
Section sim.
Context {S : Type}.
Variable nx : S -> nat.

Definition quiet {B} (m : M S B) : Prop := forall s,
  match m s with Ok _ s' => nx s' = nx s | Panic s' => nx s' = nx s | UB => True end.
Definition sim {B} (m1 m2 : M S B) : Prop := forall s,
  match m1 s with
  | Ok x s' => nx s <= nx s' /\ m2 s = if nx s' =? nx s then Ok x s' else UB
  | Panic s' => nx s <= nx s' /\ m2 s = if nx s' =? nx s then Panic s' else UB
  | UB => True
  end.

Lemma sim_quiet {B} (m : M S B) : quiet m -> sim m m.
Proof using.
  intros Q s. specialize (Q s). destruct (m s) as [x s'|s'|]; [| |done];
    rewrite Q, Nat.eqb_refl; (split; [lia|done]).
Qed.
Lemma sim_ext {B} (m1 m2 n1 n2 : M S B) : (forall s, m1 s = n1 s) -> (forall s, m2 s = n2 s) -> sim n1 n2 -> sim m1 m2.
Proof using. intros E1 E2 H s. rewrite E1, E2. apply H. Qed.
Lemma sim_bind {A B} (m1 m2 : M S A) (k1 k2 : A -> M S B) : sim m1 m2 -> (forall x, sim (k1 x) (k2 x)) ->
  sim (bind m1 k1) (bind m2 k2).
Proof using.
  intros H1 H2 s. unfold bind. specialize (H1 s). destruct (m1 s) as [x s1|s1|]; [| |done].
  - destruct H1 as [L1 E1]. rewrite E1. specialize (H2 x s1).
    destruct (k1 x s1) as [y s2|s2|]; [| |done]; destruct H2 as [L2 E2]; (split; [lia|]);
      destruct (Nat.eqb_spec (nx s1) (nx s)); rewrite ?E2;
      destruct (Nat.eqb_spec (nx s2) (nx s)), (Nat.eqb_spec (nx s2) (nx s1)); try lia; done.
  - destruct H1 as [L1 E1]. rewrite E1. split; [done|]. by destruct (Nat.eqb_spec (nx s1) (nx s)).
Qed.
Lemma sim_unwind {B} f (m1 m2 : M S B) : (forall s, nx (f s) = nx s) -> sim m1 m2 -> sim (on_unwind f m1) (on_unwind f m2).
Proof using.
  intros F H s. unfold on_unwind. specialize (H s). destruct (m1 s) as [x s'|s'|]; [| |done]; destruct H as [L E]; rewrite E.
  - split; [done|]. by destruct (Nat.eqb_spec (nx s') (nx s)).
  - rewrite F. split; [done|]. by destruct (Nat.eqb_spec (nx s') (nx s)).
Qed.
Lemma sim_spec {B} (m1 m2 : M S B) s : sim m1 m2 -> undefined_iff_needed nx s (m1 s) (m2 s).
Proof using.
  intros H N. specialize (H s). unfold took_memory. destruct (m1 s) as [x s'|s'|]; [| |done]; destruct H as [_ E];
    by destruct (Nat.eqb_spec (nx s') (nx s)).
Qed.

Lemma quiet_bind {A B} (m : M S A) (k : A -> M S B) : quiet m -> (forall x, quiet (k x)) -> quiet (bind m k).
Proof using.
  intros H1 H2 s. unfold bind. specialize (H1 s). destruct (m s) as [x s1|s1|]; [|done|done].
  specialize (H2 x s1). destruct (k x s1); congruence.
Qed.
Lemma quiet_ret {B} (x : B) : quiet (ret x).
Proof using. by intros s. Qed.
Lemma quiet_panic {B} : quiet (@panic S B).
Proof using. by intros s. Qed.
Lemma quiet_ub {B} : quiet (@ub S B).
Proof using. by intros s. Qed.
Lemma quiet_gets {B} (f : S -> B) : quiet (gets f).
Proof using. by intros s. Qed.
Lemma quiet_or_ub {B} (o : option B) : quiet (or_ub o).
Proof using. destruct o; by intros s. Qed.
Lemma quiet_modify f : (forall s, nx (f s) = nx s) -> quiet (modify f).
Proof using. intros H s. cbn. apply H. Qed.
Lemma quiet_usize chk r : quiet (usize chk r).
Proof using. intros s. unfold usize. destruct (_ && _); [done|]. by destruct chk. Qed.
Lemma quiet_u32 chk r : quiet (u32 chk r).
Proof using. intros s. unfold u32. destruct (_ && _); [done|]. by destruct chk. Qed.
Lemma quiet_unwind {B} f (m : M S B) : (forall s, nx (f s) = nx s) -> quiet m -> quiet (on_unwind f m).
Proof using. intros F H s. unfold on_unwind. specialize (H s). destruct (m s); [done| |done]. by rewrite F. Qed.
End sim.
Create HintDb quiet.
Create HintDb sim.
#[local] Hint Resolve quiet_ret quiet_panic quiet_ub quiet_gets quiet_or_ub quiet_usize quiet_u32 : quiet.
Ltac quiet_step :=
  match goal with
  | |- quiet _ (bind _ _) => apply quiet_bind; [|intros ?]
  | |- quiet _ (let '(_, _) := ?x in _) => destruct x
  | |- quiet _ (if ?b then _ else _) => destruct b
  | |- quiet _ (match ?x with _ => _ end) => destruct x
  | |- quiet _ (on_unwind _ _) => apply quiet_unwind; [by intros []|]
  | |- quiet _ (modify _) => apply quiet_modify; by intros []
  | |- _ => solve [auto with quiet]
  | |- quiet _ (let x := _ in _) => intros x
  end.
Ltac quiets := repeat quiet_step.
Ltac sim_step :=
  match goal with
  | |- sim _ ?m ?m => apply sim_quiet; solve [quiets]
  | |- sim _ (bind _ _) (bind _ _) => apply sim_bind; [|intros ?]
  | |- sim _ (if ?b then _ else _) _ => destruct b
  | |- sim _ (match ?x with _ => _ end) _ => destruct x
  | |- sim _ (on_unwind _ _) _ => apply sim_unwind; [by intros []|]
  | |- _ => solve [auto with sim]
  end.
Ltac sims := repeat sim_step.

Lemma hput_next {C} (h : heap C) p vs h' : hput h p vs = Some h' -> h_next h' = h_next h.
Proof. unfold hput. intros E. repeat case_match; simplify_eq; done. Qed.
Lemma hstore_next {C} (h : heap C) p c h' : hstore h p c = Some h' -> h_next h' = h_next h.
Proof. apply hput_next. Qed.
Lemma hcopy_next {C} (h : heap C) p q n h' : hcopy h p q n = Some h' -> h_next h' = h_next h.
Proof. unfold hcopy. destruct (hraw h p n); [|done]. apply hput_next. Qed.
Lemma hfree_next {C} (h : heap C) p b a h' : hfree h p b a = Some h' -> h_next h' = h_next h.
Proof. unfold hfree. intros E. repeat case_match; simplify_eq; done. Qed.

(** ** Vectors and strings *)
Definition st_next {A T} (s : vstate A T) : nat := h_next (st_h s).

Record no_memory {A C} (AI AI' : AllocImpl A C) : Prop := {
  nm_free : ai_free AI' = ai_free AI;
  nm_free_quiet : forall p n a, quiet (fun s => h_next (snd s)) (ai_free AI p n a);
  nm_alloc : forall sz n a s,
    match ai_alloc AI sz n a s with
    | Ok _ s' => h_next (snd s) < h_next (snd s') /\
        (n <> 0%Z /\ ai_alloc AI' sz n a s = Ok Null s \/ ai_alloc AI' sz n a s = UB)
    | Panic s' => h_next (snd s') = h_next (snd s) /\ ai_alloc AI' sz n a s = Panic s'
    | UB => True
    end
}.

Lemma default_free_quiet {C} p n a : quiet (fun s => h_next (snd s)) (@default_free C p n a).
Proof.
  intros [u h]. unfold default_free. destruct (layout_ok n a); [|done].
  cbn. destruct (hfree h p n a) eqn:E; [|done]. cbn. by eapply hfree_next.
Qed.
Lemma default_no_memory C : no_memory (DefaultAllocator C) (OutOfMemory C).
Proof.
  split; [done|apply default_free_quiet|]. intros sz n a [u h]. cbn. unfold default_alloc, failed_alloc.
  destruct (Z.eqb_spec n 0); [done|]. unfold layout_ok. destruct (Z.leb_spec n (isize_max + 1 - a)); [|done].
  cbn. split; [lia|]. by left.
Qed.
Lemma nt_no_memory {A} (AI AI' : AllocImpl A Z) chk : no_memory AI AI' ->
  no_memory (NullTerminatorAllocator AI chk) (NullTerminatorAllocator AI' chk).
Proof.
  intros [F Q N]. split.
  - cbn. unfold nt_free. by rewrite F.
  - intros p n a. cbn. unfold nt_free. quiets.
  - intros sz n a s. cbn. unfold nt_alloc.
    pose proof (quiet_usize (fun s : A * heap Z => h_next (snd s)) chk (n + 1) s) as QU.
    unfold bind. destruct (usize chk (n + 1) s) as [b s1|s1|]; [|done|done].
    specialize (N sz (Z.of_nat b) a s1). destruct (ai_alloc AI sz (Z.of_nat b) a s1) as [p s2|s2|] eqn:E; [| |done].
    + cbn. destruct N as [L N]. destruct (hadd (snd s2) p (Z.to_nat n)) as [q|]; [|done]. cbn.
      destruct (hstore (snd s2) q 0%Z) as [h|] eqn:ES; [|done]. cbn. apply hstore_next in ES. split; [lia|]. right.
      destruct N as [[_ ->]| ->]; [|done]. cbn. by destruct (Z.to_nat n).
    + destruct N as [E1 ->]. split; [congruence|done].
Qed.

Section vector.
Context {A T : Type}.
Variables AI AI' : AllocImpl A T.
Hypothesis NM : no_memory AI AI'.
Variables (sz al : Z) (chk nd : bool) (clone : T -> option T).
Notation st := (vstate A T).
Notation quiet := (quiet (@st_next A T)).
Notation sim := (sim (@st_next A T)).

Lemma quiet_on_heap (f : heap T -> option (heap T)) : (forall h h', f h = Some h' -> h_next h' = h_next h) -> quiet (on_heap f).
Proof using.
  intros F s. unfold on_heap, bind, gets, or_ub. destruct (f (st_h s)) as [h|] eqn:E; [|done]. cbn. by apply F.
Qed.
Lemma quiet_from_heap {B} (f : heap T -> option B) : quiet (from_heap f).
Proof using. unfold from_heap. quiets. Qed.
Lemma quiet_set_v v : quiet (set_v v).
Proof using. unfold set_v. quiets. Qed.
Hint Resolve quiet_from_heap quiet_set_v : quiet.
Ltac heaps := try (apply quiet_on_heap; intros ? ?; first [apply hput_next|apply hstore_next|apply hcopy_next]).
Lemma quiet_len : quiet (len sz).
Proof using. unfold len, offset_from. quiets. Qed.
Lemma quiet_capacity : quiet (capacity sz).
Proof using. unfold capacity, offset_from. quiets. Qed.
Hint Resolve quiet_len quiet_capacity : quiet.
Lemma quiet_is_empty : quiet (is_empty sz).
Proof using. unfold is_empty. quiets. Qed.
Lemma quiet_is_full : quiet (is_full sz).
Proof using. unfold is_full. quiets. Qed.
Lemma quiet_as_slice : quiet (as_slice sz).
Proof using. unfold as_slice. quiets. Qed.
Lemma quiet_drop_place p : quiet (drop_place nd p).
Proof using. unfold drop_place. quiets. heaps. Qed.
Hint Resolve quiet_is_empty quiet_is_full quiet_as_slice quiet_drop_place : quiet.
Lemma quiet_drop_places n : forall p, quiet (drop_places nd p n).
Proof using. induction n as [|n IH]; intros p; cbn [drop_places]; quiets. Qed.
Hint Resolve quiet_drop_places : quiet.
Lemma quiet_deallocate p n : quiet (deallocate AI sz al chk p n).
Proof using NM.
  unfold deallocate. quiets. intros s. unfold lift_alloc.
  pose proof (nm_free_quiet _ _ NM p (Z.of_nat x) al (st_a s, st_h s)) as Q.
  by destruct (ai_free AI p (Z.of_nat x) al (st_a s, st_h s)) as [? [a h]|[a h]|].
Qed.
Hint Resolve quiet_deallocate : quiet.
Lemma quiet_clear : quiet (clear AI sz al chk nd).
Proof using NM. unfold clear. quiets. Qed.
Lemma same_deallocate : deallocate AI' sz al chk = deallocate AI sz al chk.
Proof using NM. unfold deallocate. by rewrite (nm_free _ _ NM). Qed.
Lemma same_clear : clear AI' sz al chk nd = clear AI sz al chk nd.
Proof using NM. unfold clear. by rewrite same_deallocate. Qed.
Lemma quiet_clone_from l : forall p, quiet (clone_from_slice nd clone p l).
Proof using. induction l as [|x l IH]; intros p; cbn [clone_from_slice]; quiets. heaps. Qed.
Hint Resolve quiet_clone_from : quiet.

Lemma usize_sz_pos (s : st) n b s' : usize chk (Z.of_nat n * sz) s = Ok b s' -> Z.of_nat b <> 0%Z -> n <> 0 /\ s' = s.
Proof using.
  unfold usize. intros E NE. split.
  - intros ->. rewrite Z.mul_0_l in E. destruct (_ && _); [|destruct chk]; inversion E; subst; by apply NE.
  - destruct (_ && _); [by inversion E|]. destruct chk; by inversion E.
Qed.



Lemma alloc_cases cap (s : st) :
  (exists p s1, allocate AI sz al chk cap s = Ok p s1 /\ st_next s < st_next s1 /\
    (allocate AI' sz al chk cap s = Ok Null s /\ cap <> 0 \/ allocate AI' sz al chk cap s = UB)) \/
  (exists s1, allocate AI sz al chk cap s = Panic s1 /\ st_next s1 = st_next s /\ allocate AI' sz al chk cap s = Panic s1) \/
  allocate AI sz al chk cap s = UB.
Proof using NM.
  unfold allocate, bind. pose proof (quiet_usize (@st_next A T) chk (Z.of_nat cap * sz) s) as QU.
  destruct (usize chk (Z.of_nat cap * sz) s) as [b s1|s1|] eqn:EU; [|right; left; by exists s1|by right; right].
  pose proof (usize_sz_pos _ _ _ _ EU) as PO. pose proof (nm_alloc _ _ NM sz (Z.of_nat b) al (st_a s1, st_h s1)) as NA.
  unfold lift_alloc. destruct (ai_alloc AI sz (Z.of_nat b) al (st_a s1, st_h s1)) as [p [a h]|[a h]|] eqn:EA; [| |by right; right].
  - left. cbn in NA. destruct NA as [L NA]. eexists _, _. split; [reflexivity|]. unfold st_next in *. cbn in *. split; [lia|].
    destruct NA as [[NB E]|E]; rewrite E; [|by right]. left. destruct (PO NB) as [PC ->]. split; [by destruct s|done].
  - right. left. cbn in NA. destruct NA as [L E]. eexists. split; [reflexivity|]. unfold st_next in *. cbn in *. split; [congruence|].
    by rewrite E.
Qed.

Lemma sim_reserve n : sim (reserve AI sz al chk n) (reserve AI' sz al chk n).
Proof using NM.
  unfold reserve. destruct (n =? 0); [apply sim_quiet; quiets|].
  apply sim_bind; [apply sim_quiet; quiets|intros size]. apply sim_bind; [apply sim_quiet; quiets|intros c].
  apply sim_bind; [apply sim_quiet; quiets|intros cap]. rewrite same_deallocate. intros s.
  set (rest := fun p : ptr => _ : M st unit).
  assert (R : forall p, quiet (rest p)) by (intros p; unfold rest; quiets; heaps).
  change (fun p : ptr => _) with rest.
  assert (RN : cap <> 0 -> rest Null s = UB).
  { intros NC. unfold rest. unfold bind at 1. cbn [gets]. destruct (is_null (v_begin (st_v s))) eqn:EN.
    - unfold bind. cbn. destruct size; cbn; [|done]. by destruct cap.
    - unfold bind. cbn. unfold on_heap, bind, gets, or_ub, hcopy. by destruct (hraw (st_h s) (v_begin (st_v s)) size). }
  unfold bind. destruct (alloc_cases cap s) as [(p & s1 & E & L & N)|[(s1 & E & L & N)|E]]; rewrite E; [| |done].
  - assert (N2 : match allocate AI' sz al chk cap s with Ok a s' => rest a s' | Panic s' => Panic s' | UB => UB end = UB).
    { destruct N as [[-> NC]| ->]; [by apply RN|done]. }
    specialize (R p s1). destruct (rest p s1) as [x s2|s2|]; [| |done]; rewrite N2; (split; [lia|]);
      destruct (Nat.eqb_spec (st_next s2) (st_next s)); try lia; done.
  - rewrite N, L, Nat.eqb_refl. done.
Qed.
Hint Resolve sim_reserve : sim.
Lemma sim_grow : sim (grow AI sz al chk) (grow AI' sz al chk).
Proof using NM. unfold grow, calculate_grow_capacity. sims. Qed.
Hint Resolve sim_grow : sim.
Lemma sim_push x : sim (push AI sz al chk nd x) (push AI' sz al chk nd x).
Proof using NM. unfold push, increment_size. sims. apply sim_quiet. quiets. heaps. Qed.
Lemma sim_insert i x : sim (insert AI sz al chk nd i x) (insert AI' sz al chk nd i x).
Proof using NM. unfold insert, increment_size. sims; apply sim_quiet; quiets; heaps. Qed.
Lemma sim_append l : sim (append AI sz al chk nd clone l) (append AI' sz al chk nd clone l).
Proof using NM. unfold append. sims. Qed.
Lemma sim_assign l : sim (assign AI sz al chk nd clone l) (assign AI' sz al chk nd clone l).
Proof using NM. unfold assign. sims. Qed.
Hint Resolve sim_push sim_insert sim_append sim_assign : sim.
Lemma sim_same {B} (m1 m2 : M st B) : m2 = m1 -> quiet m1 -> sim m1 m2.
Proof using. intros ->. apply sim_quiet. Qed.
Lemma sim_exec c : sim (exec AI sz al chk nd clone c) (exec AI' sz al chk nd clone c).
Proof using NM.
  destruct c; cbn [exec]; rewrite ?same_clear; try solve [sims].
  - apply sim_quiet. unfold pop, decrement_size. quiets.
  - apply sim_quiet. unfold remove, decrement_size. quiets. heaps.
  - apply sim_quiet. quiets. apply quiet_clear.
  - apply sim_quiet. unfold index_set. quiets. heaps.
  - apply sim_quiet. unfold swap. quiets; heaps.
Qed.
Lemma sim_build m1 m2 : sim m1 m2 -> sim (build AI sz al chk nd m1) (build AI' sz al chk nd m2).
Proof using NM.
  intros H s. unfold build. specialize (H (VState new_in (st_a s) (st_h s) (st_drops s))).
  destruct (m1 _) as [x s'|s'|]; [| |done]; destruct H as [L E]; rewrite E; unfold st_next in *; cbn [st_h] in *.
  - split; [done|]. by destruct (Nat.eqb_spec (h_next (st_h s')) (h_next (st_h s))).
  - rewrite same_clear. pose proof (quiet_clear s') as Q. unfold st_next in Q.
    destruct (Nat.eqb_spec (h_next (st_h s')) (h_next (st_h s))) as [EQ|NE].
    + destruct (clear AI sz al chk nd s') as [y s2|s2|]; [|done|done]. cbn [st_h]. rewrite Q. split; [done|].
      by destruct (Nat.eqb_spec (h_next (st_h s')) (h_next (st_h s))).
    + destruct (clear AI sz al chk nd s') as [y s2|s2|]; [|done|done]. cbn [st_h]. rewrite Q. split; [done|].
      by destruct (Nat.eqb_spec (h_next (st_h s')) (h_next (st_h s))).
Qed.
Lemma log_drops_next xs : forall s : st, st_next (log_drops nd xs s) = st_next s.
Proof using. unfold log_drops. induction xs as [|x xs IH]; intros s; [done|]. cbn [fold_left]. rewrite IH. by destruct s. Qed.
Lemma sim_push_all xs : sim (push_all AI sz al chk nd xs) (push_all AI' sz al chk nd xs).
Proof using NM.
  induction xs as [|x xs IH]; cbn [push_all]; [apply sim_quiet; quiets|].
  apply sim_bind; [|by intros ?]. apply sim_unwind; [apply log_drops_next|apply sim_push].
Qed.
Lemma sim_from_iter hint xs : sim (from_iter AI sz al chk nd hint xs) (from_iter AI' sz al chk nd hint xs).
Proof using NM.
  apply sim_build. apply sim_bind; [|intros ?; apply sim_push_all]. apply sim_unwind; [apply log_drops_next|apply sim_reserve].
Qed.
Lemma sim_from_in l : sim (from_in AI sz al chk nd clone l) (from_in AI' sz al chk nd clone l).
Proof using NM. apply sim_build, sim_assign. Qed.
Lemma sim_clone_vec : sim (clone_vec AI sz al chk nd clone) (clone_vec AI' sz al chk nd clone).
Proof using NM. apply sim_bind; [apply sim_quiet, quiet_as_slice|intros l; apply sim_from_in]. Qed.
Lemma sim_with_capacity n : sim (with_capacity AI sz al chk nd n) (with_capacity AI' sz al chk nd n).
Proof using NM. apply sim_build, sim_reserve. Qed.

Lemma w_build_sim (m1 m2 : M st vec) v w a w' : sim m1 m2 -> w_build w (m1 (VState v (w_a w) (w_h w) (w_drops w))) = Some (a, w') ->
  w_build w (m2 (VState v (w_a w) (w_h w) (w_drops w))) = if h_next (w_h w') =? h_next (w_h w) then Some (a, w') else None.
Proof using.
  intros H E. specialize (H (VState v (w_a w) (w_h w) (w_drops w))). unfold w_build, st_next in *. cbn [st_h] in H.
  destruct (m1 _) as [x s'|s'|]; simplify_eq; destruct H as [L ->]; cbn [w_h];
    by destruct (Nat.eqb_spec (h_next (st_h s')) (h_next (w_h w))).
Qed.
Lemma w_step_sim o w a w' : w_step AI sz al chk nd clone o w = Some (a, w') ->
  w_step AI' sz al chk nd clone o w = if h_next (w_h w') =? h_next (w_h w) then Some (a, w') else None.
Proof using NM.
  destruct o as [|n|l|hint xs|i|i c]; cbn [w_step]; intros E.
  - cbn in E. simplify_eq. cbn [w_h]. by rewrite Nat.eqb_refl.
  - by apply (w_build_sim _ _ _ _ _ _ (sim_with_capacity n)).
  - by apply (w_build_sim _ _ _ _ _ _ (sim_from_in l)).
  - by apply (w_build_sim _ _ _ _ _ _ (sim_from_iter hint xs)).
  - destruct (w_vecs w !! i) as [v|]; [|done]. by apply (w_build_sim _ _ _ _ _ _ sim_clone_vec).
  - destruct (w_vecs w !! i) as [v|]; [|done]. unfold step in *.
    pose proof (sim_exec c (VState v (w_a w) (w_h w) (w_drops w))) as H. unfold st_next in H. cbn [st_h] in H.
    destruct (exec AI sz al chk nd clone c _) as [x s'|s'|]; simplify_eq; destruct H as [L ->]; cbn [w_h];
      by destruct (Nat.eqb_spec (h_next (st_h s')) (h_next (w_h w))).
Qed.
End vector.
#[local] Hint Resolve quiet_from_heap quiet_set_v quiet_len quiet_capacity quiet_is_empty quiet_is_full quiet_as_slice : quiet.
#[local] Hint Resolve sim_reserve sim_insert sim_append : sim.

Section string.
Context {A : Type}.
Variables AI AI' : AllocImpl A Z.
Hypothesis NM : no_memory AI AI'.
Variable chk : bool.
Notation st := (vstate A Z).
Notation quiet := (quiet (@st_next A Z)).
Notation sim := (sim (@st_next A Z)).
Local Notation NT := (NullTerminatorAllocator AI chk).
Local Notation NT' := (NullTerminatorAllocator AI' chk).
Lemma NN : no_memory NT NT'.
Proof using NM. by apply nt_no_memory. Qed.
Hint Resolve NN : sim.
Lemma quiet_null_terminate : quiet (@null_terminate A).
Proof using. unfold null_terminate. quiets. apply quiet_on_heap. intros ? ?. apply hstore_next. Qed.
Hint Resolve quiet_null_terminate : quiet.
Lemma sim_s_reserve n : sim (s_reserve AI chk n) (s_reserve AI' chk n).
Proof using NM. unfold s_reserve. sims. Qed.
Hint Resolve sim_s_reserve : sim.
Lemma sim_s_assign l : sim (s_assign AI chk l) (s_assign AI' chk l).
Proof using NM. unfold s_assign. sims. Qed.
Lemma sim_s_insert i x : sim (s_insert AI chk i x) (s_insert AI' chk i x).
Proof using NM. unfold s_insert. sims. Qed.
Hint Resolve sim_s_assign sim_s_insert : sim.
Lemma sim_s_exec c : sim (s_exec AI chk c) (s_exec AI' chk c).
Proof using NM.
  destruct c; cbn [s_exec]; try solve [sims].
  - unfold s_push. sims.
  - apply sim_quiet. unfold s_pop, pop, decrement_size. quiets.
  - apply sim_quiet. unfold s_remove, remove, decrement_size. quiets. apply quiet_on_heap. intros ? ?. apply hcopy_next.
  - rewrite (same_clear _ _ NN). apply sim_quiet. quiets. apply (quiet_clear _ _ NN).
  - apply sim_quiet. unfold s_bytes. quiets.
  - apply sim_quiet. unfold s_hash, s_bytes. quiets.
Qed.
Lemma s_build_sim (m1 m2 : M st vec) v w a w' : sim m1 m2 -> s_build w (m1 (VState v (w_a w) (w_h w) (w_drops w))) = Some (a, w') ->
  s_build w (m2 (VState v (w_a w) (w_h w) (w_drops w))) = if h_next (w_h w') =? h_next (w_h w) then Some (a, w') else None.
Proof using.
  intros H E. specialize (H (VState v (w_a w) (w_h w) (w_drops w))). unfold s_build, st_next in *. cbn [st_h] in H.
  destruct (m1 _) as [x s'|s'|]; simplify_eq; destruct H as [L ->]; cbn [w_h];
    by destruct (Nat.eqb_spec (h_next (st_h s')) (h_next (w_h w))).
Qed.
Lemma s_wstep_sim o w a w' : s_wstep AI chk o w = Some (a, w') ->
  s_wstep AI' chk o w = if h_next (w_h w') =? h_next (w_h w) then Some (a, w') else None.
Proof using NM.
  destruct o as [|n|l|i|i j|i c]; cbn [s_wstep]; intros E.
  - cbn in E. simplify_eq. cbn [w_h]. by rewrite Nat.eqb_refl.
  - by apply (s_build_sim _ _ _ _ _ _ (sim_with_capacity _ _ NN 1 1 chk false n)).
  - by apply (s_build_sim _ _ _ _ _ _ (sim_build _ _ NN 1 1 chk false _ _ (sim_s_assign l))).
  - destruct (w_vecs w !! i) as [v|]; [|done]. by apply (s_build_sim _ _ _ _ _ _ (sim_clone_vec _ _ NN 1 1 chk false Some)).
  - destruct (w_vecs w !! i) as [v|]; [|done]. destruct (w_vecs w !! j) as [v'|]; [|done].
    destruct (s_bytes _) as [xs ?|?|]; [|done|done]. destruct (s_bytes _) as [ys ?|?|]; [|done|done]. simplify_eq. by rewrite Nat.eqb_refl.
  - destruct (w_vecs w !! i) as [v|]; [|done]. unfold s_step in *.
    pose proof (sim_s_exec c (VState v (w_a w) (w_h w) (w_drops w))) as H. unfold st_next in H. cbn [st_h] in H.
    destruct (s_exec AI chk c _) as [x s'|s'|]; simplify_eq; destruct H as [L ->]; cbn [w_h];
      by destruct (Nat.eqb_spec (h_next (st_h s')) (h_next (w_h w))).
Qed.
End string.

(** ** Allocation steps *)
Section alloc.
Context {S : Type}.
Variable nx : S -> nat.
Definition alloc_pair (a1 a2 : M S ptr) : Prop := forall s,
  (exists p s1, a1 s = Ok p s1 /\ nx s < nx s1 /\ is_null p = false /\ a2 s = Ok Null s) \/ (a1 s = Panic s /\ a2 s = Panic s).
Lemma sim_alloc {B} a1 a2 (k1 k2 : ptr -> M S B) : alloc_pair a1 a2 -> (forall p, quiet nx (k1 p)) -> (forall s, k2 Null s = UB) ->
  sim nx (bind a1 k1) (bind a2 k2).
Proof using.
  intros AP Q N s. unfold bind. destruct (AP s) as [(p & s1 & E & L & _ & E2)|[E E2]]; rewrite E, E2.
  - specialize (Q p s1). destruct (k1 p s1) as [x s2|s2|]; [| |done]; rewrite N; (split; [lia|]);
      destruct (Nat.eqb_spec (nx s2) (nx s)); try lia; done.
  - by rewrite Nat.eqb_refl.
Qed.
Lemma sim_node {A B} f (m1 m2 : M S A) a1 a2 (k : A * ptr -> M S B) : alloc_pair a1 a2 -> sim nx m1 m2 ->
  (forall s, nx (f s) = nx s) -> (forall p, quiet nx (k p)) -> (forall t s, k (t, Null) s = UB) ->
  sim nx (bind (on_unwind f (bind m1 (fun t => bind a1 (fun n => ret (t, n))))) k)
         (bind (on_unwind f (bind m2 (fun t => bind a2 (fun n => ret (t, n))))) k).
Proof using.
  intros AP H F Q N s. unfold bind, on_unwind, ret. specialize (H s). destruct (m1 s) as [t s0|s0|]; [| |done]; destruct H as [L0 E0]; rewrite E0.
  - destruct (AP s0) as [(p & s1 & E & L & _ & E2)|[E E2]]; rewrite E.
    + assert (E3 : match match match (if nx s0 =? nx s then Ok t s0 else UB) with
                   | Ok a s' => match a2 s' with Ok a0 s'0 => Ok (a, a0) s'0 | Panic s'0 => Panic s'0 | UB => UB end
                   | Panic s' => Panic s' | UB => UB end with Ok a s0 => Ok a s0 | Panic s' => Panic (f s') | UB => UB end with
                   | Ok a s' => k a s' | Panic s' => Panic s' | UB => UB end = UB).
      { destruct (nx s0 =? nx s); [|done]. rewrite E2. apply N. }
      specialize (Q (t, p) s1). destruct (k (t, p) s1) as [x s2|s2|]; [| |done]; rewrite E3; (split; [lia|]);
        destruct (Nat.eqb_spec (nx s2) (nx s)); try lia; done.
    + rewrite F. split; [done|]. destruct (Nat.eqb_spec (nx s0) (nx s)); [|done]. by rewrite E2.
  - rewrite F. split; [done|]. by destruct (Nat.eqb_spec (nx s0) (nx s)).
Qed.
End alloc.

(** ** Hash tables *)
Definition t_next {K V} (s : tstate K V) : nat := h_next (t_h s).
Section hash.
Context {K V : Type}.
Variables (nsz nal : Z) (eb : nat) (chk : bool) (hash : K -> Z) (eqb : K -> K -> bool).
Local Notation tstate := (tstate K V).
Local Notation OOM := (OutOfMemory (tcell K V)).
Notation quiet := (quiet (@t_next K V)).
Notation sim := (sim (@t_next K V)).

Lemma t_alloc_pair sz al n : alloc_pair (@t_next K V) (HashTable.allocate sz al n) (t_allocate OOM sz al n).
Proof using.
  intros s. unfold HashTable.allocate, t_allocate. cbn. unfold default_alloc, failed_alloc.
  destruct (n * sz =? 0)%Z; [by right|]. destruct (layout_ok (n * sz) al); [|by right].
  left. cbn. eexists _, _. split; [reflexivity|]. unfold t_next. cbn. split; [lia|]. split; [done|]. by destruct s.
Qed.
Lemma t_quiet_deallocate p sz al n : quiet (HashTable.deallocate p sz al n).
Proof using.
  intros s. unfold HashTable.deallocate. pose proof (default_free_quiet p (n * sz) al (tt, t_h s)) as Q.
  by destruct (default_free p (n * sz) al (tt, t_h s)) as [? [a h]|[a h]|].
Qed.
Lemma t_quiet_store p c : quiet (HashTable.store eb p c).
Proof using.
  intros s. unfold HashTable.store, bind, gets. destruct p as [|b o]; [done|]. destruct (b =? eb); [done|].
  destruct (hstore (t_h s) (Ptr b o) c) as [h|] eqn:E; [|done]. cbn. by eapply hstore_next.
Qed.
Hint Resolve t_quiet_deallocate t_quiet_store : quiet.
Lemma t_quiet_write p q : quiet (write_slot eb p q).
Proof using. apply t_quiet_store. Qed.
Lemma t_quiet_read p : quiet (read_slot p).
Proof using. unfold read_slot. quiets. Qed.
Lemma t_quiet_node p : quiet (node_at p).
Proof using. unfold node_at. quiets. Qed.
Hint Resolve t_quiet_write t_quiet_read t_quiet_node : quiet.
Lemma t_quiet_slot k : quiet (bucket_for_key hash k).
Proof using. unfold bucket_for_key, bucket_index. quiets. Qed.
Lemma t_quiet_slot_mut k : quiet (bucket_for_key_mut hash k).
Proof using. unfold bucket_for_key_mut, bucket_index. quiets. Qed.
Lemma t_quiet_find_in f : forall p k, quiet (find_in_bucket eqb f p k).
Proof using. induction f as [|f IH]; intros p k; cbn [find_in_bucket]; quiets. Qed.
Lemma t_quiet_find p k : quiet (find_from eqb p k).
Proof using. unfold find_from. quiets. apply t_quiet_find_in. Qed.
Lemma t_quiet_drop l : quiet (HashTable.drop_all l).
Proof using. unfold HashTable.drop_all. quiets. Qed.
Hint Resolve t_quiet_slot t_quiet_slot_mut t_quiet_find t_quiet_drop : quiet.
Lemma t_quiet_for {A} (l : list A) f : (forall x, quiet (f x)) -> quiet (for_each l f).
Proof using. intros H. induction l as [|x l IH]; cbn [for_each]; quiets. Qed.
Lemma t_quiet_free_bucket f : forall p, quiet (free_bucket nsz nal f p).
Proof using. induction f as [|f IH]; intros p; cbn [free_bucket]; quiets. Qed.
Hint Resolve t_quiet_free_bucket : quiet.
Lemma t_quiet_free_buckets : quiet (free_buckets nsz nal eb).
Proof using. unfold free_buckets. quiets; apply t_quiet_for; intros ?; quiets. Qed.
Hint Resolve t_quiet_free_buckets : quiet.
Lemma t_quiet_rehash_bucket f : forall nb bc p, quiet (rehash_bucket eb hash f nb bc p).
Proof using. induction f as [|f IH]; intros nb bc p; cbn [rehash_bucket]; unfold bucket_index; quiets. Qed.
Hint Resolve t_quiet_rehash_bucket : quiet.
Lemma t_quiet_set_buckets p n : quiet (set_buckets p n).
Proof using. unfold set_buckets. quiets. Qed.
Lemma t_quiet_set_ec n : quiet (set_ec n).
Proof using. unfold set_ec. quiets. Qed.
Hint Resolve t_quiet_set_buckets t_quiet_set_ec : quiet.
Lemma t_quiet_required : quiet (rehash_required chk).
Proof using. intros s. unfold rehash_required. by destruct (RehashPolicy.get_rehash_required _ _ _ _ _). Qed.
Hint Resolve t_quiet_required : quiet.
Lemma sim_rehash bc : sim (rehash nsz nal eb chk hash bc) (rehash_in OOM nsz nal eb chk hash bc).
Proof using.
  unfold rehash, rehash_in. apply sim_bind; [apply sim_quiet; quiets|intros n]. apply sim_alloc; [apply t_alloc_pair| |done].
  intros p. quiets; apply t_quiet_for; intros ?; quiets.
Qed.
Hint Resolve sim_rehash : sim.
Lemma sim_insert_impl t k v : sim (insert_impl nsz nal eb chk hash t k v) (insert_impl_in OOM nsz nal eb chk hash t k v).
Proof using.
  unfold insert_impl, insert_impl_in.
  eapply sim_ext; [| |apply (sim_node _ (HashTable.logged [inr v; inl k])
    (bind (rehash_required chk) (fun o => match o with Some bc => run rehash nsz nal eb chk hash bc; bucket_for_key_mut hash k | None => ret t end))
    (bind (rehash_required chk) (fun o => match o with Some bc => run rehash_in OOM nsz nal eb chk hash bc; bucket_for_key_mut hash k | None => ret t end))
    (HashTable.allocate nsz nal 1) (t_allocate OOM nsz nal 1)
    (fun tn => let '(target, node) := tn in
       do nx <- read_slot target; run HashTable.store eb node (TNode k v nx); run write_slot eb target node;
       do s <- gets id; do ec <- u32 chk (t_ec s + 1); run set_ec ec; ret node))].
  - intros s. unfold bind, on_unwind. by destruct (rehash_required chk s).
  - intros s. unfold bind, on_unwind. by destruct (rehash_required chk s).
  - apply t_alloc_pair.
  - sims.
  - by intros [].
  - intros p. quiets.
  - intros p s. unfold read_slot, bind, gets. by destruct (hload (t_h s) p) as [[]|].
Qed.
Hint Resolve sim_insert_impl : sim.
Lemma sim_t_insert k v : sim (HashTable.insert nsz nal eb chk hash eqb k v) (insert_in OOM nsz nal eb chk hash eqb k v).
Proof using. unfold HashTable.insert, insert_in. sims. Qed.
Hint Resolve sim_t_insert : sim.
Lemma sim_or_insert_with e v : sim (or_insert_with nsz nal eb chk hash e v) (or_insert_with_in OOM nsz nal eb chk hash e v).
Proof using. unfold or_insert_with, or_insert_with_in. sims. Qed.
Hint Resolve sim_or_insert_with : sim.
Lemma sim_or_insert e v : sim (or_insert nsz nal eb chk hash e v) (or_insert_in OOM nsz nal eb chk hash e v).
Proof using. unfold or_insert, or_insert_in. sims. Qed.
Hint Resolve sim_or_insert : sim.
Lemma t_quiet_entry_mod k f : quiet (entry_mod eb hash eqb k f).
Proof using. unfold entry_mod, entry, and_modify. quiets. Qed.
Hint Resolve t_quiet_entry_mod : quiet.
Lemma sim_insert_all l : sim (insert_all nsz nal eb chk hash eqb l) (insert_all_in OOM nsz nal eb chk hash eqb l).
Proof using. induction l as [|[k v] l IH]; cbn [insert_all insert_all_in]; sims. Qed.
Hint Resolve sim_insert_all : sim.
Lemma t_quiet_place a : quiet (HashTable.read_place a).
Proof using. unfold HashTable.read_place. quiets. Qed.
Lemma t_quiet_wplace a q : quiet (HashTable.write_place eb a q).
Proof using. unfold HashTable.write_place. quiets. Qed.
Hint Resolve t_quiet_place t_quiet_wplace : quiet.
Lemma t_quiet_find_place f : forall a k, quiet (find_place eqb f a k).
Proof using. induction f as [|f IH]; intros a k; cbn [find_place]; quiets. Qed.
Hint Resolve t_quiet_find_place : quiet.
Lemma t_quiet_remove_entry k : quiet (remove_entry nsz nal eb chk hash eqb k).
Proof using. unfold remove_entry. quiets. Qed.
Hint Resolve t_quiet_remove_entry : quiet.
Lemma t_quiet_next_bucket n : forall p, quiet (next_bucket p n).
Proof using. induction n as [|n IH]; intros p; cbn [next_bucket]; quiets. Qed.
Hint Resolve t_quiet_next_bucket : quiet.
Lemma t_quiet_iter : quiet HashTable.iter.
Proof using. unfold HashTable.iter. quiets. Qed.
Lemma t_quiet_next it : quiet (HashTable.iter_next it).
Proof using. unfold HashTable.iter_next. quiets. Qed.
Hint Resolve t_quiet_iter t_quiet_next : quiet.
Lemma t_quiet_iter_all f : forall it, quiet (HashTable.iter_all f it).
Proof using. induction f as [|f IH]; intros it; cbn [HashTable.iter_all]; quiets. Qed.
Lemma t_quiet_iter_mut f g : forall it, quiet (HashTable.iter_mut_all eb f g it).
Proof using. induction f as [|f IH]; intros it; cbn [HashTable.iter_mut_all]; quiets. Qed.
Hint Resolve t_quiet_iter_all t_quiet_iter_mut : quiet.
Lemma sim_h_call c : sim (h_call nsz nal eb chk hash eqb c) (h_call_in OOM nsz nal eb chk hash eqb c).
Proof using.
  destruct c; cbn [h_call h_call_in]; try solve [sims]; apply sim_quiet.
  - unfold HashTable.get. quiets.
  - unfold contains_key, HashTable.get. quiets.
  - unfold get_mut_set. quiets.
  - unfold HashTable.remove. quiets.
  - unfold drop_entry. quiets.
  - unfold HashTable.len. quiets.
  - unfold HashTable.is_empty. quiets.
  - unfold HashTable.clear. quiets.
Qed.
End hash.

(** ** Deques *)
Definition d_next {T} (s : dstate T) : nat := h_next (d_h s).
Lemma hput_hadd {C} (h : heap C) q vs h' p n : hput h q vs = Some h' -> hadd h' p n = hadd h p n /\ hsub h' p n = hsub h p n.
Proof.
  unfold hput. intros E. destruct q as [|b o]; [done|]. destruct (h_blk h !! b) as [bk|] eqn:EB; [|done].
  destruct (o + length vs <=? length (bk_cells bk)) eqn:EL; [|done]. simplify_eq. destruct p as [|b' o']; [done|].
  unfold hadd, hsub, cells_of. cbn. destruct (decide (b = b')) as [->|NE]; [|by rewrite lookup_insert_ne].
  rewrite lookup_insert, EB. cbn.
  assert (L : length (take o (bk_cells bk) ++ vs ++ drop (o + length vs) (bk_cells bk)) = length (bk_cells bk)).
  { rewrite !app_length, take_length, drop_length. lia. }
  by rewrite L.
Qed.
Lemma hstore_hload {C} (h : heap C) p c h' : hstore h p c = Some h' -> hload h' p = Some c.
Proof.
  unfold hstore, hput. intros E. destruct p as [|b o]; [done|]. destruct (h_blk h !! b) as [bk|] eqn:EB; [|done].
  destruct (Nat.leb_spec (o + length [Some c]) (length (bk_cells bk))); [|done]. simplify_eq.
  unfold hload, cells_of. cbn. rewrite lookup_insert. cbn in *. rewrite lookup_app_r; rewrite take_length; [|lia].
  by replace (o - _) with 0 by lia.
Qed.
Section deque.
Context {T : Type}.
Variables (sz al : Z) (chk : bool).
Local Notation dstate := (dstate T).
Local Notation OOM := (OutOfMemory (dcell T)).
Notation quiet := (quiet (@d_next T)).
Notation sim := (sim (@d_next T)).
Lemma d_alloc_pair csz cal n : alloc_pair (@d_next T) (Deque.allocate csz cal n) (d_allocate OOM csz cal n).
Proof using.
  intros s. unfold Deque.allocate, d_allocate. cbn. unfold default_alloc, failed_alloc.
  destruct (n * csz =? 0)%Z; [by right|]. destruct (layout_ok (n * csz) cal); [|by right].
  left. cbn. eexists _, _. split; [reflexivity|]. unfold d_next. cbn. split; [lia|]. split; [done|]. by destruct s.
Qed.
Lemma d_quiet_deallocate p csz cal n : quiet (Deque.deallocate p csz cal n).
Proof using.
  intros s. unfold Deque.deallocate. pose proof (default_free_quiet p (n * csz) cal (tt, d_h s)) as Q.
  by destruct (default_free p (n * csz) cal (tt, d_h s)) as [? [a h]|[a h]|].
Qed.
Lemma d_quiet_put (f : heap (dcell T) -> option (heap (dcell T))) : (forall h h', f h = Some h' -> h_next h' = h_next h) ->
  quiet (do h <- gets d_h; do h' <- or_ub (f h); Deque.set_h h').
Proof using. intros F s. unfold bind, gets, or_ub. destruct (f (d_h s)) as [h|] eqn:E; [|done]. cbn. by apply F. Qed.
Lemma d_quiet_store p c : quiet (Deque.store p c).
Proof using. apply (d_quiet_put (fun h => hstore h p c)). intros h h'. apply hstore_next. Qed.
Lemma d_quiet_read_ptr p : quiet (@read_ptr T p).
Proof using. unfold read_ptr. quiets. Qed.
Lemma d_quiet_read_elem p : quiet (@read_elem T p).
Proof using. unfold read_elem. quiets. Qed.
Lemma d_quiet_add p n : quiet (@Deque.add T p n).
Proof using. unfold Deque.add. quiets. Qed.
Lemma d_quiet_sub p n : quiet (@Deque.sub T p n).
Proof using. unfold Deque.sub. quiets. Qed.
Lemma d_quiet_set_arr p n : quiet (@set_arr T p n).
Proof using. unfold set_arr. quiets. Qed.
Lemma d_quiet_set_b i : quiet (@set_b T i).
Proof using. unfold set_b. quiets. Qed.
Lemma d_quiet_set_e i : quiet (@set_e T i).
Proof using. unfold set_e. quiets. Qed.
Hint Resolve d_quiet_deallocate d_quiet_store d_quiet_read_ptr d_quiet_read_elem d_quiet_add d_quiet_sub d_quiet_set_arr d_quiet_set_b d_quiet_set_e : quiet.
Lemma d_quiet_set_subarray i p : quiet (@set_subarray T sz i p).
Proof using. unfold set_subarray. quiets. Qed.
Lemma d_quiet_free_arr : quiet (@free_ptr_array T).
Proof using. unfold free_ptr_array. quiets. Qed.
Lemma d_quiet_free_sub p : quiet (@free_subarray T sz al p).
Proof using. unfold free_subarray. quiets. Qed.
Hint Resolve d_quiet_set_subarray d_quiet_free_arr d_quiet_free_sub : quiet.
Lemma d_quiet_copy p n a b c : quiet (@copy_within T p n a b c).
Proof using.
  unfold copy_within. destruct (_ && _); [|quiets]. apply quiet_bind; [quiets|intros q]. apply quiet_bind; [quiets|intros r].
  apply (d_quiet_put (fun h => hcopy h q r (b - a))). intros h h'. apply hcopy_next.
Qed.
Hint Resolve d_quiet_copy : quiet.
Lemma set_subarray_null (s s1 : dstate) i slot : Deque.store slot (DPtr Null) s = Ok tt s1 -> set_subarray sz i slot s1 = UB.
Proof using.
  unfold Deque.store, bind, gets, or_ub. destruct (hstore (d_h s) slot (DPtr Null)) as [h|] eqn:E; [|done].
  unfold Deque.set_h, modify, ret. intros E1. inversion E1; subst; clear E1. unfold set_subarray, read_ptr, bind, gets. cbn. rewrite (hstore_hload _ _ _ _ E). cbn.
  assert (NZ : subarray_size sz <> 0) by (unfold subarray_size; repeat case_match; lia).
  by destruct (subarray_size sz).
Qed.
Lemma store_inv (s s1 : dstate) slot c : Deque.store slot c s = Ok tt s1 ->
  (forall p n, Deque.add p n s1 = match hadd (d_h s) p n with Some q => Ok q s1 | None => UB end) /\
  (forall p n, Deque.sub p n s1 = match hsub (d_h s) p n with Some q => Ok q s1 | None => UB end).
Proof using.
  unfold Deque.store, bind, gets, or_ub. destruct (hstore (d_h s) slot c) as [h|] eqn:E; [|done].
  unfold Deque.set_h, modify, ret. intros E1. inversion E1; subst; clear E1. split; intros p n; unfold Deque.add, Deque.sub, bind, gets; cbn;
    destruct (hput_hadd _ _ _ _ p n E) as [E1 E2]; rewrite ?E1, ?E2; by case_match.
Qed.
Lemma sim_ptr_array n : sim (@allocate_ptr_array T n) (ptr_array_in OOM n).
Proof using.
  intros s. unfold allocate_ptr_array, ptr_array_in, bind.
  destruct (d_alloc_pair 8 8 n s) as [(p & s1 & E & L & _ & E2)|[E E2]]; rewrite E, E2; cbn.
  - split; [lia|]. destruct (Nat.eqb_spec (d_next s1) (d_next s)); [lia|done].
  - by rewrite Nat.eqb_refl.
Qed.
Hint Resolve sim_ptr_array : sim.

Lemma null_slot_ub (p : ptr) (k : nat) i (K : dit -> M dstate unit) (s : dstate) :
  (do slot <- Deque.add p k; run Deque.store slot (DPtr Null); do a <- Deque.add p k; do e <- set_subarray sz i a; K e) s = UB.
Proof using.
  unfold bind at 1. unfold Deque.add at 1, bind at 1, gets. destruct (hadd (d_h s) p k) as [slot|] eqn:EH; [|done]. cbn [or_ub ret].
  unfold bind at 1. destruct (Deque.store slot (DPtr Null) s) as [[] s1|s1|] eqn:ES; [| |done].
  - unfold bind at 1. rewrite (proj1 (store_inv _ _ _ _ ES)), EH. unfold bind. by rewrite (set_subarray_null _ _ _ _ ES).
  - unfold Deque.store, bind, gets, or_ub in ES. by destruct (hstore (d_h s) slot (DPtr Null)).
Qed.
Lemma null_slot_sub (p : ptr) (k : nat) i (K : dit -> M dstate unit) (s : dstate) :
  (do slot <- Deque.sub p k; run Deque.store slot (DPtr Null); do a <- Deque.sub p k; do e <- set_subarray sz i a; K e) s = UB.
Proof using.
  unfold bind at 1. unfold Deque.sub at 1, bind at 1, gets. destruct (hsub (d_h s) p k) as [slot|] eqn:EH; [|done]. cbn [or_ub ret].
  unfold bind at 1. destruct (Deque.store slot (DPtr Null) s) as [[] s1|s1|] eqn:ES; [| |done].
  - unfold bind at 1. rewrite (proj2 (store_inv _ _ _ _ ES)), EH. unfold bind. by rewrite (set_subarray_null _ _ _ _ ES).
  - unfold Deque.store, bind, gets, or_ub in ES. by destruct (hstore (d_h s) slot (DPtr Null)).
Qed.

Lemma sim_put {B} (f : heap (dcell T) -> option (heap (dcell T))) (k1 k2 : M dstate B) : (forall h h', f h = Some h' -> h_next h' = h_next h) ->
  sim k1 k2 -> sim (do h <- gets d_h; do h' <- or_ub (f h); run Deque.set_h h'; k1) (do h <- gets d_h; do h' <- or_ub (f h); run Deque.set_h h'; k2).
Proof using.
  intros F H. apply (sim_ext _ _ _ (bind (do h <- gets d_h; do h' <- or_ub (f h); Deque.set_h h') (fun _ => k1))
    (bind (do h <- gets d_h; do h' <- or_ub (f h); Deque.set_h h') (fun _ => k2))).
  - intros s. unfold bind, gets, or_ub. by destruct (f (d_h s)).
  - intros s. unfold bind, gets, or_ub. by destruct (f (d_h s)).
  - apply sim_bind; [apply sim_quiet, d_quiet_put, F|by intros _].
Qed.
Lemma quiet_put {B} (f : heap (dcell T) -> option (heap (dcell T))) (k : M dstate B) : (forall h h', f h = Some h' -> h_next h' = h_next h) ->
  quiet k -> quiet (do h <- gets d_h; do h' <- or_ub (f h); run Deque.set_h h'; k).
Proof using.
  intros F Q s. pose proof (d_quiet_put f F s) as H. unfold bind, gets, or_ub in *. destruct (f (d_h s)) as [h'|]; [|done].
  cbn in *. specialize (Q (DState (d_arr s) (d_size s) (d_b s) (d_e s) h' (d_drops s))). destruct (k _); congruence.
Qed.
Lemma sim_init : sim (@init T sz al) (init_in OOM sz al).
Proof using.
  unfold init, init_in. cbv zeta. apply sim_bind; [apply sim_quiet; quiets|intros _]. apply sim_bind; [apply sim_ptr_array|intros p].
  apply (sim_put (fun h => hput h p _)); [intros h h'; apply hput_next|].
  apply sim_alloc; [apply d_alloc_pair|intros a; quiets|]. intros s.
  replace (Z.to_nat ((INITIAL_PTR_ARRAY_SIZE - 1) / 2)) with 3 by reflexivity.
  rewrite <- (null_slot_ub p 3 (d_b s) (fun b => run set_b (DIt (di_begin b) (di_begin b) (di_end b) (di_arr b));
    do e <- set_subarray sz (d_e s) (di_arr b);
    run set_e (DIt (di_begin e) (di_begin e) (di_end e) (di_arr e));
    set_arr p INITIAL_PTR_ARRAY_SIZE) s).
  unfold bind at 1. symmetry. unfold bind at 1. destruct (Deque.add p 3 s) as [slot s0|s0|] eqn:E0; [|done|done].
  assert (s0 = s) as -> by (unfold Deque.add, bind, gets, or_ub in E0; destruct (hadd (d_h s) p 3); by inversion E0).
  unfold bind at 1. symmetry. unfold bind at 1. destruct (Deque.store slot (DPtr Null) s) as [[] s1|s1|] eqn:ES; [|done|done].
  unfold bind at 1. symmetry. unfold bind at 1. rewrite (proj1 (store_inv _ _ _ _ ES)).
  assert (EH : hadd (d_h s) p 3 = Some slot) by (unfold Deque.add, bind, gets, or_ub in E0; destruct (hadd (d_h s) p 3); by inversion E0).
  rewrite EH. unfold bind, gets. rewrite !(set_subarray_null _ _ _ _ ES). done.
Qed.
Lemma sim_realloc n f : sim (@realloc_ptr_array T sz chk n f) (realloc_ptr_array_in OOM sz chk n f).
Proof using.
  unfold realloc_ptr_array, realloc_ptr_array_in.
  apply sim_bind; [apply sim_quiet; quiets|intros s]. apply sim_bind; [apply sim_quiet; quiets|intros uf].
  apply sim_bind; [apply sim_quiet; quiets|intros d]. cbv zeta.
  apply sim_bind; [apply sim_quiet; quiets|intros r]. apply sim_bind; [apply sim_quiet; quiets|intros ub_].
  apply sim_bind; [|intros ns; apply sim_quiet; quiets].
  destruct (negb f && (n <=? uf)); [apply sim_quiet; quiets|]. destruct (f && (n <=? ub_)); [apply sim_quiet; quiets|].
  apply sim_bind; [apply sim_quiet; quiets|intros n1]. apply sim_bind; [apply sim_quiet; quiets|intros n2].
  apply sim_bind; [apply sim_ptr_array|intros na]. apply sim_quiet.
  apply quiet_bind; [quiets|intros _]. apply quiet_bind; [quiets|intros t]. apply quiet_bind; [quiets|intros src].
  apply (quiet_put (fun h => hcopy h src t (d + 1))); [intros h h'; apply hcopy_next|quiets].
Qed.
Lemma sim_push_back x : sim (@Deque.push_back T sz al chk x) (push_back_in OOM sz al chk x).
Proof using.
  unfold Deque.push_back, push_back_in. apply sim_bind; [apply sim_quiet; quiets|intros s]. cbv zeta.
  apply sim_bind; [apply sim_quiet; quiets|intros l]. destruct (decide _); [apply sim_quiet; quiets|].
  apply sim_bind.
  { apply sim_unwind; [by intros []|]. apply sim_bind; [apply sim_quiet; quiets|intros k]. apply sim_bind; [apply sim_quiet; quiets|intros p].
    destruct (decide _); [apply sim_realloc|apply sim_quiet; quiets]. }
  intros _. apply sim_bind; [apply sim_quiet; quiets|intros s0]. apply sim_bind; [apply sim_quiet; quiets|intros _].
  apply sim_alloc; [apply d_alloc_pair|intros p; quiets|]. intros s1. apply null_slot_ub.
Qed.
Lemma sim_push_front x : sim (@Deque.push_front T sz al chk x) (push_front_in OOM sz al chk x).
Proof using.
  unfold Deque.push_front, push_front_in. apply sim_bind; [apply sim_quiet; quiets|intros s]. cbv zeta.
  apply sim_bind; [|intros _; apply sim_quiet; quiets]. apply sim_unwind; [by intros []|].
  destruct (decide _); [apply sim_quiet; quiets|].
  apply sim_bind; [destruct (decide _); [apply sim_realloc|apply sim_quiet; quiets]|intros _].
  apply sim_bind; [apply sim_quiet; quiets|intros s0].
  apply sim_alloc; [apply d_alloc_pair|intros p; quiets|]. intros s1.
  apply (null_slot_sub _ _ _ (fun b' => do c <- Deque.sub (di_end b') 1; set_b (DIt c (di_begin b') (di_end b') (di_arr b')))).
Qed.
Hint Resolve sim_push_back sim_push_front : sim.
Lemma d_quiet_iter : quiet (@Deque.iter T).
Proof using. unfold Deque.iter, Deque.from_compat. quiets. Qed.
Lemma d_quiet_next it : quiet (@raw_next T chk it).
Proof using. unfold raw_next. quiets. Qed.
Lemma d_quiet_next_back it : quiet (@raw_next_back T chk it).
Proof using. unfold raw_next_back. quiets. Qed.
Lemma d_quiet_read_opt o : quiet (@read_opt T o).
Proof using. unfold read_opt. quiets. Qed.
Lemma d_quiet_assign o y : quiet (@assign_opt T o y).
Proof using. unfold assign_opt. quiets. Qed.
Lemma d_quiet_len : quiet (@Deque.len T sz).
Proof using. unfold Deque.len. quiets. Qed.
Lemma d_quiet_is_empty : quiet (@Deque.is_empty T).
Proof using. unfold Deque.is_empty. quiets. Qed.
Hint Resolve d_quiet_iter d_quiet_next d_quiet_next_back d_quiet_read_opt d_quiet_assign d_quiet_len d_quiet_is_empty : quiet.
Lemma d_quiet_skip f k : (forall it, quiet (f it)) -> forall it, quiet (@Deque.skip T f k it).
Proof using. intros H. induction k as [|k IH]; intros it; cbn [Deque.skip]; quiets. Qed.
Lemma d_quiet_rotate f k : (forall it, quiet (f it)) -> forall c n, quiet (@rotate T f k c n).
Proof using. intros H. induction k as [|k IH]; intros c n; cbn [rotate]; quiets. Qed.
Lemma d_quiet_for {A} k (body : ptr -> M dstate A) : (forall p, quiet (body p)) -> forall it, quiet (for_iter chk k it body).
Proof using. intros H. induction k as [|k IH]; intros it; cbn [for_iter]; quiets. Qed.
Lemma d_quiet_pop_back : quiet (@Deque.pop_back T sz al).
Proof using. unfold Deque.pop_back. quiets. Qed.
Lemma d_quiet_pop_front : quiet (@Deque.pop_front T sz al).
Proof using. unfold Deque.pop_front. quiets. Qed.
Hint Resolve d_quiet_pop_back d_quiet_pop_front : quiet.
Lemma d_quiet_remove i : quiet (@Deque.remove T sz al chk i).
Proof using.
  unfold Deque.remove. quiets; first [apply d_quiet_skip|apply d_quiet_rotate]; intros ?; quiets.
Qed.
Hint Resolve d_quiet_remove : quiet.
Lemma sim_d_call c : sim (@d_call T sz al chk c) (d_call_in OOM sz al chk c).
Proof using.
  destruct c; cbn [d_call d_call_in]; try solve [sims]; apply sim_quiet.
  - unfold Deque.front. quiets.
  - unfold Deque.back. quiets.
  - unfold front_mut_set. quiets.
  - unfold back_mut_set. quiets.
  - unfold Deque.iter_all. quiets. apply d_quiet_for. intros ?. quiets.
  - unfold Deque.iter_mut_all. quiets. apply d_quiet_for. intros ?. quiets.
Qed.
End deque.

Lemma L_C87_vector_refuted :
exists (prog : list (wop Z)) (o : wop Z) w,
  option_map snd (w_run (DefaultAllocator Z) 4 4 true false Some prog (World [] tt (Heap 0 ∅) [])) = Some w /\
  w_step (DefaultAllocator Z) 4 4 true false Some o w <> None /\ w_step (OutOfMemory Z) 4 4 true false Some o w = None.
Proof.
  exists [WNew; WCall 0 (CPush 1%Z)], (WCall 0 (CPush 2%Z)). eexists. split; [by vm_compute|]. split; by vm_compute.
Qed.

Lemma L_C87_vector_partial :
forall (T : Type) (sz al : Z) (chk nd : bool) (clone : T -> option T) (o : wop T) w a w',
  w_step (DefaultAllocator T) sz al chk nd clone o w = Some (a, w') ->
  w_step (OutOfMemory T) sz al chk nd clone o w = if h_next (w_h w') =? h_next (w_h w) then Some (a, w') else None.
Proof.
  intros T sz al chk nd clone o w a w'. apply w_step_sim, default_no_memory.
Qed.

Lemma L_C87_string_refuted :
exists (o : sop) w,
  s_wstep (DefaultAllocator Z) true o w <> None /\ s_wstep (OutOfMemory Z) true o w = None /\ w = World [] tt (Heap 0 ∅) [].
Proof.
  exists (OFrom [104; 105]%Z). eexists. split; [|split; [|reflexivity]]; by vm_compute.
Qed.

Lemma L_C87_string_partial :
forall (chk : bool) (o : sop) w a w',
  s_wstep (DefaultAllocator Z) chk o w = Some (a, w') ->
  s_wstep (OutOfMemory Z) chk o w = if h_next (w_h w') =? h_next (w_h w) then Some (a, w') else None.
Proof.
  intros chk o w a w'. apply s_wstep_sim, default_no_memory.
Qed.

Lemma L_C87_table_refuted :
exists (prog : list (hcall Z Z)) (c : hcall Z Z) s,
  option_map snd (hx_run prog) = Some s /\ h_call 24 8 0 true hx_hash Z.eqb c s <> UB /\
  h_call_in (OutOfMemory _) 24 8 0 true hx_hash Z.eqb c s = UB.
Proof.
  exists [HInsert 1 10]%Z, (HInsert 2 20)%Z. eexists. split; [by vm_compute|]. split; [|by vm_compute]. intros H. by vm_compute in H.
Qed.

Lemma L_C87_table_partial :
forall (K V : Type) (nsz nal : Z) (eb : nat) (chk : bool) (hash : K -> Z) (eqb : K -> K -> bool) (c : hcall K V) s,
  undefined_iff_needed (fun s => h_next (t_h s)) s (h_call nsz nal eb chk hash eqb c s)
    (h_call_in (OutOfMemory _) nsz nal eb chk hash eqb c s).
Proof.
  intros K V nsz nal eb chk hash eqb c s. apply (sim_spec _ _ _ _ (sim_h_call nsz nal eb chk hash eqb c)).
Qed.

Lemma L_C87_deque_refuted :
exists s : dstate Z, init 8 8 s <> UB /\ init_in (OutOfMemory _) 8 8 s = UB /\ d_h s = Heap 0 ∅.
Proof.
  exists (empty_state (Heap 0 ∅) []). split; [intros H; by vm_compute in H|]. split; by vm_compute.
Qed.

Lemma L_C87_deque_partial :
forall (T : Type) (sz al : Z) (chk : bool) (s : dstate T),
  undefined_iff_needed (fun s => h_next (d_h s)) s (init sz al s) (init_in (OutOfMemory _) sz al s) /\
  forall c, undefined_iff_needed (fun s => h_next (d_h s)) s (d_call sz al chk c s) (d_call_in (OutOfMemory _) sz al chk c s).
Proof.
  intros T sz al chk s. split; [apply (sim_spec _ _ _ _ (sim_init sz al))|].
  intros c. apply (sim_spec _ _ _ _ (sim_d_call sz al chk c)).
Qed.

Lemma L_C87_list :
forall (T : Type) (pick : mem T -> Z -> Z -> Z) (chk : bool) (nsz nal obj : Z) (m0 : mem T) (prog : list (lcall T)) l s x xs,
  ListSetup m0 obj 24 nsz nal -> honest pick -> short prog ->
  built pick false chk nsz nal obj m0 prog l s -> contents chk nsz s xs ->
  pick (l_mem s) nsz nal = 0%Z ->
  forall back : bool,
  exists s', (if back then LinkedList.push_back (DefaultAddrAlloc pick false) chk nsz nal x s
              else LinkedList.push_front (DefaultAddrAlloc pick false) chk nsz nal x s) = Panic s' /\
    contents chk nsz s' xs /\ l_size s' = l_size s /\ l_drops s' = l_drops s ++ [x].
Proof.
  intros T pick chk nsz nal obj m0 prog l s x xs LS HP SH HB HC PK.
  destruct (def_built pick false chk nsz nal obj m0 prog LS HP SH (or_introl eq_refl) l s HB) as (xs' & ps & R & _).
  assert (AO := def_ao' pick false chk nsz nal obj m0 prog LS HP).
  assert (RC := rep_contents _ chk nsz nal obj _ true _ (def_sz _ _ _ _ LS) (ls_align _ _ _ _ _ LS) SH AO).
  assert (xs' = xs) as ->. { pose proof (RC _ _ _ R) as E. unfold contents in *. rewrite HC in E. by injection E. }
  pose proof (list_layout_facts _ _ (ls_node _ _ _ _ _ LS)) as (NL & Z16 & _).
  destruct (default_alloc_ok pick nsz nal (m_live m0) NL HP (l_alloc s) (l_mem s) ps (lr_alloc _ _ _ _ _ _ R)) as (p & m' & E & C & EP).
  destruct C as [(-> & -> & D')|(NE & MP & -> & D')]; [|exfalso; unfold default_alloc_raw in E; cbn [snd fst] in E; rewrite PK in E; revert E; repeat case_match; naive_solver].
  set (s' := LinkedList.logged [x] (LState (l_node s) (l_size s) (l_alloc s) (mem_tick (l_mem s)) (l_drops s))).
  assert (EC : create_node (DefaultAddrAlloc pick false) chk nsz nal x s = Panic s').
  { unfold create_node, bind at 1, on_unwind at 1, in_alloc. unfold AddrMem.allocate, bind at 1. rewrite Z.mul_1_l, usizeZ_ok by lia.
    cbn [aa_alloc DefaultAddrAlloc]. rewrite E. done. }
  assert (R' : LRep obj (Z.of_nat (peak prog 0)) (DI nsz nal m0) s' xs ps).
  { unfold s'. apply rep_logged. destruct R. by split. }
  intros back. exists s'. split; [|split; [by eapply RC|done]].
  destruct back; unfold LinkedList.push_back, LinkedList.push_front, bind at 1; by rewrite EC.
Qed.
