(** Proofs of the properties stated in VectorMapAnyProps.v. *)
From Verif Require Import Base Heap HeapLemmas Alloc AllocContract Vector VectorSpec.
From Verif Require Import VectorMap VectorMapSpec VectorMapAny VectorMapAnySpec.

From Verif Require Import VectorProofs VectorMore VectorMapProofs VectorMapDerived VectorMapAnyProofs.
From Verif Require RBTreeCalls.

Section dflt.
Context {K V : Type}.
Variables sz al : Z.
Hypothesis Hsz : (0 < sz)%Z.
Hypothesis Hal : (0 < al)%Z.
Variables chk nd : bool.
Variables co eo : nat -> K -> K -> option bool.
Notation AI := (DefaultAllocator (K * V)).
Notation AS := (DefaultSpec sz al Hsz Hal).

Lemma empty_block (s : vstate unit (K * V)) xs : Rep AI sz al AS s xs 0 -> frame AI sz al AS s = h_blk (st_h s).
Proof. intros (_ & _ & R). destruct R as [(EV & _)|(b & bk & j & _ & C0 & _)]; [|lia]. unfold frame. rewrite EV. done. Qed.

Lemma clear_any (s : mastate unit K V) xs cap : Rep AI sz al AS (ms_v (fst s)) xs cap ->
  exists s', ma_step AI sz al chk nd co eo MClear s = Some (MUnit, s') /\ h_blk (st_h (ms_v (fst s'))) = frame AI sz al AS (ms_v (fst s)).
Proof.
  intros R. unfold ma_step. cbn [ma_exec]. unfold mlift. cbn [m_exec]. unfold bind, base.
  destruct (clear_ok AI sz al chk nd Hsz AS (ms_v (fst s)) xs cap R) as (v' & EV & (R' & F' & _)). rewrite EV. cbn.
  eexists. split; [done|]. cbn. by rewrite <- (empty_block v' [] R').
Qed.

Lemma new_rep (h : heap (K * V)) : heap_wf h -> Rep AI sz al AS (ms_v (new_map h)) [] 0.
Proof. intros Hh. by apply Rep_new. Qed.
End dflt.

(** With pure functions that never panic. *)
Section pure.
Context {A K V : Type}.
Variable AI : AllocImpl A (K * V).
Variables sz al : Z.
Variable chk nd : bool.
Hypothesis Hsz : (0 < sz)%Z.
Variable AS : AllocSpec AI sz al.
Variables cmp eqb : K -> K -> bool.
Let co (_ : nat) a b := Some (cmp a b).
Let eo (_ : nat) a b := Some (eqb a b).

Definition same {B} (r : outcome (mastate A K V) B) (r0 : outcome (mstate A K V) B) : Prop :=
  match r, r0 with
  | Ok a s, Ok a0 s0 => a = a0 /\ fst s = s0
  | Panic s, Panic s0 => fst s = s0
  | UB, UB => True
  | _, _ => False
  end.
Lemma same_bind {B C} (m : M (mastate A K V) B) (k : B -> M _ C) (m0 : M _ B) k0 s s0 :
  same (m s) (m0 s0) -> (forall a s1, same (k a s1) (k0 a (fst s1))) -> same (bind m k s) (bind m0 k0 s0).
Proof. unfold bind. intros H1 H2. destruct (m s), (m0 s0); cbn in H1; try done. destruct H1 as [-> <-]. apply H2. Qed.
Lemma same_lift {B} (m : M (mstate A K V) B) s : same (mlift m s) (m (fst s)).
Proof. unfold mlift. by destruct (m (fst s)). Qed.
Lemma same_unwind {B} f f0 (m : M (mastate A K V) B) m0 s s0 : same (m s) (m0 s0) -> (forall s1, fst (f s1) = f0 (fst s1)) -> same (on_unwind f m s) (on_unwind f0 m0 s0).
Proof. unfold on_unwind. intros H1 H2. destruct (m s), (m0 s0); cbn in *; try done. by rewrite H2, H1. Qed.

Lemma lb_same xs key : forall fuel b size cnt s, size <= fuel -> 0 < size -> b + size <= length xs ->
  exists i c s', lb_loop (fun kv : K * V => cmp (fst kv) key) xs fuel b size cnt = Some (i, c) /\
    a_lb_loop (A := A) co xs key fuel b size s = Ok i s' /\ fst s' = fst s.
Proof.
  induction fuel as [|fuel IH]; intros b size cnt s HF HS HB; [lia|]. cbn [a_lb_loop lb_loop].
  destruct (Nat.ltb_spec 1 size) as [L|L].
  - pose proof (Nat.div_mod size 2 ltac:(lia)) as E. pose proof (Nat.mod_upper_bound size 2 ltac:(lia)).
    destruct (lookup_lt_is_Some_2 xs (b + size / 2)) as [kv Hx]; [lia|]. rewrite Hx. unfold bind, ask, co. cbn [fst].
    destruct (IH (if cmp (fst kv) key then b + size / 2 else b) (size - size / 2) (S cnt) (fst s, S (snd s))) as (i & c & s' & E1 & E2 & E3);
      [destruct (cmp (fst kv) key); lia..|].
    exists i, c, s'. split; [exact E1|]. split; [exact E2|]. exact E3.
  - destruct (lookup_lt_is_Some_2 xs b) as [kv Hx]; [lia|]. rewrite Hx. by eexists _, _, _.
Qed.

Lemma search_same xs cap (s : mastate A K V) key : Rep AI sz al AS (ms_v (fst s)) xs cap ->
  exists i f s', a_search sz co eo key s = Ok (i, f) s' /\ fst s' = fst s /\
    lower_bound sz cmp key (fst s) = Ok i (fst s) /\ found sz eqb i key (fst s) = Ok f (fst s).
Proof using Hsz.
  intros R. assert (ES : as_slice sz (ms_v (fst s)) = Ok xs (ms_v (fst s))) by (by eapply as_slice_ok).
  assert (EL : len sz (ms_v (fst s)) = Ok (length xs) (ms_v (fst s))) by (by eapply len_ok).
  assert (X : exists i s1, a_lower_bound sz co key s = Ok i s1 /\ fst s1 = fst s /\ lower_bound sz cmp key (fst s) = Ok i (fst s) /\ i <= length xs).
  { unfold a_lower_bound, lower_bound, bind, mlift, base. rewrite ES. rewrite MState_eta. unfold lower_bound_by.
    destruct (Nat.eqb_spec (length xs) 0) as [L|L].
    - exists 0. eexists. split; [done|]. split; [done|]. split; [done|lia].
    - destruct (lb_same xs key (length xs) 0 (length xs) 0 (fst s, snd s)) as (i & c & s' & E1 & E2 & E3); [lia..|].
      rewrite E1, E2. exists i, s'. split; [done|]. split; [done|]. split; [done|].
      pose proof (lb_post (A := A) co xs key (length xs) 0 (length xs) (fst s, snd s) ltac:(lia) ltac:(lia) ltac:(lia)) as P.
      rewrite E2 in P. cbn in P. lia. }
  destruct X as (i & s1 & E1 & E2 & E3 & Li).
  assert (Y : exists f s2, a_found sz eo i key s1 = Ok f s2 /\ fst s2 = fst s /\ found sz eqb i key (fst s) = Ok f (fst s)).
  { unfold a_found, found, bind, mlift, base. rewrite E2, EL, MState_eta. cbn [fst].
    destruct (Nat.ltb_spec i (length xs)) as [L|L]; [|by eexists _, _].
    destruct (lookup_lt_is_Some_2 xs i L) as [kv Hx]. cbn [fst snd]. rewrite !(at_index_ok sz (fst s) xs i kv ES Hx). exists (eqb (fst kv) key), (fst s, S (snd s1)). done. }
  destruct Y as (f & s2 & F1 & F2 & F3). exists i, f, s2. split; [|by rewrite F2].
  unfold a_search. rewrite (RBTreeCalls.bind_ok _ _ _ _ _ E1), (RBTreeCalls.bind_ok _ _ _ _ _ F1). done.
Qed.

Section call.
Variables (s : mastate A K V) (xs : list (K * V)) (cap : nat).
Hypothesis R : Rep AI sz al AS (ms_v (fst s)) xs cap.

Lemma search_bind {B} key (k : nat * bool -> M (mastate A K V) B) k0 :
  (forall i f s1, same (k (i, f) s1) (k0 i f (fst s1))) ->
  same (bind (a_search sz co eo key) k s)
       (bind (lower_bound sz cmp key) (fun lb => bind (found sz eqb lb key) (k0 lb)) (fst s)).
Proof using R Hsz.
  intros H. destruct (search_same xs cap s key R) as (i & f & s' & E1 & E2 & E3 & E4).
  rewrite (RBTreeCalls.bind_ok _ _ _ _ _ E1), (RBTreeCalls.bind_ok _ _ _ _ _ E3), (RBTreeCalls.bind_ok _ _ _ _ _ E4), <- E2. apply H.
Qed.
Lemma search_unwind g key : on_unwind g (a_search sz co eo key) s = a_search sz co eo key s.
Proof using R Hsz. unfold on_unwind. by destruct (search_same xs cap s key R) as (i & f & s' & -> & _). Qed.
Lemma search_bind_unwind {B} g key (k : nat * bool -> M (mastate A K V) B) k0 :
  (forall i f s1, same (k (i, f) s1) (k0 i f (fst s1))) ->
  same (bind (on_unwind g (a_search sz co eo key)) k s)
       (bind (lower_bound sz cmp key) (fun lb => bind (found sz eqb lb key) (k0 lb)) (fst s)).
Proof using R Hsz. intros H. pose proof (search_bind key k k0 H) as X. unfold bind at 1 in X. unfold bind at 1. rewrite search_unwind. exact X. Qed.

Lemma insert_same k v : same (a_vm_insert AI sz al chk nd co eo k v s) (vm_insert AI sz al chk nd cmp eqb k v (fst s)).
Proof using R Hsz.
  unfold a_vm_insert, vm_insert.
  apply search_bind_unwind. intros i f s1.
  destruct f; apply same_lift.
Qed.
Lemma get_same k : same (a_vm_get sz co eo k s) (vm_get sz cmp eqb k (fst s)).
Proof using R Hsz.
  unfold a_vm_get, vm_get. apply search_bind. intros i f s1.
  destruct f; [|done]. apply same_bind; [apply same_lift|]. done.
Qed.
Lemma remove_same k : same (a_vm_remove_entry sz chk co eo k s) (vm_remove_entry sz chk cmp eqb k (fst s)).
Proof using R Hsz.
  unfold a_vm_remove_entry, vm_remove_entry.
  apply search_bind. intros i f s1. destruct f; apply same_lift.
Qed.
Lemma entry_same k : same (a_vm_entry sz nd co eo k s) (vm_entry sz nd cmp eqb k (fst s)).
Proof using R Hsz.
  unfold a_vm_entry, vm_entry.
  apply search_bind_unwind. intros i f s1. destruct f; apply same_lift.
Qed.
Lemma entry_total k : exists e s', a_vm_entry sz nd co eo k s = Ok e s'.
Proof using R Hsz.
  unfold a_vm_entry, bind. rewrite search_unwind. destruct (search_same xs cap s k R) as (i & f & s' & -> & _). destruct f; by eexists _, _.
Qed.
End call.

Hypothesis Hchk : chk = true \/ (sz <= isize_max)%Z.
Lemma insert_all_same kvs : forall (s : mastate A K V) xs cap, Rep AI sz al AS (ms_v (fst s)) xs cap ->
  same (a_insert_all AI sz al chk nd co eo kvs s) (insert_all AI sz al chk nd cmp eqb kvs (fst s)).
Proof using Hsz Hchk.
  induction kvs as [|[k v] kvs IH]; intros s xs cap R; [done|]. cbn [a_insert_all insert_all].
  pose proof (insert_same s xs cap R k v) as H1.
  pose proof (vm_insert_post AI sz al chk nd Hsz Hchk AS co eo k v s xs cap R) as H2.
  unfold bind at 1 3, on_unwind. destruct (a_vm_insert AI sz al chk nd co eo k v s) as [o s1|s1|], (vm_insert AI sz al chk nd cmp eqb k v (fst s)); cbn in H1; try done.
  - destruct H1 as [-> <-]. destruct H2 as (xs' & cap' & P & _). apply MA_rep in P.
    unfold bind. unfold mlift. cbn. by eapply (IH (_, _)).
  - cbn. by rewrite H1.
Qed.

Lemma exec_same c (s : mastate A K V) xs cap : Rep AI sz al AS (ms_v (fst s)) xs cap ->
  same (ma_exec AI sz al chk nd co eo c s) (m_exec AI sz al chk nd cmp eqb c (fst s)).
Proof using Hsz Hchk.
  intros R. destruct c as [k v|k|k v|k|k|k|k|k v|kvs|n| | | |]; cbn [ma_exec m_exec];
    try (match goal with |- same (mlift _ _) _ => apply same_lift end).
  - apply same_bind; [by eapply insert_same|done].
  - apply same_bind; [by eapply get_same|done].
  - apply same_bind; [|done]. unfold a_vm_get_mut_set, vm_get_mut_set.
    apply (search_bind_unwind s xs cap R). intros i f s1. destruct f; apply same_lift.
  - unfold vm_contains_key. pose proof (get_same s xs cap R k) as H. unfold bind.
    destruct (a_vm_get sz co eo k s), (vm_get sz cmp eqb k (fst s)); cbn in *; try done. by destruct H as [-> <-].
  - unfold a_vm_remove, vm_remove. apply same_bind; [|done]. apply same_bind; [by eapply remove_same|].
    intros [[k' v']|] s1; [|done]. apply same_bind; [apply same_lift|done].
  - apply same_bind; [by eapply remove_same|done].
  - unfold a_vm_entry_get, vm_entry_get. apply same_bind; [|done]. apply same_bind; [by eapply entry_same|].
    intros [i|i] s1; [|done]. apply same_bind; [apply same_lift|done].
  - unfold a_vm_entry_set, vm_entry_set. apply same_bind; [|done]. pose proof (entry_same s xs cap R k) as H.
    destruct (entry_total s xs cap R k) as (e & s1 & E). rewrite E in H.
    destruct (vm_entry sz nd cmp eqb k (fst s)) as [e0 s0|s0|] eqn:E0; cbn in H; try done. destruct H as [<- <-].
    assert (E1 : on_unwind (mlogged nd [inr v]) (a_vm_entry sz nd co eo k) s = Ok e s1) by (unfold on_unwind; by rewrite E).
    rewrite (RBTreeCalls.bind_ok _ _ _ _ _ E1), (RBTreeCalls.bind_ok _ _ _ _ _ E0). destruct e; apply same_lift.
  - apply same_bind; [by eapply insert_all_same|done].
Qed.

Lemma run_same cs : forall (s : mastate A K V) xs cap, chk = true \/ forallb (m_modest sz) cs = true -> Rep AI sz al AS (ms_v (fst s)) xs cap ->
  option_map (fun r => (fst r, fst (snd r))) (ma_run AI sz al chk nd co eo cs s) = m_run AI sz al chk nd cmp eqb cs (fst s).
Proof using Hsz Hchk.
  induction cs as [|c cs IH]; intros s xs cap HK R; [done|]. cbn [ma_run m_run].
  assert (HK1 : chk = true \/ m_modest sz c = true).
  { destruct HK as [HK|HK]; [by left|right]. cbn in HK. by apply andb_prop in HK as [? _]. }
  assert (HK2 : chk = true \/ forallb (m_modest sz) cs = true).
  { destruct HK as [HK|HK]; [by left|right]. cbn in HK. by apply andb_prop in HK as [_ ?]. }
  destruct (step_post AI sz al chk nd Hsz Hchk AS co eo c s xs cap HK1 R) as (a & s1 & xs1 & cap1 & E & P & _). apply MA_rep in P.
  pose proof (exec_same c s xs cap R) as H. rewrite E. unfold ma_step in E. unfold m_step.
  destruct (ma_exec AI sz al chk nd co eo c s), (m_exec AI sz al chk nd cmp eqb c (fst s)); cbn in H; simplify_eq; try done.
  - destruct H as [<- <-]. rewrite <- (IH s1 xs1 cap1 HK2 P). by destruct (ma_run _ _ _ _ _ _ _ cs s1) as [[]|].
  - rewrite <- (IH s1 xs1 cap1 HK2 P). by destruct (ma_run _ _ _ _ _ _ _ cs s1) as [[]|].
Qed.
End pure.

Lemma L_C92_map_any_comparator :
forall (K V : Type) (sz al : Z) (chk : bool) (co eo : nat -> K -> K -> option bool) (h : heap (K * V)) (cs : list (mcall K V)),
  (0 < sz)%Z -> (0 < al)%Z -> heap_wf h ->
  chk = true \/ (sz <= isize_max)%Z /\ forallb (m_modest sz) cs = true ->
  exists l s, ma_run (DefaultAllocator (K * V)) sz al chk true co eo cs (new_map h, 0) = Some (l, s) /\
  exists xs, as_slice sz (ms_v (fst s)) = Ok xs (ms_v (fst s)) /\
    concat (map m_given cs) ≡ₚ
      parts xs ++ concat (map m_returned l) ++ parts (st_drops (ms_v (fst s))) ++ ms_lone (fst s).
Proof.
  intros K V sz al chk co eo h cs Hsz Hal Hh HK.
  assert (HK1 : chk = true \/ (sz <= isize_max)%Z) by tauto.
  assert (HK2 : chk = true \/ forallb (m_modest sz) cs = true) by tauto.
  destruct (run_post (DefaultAllocator (K * V)) sz al chk true Hsz HK1 (DefaultSpec sz al Hsz Hal) co eo cs (new_map h, 0) [] 0 HK2
    (new_rep sz al Hsz Hal h Hh)) as (l & s & xs & cap & E & dP & dl & R & _ & D & L & P).
  exists l, s. split; [done|]. exists xs. split; [by eapply as_slice_ok|].
  cbn in D, L, P. rewrite D, L. rewrite app_nil_r in P. rewrite P. solve_Permutation.
Qed.

Lemma L_C92_map_any_memory :
forall (K V : Type) (sz al : Z) (chk nd : bool) (co eo : nat -> K -> K -> option bool) (h : heap (K * V)) (cs : list (mcall K V)) l s,
  (0 < sz)%Z -> (0 < al)%Z -> heap_wf h ->
  chk = true \/ (sz <= isize_max)%Z /\ forallb (m_modest sz) cs = true ->
  ma_run (DefaultAllocator (K * V)) sz al chk nd co eo cs (new_map h, 0) = Some (l, s) ->
  (forall b bk, h_blk h !! b = Some bk -> h_blk (st_h (ms_v (fst s))) !! b = Some bk) /\
  exists s', ma_step (DefaultAllocator (K * V)) sz al chk nd co eo MClear s = Some (MUnit, s') /\
    h_blk (st_h (ms_v (fst s'))) = h_blk h.
Proof.
  intros K V sz al chk nd co eo h cs l s Hsz Hal Hh HK E.
  assert (HK1 : chk = true \/ (sz <= isize_max)%Z) by tauto.
  assert (HK2 : chk = true \/ forallb (m_modest sz) cs = true) by tauto.
  destruct (run_post (DefaultAllocator (K * V)) sz al chk nd Hsz HK1 (DefaultSpec sz al Hsz Hal) co eo cs (new_map h, 0) [] 0 HK2
    (new_rep sz al Hsz Hal h Hh)) as (l' & s2 & xs & cap & E' & dP & dl & R & F & _).
  rewrite E in E'. injection E' as <- <-.
  change (frame _ sz al (DefaultSpec sz al Hsz Hal) (ms_v (fst (new_map h, 0)))) with (h_blk h) in F. split.
  - intros b bk Hb. rewrite <- F in Hb.
    rewrite (frame_lookup (DefaultAllocator (K * V)) sz al (DefaultSpec sz al Hsz Hal)) in Hb by done.
    by destruct (decide _).
  - destruct (clear_any sz al Hsz Hal chk nd co eo s xs cap R) as (s' & E1 & E2). exists s'. split; [done|]. by rewrite E2.
Qed.

Lemma L_C92_map_any_effects :
forall (K V : Type) (sz al : Z) (chk nd : bool) (co eo : nat -> K -> K -> option bool) (h : heap (K * V)) (cs : list (mcall K V)) (c : mcall K V) l s,
  (0 < sz)%Z -> (0 < al)%Z -> heap_wf h ->
  chk = true \/ (sz <= isize_max)%Z /\ forallb (m_modest sz) (c :: cs) = true ->
  ma_run (DefaultAllocator (K * V)) sz al chk nd co eo cs (new_map h, 0) = Some (l, s) ->
  exists a s' xs xs', ma_step (DefaultAllocator (K * V)) sz al chk nd co eo c s = Some (a, s') /\
    as_slice sz (ms_v (fst s)) = Ok xs (ms_v (fst s)) /\ as_slice sz (ms_v (fst s')) = Ok xs' (ms_v (fst s')) /\
    edited c a xs xs'.
Proof.
  intros K V sz al chk nd co eo h cs c l s Hsz Hal Hh HK E.
  assert (HK1 : chk = true \/ (sz <= isize_max)%Z) by tauto.
  assert (HK3 : chk = true \/ forallb (m_modest sz) (c :: cs) = true) by tauto. apply modest_first in HK3 as [HK3 HK2].
  destruct (run_post (DefaultAllocator (K * V)) sz al chk nd Hsz HK1 (DefaultSpec sz al Hsz Hal) co eo cs (new_map h, 0) [] 0 HK2
    (new_rep sz al Hsz Hal h Hh)) as (l' & s2 & xs & cap & E' & P).
  rewrite E in E'. injection E' as <- <-. apply MA_rep in P.
  destruct (step_post (DefaultAllocator (K * V)) sz al chk nd Hsz HK1 (DefaultSpec sz al Hsz Hal) co eo c s xs cap HK3 P) as (a & s' & xs' & cap' & E1 & P1 & X).
  apply MA_rep in P1. exists a, s', xs, xs'. split; [done|]. split; [by eapply as_slice_ok|]. split; [by eapply as_slice_ok|done].
Qed.

Lemma L_C92_map_any_extends :
forall (K V : Type) (sz al : Z) (chk nd : bool) (cmp eqb : K -> K -> bool) (h : heap (K * V)) (cs : list (mcall K V)),
  (0 < sz)%Z -> (0 < al)%Z -> heap_wf h ->
  chk = true \/ (sz <= isize_max)%Z /\ forallb (m_modest sz) cs = true ->
  option_map (fun r => (fst r, fst (snd r)))
    (ma_run (DefaultAllocator (K * V)) sz al chk nd (fun _ a b => Some (cmp a b)) (fun _ a b => Some (eqb a b)) cs (new_map h, 0)) =
  m_run (DefaultAllocator (K * V)) sz al chk nd cmp eqb cs (new_map h).
Proof.
  intros K V sz al chk nd cmp eqb h cs Hsz Hal Hh HK.
  assert (HK1 : chk = true \/ (sz <= isize_max)%Z) by tauto.
  assert (HK2 : chk = true \/ forallb (m_modest sz) cs = true) by tauto.
  exact (run_same (DefaultAllocator (K * V)) sz al chk nd Hsz (DefaultSpec sz al Hsz Hal) cmp eqb HK1 cs (new_map h, 0) [] 0 HK2 (new_rep sz al Hsz Hal h Hh)).
Qed.
