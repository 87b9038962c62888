(** Proofs of the properties stated in LookupMapProps.v. *)
From Verif Require Import Base Heap Alloc Vector VectorSpec VectorMap VectorMapSpec VectorMapAny VectorMapAnySpec.



From Verif Require Import AllocContract VectorProofs VectorMore VectorMapProofs VectorMapDerived VectorMapAnyProofs VectorMapAnyDerived LookupMapSpec.

Lemma log2_up_half n : 1 < n -> Nat.log2_up n = S (Nat.log2_up (n - n / 2)).
Proof.
  intros H. pose proof (Nat.div_mod n 2 ltac:(lia)) as E. pose proof (Nat.mod_upper_bound n 2 ltac:(lia)) as U.
  set (k := n / 2) in *. destruct (n mod 2) as [|[|]] eqn:M; [..|lia].
  - replace n with (2 * k) at 1 by lia. replace (n - k) with k by lia. apply Nat.log2_up_double. lia.
  - replace n with (2 * k + 1) at 1 by lia. replace (n - k) with (k + 1) by lia. rewrite Nat.log2_up_succ_double by lia.
    replace (k + 1) with (S k) by lia. pose proof (Nat.log2_up_eqn (S k) ltac:(lia)) as Q. rewrite Q. cbn [Nat.pred]. lia.
Qed.

Section costs.
Context {A K V : Type}.
Variable AI : AllocImpl A (K * V).
Variables sz al : Z.
Variable chk nd : bool.
Variables co eo : nat -> K -> K -> option bool.
Notation mst := (mstate A K V).
Notation ast := (mastate A K V).

(** Between [lo] and [hi] evaluations after the first [n]; fewer if there was a panic. *)
Definition costs {B} (r : outcome ast B) (n lo hi : nat) : Prop :=
  match r with Ok _ s => n + lo <= snd s <= n + hi | Panic s => n <= snd s <= n + hi | UB => True end.
Lemma costs_bind {B C} (m : M ast B) (k : B -> M ast C) s lo hi lo' hi' :
  costs (m s) (snd s) lo hi -> (forall a s1, m s = Ok a s1 -> costs (k a s1) (snd s1) lo' hi') -> costs (bind m k s) (snd s) (lo + lo') (hi + hi').
Proof using.
  clear.
  intros H1 H2. unfold bind. destruct (m s) as [a s1|s1|]; cbn in *; [|lia|done].
  specialize (H2 a s1 eq_refl). destruct (k a s1); cbn in *; [lia|lia|done].
Qed.
Lemma costs_mono {B} (r : outcome ast B) n lo hi lo' hi' : costs r n lo hi -> lo' <= lo -> hi <= hi' -> costs r n lo' hi'.
Proof using. clear. destruct r; cbn; lia. Qed.
Lemma costs_mlift {B} (m : M mst B) (s : ast) : costs (mlift m s) (snd s) 0 0.
Proof using. clear. unfold mlift. destruct (m (fst s)); cbn; lia. Qed.
Lemma costs_ask o k k' (s : ast) : costs (ask o k k' s) (snd s) 1 1.
Proof using. clear. unfold ask. destruct (o (snd s) k k'); cbn; lia. Qed.
Lemma costs_unwind {B} f (m : M ast B) s lo hi : (forall s1, snd (f s1) = snd s1) -> costs (m s) (snd s) lo hi -> costs (on_unwind f m s) (snd s) lo hi.
Proof using. clear. intros F. unfold on_unwind. destruct (m s); cbn; [done|by rewrite F|done]. Qed.
Lemma costs_ret {B} (b : B) (s : ast) : costs (ret b s) (snd s) 0 0.
Proof using. clear. cbn. lia. Qed.
Lemma costs_then {B C} (m : M ast B) (k : B -> M ast C) s lo hi :
  costs (m s) (snd s) lo hi -> (forall a s1, costs (k a s1) (snd s1) 0 0) -> costs (bind m k s) (snd s) lo hi.
Proof using. clear. intros H1 H2. rewrite <- (Nat.add_0_r lo), <- (Nat.add_0_r hi). eapply costs_bind; [done|]. intros; apply H2. Qed.

Lemma costs_lb xs key : forall fuel b size (s : ast), size <= fuel -> 0 < size ->
  costs (a_lb_loop co xs key fuel b size s) (snd s) (S (Nat.log2_up size)) (S (Nat.log2_up size)).
Proof.
  induction fuel as [|fuel IH]; intros b size s HF HS; [lia|]. cbn [a_lb_loop].
  destruct (Nat.ltb_spec 1 size) as [L|L].
  - pose proof (Nat.div_mod size 2 ltac:(lia)) as E. pose proof (Nat.mod_upper_bound size 2 ltac:(lia)). rewrite log2_up_half by done.
    destruct (xs !! (b + size / 2)); [|done]. change (S (S ?x)) with (1 + S x). eapply costs_bind; [apply costs_ask|].
    intros c s1 _. apply IH; lia.
  - replace size with 1 by lia. cbn [Nat.log2_up]. destruct (xs !! b); [|done]. apply costs_then; [apply costs_ask|]. intros. apply costs_ret.
Qed.

Definition least (n : nat) : nat := match n with O => O | _ => S (Nat.log2_up n) end.
Definition most (n : nat) : nat := S (S (Nat.log2_up n)).

Lemma costs_search xs (s : ast) key : as_slice sz (ms_v (fst s)) = Ok xs (ms_v (fst s)) ->
  costs (a_search sz co eo key s) (snd s) (least (length xs)) (most (length xs)).
Proof.
  intros ES. unfold a_search.
  assert (LB : costs (a_lower_bound sz co key s) (snd s) (least (length xs)) (S (Nat.log2_up (length xs)))).
  { unfold a_lower_bound. unfold bind, mlift, base. rewrite ES. cbn -[Nat.log2_up].
    destruct (length xs) as [|n] eqn:EL; cbn [Nat.eqb]; [cbn; lia|].
    apply (costs_lb xs key (S n) 0 (S n) (MState (ms_v (fst s)) (ms_lone (fst s)), snd s)); lia. }
  rewrite <- (Nat.add_0_r (least _)). unfold most. rewrite <- Nat.add_1_r.
  eapply costs_bind; [exact LB|]. intros lb s1 _. apply costs_then; [|intros; apply costs_ret].
  unfold a_found. change 1 with (0 + 1). change 0 with (0 + 0) at 1. eapply costs_bind; [apply costs_mlift|]. intros n s2 _.
  destruct (lb <? n); [|cbn; lia]. change 1 with (0 + 1). change 0 with (0 + 0) at 1. eapply costs_bind; [apply costs_mlift|]. intros kv s3 _.
  eapply costs_mono; [apply costs_ask|lia|lia].
Qed.

Ltac after_search := repeat first [apply costs_mlift | apply costs_ret | apply costs_then; [|intros] | progress intros
  | match goal with |- costs ((if ?b then _ else _) _) _ _ _ => destruct b | |- costs ((match ?b with _ => _ end) _) _ _ _ => destruct b end].

Lemma costs_insert xs (s : ast) k v : as_slice sz (ms_v (fst s)) = Ok xs (ms_v (fst s)) ->
  costs (a_vm_insert AI sz al chk nd co eo k v s) (snd s) (least (length xs)) (most (length xs)).
Proof.
  intros ES. unfold a_vm_insert. apply costs_then; [apply costs_unwind; [done|by apply costs_search]|]. intros. apply costs_mlift.
Qed.

Lemma costs_exec c (s : ast) xs : as_slice sz (ms_v (fst s)) = Ok xs (ms_v (fst s)) ->
  match c with MExtend _ => True | _ => looks_up c = 1 -> costs (ma_exec AI sz al chk nd co eo c s) (snd s) (least (length xs)) (most (length xs)) end /\
  (looks_up c = 0 -> costs (ma_exec AI sz al chk nd co eo c s) (snd s) 0 0).
Proof.
  intros ES.
  assert (G : forall k, costs (a_vm_get sz co eo k s) (snd s) (least (length xs)) (most (length xs))).
  { intros k. unfold a_vm_get. apply costs_then; [by apply costs_search|]. after_search. }
  assert (RE : forall k, costs (a_vm_remove_entry sz chk co eo k s) (snd s) (least (length xs)) (most (length xs))).
  { intros k. unfold a_vm_remove_entry. apply costs_then; [by apply costs_search|]. after_search. }
  assert (EN : forall k, costs (a_vm_entry sz nd co eo k s) (snd s) (least (length xs)) (most (length xs))).
  { intros k. unfold a_vm_entry. apply costs_then; [apply costs_unwind; [done|by apply costs_search]|]. after_search. }
  destruct c; (split; [try done; intros _|intros X; try (by cbn in X)]); cbn [ma_exec]; try apply costs_mlift;
    try (apply costs_then; [|intros; apply costs_ret]).
  - by apply costs_insert.
  - apply G.
  - unfold a_vm_get_mut_set. apply costs_then; [apply costs_unwind; [done|by apply costs_search]|]. intros. apply costs_mlift.
  - apply G.
  - unfold a_vm_remove. apply costs_then; [apply RE|]. after_search.
  - apply RE.
  - unfold a_vm_entry_get. apply costs_then; [apply EN|]. after_search.
  - unfold a_vm_entry_set. apply costs_then; [apply costs_unwind; [done|apply EN]|]. after_search.
  - cbn in X. destruct kvs; [|done]. cbn. lia.
Qed.
End costs.

Section all.
Context {A K V : Type}.
Variable AI : AllocImpl A (K * V).
Variables sz al : Z.
Variable chk nd : bool.
Hypothesis Hsz : (0 < sz)%Z.
Hypothesis Hchk : chk = true \/ (sz <= isize_max)%Z.
Variable AS : AllocSpec AI sz al.
Variables co eo : nat -> K -> K -> option bool.
Notation ast := (mastate A K V).
Lemma most_mono a b : a <= b -> most a <= most b.
Proof using. clear. intros H. unfold most. pose proof (Nat.log2_up_le_mono a b H). lia. Qed.
Lemma costs_all kvs : forall (s : ast) xs cap, Rep AI sz al AS (ms_v (fst s)) xs cap ->
  costs (a_insert_all AI sz al chk nd co eo kvs s) (snd s) (match kvs with [_] => least (length xs) | _ => 0 end) (length kvs * most (length xs + length kvs - 1)).
Proof using All.
  induction kvs as [|[k v] kvs IH]; intros s xs cap R; cbn [a_insert_all]; [cbn; lia|].
  assert (ES : as_slice sz (ms_v (fst s)) = Ok xs (ms_v (fst s))) by (by eapply as_slice_ok).
  pose proof (costs_insert AI sz al chk nd co eo xs s k v ES) as C.
  apply costs_mono with (lo := least (length xs) + 0) (hi := most (length xs) + (0 + length kvs * most (S (length xs) + length kvs - 1))).
  - eapply costs_bind; [apply costs_unwind; [done|exact C]|]. intros o s1 E1.
    assert (P : exists xs1 cap1, Rep AI sz al AS (ms_v (fst s1)) xs1 cap1 /\ length xs1 <= S (length xs)).
    { pose proof (vm_insert_post AI sz al chk nd Hsz Hchk AS co eo k v s xs cap R) as P. unfold on_unwind in E1.
      destruct (a_vm_insert AI sz al chk nd co eo k v s); [|done|done]. injection E1 as -> ->. destruct P as (xs1 & cap1 & P & X).
      exists xs1, cap1. split; [by eapply MA_rep|]. destruct o.
      - destruct X as (l1 & k0 & l2 & -> & ->). rewrite !app_length. cbn. lia.
      - destruct X as (l1 & l2 & -> & ->). rewrite !app_length. cbn. lia. }
    destruct P as (xs1 & cap1 & R1 & L1). change 0 with (0 + 0) at 1.
    eapply costs_bind; [apply costs_mlift|]. intros u s2 E2.
    assert (R2 : Rep AI sz al AS (ms_v (fst s2)) xs1 cap1).
    { unfold mlift, drop_lone in E2. destruct nd; cbn in E2; injection E2 as _ <-; done. }
    eapply costs_mono; [exact (IH s2 xs1 cap1 R2)|lia|]. apply Nat.mul_le_mono_l. apply most_mono. lia.
  - destruct kvs; lia.
  - cbn [length]. replace (length xs + S (length kvs) - 1) with (length xs + length kvs) by lia.
    replace (S (length xs) + length kvs - 1) with (length xs + length kvs) by lia.
    pose proof (most_mono (length xs) (length xs + length kvs) ltac:(lia)). lia.
Qed.
End all.

Lemma L_C115_vector_map_lookup :
forall (K V : Type) (sz al : Z) (chk nd : bool) (co eo : nat -> K -> K -> option bool) (h : heap (K * V)) (cs : list (mcall K V)) (c : mcall K V) l s,
  (0 < sz)%Z -> (0 < al)%Z -> heap_wf h ->
  chk = true \/ (sz <= isize_max)%Z /\ forallb (m_modest sz) (c :: cs) = true ->
  ma_run (DefaultAllocator (K * V)) sz al chk nd co eo cs (new_map h, 0) = Some (l, s) ->
  exists a s' xs, ma_step (DefaultAllocator (K * V)) sz al chk nd co eo c s = Some (a, s') /\
    as_slice sz (ms_v (fst s)) = Ok xs (ms_v (fst s)) /\
    snd s <= snd s' <= snd s + looks_up c * (Nat.log2_up (length xs + looks_up c - 1) + 2) /\
    (looks_up c = 1 -> a <> MPanic -> xs <> [] -> snd s + Nat.log2_up (length xs) + 1 <= snd s').
Proof.
  intros K V sz al chk nd co eo h cs c l s Hsz Hal Hh HK E.
  assert (HK1 : chk = true \/ (sz <= isize_max)%Z) by tauto.
  assert (HK3 : chk = true \/ forallb (m_modest sz) (c :: cs) = true) by tauto. apply modest_first in HK3 as [HK3 HK2].
  destruct (run_post (DefaultAllocator (K * V)) sz al chk nd Hsz HK1 (DefaultSpec sz al Hsz Hal) co eo cs (new_map h, 0) [] 0 HK2
    (new_rep sz al Hsz Hal h Hh)) as (l' & s2 & xs & cap & E' & P).
  rewrite E in E'. injection E' as <- <-. apply MA_rep in P.
  destruct (step_post (DefaultAllocator (K * V)) sz al chk nd Hsz HK1 (DefaultSpec sz al Hsz Hal) co eo c s xs cap HK3 P) as (a & s' & xs' & cap' & E1 & P1 & X).
  assert (ES : as_slice sz (ms_v (fst s)) = Ok xs (ms_v (fst s))) by (by eapply as_slice_ok).
  exists a, s', xs. split; [done|]. split; [done|].
  assert (C : costs (ma_exec (DefaultAllocator (K * V)) sz al chk nd co eo c s) (snd s) (if looks_up c =? 1 then least (length xs) else 0)
    (looks_up c * most (length xs + looks_up c - 1))).
  { destruct (costs_exec (DefaultAllocator (K * V)) sz al chk nd co eo c s xs ES) as [C1 C0].
    assert (O : forall n, looks_up c = 1 -> n = length xs + looks_up c - 1 -> n = length xs) by lia.
    destruct c; try (specialize (C1 eq_refl); cbn [looks_up Nat.eqb]; rewrite Nat.mul_1_l; replace (length xs + 1 - 1) with (length xs) by lia; exact C1);
      try (exact (C0 eq_refl)).
    cbn [looks_up ma_exec]. apply costs_then; [|intros; apply costs_ret].
    eapply costs_mono; [by eapply (costs_all (DefaultAllocator (K * V)) sz al chk nd Hsz HK1 (DefaultSpec sz al Hsz Hal) co eo kvs s xs cap)| |done].
    destruct kvs as [|p [|q kvs]]; cbn; lia. }
  assert (M : forall n, most n = Nat.log2_up n + 2) by (intros n; unfold most; lia). rewrite M in C.
  unfold ma_step in E1. destruct (ma_exec (DefaultAllocator (K * V)) sz al chk nd co eo c s) as [a1 s1|s1|]; [..|done].
  - injection E1 as <- <-. cbn in C. split; [destruct (looks_up c =? 1); lia|]. intros LU _ NE. rewrite LU in C. cbn [Nat.eqb] in C. destruct xs; [done|]. cbn [length least] in *. lia.
  - injection E1 as <- <-. cbn in C. split; [lia|]. done.
Qed.
