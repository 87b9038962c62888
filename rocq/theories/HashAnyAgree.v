(** With a hash function and an equality that are pure, the table of HashAny.v is that
    of HashTable.v. *)
From Verif Require Import Base Heap Alloc HeapLemmas RehashPolicy HashTable HashTableSpec HashTableProofs HashAny HashAnyProofs HashAnyCalls.

Section agree.
Context {K V : Type}.
Variables (nsz nal : Z) (eb : nat) (chk : bool).
Variable hash : K -> Z.
Variable eqb : K -> K -> bool.
Notation tstate := (tstate K V).
Notation astate := (astate K V).

Definition p_ho : nat -> K -> option Z := fun _ k => Some (hash k).
Definition p_eo : nat -> K -> K -> option bool := fun _ a b => Some (eqb a b).

Definition agree {A} (m : outcome astate A) (p : outcome tstate A) : Prop :=
  match p with
  | Ok a s => exists n, m = Ok a (s, n)
  | Panic s => exists n, m = Panic (s, n)
  | UB => m = UB
  end.

Lemma agree_bind {A B} (m : M astate A) (p : M tstate A) (k : A -> M astate B) (kp : A -> M tstate B) s n :
  agree (m (s, n)) (p s) -> (forall a s' n', p s = Ok a s' -> agree (k a (s', n')) (kp a s')) -> agree (bind m k (s, n)) (bind p kp s).
Proof.
  unfold agree at 1, bind. intros H1 H2. destruct (p s) as [a s'|s'|].
  - destruct H1 as [n' ->]. by apply H2.
  - destruct H1 as [n' ->]. cbn. by exists n'.
  - by rewrite H1.
Qed.

Lemma agree_lift {A} (p : M tstate A) s n : agree (lift p (s, n)) (p s).
Proof. unfold agree, lift. cbn [fst snd]. destruct (p s); eauto. Qed.

Lemma agree_ret {A} (a : A) s n : agree (ret a (s, n)) (ret a s).
Proof. cbn. by exists n. Qed.

Lemma agree_gets {A} (f : astate -> A) (g : tstate -> A) s n : (f (s, n) = g s) -> agree (gets f (s, n)) (gets g s).
Proof. unfold agree, gets. intros ->. by exists n. Qed.

Lemma agree_or_ub {A} (o : option A) s n : agree (or_ub o (s, n)) (or_ub o s).
Proof. destruct o; cbn; eauto. Qed.

Lemma agree_unwind {A} l (m : M astate A) (p : M tstate A) s n : agree (m (s, n)) (p s) -> agree (on_unwind (alogged l) m (s, n)) (on_unwind (logged l) p s).
Proof. unfold agree, on_unwind. destruct (p s); [intros [? ->]; eauto|intros [? ->]; eauto|by intros ->]. Qed.

Lemma agree_u32 z s n : agree (u32 chk z (s, n)) (u32 chk z s).
Proof. unfold u32. destruct (_ : bool); [cbn; eauto|]. destruct chk; cbn; eauto. Qed.

Lemma agree_for_each {A} (l : list A) (f : A -> M astate unit) (g : A -> M tstate unit) :
  (forall x s n, agree (f x (s, n)) (g x s)) -> forall s n, agree (for_each l f (s, n)) (for_each l g s).
Proof.
  intros H. induction l as [|x l IH]; intros s n; cbn [for_each]; [apply agree_ret|]. apply agree_bind; [apply H|]. intros ? ? ? _. apply IH.
Qed.

Ltac step := first [apply agree_ret | apply agree_lift | apply agree_or_ub | apply agree_u32 | apply agree_gets; reflexivity].
Ltac stepb := apply agree_bind; [step|intros ? ? ? _].

Lemma index_agree bc k s n : agree (a_bucket_index p_ho bc k (s, n)) (bucket_index hash bc k s).
Proof. unfold a_bucket_index, bucket_index, bind, hash_now, p_ho. cbn [snd fst]. destruct (bc =? 0)%Z; cbn; eauto. Qed.

Lemma bucket_agree k s n : agree (a_bucket_for_key p_ho k (s, n)) (bucket_for_key hash k s).
Proof.
  unfold a_bucket_for_key, bucket_for_key. stepb. stepb. apply agree_bind; [apply index_agree|intros ? ? ? _].
  destruct (_ <? _); [step|]. cbn. eauto.
Qed.
Lemma bucket_mut_agree k s n : agree (a_bucket_for_key_mut p_ho k (s, n)) (bucket_for_key_mut hash k s).
Proof.
  unfold a_bucket_for_key_mut, bucket_for_key_mut. stepb. apply agree_bind; [apply index_agree|intros ? ? ? _]. step.
Qed.

Lemma find_agree f : forall p k s n, agree (a_find_in_bucket p_eo f p k (s, n)) (find_in_bucket eqb f p k s).
Proof.
  induction f as [|f IH]; intros p k s n; cbn [a_find_in_bucket find_in_bucket]; [done|]. destruct p; [step|].
  stepb. destruct a as [[k0 v0] nx]. unfold bind, equals_now, p_eo. cbn [fst snd]. destruct (eqb k0 k); [cbn; eauto|apply IH].
Qed.
Lemma find_from_agree p k s n : agree (a_find_from p_eo p k (s, n)) (find_from eqb p k s).
Proof. unfold a_find_from, find_from. stepb. stepb. apply find_agree. Qed.

(** The search never panics by itself. *)
Lemma find_calm f : forall p k (s : tstate), is_panic (find_in_bucket eqb f p k s) = false.
Proof.
  induction f as [|f IH]; intros p k s; cbn [find_in_bucket]; [done|]. destruct p; [done|].
  unfold bind at 1, node_at, bind at 1, gets at 1. destruct (hload _ _) as [[]|]; try done. cbn [ret]. unfold ret at 1. destruct (eqb _ _); [done|apply IH].
Qed.
Lemma find_from_calm p k (s : tstate) : is_panic (find_from eqb p k s) = false.
Proof.
  unfold find_from, bind at 1, read_slot, bind at 1, gets at 1. destruct (hload _ _) as [[]|]; try done. unfold ret at 1. apply find_calm.
Qed.
Lemma bucket_mut_calm k (s : tstate) : t_bc s <> 0%Z -> is_panic (bucket_for_key_mut hash k s) = false.
Proof.
  intros N. unfold bucket_for_key_mut, bind, gets, id, bucket_index. apply Z.eqb_neq in N. rewrite N. cbn. by destruct (hadd _ _ _).
Qed.

Lemma unwind_calm {A} l (p : M tstate A) s : is_panic (p s) = false -> on_unwind l p s = p s.
Proof. unfold on_unwind. by destruct (p s). Qed.

Lemma get_agree k s n : agree (a_get p_ho p_eo k (s, n)) (get hash eqb k s).
Proof.
  unfold a_get, get. apply agree_bind; [apply bucket_agree|intros ? ? ? _]. apply agree_bind; [apply find_from_agree|intros o ? ? _].
  destruct o; [|step]. stepb. destruct a0 as [[? ?] ?]. step.
Qed.

(** Searching for a key, with what is dropped when that panics. *)
Lemma search_agree l k s n :
  agree (on_unwind (alogged l) (do target <- a_bucket_for_key_mut p_ho k; do o <- a_find_from p_eo target k; ret (target, o)) (s, n))
    ((do target <- on_unwind (logged l) (bucket_for_key_mut hash k); do o <- find_from eqb target k; ret (target, o)) s).
Proof.
  assert (E : (do target <- on_unwind (logged l) (bucket_for_key_mut hash k); do o <- find_from eqb target k; ret (target, o)) s =
    on_unwind (logged l) (do target <- bucket_for_key_mut hash k; do o <- find_from eqb target k; ret (target, o)) s).
  { unfold on_unwind, bind. destruct (bucket_for_key_mut hash k s) as [t s1|s1|]; [|done|done].
    pose proof (find_from_calm t k s1) as C. by destruct (find_from eqb t k s1). }
  rewrite E. apply agree_unwind. apply agree_bind; [apply bucket_mut_agree|intros ? ? ? _].
  apply agree_bind; [apply find_from_agree|intros ? ? ? _]. step.
Qed.

Lemma bind_assoc {S A B C} (m : M S A) (f : A -> M S B) (g : B -> M S C) s : bind (bind m f) g s = bind m (fun a => bind (f a) g) s.
Proof. unfold bind. by destruct (m s). Qed.

Lemma bind_cong {S A B} (m : M S A) (f g : A -> M S B) s : (forall a s', f a s' = g a s') -> bind m f s = bind m g s.
Proof. intros H. unfold bind. destruct (m s); [apply H|done|done]. Qed.

Lemma search_bind {B} l k (ka : ptr * option ptr -> M astate B) (kp : ptr -> option ptr -> M tstate B) s n :
  (forall t o s' n', agree (ka (t, o) (s', n')) (kp t o s')) ->
  agree ((do r <- on_unwind (alogged l) (do target <- a_bucket_for_key_mut p_ho k; do o <- a_find_from p_eo target k; ret (target, o)); ka r) (s, n))
    ((do target <- on_unwind (logged l) (bucket_for_key_mut hash k); do o <- find_from eqb target k; kp target o) s).
Proof.
  intros H.
  assert (E : (do target <- on_unwind (logged l) (bucket_for_key_mut hash k); do o <- find_from eqb target k; kp target o) s =
    (do r <- (do target <- on_unwind (logged l) (bucket_for_key_mut hash k); do o <- find_from eqb target k; ret (target, o)); kp (fst r) (snd r)) s).
  { rewrite bind_assoc. apply bind_cong. intros t s1. rewrite bind_assoc. apply bind_cong. intros o s2. done. }
  rewrite E. apply agree_bind; [apply search_agree|]. intros [t o] s' n' _. apply H.
Qed.

Lemma get_mut_set_agree k v s n : t_bc s <> 0%Z -> agree (a_get_mut_set eb p_ho p_eo k v (s, n)) (get_mut_set eb hash eqb k v s).
Proof.
  intros N. unfold a_get_mut_set, get_mut_set.
  rewrite <- (bind_assoc (bucket_for_key_mut hash k) (fun slot => find_from eqb slot k)). apply agree_bind.
  - rewrite <- (unwind_calm (logged [inr v])).
    + apply agree_unwind. apply agree_bind; [apply bucket_mut_agree|intros ? ? ? _]. apply find_from_agree.
    + pose proof (bucket_mut_calm k s N) as C. unfold bind. destruct (bucket_for_key_mut hash k s); [apply find_from_calm|done|done].
  - intros o s' n' _. destruct o as [p|].
    + stepb. destruct a as [[? ?] ?]. stepb. stepb. step.
    + stepb. step.
Qed.

Lemma rehash_bucket_agree nb bc f : forall p s n, agree (a_rehash_bucket eb p_ho f nb bc p (s, n)) (rehash_bucket eb hash f nb bc p s).
Proof.
  induction f as [|f IH]; intros p s n; cbn [a_rehash_bucket rehash_bucket]; [done|]. destruct p; [step|].
  stepb. destruct a as [[k0 v0] nx]. apply agree_bind; [apply index_agree|intros ? ? ? _]. stepb.
  destruct (_ <? _)%Z; [|cbn; eauto]. stepb. stepb. stepb. stepb. apply IH.
Qed.

Lemma rehash_agree bc s n : agree (a_rehash nsz nal eb chk p_ho bc (s, n)) (rehash nsz nal eb chk hash bc s).
Proof.
  unfold a_rehash, rehash. stepb. stepb. stepb. stepb. destruct (_ <? _)%Z; [|cbn; eauto]. stepb. stepb.
  apply agree_bind.
  - destruct (is_null _); [step|]. apply agree_for_each. intros i s0 n0. stepb. stepb. destruct (is_null _); [step|].
    stepb. apply agree_bind; [apply rehash_bucket_agree|intros ? ? ? _]. step.
  - intros ? ? ? _. stepb. step.
Qed.

Lemma insert_impl_agree t k v s n : agree (a_insert_impl nsz nal eb chk p_ho t k v (s, n)) (insert_impl nsz nal eb chk hash t k v s).
Proof.
  unfold a_insert_impl, insert_impl. apply agree_bind.
  - apply agree_unwind. stepb. apply agree_bind.
    + destruct a; [|step]. apply agree_bind; [apply rehash_agree|intros ? ? ? _]. apply bucket_mut_agree.
    + intros ? ? ? _. stepb. step.
  - intros [t' nd] s' n' _. step.
Qed.

Lemma insert_agree k v s n : agree (a_insert nsz nal eb chk p_ho p_eo k v (s, n)) (insert nsz nal eb chk hash eqb k v s).
Proof.
  unfold a_insert, insert. apply search_bind. intros t o s' n'. cbn [fst snd]. destruct o as [p|]; [step|].
  apply agree_bind; [apply insert_impl_agree|intros ? ? ? _]. step.
Qed.

Lemma entry_agree k s n : agree (a_entry p_ho p_eo k (s, n)) (entry hash eqb k s).
Proof.
  unfold a_entry, entry. apply search_bind. intros t o s' n'. cbn [fst snd]. destruct o as [p|]; [stepb; step|step].
Qed.

Lemma entry_mod_agree k f s n : agree (a_entry_mod eb p_ho p_eo k f (s, n)) (entry_mod eb hash eqb k f s).
Proof. unfold a_entry_mod, entry_mod. apply agree_bind; [apply entry_agree|intros ? ? ? _]. stepb. step. Qed.

Lemma entry_mod_calm k f (s : tstate) : t_bc s <> 0%Z -> is_panic (entry_mod eb hash eqb k f s) = false.
Proof.
  intros N. unfold entry_mod. unfold bind at 1.
  assert (C : is_panic (entry hash eqb k s) = false).
  { unfold entry, bind at 1. pose proof (bucket_mut_calm k s N) as C. rewrite (unwind_calm _ _ _ C).
    destruct (bucket_for_key_mut hash k s) as [t s1| |]; [|done|done]. unfold bind at 1. pose proof (find_from_calm t k s1) as C1.
    destruct (find_from eqb t k s1) as [o s2| |]; [|done|done]. by destruct o. }
  destruct (entry hash eqb k s) as [e s1| |]; [|done|done]. destruct f as [f|]; [|done]. destruct e as [p|]; [|done].
  unfold and_modify, node_at, bind, gets. destruct (hload _ _) as [[]|]; try done. cbn. unfold store, bind, gets. destruct p; [done|].
  destruct (_ =? _); [done|]. by destruct (hstore _ _ _).
Qed.

Lemma or_insert_with_agree e v s n : agree (a_or_insert_with nsz nal eb chk p_ho e v (s, n)) (or_insert_with nsz nal eb chk hash e v s).
Proof.
  unfold a_or_insert_with, or_insert_with. destruct e as [p|[t k]].
  - stepb. destruct a as [[? ?] ?]. step.
  - apply agree_bind; [apply insert_impl_agree|intros ? ? ? _]. stepb. destruct a0 as [[? ?] ?]. step.
Qed.

Lemma find_place_agree f : forall a k s n, agree (a_find_place p_eo f a k (s, n)) (find_place eqb f a k s).
Proof.
  induction f as [|f IH]; intros a k s n; cbn [a_find_place find_place]; [done|]. apply agree_bind; [step|intros p s1 n1 _]. destruct p; [step|].
  stepb. destruct a0 as [[k0 v0] nx]. unfold bind, equals_now, p_eo. cbn [fst snd]. destruct (eqb k0 k); [cbn; eauto|apply IH].
Qed.

Lemma remove_entry_agree k s n : agree (a_remove_entry nsz nal eb chk p_ho p_eo k (s, n)) (remove_entry nsz nal eb chk hash eqb k s).
Proof.
  unfold a_remove_entry, remove_entry. apply agree_bind; [apply bucket_mut_agree|intros ? ? ? _]. stepb.
  apply agree_bind; [apply find_place_agree|intros ? ? ? _]. step.
Qed.

Lemma insert_all_agree : forall kvs s n, agree (a_insert_all nsz nal eb chk p_ho p_eo kvs (s, n)) (insert_all nsz nal eb chk hash eqb kvs s).
Proof.
  induction kvs as [|[k v] kvs IH]; intros s n; cbn [a_insert_all insert_all]; [step|].
  apply agree_bind; [apply agree_unwind, insert_agree|intros ? ? ? _]. stepb. apply IH.
Qed.

Lemma call_agree c s n : t_bc s <> 0%Z -> agree (a_call nsz nal eb chk p_ho p_eo c (s, n)) (h_call nsz nal eb chk hash eqb c s).
Proof.
  intros N. destruct c as [k v|k|k|k v|k|k|k f v|k f v|k f|kvs| | | | |g]; cbn [a_call h_call].
  - apply agree_bind; [apply insert_agree|intros ? ? ? _]. step.
  - apply agree_bind; [apply get_agree|intros ? ? ? _]. step.
  - unfold contains_key. rewrite bind_assoc. apply agree_bind; [apply get_agree|intros ? ? ? _]. cbn. eauto.
  - apply agree_bind; [by apply get_mut_set_agree|intros ? ? ? _]. step.
  - unfold a_remove, remove. apply agree_bind; [|intros ? ? ? _; step]. apply agree_bind; [apply remove_entry_agree|intros ? ? ? _].
    destruct a as [[? ?]|]; [stepb|]; step.
  - apply agree_bind; [apply remove_entry_agree|intros ? ? ? _]. step.
  - apply agree_bind.
    + rewrite <- (unwind_calm (logged [inr v])) by (by apply entry_mod_calm). apply agree_unwind, entry_mod_agree.
    + intros ? ? ? _. unfold a_or_insert, or_insert. apply agree_bind; [|intros ? ? ? _; step].
      apply agree_bind; [apply or_insert_with_agree|intros ? ? ? _]. destruct (negb _); [stepb|]; step.
  - apply agree_bind; [apply entry_mod_agree|intros ? ? ? _]. apply agree_bind; [apply or_insert_with_agree|intros ? ? ? _]. step.
  - apply agree_bind; [apply entry_mod_agree|intros ? ? ? _]. stepb. step.
  - apply agree_bind; [apply insert_all_agree|intros ? ? ? _]. step.
  - step.
  - step.
  - step.
  - step.
  - step.
Qed.

Hypothesis Hnsz : (0 < nsz)%Z.
Hypothesis Hlay : layout_ok nsz nal = true.
Variable h0 : heap (tcell K V).
Hypothesis Hstat : static_ok eb h0.

Lemma run_agree : forall prog s cs n, WRep nsz nal eb p_ho h0 s cs -> exists l s' n',
  a_run nsz nal eb chk p_ho p_eo prog (s, n) = Some (l, (s', n')) /\ h_run nsz nal eb chk hash eqb prog s = Some (l, s').
Proof.
  induction prog as [|c prog IH]; intros s cs n R.
  - by exists [], s, n.
  - cbn [a_run h_run]. pose proof (call_post nsz nal eb chk p_ho p_eo Hnsz Hlay h0 Hstat c s cs n R) as CP.
    pose proof (W_pos nsz nal eb p_ho p_eo Hlay h0 s cs R) as P. pose proof (w_bc _ _ _ _ _ _ _ R) as B.
    assert (N : t_bc s <> 0%Z) by lia. pose proof (call_agree c s n N) as A.
    destruct (h_call nsz nal eb chk hash eqb c s) as [a s1|s1|]; cbn in A.
    + destruct A as [n1 E]. rewrite E in *. destruct CP as (cs1 & R1 & _). destruct (IH s1 cs1 n1 R1) as (l & s' & n' & -> & ->). by exists (Some a :: l), s', n'.
    + destruct A as [n1 E]. rewrite E in *. destruct CP as (cs1 & R1 & _). destruct (IH s1 cs1 n1 R1) as (l & s' & n' & -> & ->). by exists (None :: l), s', n'.
    + rewrite A in CP. done.
Qed.
End agree.
