(** Proofs of the properties stated in HashFreshProps.v. *)
From Verif Require Import Base Heap Alloc HashTable HashTableSpec HashFresh.
Local Open Scope nat_scope.

From Verif Require Import HeapLemmas RehashPolicy HashTableProofs HashTableMore HashTableDerived HashRefsDerived.
Local Open Scope nat_scope.

Lemma bind_inv {S A B} (f : M S A) (g : A -> M S B) s y s' : bind f g s = Ok y s' -> exists x s1, f s = Ok x s1 /\ g x s1 = Ok y s'.
Proof. unfold bind. destruct (f s) as [x s1|s1|]; [|done|done]. by exists x, s1. Qed.
Lemma bind_of {S A B} (f : M S A) (g : A -> M S B) s x s' : f s = Ok x s' -> bind f g s = g x s'.
Proof. unfold bind. by intros ->. Qed.
Lemma bind_ub {S A B} (f : M S A) (g : A -> M S B) s : f s = UB -> bind f g s = UB.
Proof. unfold bind. by intros ->. Qed.

Section fresh.
Context {K V : Type}.
Variables nsz nal : Z.
Variable eb : nat.
Variable chk : bool.
Variable hash : K -> Z.
Variable eqb : K -> K -> bool.
Local Notation tstate := (tstate K V).

(** The array stays and no block number is used again. *)
Definition still {A} (m : M tstate A) : Prop := forall s a s', m s = Ok a s' -> t_arr s' = t_arr s /\ h_next (t_h s) <= h_next (t_h s').
Lemma st_bind {A B} (m : M tstate A) (k : A -> M tstate B) : still m -> (forall x, still (k x)) -> still (bind m k).
Proof using. intros H1 H2 s x s' E. apply bind_inv in E as (y & s1 & E1 & E2). apply H1 in E1 as [A1 B1]. apply H2 in E2 as [A2 B2]. split; [by rewrite A2|lia]. Qed.
Lemma st_ret {A} (x : A) : still (ret x).
Proof using. by intros s y s' [= _ <-]. Qed.
Lemma st_ub {A} : still (ub (A := A)).
Proof using. done. Qed.
Lemma st_panic {A} : still (panic (A := A)).
Proof using. done. Qed.
Lemma st_gets {A} (f : tstate -> A) : still (gets f).
Proof using. by intros s y s' [= _ <-]. Qed.
Lemma st_or_ub {A} (o : option A) : still (or_ub o).
Proof using. destruct o; [apply st_ret|apply st_ub]. Qed.
Lemma st_u32 r : still (u32 chk r).
Proof using. intros s y s'. unfold u32. destruct (_ && _); [by intros [= _ <-]|]. destruct chk; [done|]. by intros [= _ <-]. Qed.
Lemma st_unwind {A} f (m : M tstate A) : still m -> still (on_unwind f m).
Proof using. intros H s x s' E. unfold on_unwind in E. destruct (m s) as [y s1|s1|] eqn:E1; [|done|done]. injection E as <- <-. exact (H _ _ _ E1). Qed.
Lemma st_drop l : still (drop_all l).
Proof using. by intros s y s' [= _ <-]. Qed.
Lemma st_set_ec e : still (set_ec e).
Proof using. by intros s y s' [= _ <-]. Qed.
Lemma hput_next {C} (h : heap C) p vs h' : hput h p vs = Some h' -> h_next h' = h_next h.
Proof using. unfold hput. destruct p; [done|]. destruct (_ !! _); [|done]. destruct (_ <=? _); [|done]. by intros [= <-]. Qed.
Lemma st_store p c : still (store eb p c).
Proof using.
  intros s [] s' H. unfold store in H. apply bind_inv in H as (h & s1 & H1 & H). injection H1 as <- <-. destruct p as [|b o]; [done|]. destruct (b =? eb); [done|].
  apply bind_inv in H as (h' & s2 & H2 & H). destruct (hstore _ _ _) as [h1|] eqn:E; [|done]. injection H2 as <- <-. injection H as <-. split; [done|].
  cbn. unfold hstore in E. apply hput_next in E. lia.
Qed.
Lemma st_write p q : still (write_slot eb p q).
Proof using. apply st_store. Qed.
Lemma st_alloc c a n : still (allocate c a n).
Proof using. intros s p s'. unfold allocate, default_alloc. cbn [fst snd]. destruct (_ =? 0)%Z; [done|]. destruct (layout_ok _ _); [|done]. intros [= _ <-]. cbn. split; [done|lia]. Qed.
Lemma st_free p c a n : still (deallocate p c a n).
Proof using.
  intros s [] s'. unfold deallocate, default_free. cbn [fst snd]. destruct (layout_ok _ _); [|done]. destruct (hfree _ _ _ _) as [h|] eqn:E; [|done]. intros [= <-]. split; [done|].
  cbn. unfold hfree in E. destruct p as [|b [|o]]; [done| |done]. destruct (_ !! _); [|done]. destruct (_ && _); [|done]. by injection E as <-.
Qed.
Lemma st_read p : still (read_slot p).
Proof using. apply st_bind; [apply st_gets|]. intros h. destruct (hload h p) as [[]|]; first [apply st_ret|apply st_ub]. Qed.
Lemma st_node p : still (node_at p).
Proof using. apply st_bind; [apply st_gets|]. intros h. destruct (hload h p) as [[]|]; first [apply st_ret|apply st_ub]. Qed.
Lemma st_each {A} (l : list A) f : (forall x, still (f x)) -> still (for_each l f).
Proof using. intros H. induction l; cbn [for_each]; [apply st_ret|]. by apply st_bind. Qed.
Lemma st_required : still (rehash_required chk).
Proof using. intros s o s'. unfold rehash_required. destruct (get_rehash_required _ _ _ _ _); try done. intros [= _ <-]. done. Qed.
Ltac kp := repeat first [apply st_ret | apply st_ub | apply st_panic | apply st_gets | apply st_or_ub | apply st_u32 | apply st_unwind | apply st_drop | apply st_set_ec
  | apply st_store | apply st_write | apply st_alloc | apply st_free | apply st_read | apply st_node | apply st_required | apply st_each; intros ?
  | assumption | match goal with
      | H : forall _, still _ |- _ => apply H
      | H : forall _ _, still _ |- _ => apply H
      | |- still (bind _ _) => apply st_bind; [|intros ?]
      | |- still (let '(_, _) := ?c in _) => destruct c
      | |- still (if ?c then _ else _) => destruct c
      | |- still (match ?c with None => _ | Some _ => _ end) => destruct c
      | |- still (match ?c with Null => _ | Ptr _ _ => _ end) => destruct c
      | |- still (match ?c with inl _ => _ | inr _ => _ end) => destruct c
      | |- still (match ?c with ASlot _ => _ | ANext _ => _ end) => destruct c
      end].
Lemma st_bucket k : still (bucket_for_key hash k).
Proof using. unfold bucket_for_key, bucket_index. kp. Qed.
Lemma st_bucket_mut k : still (bucket_for_key_mut hash k).
Proof using. unfold bucket_for_key_mut, bucket_index. kp. Qed.
Lemma st_find_in f k : forall p, still (find_in_bucket eqb f p k).
Proof using. induction f; intros p; cbn [find_in_bucket]; kp. Qed.
Lemma st_find p k : still (find_from eqb p k).
Proof using. unfold find_from. apply st_bind; [apply st_read|]. intros. apply st_bind; [apply st_gets|]. intros. apply st_find_in. Qed.
Lemma st_free_bucket f : forall p, still (free_bucket nsz nal f p).
Proof using. induction f; intros p; cbn [free_bucket]; kp. Qed.
Lemma st_free_buckets : still (free_buckets nsz nal eb).
Proof using. unfold free_buckets. kp. apply st_free_bucket. Qed.
Lemma st_rehash_bucket f nb bc : forall p, still (rehash_bucket eb hash f nb bc p).
Proof using. induction f; intros p; cbn [rehash_bucket]; unfold bucket_index; kp. Qed.
Lemma st_get k : still (get hash eqb k).
Proof using. unfold get. apply st_bind; [apply st_bucket|]. intros. apply st_bind; [apply st_find|]. intros. kp. Qed.
Lemma st_read_place a : still (read_place a).
Proof using. unfold read_place. kp. Qed.
Lemma st_find_place f k : forall a, still (find_place eqb f a k).
Proof using. induction f; intros a; cbn [find_place]; [kp|]. apply st_bind; [apply st_read_place|]. intros. kp. Qed.
Lemma st_remove_entry k : still (remove_entry nsz nal eb chk hash eqb k).
Proof using.
  unfold remove_entry, write_place. apply st_bind; [apply st_bucket_mut|]. intros. apply st_bind; [apply st_gets|]. intros. apply st_bind; [apply st_find_place|]. intros.
  apply st_bind; [apply st_read_place|]. intros. kp.
Qed.
Lemma st_next_bucket n : forall p, still (next_bucket p n).
Proof using. induction n; intros p; cbn [next_bucket]; kp. Qed.
Lemma st_iter : still iter.
Proof using. unfold iter. apply st_bind; [apply st_gets|]. intros. apply st_bind; [apply st_next_bucket|]. intros. kp. Qed.
Lemma st_iter_next it : still (iter_next it).
Proof using.
  unfold iter_next. destruct (ri_node it); [kp|]. apply st_bind; [apply st_node|]. intros [[k v] nx]. destruct (is_null nx); [|kp].
  apply st_bind; [apply st_next_bucket|]. intros. kp.
Qed.
Lemma st_iter_all f : forall it, still (iter_all f it).
Proof using. induction f; intros it; cbn [iter_all]; [kp|]. apply st_bind; [apply st_iter_next|]. intros. kp. Qed.
Lemma st_iter_mut_all f g : forall it, still (iter_mut_all eb f g it).
Proof using. induction f; intros it; cbn [iter_mut_all]; [kp|]. apply st_bind; [apply st_iter_next|]. intros. kp. Qed.
Lemma st_entry_mod k f : still (entry_mod eb hash eqb k f).
Proof using.
  unfold entry_mod, entry, and_modify. apply st_bind; [|intros; kp]. apply st_bind; [apply st_unwind, st_bucket_mut|]. intros. apply st_bind; [apply st_find|]. intros. kp.
Qed.

(** The array of a state is in the memory. *)
Definition inside (s : tstate) : Prop := exists b o, t_arr s = Ptr b o /\ b < h_next (t_h s).
(** The array afterwards is the same or a new one. *)
Definition after_ok (s s' : tstate) : Prop :=
  h_next (t_h s) <= h_next (t_h s') /\ (t_arr s' = t_arr s \/ exists b o, t_arr s' = Ptr b o /\ h_next (t_h s) <= b < h_next (t_h s')).
(** A checked operation does the same as the other as long as the array stays. *)
Definition sim {A} (m' m : M tstate A) : Prop := forall s a s', inside s -> m s = Ok a s' ->
  after_ok s s' /\ (t_arr s' = t_arr s -> m' s = Ok a s') /\ (t_arr s' <> t_arr s -> m' s = UB).
Lemma after_inside s s' : inside s -> after_ok s s' -> inside s'.
Proof using. intros (b & o & E & L) [N [A|(b' & o' & A & B)]]; [exists b, o|exists b', o']; rewrite A; [split; [done|lia]|split; [done|lia]]. Qed.
Lemma after_back s s1 s2 : inside s -> after_ok s s1 -> after_ok s1 s2 -> t_arr s2 = t_arr s -> t_arr s1 = t_arr s.
Proof using.
  intros (b & o & E & L) [N1 A1] [N2 A2] EQ. destruct A1 as [?|(b1 & o1 & A1 & B1)]; [done|]. exfalso.
  destruct A2 as [A2|(b2 & o2 & A2 & B2)]; rewrite A2 in EQ; [rewrite A1 in EQ|]; rewrite E in EQ; injection EQ; lia.
Qed.
Lemma after_trans s s1 s2 : after_ok s s1 -> after_ok s1 s2 -> after_ok s s2.
Proof using.
  intros [N1 A1] [N2 A2]. split; [lia|]. destruct A2 as [->|(b2 & o2 & A2 & B2)]; [|right; exists b2, o2; split; [done|lia]].
  destruct A1 as [->|(b1 & o1 & A1 & B1)]; [by left|]. right. exists b1, o1. split; [done|lia].
Qed.
Lemma sim_still {A} (m : M tstate A) : still m -> sim m m.
Proof using. intros H s a s' I E. destruct (H _ _ _ E) as [A1 N]. split; [split; [done|by left]|]. split; [done|]. by rewrite A1. Qed.
Lemma sim_bind {A B} (m' m : M tstate A) (k' k : A -> M tstate B) : sim m' m -> (forall x, sim (k' x) (k x)) -> sim (bind m' k') (bind m k).
Proof using.
  intros H1 H2 s a s' I E. apply bind_inv in E as (x & s1 & E1 & E2). destruct (H1 _ _ _ I E1) as (A1 & S1 & U1).
  destruct (H2 _ _ _ _ (after_inside _ _ I A1) E2) as (A2 & S2 & U2). split; [by eapply after_trans|]. split.
  - intros EQ. pose proof (after_back _ _ _ I A1 A2 EQ) as Q. rewrite (bind_of _ _ _ _ _ (S1 Q)). apply S2. by rewrite Q.
  - intros NE. destruct (decide (t_arr s1 = t_arr s)) as [Q|Q].
    + rewrite (bind_of _ _ _ _ _ (S1 Q)). apply U2. by rewrite Q.
    + apply bind_ub. by apply U1.
Qed.
Lemma sim_unwind {A} f (m' m : M tstate A) : sim m' m -> sim (on_unwind f m') (on_unwind f m).
Proof using.
  intros H s x s' I E. unfold on_unwind in *. destruct (m s) as [y s1|s1|] eqn:E1; [|done|done]. injection E as <- <-. destruct (H _ _ _ I E1) as (A1 & S1 & U1).
  split; [done|]. split; intros Q; [by rewrite (S1 Q)|by rewrite (U1 Q)].
Qed.
Lemma u32_pos r (s : tstate) n s1 : u32 chk r s = Ok n s1 -> (0 <= n)%Z.
Proof using.
  unfold u32. destruct (_ && _) eqn:E; [intros [= <- _]; lia|]. destruct chk; [done|]. intros [= <- _]. apply Z.mod_pos_bound. done.
Qed.
Lemma sim_rehash bc : sim (rehash_i nsz nal eb chk hash bc) (rehash nsz nal eb chk hash bc).
Proof using.
  intros s a s' I H. unfold rehash in H. apply bind_inv in H as (n & s1 & H1 & H). pose proof (st_u32 _ _ _ _ H1) as [A1 N1].
  pose proof (u32_pos _ _ _ _ H1) as NP. apply bind_inv in H as (nb & s2 & H2 & H). pose proof (st_alloc _ _ _ _ _ _ H2) as [A2 N2].
  assert (nb = Ptr (h_next (t_h s1)) 0 /\ h_next (t_h s1) < h_next (t_h s2) /\ n <> 0%Z /\ cells_of (t_h s2) (h_next (t_h s1)) = Some (replicate (Z.to_nat n) None)) as (-> & LT & NZ & CE).
  { unfold allocate, default_alloc in H2. cbn [fst snd] in H2. destruct (_ =? 0)%Z eqn:Z0; [done|]. destruct (layout_ok _ _); [|done]. injection H2 as <- <-. cbn.
    split; [done|]. split; [lia|]. split; [intros ->; done|]. unfold cells_of. cbn. rewrite lookup_insert. cbn. by rewrite Z.div_mul. }
  assert (U : rehash_i nsz nal eb chk hash bc s = UB).
  { unfold rehash_i. rewrite (bind_of _ _ _ _ _ H1), (bind_of _ _ _ _ _ H2). apply bind_ub. unfold slice_of, bind, gets, hslice, hraw. rewrite CE.
    rewrite replicate_length, Nat.add_0_l, Nat.leb_refl. rewrite drop_0, take_ge by (rewrite replicate_length; lia). destruct (Z.to_nat n) as [|k] eqn:E; [lia|]. done. }
  apply bind_inv in H as (h & s3 & H3 & H). injection H3 as _ <-. apply bind_inv in H as ([] & s4 & H4 & H).
  assert (h_next (t_h s2) <= h_next (t_h s4)) as N4. { refine (proj2 ((_ : still _) _ _ _ H4)). kp. }
  destruct (bc <? n)%Z; [|done]. apply bind_inv in H as ([] & s5 & H5 & H).
  assert (h_next (t_h s4) <= h_next (t_h s5)) as N5. { refine (proj2 ((_ : still _) _ _ _ H5)). kp. }
  apply bind_inv in H as (sx & s6 & H6 & H). injection H6 as <- <-. apply bind_inv in H as ([] & s7 & H7 & H).
  assert (h_next (t_h s5) <= h_next (t_h s7)) as N7. { refine (proj2 ((_ : still _) _ _ _ H7)). kp. apply st_rehash_bucket. }
  apply bind_inv in H as ([] & s8 & H8 & H). pose proof (st_free_buckets _ _ _ H8) as [_ N8]. injection H as _ <-.
  assert (after_ok s (TState (Ptr (h_next (t_h s1)) 0) bc (t_ec s8) (t_nr s8) (t_h s8) (t_drops s8))) as AO.
  { split; cbn; [lia|]. right. eexists _, _. split; [done|lia]. }
  split; [exact AO|]. split; [|done]. destruct I as (b & o & EB & LB). cbn. rewrite EB. intros [= Q _]. lia.
Qed.
Lemma sim_impl t k v : sim (insert_impl_i nsz nal eb chk hash t k v) (insert_impl nsz nal eb chk hash t k v).
Proof using.
  unfold insert_impl_i, insert_impl. apply sim_bind; [|intros ?; apply sim_still; kp]. apply sim_unwind. apply sim_bind; [apply sim_still, st_required|]. intros o.
  apply sim_bind; [|intros ?; apply sim_still; kp]. destruct o as [bc|]; [|apply sim_still; kp]. apply sim_bind; [apply sim_rehash|]. intros. apply sim_still, st_bucket_mut.
Qed.
Lemma sim_insert k v : sim (insert_i nsz nal eb chk hash eqb k v) (insert nsz nal eb chk hash eqb k v).
Proof using.
  unfold insert_i, insert. apply sim_bind; [apply sim_still, st_unwind, st_bucket_mut|]. intros t. apply sim_bind; [apply sim_still, st_find|]. intros [p|]; [apply sim_still; kp|].
  apply sim_bind; [apply sim_impl|]. intros. apply sim_still; kp.
Qed.
Lemma sim_or_with e v : sim (or_insert_with_i nsz nal eb chk hash e v) (or_insert_with nsz nal eb chk hash e v).
Proof using. destruct e as [p|[t k]]; cbn [or_insert_with_i or_insert_with]; [apply sim_still; kp|]. apply sim_bind; [apply sim_impl|]. intros. apply sim_still; kp. Qed.
Lemma sim_all kvs : sim (insert_all_i nsz nal eb chk hash eqb kvs) (insert_all nsz nal eb chk hash eqb kvs).
Proof using.
  induction kvs as [|[k v] kvs IH]; cbn [insert_all_i insert_all]; [apply sim_still; kp|]. apply sim_bind; [apply sim_unwind, sim_insert|]. intros o.
  apply sim_bind; [apply sim_still; kp|]. intros. exact IH.
Qed.
Lemma sim_call c : sim (h_call_i nsz nal eb chk hash eqb c) (h_call nsz nal eb chk hash eqb c).
Proof using.
  destruct c; cbn [h_call_i h_call].
  - apply sim_bind; [apply sim_insert|]. intros. apply sim_still; kp.
  - apply sim_still, st_bind; [apply st_get|]. intros. kp.
  - apply sim_still, st_bind; [|intros; kp]. unfold contains_key. apply st_bind; [apply st_get|]. intros. kp.
  - apply sim_still, st_bind; [|intros; kp]. unfold get_mut_set. apply st_bind; [apply st_bucket_mut|]. intros. apply st_bind; [apply st_find|]. intros. kp.
  - apply sim_still, st_bind; [|intros; kp]. unfold remove. apply st_bind; [apply st_remove_entry|]. intros [[]|]; kp.
  - apply sim_still, st_bind; [apply st_remove_entry|]. intros. kp.
  - apply sim_bind; [apply sim_still, st_entry_mod|]. intros e. apply sim_bind; [|intros; apply sim_still; kp]. unfold or_insert_i, or_insert.
    apply sim_bind; [apply sim_or_with|]. intros. apply sim_still; kp.
  - apply sim_bind; [apply sim_still, st_entry_mod|]. intros e. apply sim_bind; [apply sim_or_with|]. intros. apply sim_still; kp.
  - apply sim_still, st_bind; [apply st_entry_mod|]. intros e. unfold drop_entry. apply st_bind; [|intros; kp]. destruct e as [|[]]; kp.
  - apply sim_bind; [apply sim_all|]. intros. apply sim_still; kp.
  - apply sim_still. unfold len. kp.
  - apply sim_still. unfold is_empty. kp.
  - apply sim_still, st_bind; [|intros; kp]. unfold clear. apply st_bind; [apply st_free_buckets|]. intros; kp.
  - apply sim_still, st_bind; [apply st_iter|]. intros. apply st_bind; [apply st_gets|]. intros. apply st_bind; [apply st_iter_all|]. intros. kp.
  - apply sim_still, st_bind; [apply st_iter|]. intros. apply st_bind; [apply st_gets|]. intros. apply st_bind; [apply st_iter_mut_all|]. intros. kp.
Qed.
Lemma sim_run cs : forall s l s', inside s -> h_run nsz nal eb chk hash eqb cs s = Some (l, s') -> None ∉ l ->
  after_ok s s' /\ h_run_i nsz nal eb chk hash eqb cs s = if decide (t_arr s' = t_arr s) then Some (l, s') else None.
Proof using.
  induction cs as [|c cs IH]; intros s l s' I H NL.
  { cbn in H. injection H as <- <-. split; [split; [done|by left]|]. by rewrite decide_True. }
  cbn [h_run h_run_i] in *. destruct (h_call _ _ _ _ _ _ c s) as [a s1|s1|] eqn:EC; [| |done].
  2:{ destruct (h_run _ _ _ _ _ _ cs s1) as [[l2 s2]|]; [|done]. injection H as <- <-. exfalso. apply NL. left. }
  destruct (h_run _ _ _ _ _ _ cs s1) as [[l2 s2]|] eqn:ER; [|done]. injection H as <- <-. apply not_elem_of_cons in NL as [_ NL].
  destruct (sim_call c s a s1 I EC) as (A1 & S1 & U1). destruct (IH _ _ _ (after_inside _ _ I A1) ER NL) as [A2 IR]. split; [by eapply after_trans|].
  destruct (decide (t_arr s2 = t_arr s)) as [Q|Q].
  - pose proof (after_back _ _ _ I A1 A2 Q) as Q1. rewrite (S1 Q1), IR. rewrite decide_True by (by rewrite Q1). done.
  - destruct (decide (t_arr s1 = t_arr s)) as [Q1|Q1]; [|by rewrite (U1 Q1)]. rewrite (S1 Q1), IR. rewrite decide_False by (by rewrite Q1). done.
Qed.
End fresh.

Section sets.
Context {K : Type}.
Variables nsz nal : Z.
Variable eb : nat.
Variable chk : bool.
Variable hash : K -> Z.
Variable eqb : K -> K -> bool.
Lemma sim_set_call c : sim (V := unit) (set_call_i nsz nal eb chk hash eqb c) (set_call nsz nal eb chk hash eqb c).
Proof using.
  destruct c; cbn [set_call_i set_call].
  - apply sim_bind; [|intros; apply sim_still, st_ret]. unfold set_insert_i, set_insert. apply sim_bind; [apply sim_insert|]. intros. apply sim_still, st_ret.
  - apply sim_still, st_bind; [|intros; apply st_ret]. unfold contains_key. apply st_bind; [apply st_get|]. intros. apply st_ret.
  - apply sim_still, st_bind; [|intros; apply st_ret]. unfold set_get. apply st_bind; [apply st_get|]. intros. apply st_ret.
  - apply sim_still, st_bind; [|intros; apply st_ret]. unfold set_remove. apply st_bind; [apply st_remove_entry|]. intros. apply st_ret.
  - apply sim_bind; [|intros; apply sim_still, st_ret]. apply sim_all.
  - apply sim_still, st_bind; [|intros; apply st_ret]. apply st_gets.
  - apply sim_still, st_bind; [|intros; apply st_ret]. apply st_gets.
  - apply sim_still, st_bind; [|intros; apply st_ret]. unfold clear. apply st_bind; [apply st_free_buckets|]. intros. apply st_set_ec.
  - apply sim_still, st_bind; [|intros; apply st_ret]. unfold set_iter. apply st_bind; [apply st_iter|]. intros. apply st_bind; [apply st_gets|]. intros.
    apply st_bind; [apply st_iter_all|]. intros. apply st_ret.
Qed.
Lemma sim_set_run cs : forall s l s', inside s -> set_run nsz nal eb chk hash eqb cs s = Some (l, s') -> None ∉ l ->
  after_ok s s' /\ set_run_i nsz nal eb chk hash eqb cs s = if decide (t_arr s' = t_arr s) then Some (l, s') else None.
Proof using.
  induction cs as [|c cs IH]; intros s l s' I H NL.
  { cbn in H. injection H as <- <-. split; [split; [done|by left]|]. by rewrite decide_True. }
  cbn [set_run set_run_i] in *. destruct (set_call _ _ _ _ _ _ c s) as [a s1|s1|] eqn:EC; [| |done].
  2:{ destruct (set_run _ _ _ _ _ _ cs s1) as [[l2 s2]|]; [|done]. injection H as <- <-. exfalso. apply NL. left. }
  destruct (set_run _ _ _ _ _ _ cs s1) as [[l2 s2]|] eqn:ER; [|done]. injection H as <- <-. apply not_elem_of_cons in NL as [_ NL].
  destruct (sim_set_call c s a s1 I EC) as (A1 & S1 & U1). destruct (IH _ _ _ (after_inside _ _ I A1) ER NL) as [A2 IR]. split; [by eapply after_trans|].
  destruct (decide (t_arr s2 = t_arr s)) as [Q|Q].
  - pose proof (after_back _ _ _ I A1 A2 Q) as Q1. rewrite (S1 Q1), IR. rewrite decide_True by (by rewrite Q1). done.
  - destruct (decide (t_arr s1 = t_arr s)) as [Q1|Q1]; [|by rewrite (U1 Q1)]. rewrite (S1 Q1), IR. rewrite decide_False by (by rewrite Q1). done.
Qed.
End sets.
Lemma built_inside {K V} nsz nal eb chk hash eqb (h0 : heap (tcell K V)) before l0 s : Setup nsz nal eb hash eqb h0 -> built nsz nal eb chk hash eqb h0 before l0 s -> inside s.
Proof.
  intros SU B. destruct (built_rep nsz nal eb chk hash eqb h0 SU _ _ _ B) as (cs0 & arrs & R0 & _). destruct (tr_arr _ _ _ _ _ _ _ _ _ _ R0) as (a & ps & by_ & EA & SL & _).
  exists a, 0. split; [done|]. apply (tr_wf _ _ _ _ _ _ _ _ _ _ R0). by eexists.
Qed.

Lemma L_C128_programs_partial :
forall (K V : Type) (nsz nal : Z) (eb : nat) (chk : bool) (hash : K -> Z) (eqb : K -> K -> bool) (h0 : heap (tcell K V))
    (before cs : list (hcall K V)) (l0 l : list (option (hanswer K V))) (s s' : tstate K V),
  Setup nsz nal eb hash eqb h0 -> built nsz nal eb chk hash eqb h0 before l0 s ->
  h_run nsz nal eb chk hash eqb cs s = Some (l, s') -> None ∉ l ->
  (t_arr s' = t_arr s -> h_run_i nsz nal eb chk hash eqb cs s = Some (l, s')) /\
  (t_arr s' <> t_arr s -> h_run_i nsz nal eb chk hash eqb cs s = None).
Proof.
intros K V nsz nal eb chk hash eqb h0 before cs l0 l s s' SU B R NL.
pose proof (built_inside _ _ _ _ _ _ _ _ _ _ SU B) as I.
destruct (sim_run _ _ _ _ _ _ cs s l s' I R NL) as [_ ->]. split; intros Q; [by rewrite decide_True|by rewrite decide_False].
Qed.

Lemma L_C128_new_partial :
forall (K V : Type) (nsz nal : Z) (eb : nat) (chk : bool) (hash : K -> Z) (eqb : K -> K -> bool) (h0 : heap (tcell K V))
    (cs : list (hcall K V)) (l : list (option (hanswer K V))) (s : tstate K V),
  Setup nsz nal eb hash eqb h0 -> built nsz nal eb chk hash eqb h0 cs l s -> None ∉ l ->
  (keys_given cs = 0 -> h_run_i nsz nal eb chk hash eqb cs (ht_new eb h0 []) = Some (l, s)) /\
  (keys_given cs <> 0 -> h_run_i nsz nal eb chk hash eqb cs (ht_new eb h0 []) = None).
Proof.
intros K V nsz nal eb chk hash eqb h0 cs l s SU B NL.
pose proof (TRep_new nsz nal eb hash eqb (su_layout _ _ _ _ _ _ SU) h0 [] (su_heap _ _ _ _ _ _ SU) (su_static _ _ _ _ _ _ SU)) as R0.
destruct (L_C128_programs_partial K V nsz nal eb chk hash eqb h0 [] cs [] l (ht_new eb h0 []) s SU eq_refl B NL) as [P1 P2]. split; intros KG.
- apply P1. destruct (built_rep nsz nal eb chk hash eqb h0 SU _ _ _ B) as (cs0 & arrs & R & _). rewrite KG in R. change (Z.of_nat 0) with 0%Z in R.
  pose proof (no_keys nsz nal eb hash eqb h0 _ _ _ R) as ->.
  destruct (tr_arr _ _ _ _ _ _ _ _ _ _ R) as (a & ps & by_ & EA & SL & _ & [(-> & _)|(old & E & _)]); [exact EA|done].
- apply P2. destruct (grown_run nsz nal eb chk hash eqb h0 SU cs _ _ _ _ _ _ R0 B (or_intror KG)) as (cs0 & arrs & cnt & R & NA).
  destruct (tr_arr _ _ _ _ _ _ _ _ _ _ R) as (a & ps & by_ & EA & SL & _ & [(_ & E & _)|(old & E & _)]); [done|].
  rewrite EA. cbn. intros [= ->]. pose proof (tr_fresh _ _ _ _ _ _ _ _ _ _ R eb) as F. pose proof (su_static _ _ _ _ _ _ SU) as ST. unfold static_ok in ST.
  rewrite F in ST; [done|]. rewrite E. apply elem_of_app. right. left.
Qed.

Lemma L_C128_sets_partial :
forall (K : Type) (nsz nal : Z) (eb : nat) (chk : bool) (hash : K -> Z) (eqb : K -> K -> bool) (h0 : heap (tcell K unit))
    (before cs : list (scall K)) (l0 l : list (option (sanswer K))) (s s' : tstate K unit),
  Setup nsz nal eb hash eqb h0 -> set_run nsz nal eb chk hash eqb before (ht_new eb h0 []) = Some (l0, s) ->
  set_run nsz nal eb chk hash eqb cs s = Some (l, s') -> None ∉ l ->
  (t_arr s' = t_arr s -> set_run_i nsz nal eb chk hash eqb cs s = Some (l, s')) /\
  (t_arr s' <> t_arr s -> set_run_i nsz nal eb chk hash eqb cs s = None).
Proof.
intros K nsz nal eb chk hash eqb h0 before cs l0 l s s' SU B R NL.
assert (I : inside s).
{ rewrite set_run_h in B. destruct (h_run nsz nal eb chk hash eqb (map h_of before) (ht_new eb h0 [])) as [[l1 s1]|] eqn:E; [|done]. injection B as _ <-.
  exact (built_inside _ _ _ _ _ _ _ _ _ _ SU E). }
destruct (sim_set_run _ _ _ _ _ _ cs s l s' I R NL) as [_ ->]. split; intros Q; [by rewrite decide_True|by rewrite decide_False].
Qed.

Lemma L_C128_slices_refuted :
exists (cs : list (hcall Z Z)) (l : list (option (hanswer Z Z))) (s : tstate Z Z),
  Setup 24 8 0 hx_hash Z.eqb (hx_heap (V := Z)) /\ built 24 8 0 true hx_hash Z.eqb hx_heap cs l s /\ None ∉ l /\
  h_run_i 24 8 0 true hx_hash Z.eqb cs (ht_new 0 hx_heap []) = None.
Proof.
assert (A : match h_run 24 8 0 true hx_hash Z.eqb [HInsert 3%Z 4%Z] (ht_new 0 hx_heap []) with Some ([Some _], _) => true | _ => false end = true) by (vm_compute; reflexivity).
exists [HInsert 3%Z 4%Z]. destruct (h_run 24 8 0 true hx_hash Z.eqb [HInsert 3%Z 4%Z] (ht_new 0 hx_heap [])) as [[[|[a|] [|]] s]|] eqn:E; try done.
exists [Some a], s. split; [apply hx_setup|]. split; [exact E|].
assert (None ∉ [Some a]) as NL by (intros N; apply elem_of_list_singleton in N; done). split; [exact NL|].
by apply (L_C128_new_partial Z Z 24 8 0 true hx_hash Z.eqb hx_heap _ _ _ (hx_setup Z) E NL).
Qed.
