(** Calls by shared reference leave the state alone; orders of such calls. *)
From Verif Require Import Base Heap Vector String VectorMap Deque HashTable LinkedList RBTree AddrMem ReadersSpec.
Local Open Scope nat_scope.

(** ** Computations that do not change the state *)
Definition ro {S A} (m : M S A) : Prop :=
  forall s, match m s with Ok _ s' | Panic s' => s' = s | UB => True end.

Section ro.
Context {S : Type}.
Lemma ro_ret {A} (a : A) : ro (S := S) (ret a).
Proof. by intros s. Qed.
Lemma ro_panic {A} : ro (S := S) (A := A) panic.
Proof. by intros s. Qed.
Lemma ro_ub {A} : ro (S := S) (A := A) ub.
Proof. by intros s. Qed.
Lemma ro_gets {A} (f : S -> A) : ro (gets f).
Proof. by intros s. Qed.
Lemma ro_or_ub {A} (o : option A) : ro (S := S) (or_ub o).
Proof. by destruct o; intros s. Qed.
Lemma ro_bind {A B} (m : M S A) (f : A -> M S B) : ro m -> (forall a, ro (f a)) -> ro (bind m f).
Proof.
  intros Hm Hf s. unfold bind. specialize (Hm s). destruct (m s) as [a s'|s'|]; [|done|done]. subst. apply Hf.
Qed.
Lemma ro_usize chk r : ro (S := S) (usize chk r).
Proof. intros s. unfold usize. by repeat match goal with |- context [if ?b then _ else _] => destruct b end. Qed.
Lemma ro_usizeZ chk r : ro (S := S) (usizeZ chk r).
Proof. intros s. unfold usizeZ. by repeat match goal with |- context [if ?b then _ else _] => destruct b end. Qed.
End ro.

Create HintDb ro.
Ltac ro_step := first
  [ solve [auto with ro nocore] | apply ro_ret | apply ro_panic | apply ro_ub | apply ro_gets | apply ro_or_ub | apply ro_usize | apply ro_usizeZ
  | apply ro_bind; [|intros ?] | progress case_match ].
Ltac ro := repeat ro_step; auto with ro nocore.

(** ** Orders *)
Section orders.
Context {S C R : Type}.
Variable step : C -> S -> option (R * S).
Variable ok : C -> bool.
Variable s : S.
Hypothesis quiet : forall c, ok c = true -> exists a, step c s = Some (a, s).

Lemma alone_runs cs : forallb ok cs = true -> exists l, in_turn step cs s = Some (l, s) /\ length l = length cs.
Proof using quiet.
  induction cs as [|c cs IH]; cbn; intros H; [by exists []|].
  apply andb_true_iff in H as [Hc H]. destruct (quiet c Hc) as [a ->]. destruct (IH H) as (l & -> & L). exists (a :: l). cbn. by rewrite L.
Qed.

Lemma orders_quiet ts o : order ts o -> forallb (forallb ok) ts = true ->
  exists l, in_turn step (map snd o) s = Some (l, s) /\ length l = length o /\
    forall i t, ts !! i = Some t -> in_turn step t s = Some (heard i o l, s).
Proof using quiet.
  induction 1 as [ts D|ts i c t o L O IH]; intros H.
  - exists []. split; [done|]. split; [done|]. intros i t Ht. rewrite Forall_lookup in D. by rewrite (D i t Ht).
  - assert (Ht : forallb ok (c :: t) = true).
    { apply forallb_forall with (x := c :: t) in H; [done|]. apply elem_of_list_In. by eapply elem_of_list_lookup_2. }
    cbn in Ht. apply andb_true_iff in Ht as [Hc Ht].
    destruct IH as (l & RUN & LEN & ALL).
    { apply forallb_forall. intros x [j Hj]%elem_of_list_In%elem_of_list_lookup_1.
      apply list_lookup_insert_Some in Hj as [(-> & <- & _)|[_ Hj]]; [done|].
      eapply forallb_forall in H; [exact H|]. apply elem_of_list_In. by eapply elem_of_list_lookup_2. }
    destruct (quiet c Hc) as [a Ha]. exists (a :: l). cbn [map snd in_turn]. rewrite Ha, RUN. split; [done|]. split; [cbn; by rewrite LEN|].
    intros j u Hj. unfold heard. cbn [zip zip_with List.filter fst snd].
    destruct (i =? j) eqn:E.
    + apply Nat.eqb_eq in E as <-. rewrite L in Hj. injection Hj as <-. cbn [in_turn map snd]. rewrite Ha.
      rewrite (ALL i t); [done|]. apply list_lookup_insert. by eapply lookup_lt_Some.
    + apply Nat.eqb_neq in E. apply ALL. by rewrite list_lookup_insert_ne.
Qed.

Lemma undisturbed_quiet ts : forallb (forallb ok) ts = true -> undisturbed step ts s.
Proof using quiet. intros H o O. destruct (orders_quiet ts o O H) as (l & A & _ & B). eauto. Qed.
End orders.

(** A call that changes nothing and is not undefined. *)
Lemma quiet_call {S C R} (call : C -> M S R) c s : ro (call c) -> call c s <> UB -> exists a, answers call c s = Some (a, s).
Proof. intros H N. specialize (H s). unfold answers. destruct (call c s); subst; by eauto. Qed.

(** ** The containers *)
Section vector.
Context {A T : Type}.
Variable sz : Z.
Lemma ro_len : ro (Vector.len (A := A) (T := T) sz).
Proof. unfold Vector.len, Vector.offset_from. ro. Qed.
#[local] Hint Resolve ro_len : ro.
Lemma ro_capacity : ro (Vector.capacity (A := A) (T := T) sz).
Proof. unfold Vector.capacity, Vector.offset_from. ro. Qed.
#[local] Hint Resolve ro_capacity : ro.
Lemma ro_as_slice : ro (Vector.as_slice (A := A) (T := T) sz).
Proof. unfold Vector.as_slice, Vector.from_heap. ro. Qed.
#[local] Hint Resolve ro_as_slice : ro.
Lemma ro_exec AI al chk nd clone (c : call T) : shares_vector c = true -> ro (Vector.exec (A := A) AI sz al chk nd clone c).
Proof.
  destruct c; try done; intros _; cbn [Vector.exec]; unfold Vector.is_empty, Vector.is_full; ro.
Qed.
#[local] Hint Resolve ro_exec : ro.
End vector.
#[export] Hint Resolve ro_len ro_capacity ro_as_slice ro_exec : ro.

Section string.
Context {A : Type}.
Lemma ro_s_exec AI chk (c : String.scall) : shares_string (OCall 0 c) = true -> ro (s_exec (A := A) AI chk c).
Proof.
  destruct c; try done; intros _; cbn [s_exec]; unfold s_hash, s_bytes, Vector.is_empty, Vector.is_full; ro.
Qed.
#[local] Hint Resolve ro_s_exec : ro.
End string.
#[export] Hint Resolve ro_s_exec : ro.

Section vector_map.
Context {A K V : Type}.
Variable sz : Z.
Lemma ro_base {B} (m : M (vstate A (K * V)) B) : ro m -> ro (base m).
Proof. intros H s. unfold base. specialize (H (ms_v s)). destruct (m (ms_v s)); cbn; subst; [by destruct s|by destruct s|done]. Qed.
Lemma ro_m_exec AI al chk nd cmp eqb (c : mcall K V) : shares_vector_map c = true -> ro (m_exec (A := A) AI sz al chk nd cmp eqb c).
Proof.
  destruct c; try done; intros _; cbn [m_exec];
    unfold vm_get, vm_contains_key, vm_get, lower_bound, found, at_index, Vector.is_empty; repeat first [apply ro_base|ro_step].
Qed.
#[local] Hint Resolve ro_m_exec : ro.
End vector_map.
#[export] Hint Resolve ro_m_exec : ro.

Section deque.
Context {T : Type}.
Variables sz al : Z.
Variable chk : bool.
Lemma ro_read_elem p : ro (Deque.read_elem (T := T) p).
Proof. unfold Deque.read_elem. ro. Qed.
#[local] Hint Resolve ro_read_elem : ro.
Lemma ro_deque_iter : ro (Deque.iter (T := T)).
Proof. unfold Deque.iter, Deque.from_compat. ro. Qed.
#[local] Hint Resolve ro_deque_iter : ro.
Lemma ro_raw_next (it : Deque.raw_iter) : ro (Deque.raw_next (T := T) chk it).
Proof. unfold Deque.raw_next, Deque.read_ptr, Deque.add. ro. Qed.
#[local] Hint Resolve ro_raw_next : ro.
Lemma ro_raw_next_back (it : Deque.raw_iter) : ro (Deque.raw_next_back (T := T) chk it).
Proof. unfold Deque.raw_next_back, Deque.read_ptr, Deque.add, Deque.sub. ro. Qed.
#[local] Hint Resolve ro_raw_next_back : ro.
Lemma ro_for_iter {B} f (it : Deque.raw_iter) (g : ptr -> M (dstate T) B) : (forall p, ro (g p)) -> ro (Deque.for_iter chk f it g).
Proof.
  intros Hg. revert it. induction f as [|f IH]; intros it; cbn [Deque.for_iter]; ro.
Qed.
#[local] Hint Resolve ro_for_iter : ro.
Lemma ro_read_opt o : ro (Deque.read_opt (T := T) o).
Proof. unfold Deque.read_opt. ro. Qed.
#[local] Hint Resolve ro_read_opt : ro.
Lemma ro_deque_len : ro (Deque.len (T := T) sz).
Proof. unfold Deque.len. ro. Qed.
#[local] Hint Resolve ro_deque_len : ro.
Lemma ro_iter_all : ro (Deque.iter_all (T := T) sz chk).
Proof. unfold Deque.iter_all. ro. Qed.
#[local] Hint Resolve ro_iter_all : ro.
Lemma ro_front : ro (Deque.front (T := T) chk).
Proof. unfold Deque.front. ro. Qed.
#[local] Hint Resolve ro_front : ro.
Lemma ro_back : ro (Deque.back (T := T) chk).
Proof. unfold Deque.back. ro. Qed.
#[local] Hint Resolve ro_back : ro.
Lemma ro_d_call (c : dcall T) : shares_deque c = true -> ro (d_call sz al chk c).
Proof.
  destruct c; try done; intros _; cbn [d_call]; unfold Deque.is_empty; ro.
Qed.
#[local] Hint Resolve ro_d_call : ro.
Lemma ro_q_call (c : qcall T) : shares_queue c = true -> ro (q_call sz al chk c).
Proof.
  destruct c; try done; intros _; cbn [q_call]; unfold Deque.is_empty; ro.
Qed.
#[local] Hint Resolve ro_q_call : ro.
End deque.
#[export] Hint Resolve ro_read_elem ro_deque_iter ro_raw_next ro_raw_next_back ro_for_iter ro_read_opt ro_deque_len ro_iter_all ro_front ro_back ro_d_call ro_q_call : ro.

Section table.
Context {K V : Type}.
Variables nsz nal : Z.
Variable eb : nat.
Variable chk : bool.
Variable hash : K -> Z.
Variable eqb : K -> K -> bool.
Lemma ro_node_at p : ro (HashTable.node_at (K := K) (V := V) p).
Proof. unfold HashTable.node_at. ro. Qed.
#[local] Hint Resolve ro_node_at : ro.
Lemma ro_read_slot p : ro (HashTable.read_slot (K := K) (V := V) p).
Proof. unfold HashTable.read_slot. ro. Qed.
#[local] Hint Resolve ro_read_slot : ro.
Lemma ro_find_in_bucket f p key : ro (HashTable.find_in_bucket (V := V) eqb f p key).
Proof. revert p. induction f as [|f IH]; intros p; cbn [HashTable.find_in_bucket]; ro. Qed.
#[local] Hint Resolve ro_find_in_bucket : ro.
Lemma ro_get key : ro (HashTable.get (V := V) hash eqb key).
Proof.
  unfold HashTable.get, HashTable.bucket_for_key, HashTable.bucket_index, HashTable.find_from. ro.
Qed.
#[local] Hint Resolve ro_get : ro.
Lemma ro_next_bucket n : forall p, ro (HashTable.next_bucket (K := K) (V := V) p n).
Proof. induction n as [|n IH]; intros p; cbn [HashTable.next_bucket]; ro. Qed.
#[local] Hint Resolve ro_next_bucket : ro.
Lemma ro_table_iter : ro (HashTable.iter (K := K) (V := V)).
Proof. unfold HashTable.iter. ro. Qed.
#[local] Hint Resolve ro_table_iter : ro.
Lemma ro_iter_next it : ro (HashTable.iter_next (K := K) (V := V) it).
Proof. unfold HashTable.iter_next. ro. Qed.
#[local] Hint Resolve ro_iter_next : ro.
Lemma ro_table_iter_all f : forall it, ro (HashTable.iter_all (K := K) (V := V) f it).
Proof. induction f as [|f IH]; intros it; cbn [HashTable.iter_all]; ro. Qed.
#[local] Hint Resolve ro_table_iter_all : ro.
Lemma ro_h_call (c : hcall K V) : shares_hash c = true -> ro (h_call nsz nal eb chk hash eqb c).
Proof.
  destruct c; try done; intros _; cbn [h_call]; unfold HashTable.contains_key, HashTable.len, HashTable.is_empty; ro.
Qed.
#[local] Hint Resolve ro_h_call : ro.
End table.
#[export] Hint Resolve ro_node_at ro_read_slot ro_find_in_bucket ro_get ro_next_bucket ro_table_iter ro_iter_next ro_table_iter_all ro_h_call : ro.

Section set.
Context {K : Type}.
Variables nsz nal : Z.
Variable eb : nat.
Variable chk : bool.
Variable hash : K -> Z.
Variable eqb : K -> K -> bool.
Lemma ro_set_call (c : HashTable.scall K) : shares_set c = true -> ro (set_call nsz nal eb chk hash eqb c).
Proof.
  destruct c; try done; intros _; cbn [set_call];
    unfold set_get, set_iter, HashTable.contains_key, HashTable.len, HashTable.is_empty; ro.
Qed.
#[local] Hint Resolve ro_set_call : ro.
End set.
#[export] Hint Resolve ro_set_call : ro.

Section list.
Context {A T : Type}.
Variable aa : AddrAlloc A T.
Variable chk : bool.
Variables nsz nal : Z.
Lemma ro_get_word a : ro (LinkedList.get_word (A := A) (T := T) a).
Proof. unfold LinkedList.get_word. ro. Qed.
#[local] Hint Resolve ro_get_word : ro.
Lemma ro_get_val a : ro (LinkedList.get_val (A := A) (T := T) nsz a).
Proof. unfold LinkedList.get_val. ro. Qed.
#[local] Hint Resolve ro_get_val : ro.
Lemma ro_list_next i : ro (LinkedList.iter_next (A := A) (T := T) chk i).
Proof. unfold LinkedList.iter_next, LinkedList.get_next. ro. Qed.
#[local] Hint Resolve ro_list_next : ro.
Lemma ro_iter_loop f : forall i, ro (LinkedList.iter_loop (A := A) (T := T) chk nsz f i).
Proof. induction f as [|f IH]; intros i; cbn [LinkedList.iter_loop]; ro. Qed.
#[local] Hint Resolve ro_iter_loop : ro.
Lemma ro_l_call (c : lcall T) : shares_list c = true -> ro (l_call aa chk nsz nal c).
Proof.
  destruct c; try done; intros _; cbn [l_call];
    unfold front_place, back_place, LinkedList.read_place, LinkedList.get_next, LinkedList.get_prev, LinkedList.is_empty, empty_, len_, size_,
      LinkedList.iter_all, LinkedList.iter, LinkedList.size_; ro.
Qed.
#[local] Hint Resolve ro_l_call : ro.
End list.
#[export] Hint Resolve ro_get_word ro_get_val ro_list_next ro_iter_loop ro_l_call : ro.

Section tree.
Context {A K V : Type}.
Variable nsz : Z.
Variable cmp : K -> K -> bool.
Lemma ro_t_word a : ro (t_word (A := A) (K := K) (V := V) a).
Proof. unfold t_word. ro. Qed.
#[local] Hint Resolve ro_t_word : ro.
Lemma ro_get_pair a : ro (get_pair (A := A) (K := K) (V := V) nsz a).
Proof. unfold get_pair. ro. Qed.
#[local] Hint Resolve ro_get_pair : ro.
Lemma ro_find_loop f key : forall p, ro (find_loop (A := A) (V := V) nsz cmp f key p).
Proof.
  induction f as [|f IH]; intros p; cbn [find_loop]; unfold get_left, get_right; ro.
Qed.
#[local] Hint Resolve ro_find_loop : ro.
Lemma ro_leftmost f : forall a, ro (leftmost (A := A) (K := K) (V := V) f a).
Proof. induction f as [|f IH]; intros a; cbn [leftmost]; unfold get_left; ro. Qed.
#[local] Hint Resolve ro_leftmost : ro.
Lemma ro_climb f : forall a b, ro (climb (A := A) (K := K) (V := V) f a b).
Proof. induction f as [|f IH]; intros a b; cbn [climb]; unfold get_right, get_parent, get_pc; ro. Qed.
#[local] Hint Resolve ro_climb : ro.
Lemma ro_titer_next i : ro (titer_next (A := A) (K := K) (V := V) i).
Proof.
  unfold titer_next, node_next, get_right, get_parent, get_pc. ro.
Qed.
#[local] Hint Resolve ro_titer_next : ro.
Lemma ro_titer_loop f : forall i, ro (titer_loop (A := A) (K := K) (V := V) nsz f i).
Proof. induction f as [|f IH]; intros i; cbn [titer_loop]; ro. Qed.
#[local] Hint Resolve ro_titer_loop : ro.
Lemma ro_t_call (c : tcall K V) : shares_tree c = true -> ro (t_call (A := A) nsz cmp c).
Proof.
  destruct c; try done; intros _; cbn [t_call];
    unfold t_contains_key, t_get, find_in_tree, find_counting, t_is_empty, t_len, t_iter_all, t_iter, t_begin, t_parent; ro.
Qed.
#[local] Hint Resolve ro_t_call : ro.
End tree.
#[export] Hint Resolve ro_t_word ro_get_pair ro_find_loop ro_leftmost ro_climb ro_titer_next ro_titer_loop ro_t_call : ro.
