(** Proofs of the properties stated in RefusalNewProps.v. *)
From Verif Require Import Base Heap Alloc Deque DequeSpec OutOfMemory Refusal.
Local Open Scope nat_scope.

From Verif Require Import HeapLemmas DequeProofs.

(** [init] as far as the first subarray. *)
Definition half {T} (h : heap (dcell T)) : heap (dcell T) :=
  hset (halloc h (Block 64 8 (replicate 8 None))) (h_next h) (Block 64 8 (replicate 8 (Some (DPtr Null)))).
Definition unborn {T} (h : heap (dcell T)) : dstate T :=
  DState Null 8 (DIt Null Null Null Null) (DIt Null Null Null Null) h [].

Section init.
Context {T : Type}.
Variables sz al : Z.
(** [init] from the allocation of the first subarray on. *)
Definition second_half (p : ptr) (alloc : M (dstate T) ptr) : M (dstate T) unit :=
  do a <- alloc;
  do slot <- Deque.add p (Z.to_nat ((8 - 1) / 2));
  run Deque.store slot (DPtr a);
  do slot <- Deque.add p 3;
  do s <- gets id;
  do b <- set_subarray sz (d_b s) slot;
  run set_b (DIt (di_begin b) (di_begin b) (di_end b) (di_arr b));
  do e <- set_subarray sz (d_e s) slot;
  run set_e (DIt (di_begin e) (di_begin e) (di_end e) (di_arr e));
  set_arr p 8.
Lemma init_halves (h : heap (dcell T)) : init sz al (empty_state h []) = second_half (Ptr (h_next h) 0) (allocate_subarray sz al) (unborn (half h)).
Proof using.
  unfold empty_state, init. unfold bind at 1, set_arr at 1, modify. cbn [d_arr d_size d_b d_e d_h d_drops].
  unfold bind at 1, allocate_ptr_array, allocate at 1, default_alloc at 1. cbn [d_h snd fst]. change (INITIAL_PTR_ARRAY_SIZE * 8)%Z with 64%Z.
  change (64 =? 0)%Z with false. change (layout_ok 64 8) with true. cbn iota. change (Z.to_nat (64 / 8)) with 8.
  unfold bind at 1, gets at 1. cbn [d_arr d_size d_b d_e d_h d_drops]. change (Z.to_nat INITIAL_PTR_ARRAY_SIZE) with 8.
  rewrite (hput_ok _ _ _ _ (Block 64 8 (replicate 8 None))); [|apply lookup_insert|cbn; lia].
  cbn [or_ub length replicate bk_cells take drop app Nat.add bk_bytes bk_align]. unfold bind at 1, ret at 1.
  unfold bind at 1, set_h, modify. cbn [d_arr d_size d_b d_e d_h d_drops]. reflexivity.
Qed.
Lemma init_in_halves AI (h : heap (dcell T)) : ai_alloc AI 8 64 8 (tt, h) = default_alloc 8 64 8 (tt, h) ->
  init_in AI sz al (empty_state h []) = second_half (Ptr (h_next h) 0) (subarray_in AI sz al) (unborn (half h)).
Proof using.
  intros E. unfold empty_state, init_in. unfold bind at 1, set_arr at 1, modify. cbn [d_arr d_size d_b d_e d_h d_drops].
  unfold bind at 1, ptr_array_in, bind at 1, d_allocate at 1. cbn [d_h snd fst]. change (INITIAL_PTR_ARRAY_SIZE * 8)%Z with 64%Z.
  rewrite E. unfold default_alloc at 1. cbn [d_h snd fst].
  change (64 =? 0)%Z with false. change (layout_ok 64 8) with true. cbn iota. change (Z.to_nat (64 / 8)) with 8. cbn [is_null]. unfold ret at 1.
  unfold bind at 1, gets at 1. cbn [d_arr d_size d_b d_e d_h d_drops]. change (Z.to_nat INITIAL_PTR_ARRAY_SIZE) with 8.
  rewrite (hput_ok _ _ _ _ (Block 64 8 (replicate 8 None))); [|apply lookup_insert|cbn; lia].
  cbn [or_ub length replicate bk_cells take drop app Nat.add bk_bytes bk_align]. unfold bind at 1, ret at 1.
  unfold bind at 1, Deque.set_h, modify. cbn [d_arr d_size d_b d_e d_h d_drops]. reflexivity.
Qed.
Lemma init_in_refused r (h : heap (dcell T)) :
  init_in (Refusing r) sz al (empty_state h []) = init sz al (empty_state h []) \/
  init_in (Refusing r) sz al (empty_state h []) = Panic (unborn h) /\ r h 64%Z = true \/
  init_in (Refusing r) sz al (empty_state h []) = Panic (unborn (half h)).
Proof using.
  destruct (r h 64%Z) eqn:R.
  - right. left. split; [|done]. unfold empty_state, init_in. unfold bind at 1, set_arr at 1, modify. cbn [d_arr d_size d_b d_e d_h d_drops].
    unfold bind at 1, ptr_array_in, bind at 1, d_allocate at 1. cbn [d_h snd fst Refusing ai_alloc]. change (INITIAL_PTR_ARRAY_SIZE * 8)%Z with 64%Z. by rewrite R.
  - rewrite init_in_halves by (cbn; by rewrite R). rewrite init_halves.
    destruct (r (half h) (Z.of_nat (subarray_size sz) * sz)%Z) eqn:R2.
    + right. right. unfold second_half, bind at 1, subarray_in, d_allocate. cbn [d_h unborn Refusing ai_alloc snd]. by rewrite R2.
    + left. unfold second_half. unfold bind at 1. unfold bind at 12. unfold subarray_in, d_allocate, allocate_subarray, allocate. cbn [d_h unborn Refusing ai_alloc snd].
      by rewrite R2.
Qed.
Lemma init_default (h : heap (dcell T)) : init_in (DefaultAllocator _) sz al (empty_state h []) = init sz al (empty_state h []).
Proof using. rewrite init_in_halves by done. by rewrite init_halves. Qed.
End init.

Lemma L_C103_deque_new :
forall (T : Type) (sz al : Z) (chk : bool) (h : heap (dcell T)),
  (0 < sz)%Z -> layout_ok (Z.of_nat (subarray_size sz) * sz) al = true -> heap_wf h ->
  exists s, new_in (DefaultAllocator _) sz al chk h = Made s /\ contents sz chk s [].
Proof.
  intros T sz al chk h Hsz Hlay W. destruct (deque_new_ok sz al Hsz Hlay h [] W) as (s & E & (pa & b & R) & _ & _).
  exists s. unfold new_in. rewrite init_default. unfold deque_new in E. rewrite E. split; [done|]. by eapply (iter_all_ok sz al chk Hlay).
Qed.

Lemma L_C103_zero_sized_elements_refuted :
forall (T : Type) (al : Z) (chk : bool) (h : heap (dcell T)),
  exists s, new_in (DefaultAllocator _) 0 al chk h = Aborted s.
Proof.
  intros T al chk h. unfold new_in. rewrite init_default, init_halves. by eexists.
Qed.

Lemma L_C103_refusing_allocator_refuted :
forall (T : Type) (sz al : Z) (chk : bool) (h : heap (dcell T)) (refuse : heap (dcell T) -> Z -> bool),
  (0 < sz)%Z -> layout_ok (Z.of_nat (subarray_size sz) * sz) al = true -> heap_wf h ->
  match init_in (Refusing refuse) sz al (empty_state h []) with
  | Ok _ s => contents sz chk s []
  | Panic s =>
    new_in (Refusing refuse) sz al chk h = Undefined /\ contents sz chk s [] /\
    deque_drop sz al chk s = free_ptr_array s /\
    d_arr s = Null /\ d_size s = 8%Z /\ hfree (d_h s) Null (8 * 8) 8 = None
  | UB => False
  end.
Proof.
  intros T sz al chk h refuse Hsz Hlay W. unfold new_in, drop_any_size.
  assert (NZ : (sz =? 0)%Z = false) by (apply Z.eqb_neq; lia).
  destruct (init_in_refused sz al refuse h) as [->|[[-> _]| ->]].
  - destruct (deque_new_ok sz al Hsz Hlay h [] W) as (s & E & (pa & b & R) & _ & _). unfold deque_new in E. rewrite E.
    by eapply (iter_all_ok sz al chk Hlay).
  - rewrite NZ. done.
  - rewrite NZ. done.
Qed.
