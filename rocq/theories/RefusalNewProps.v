(** Property theorems.  Each is closed by the lemma of the same content in
    RefusalNewDerived.v; examples show the hypotheses can be met. *)
From Verif Require Import Base Heap Alloc Deque DequeSpec OutOfMemory Refusal.
Local Open Scope nat_scope.
From Verif Require Import RefusalNewDerived.

(** C103.  With the default allocator, creating a deque of elements that have a size
    succeeds. *)
Theorem C103_deque_new :
forall (T : Type) (sz al : Z) (chk : bool) (h : heap (dcell T)),
  (0 < sz)%Z -> layout_ok (Z.of_nat (subarray_size sz) * sz) al = true -> heap_wf h ->
  exists s, new_in (DefaultAllocator _) sz al chk h = Made s /\ contents sz chk s [].
Proof. exact L_C103_deque_new. Qed.
Print Assumptions C103_deque_new.

Example C103_deque_new_case :
  match new_in (T := Z) (DefaultAllocator _) 24 8 true (Heap 3 ∅) with
  | Made s => val (iter_all 24 true s) = Some [] /\ d_size s = 8%Z
  | _ => False
  end.
Proof. by vm_compute. Qed.

(** Creating a deque of zero-sized elements ends the process: the allocation of the first
    array panics, and the destructor of the half-built deque panics again. *)
Theorem C103_zero_sized_elements_refuted :
forall (T : Type) (al : Z) (chk : bool) (h : heap (dcell T)),
  exists s, new_in (DefaultAllocator _) 0 al chk h = Aborted s.
Proof. exact L_C103_zero_sized_elements_refuted. Qed.
Print Assumptions C103_zero_sized_elements_refuted.

Example C103_zero_sized_elements_refuted_case :
  match new_in (T := unit) (DefaultAllocator _) 0 1 true (Heap 3 ∅), deque_new (T := unit) 0 1 (Heap 3 ∅) [] with
  | Aborted s, Panic s' => h_next (d_h s) = 4 /\ d_arr s = Null /\ h_next (d_h s') = 4
  | _, _ => False
  end.
Proof. by vm_compute. Qed.

(** With an allocator that panics when it has nothing to give, creating a deque succeeds, or
    else undefined behaviour follows the panic: the destructor of the half-built deque, which
    has no elements and no arrays to see to, gives the allocator a null pointer with the size
    of the pointer array. *)
Theorem C103_refusing_allocator_refuted :
forall (T : Type) (sz al : Z) (chk : bool) (h : heap (dcell T)) (refuse : heap (dcell T) -> Z -> bool),
  (0 < sz)%Z -> layout_ok (Z.of_nat (subarray_size sz) * sz) al = true -> heap_wf h ->
  match init_in (Refusing refuse) sz al (empty_state h []) with
  | Ok _ s => contents sz chk s []
  | Panic s =>
    new_in (Refusing refuse) sz al chk h = Undefined /\ contents sz chk s [] /\
    deque_drop sz al chk s = free_ptr_array s /\
    d_arr s = Null /\ d_size s = 8%Z /\ hfree (d_h s) Null (8 * 8) 8 = None
  | UB => False
  end.
Proof. exact L_C103_refusing_allocator_refuted. Qed.
Print Assumptions C103_refusing_allocator_refuted.

(** An allocator that has no more than 100 bytes: the array of pointers is granted, the first
    array of elements is not. *)
Example C103_refusing_allocator_refuted_case :
  let refuse := fun (h : heap (dcell Z)) n => (100 <? 64 * Z.of_nat (h_next h) + n)%Z in
  is_panic (init_in (Refusing refuse) 24 8 (empty_state (Heap 0 ∅) [])) = true /\
  match new_in (Refusing refuse) 24 8 true (Heap 0 ∅) with Undefined => True | _ => False end.
Proof. by vm_compute. Qed.
