(** Property theorems.  Each is closed by the lemma of the same content in
    RefusalVecDerived.v; examples show the hypotheses can be met. *)
From Verif Require Import Base Heap Alloc AllocContract Vector VectorSpec Refusal RefusalSpec.
Local Open Scope nat_scope.
From Verif Require Import RefusalVecDerived.

(** C104.  On a vector in a build with overflow checks, whatever the allocator refuses during
    whichever calls: a call that is refused panics, leaves the elements and the capacity as
    they were and drops what it was given; all later calls answer as usual, and the destructor
    drops just the elements that are in it. *)
Theorem C104_vector :
forall (T : Type) (sz al : Z) (chk nd : bool) (clone : T -> option T) (cl : T -> T) (h : heap T)
  (cs : list (call T * (Z -> bool))) l d xs cap,
  (0 < sz)%Z -> (0 < al)%Z -> (forall x, clone x = Some (cl x)) -> heap_wf h ->
  nd = false \/ forallb (fun c => is_move (fst c)) cs = true ->
  chk = true \/ forallb (fun c => modest sz (fst c)) cs = true ->
  bears_calls sz al cl cs (SVec [] 0) = (l, d, SVec xs cap) ->
  exists s s', v_run_in sz al chk nd clone cs (VState Vector.new_in tt h []) = Some (l, s) /\
    as_slice sz s = Ok xs s /\ capacity sz s = Ok cap s /\ st_drops s = (if nd then d else []) /\
    clear (DefaultAllocator T) sz al chk nd s = Ok tt s' /\ st_drops s' = (if nd then d ++ xs else []) /\ h_blk (st_h s') = h_blk h.
Proof. exact L_C104_vector. Qed.
Print Assumptions C104_vector.

(** Room for one element is granted, room for two is not; then room for two is, and the vector
    goes on. *)
Example C104_vector_case :
  option_map (fun r => (fst r, st_drops (snd r))) (v_run_in 8 8 true true Some
    [(CPush 7, fun _ => false); (CPush 8, fun b => (b =? 16)%Z); (CAsSlice, fun _ => true); (CInsert 0 9, fun _ => true);
     (CPush 6, fun _ => false); (CAsSlice, fun _ => true); (CPop, fun _ => true); (CReserve 5, fun _ => true); (CCapacity, fun _ => true)]
    (VState Vector.new_in tt (Heap 0 ∅) []))
  = Some ([AUnit; APanic; ASlice [7]; APanic; AUnit; ASlice [7; 6]; AOpt (Some 6); APanic; ANat 2], [8; 9]).
Proof. by vm_compute. Qed.
