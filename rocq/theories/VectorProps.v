(** Property theorems.  Each is closed by the lemma of the same content in
    VectorDerived.v; examples show the hypotheses can be met. *)
From Verif Require Import Base Heap HeapLemmas Alloc AllocContract Vector VectorSpec IterSpec.
From Verif Require Import VectorDerived.

(** C01. From a new vector in any heap, every sequence of calls answers exactly
    what the list specification answers, and the contents afterwards agree.
    Without overflow checks ([chk = false]) no call may name more than
    [isize::MAX] bytes of elements ([modest]), which only [reserve] can do. *)
Theorem C01_vector_is_a_list :
forall (T : Type) (sz al : Z) (chk nd : bool) (clone : T -> option T) (cl : T -> T) (h : heap T)
  (cs : list (call T)) l d xs cap,
  (0 < sz)%Z -> (0 < al)%Z -> (forall x, clone x = Some (cl x)) -> heap_wf h ->
  nd = false \/ forallb is_move cs = true ->
  spec_calls (default_fits sz al) cl cs (SVec [] 0) = (l, d, SVec xs cap) ->
  chk = true \/ forallb (modest sz) cs = true ->
  exists s, run_calls (DefaultAllocator T) sz al chk nd clone cs (VState new_in tt h []) = Some (l, s) /\
    as_slice sz s = Ok xs s /\ capacity sz s = Ok cap s /\
    st_drops s = (if nd then d else []).
Proof. exact L_C01_vector_is_a_list. Qed.
Print Assumptions C01_vector_is_a_list.

Example C01_example :
  option_map fst (run_calls (DefaultAllocator nat) 8 8 true false Some
    [CPush 5; CPush 6; CInsert 0 4; CPush 7; CPush 8; CRemove 1; CSwap 0 3; CAppend [1; 2]; CAssign [9]; CPop; CPop]
    (VState new_in tt (Heap 0 ∅) [])) =
  Some [AUnit; AUnit; AUnit; AUnit; AUnit; AOpt (Some 5); AUnit; AUnit; AUnit; AOpt (Some 9); AOpt None].
Proof. vm_compute. reflexivity. Qed.

(** C02. In every reachable state [len <= capacity], and the next call moves
    the capacity exactly as [next_capacity] says (doubling from full, [reserve]
    adds exactly, [append]/[assign] raise to the needed length, [clear] resets,
    a panic or any other call leaves it alone). *)
Theorem C02_capacity_law :
forall (T : Type) (sz al : Z) (chk nd : bool) (clone : T -> option T) (cl : T -> T) (h : heap T)
  (cs : list (call T)) l s n k,
  (0 < sz)%Z -> (0 < al)%Z -> (forall x, clone x = Some (cl x)) -> heap_wf h ->
  nd = false \/ forallb is_move cs = true ->
  chk = true \/ forallb (modest sz) cs = true ->
  run_calls (DefaultAllocator T) sz al chk nd clone cs (VState new_in tt h []) = Some (l, s) ->
  len sz s = Ok n s -> capacity sz s = Ok k s ->
  n <= k /\
  forall c a s', nd = false \/ is_move c = true -> chk = true \/ modest sz c = true ->
    step (DefaultAllocator T) sz al chk nd clone c s = Some (a, s') ->
    capacity sz s' = Ok (next_capacity c a n k) s'.
Proof. exact L_C02_capacity_law. Qed.
Print Assumptions C02_capacity_law.

Example C02_example :
  match run_calls (DefaultAllocator nat) 8 8 true false Some [CPush 5; CPush 6; CReserve 1; CPush 7; CAppend [1; 2; 3]; CPush 9]
    (VState new_in tt (Heap 0 ∅) []) with
  | Some (l, s) =>
    val (len 8 s) = Some 7 /\ val (capacity 8 s) = Some 12 /\
    match step (DefaultAllocator nat) 8 8 true false Some (CReserve 3) s with
    | Some (a, s') => a = AUnit /\ val (capacity 8 s') = Some 15
    | None => False
    end
  | None => False
  end.
Proof. vm_compute. repeat split. Qed.

(** C03. No sequence of calls is undefined behaviour: [run_calls] is [None]
    exactly when some call is. *)
Theorem C03_vector_is_memory_safe :
forall (T : Type) (sz al : Z) (chk nd : bool) (clone : T -> option T) (cl : T -> T) (h : heap T)
  (cs : list (call T)),
  (0 < sz)%Z -> (0 < al)%Z -> (forall x, clone x = Some (cl x)) -> heap_wf h ->
  nd = false \/ forallb is_move cs = true ->
  chk = true \/ forallb (modest sz) cs = true ->
  run_calls (DefaultAllocator T) sz al chk nd clone cs (VState new_in tt h []) <> None.
Proof. exact L_C03_vector_is_memory_safe. Qed.
Print Assumptions C03_vector_is_memory_safe.

(** The check is not idle: the model does report undefined behaviour. *)
Example C03_model_can_fail :
  is_ub (pop (A := unit) (T := nat) 8 (VState (Vec (Ptr 0 0) (Ptr 0 1) (Ptr 0 1)) tt (Heap 1 {[0 := Block 8 8 [None]]}) [])) = true.
Proof. vm_compute. reflexivity. Qed.

(** C04. For elements with destructors, after any moving calls the elements
    handed in are those still held, returned, or dropped; after the final drop
    each was returned or dropped exactly once. *)
Theorem C04_elements_owned_once :
forall (T : Type) (sz al : Z) (chk : bool) (clone : T -> option T) (h : heap T) (cs : list (call T)) l s,
  (0 < sz)%Z -> (0 < al)%Z -> heap_wf h -> (forall x, clone x = Some x) ->
  forallb is_move cs = true ->
  chk = true \/ forallb (modest sz) cs = true ->
  run_calls (DefaultAllocator T) sz al chk true clone cs (VState new_in tt h []) = Some (l, s) ->
  exists xs s', as_slice sz s = Ok xs s /\
    concat (map given cs) ≡ₚ xs ++ concat (map returned l) ++ st_drops s /\
    clear (DefaultAllocator T) sz al chk true s = Ok tt s' /\ as_slice sz s' = Ok [] s' /\
    concat (map given cs) ≡ₚ concat (map returned l) ++ st_drops s'.
Proof. exact L_C04_elements_owned_once. Qed.
Print Assumptions C04_elements_owned_once.

Example C04_example :
  match run_calls (DefaultAllocator nat) 8 8 true true Some [CPush 5; CPush 6; CPush 7; CSet 1 9; CInsert 7 4; CPop]
    (VState new_in tt (Heap 0 ∅) []) with
  | Some (l, s) => l = [AUnit; AUnit; AUnit; AUnit; APanic; AOpt (Some 7)] /\
      st_drops s = [6; 4] /\ val (as_slice 8 s) = Some [5; 9]
  | None => False
  end.
Proof. vm_compute. repeat split. Qed.

(** C05. For any program over any number of vectors: every block that existed
    before is untouched throughout, and after dropping all vectors the heap
    is exactly the original one. *)
Theorem C05_drop_returns_memory :
forall (T : Type) (sz al : Z) (chk nd : bool) (clone : T -> option T) (cl : T -> T) (h : heap T)
  (os : list (wop T)) l d ss,
  (0 < sz)%Z -> (0 < al)%Z -> (forall x, clone x = Some (cl x)) -> heap_wf h ->
  nd = false \/ forallb w_is_move os = true ->
  chk = true \/ forallb (w_modest sz) os = true ->
  spec_wops (default_fits sz al) cl os [] = Some (l, d, ss) ->
  exists w, w_run (DefaultAllocator T) sz al chk nd clone os (World [] tt h []) = Some (l, w) /\
    (forall b bk, h_blk h !! b = Some bk -> h_blk (w_h w) !! b = Some bk) /\
    exists l' w', w_run (DefaultAllocator T) sz al chk nd clone
        (map (fun i => WCall i CClear) (seq 0 (length (w_vecs w)))) w = Some (l', w') /\
      h_blk (w_h w') = h_blk h.
Proof. exact L_C05_drop_returns_memory. Qed.
Print Assumptions C05_drop_returns_memory.

Example C05_example :
  match w_run (DefaultAllocator nat) 8 8 true false Some
    [WNew; WCall 0 (CPush 1); WClone 0; WCall 1 (CPush 2); WIter 0 [4; 5; 6]; WCall 0 (CReserve 5)]
    (World [] tt (Heap 1 {[0 := Block 16 8 [Some 77; None]]}) []) with
  | Some (l, w) => length (w_vecs w) = 3 /\ length (map_to_list (h_blk (w_h w))) = 4 /\
      h_blk (w_h w) !! 0 = Some (Block 16 8 [Some 77; None])
  | None => False
  end.
Proof. vm_compute. repeat split. Qed.

(** C06. In every reachable state: an insert beyond the end panics and leaves
    vector and memory alone (the argument is dropped); remove beyond the end
    and pop on empty answer [None] and leave the whole state alone. *)
Theorem C06_out_of_range_is_harmless :
forall (T : Type) (sz al : Z) (chk nd : bool) (clone : T -> option T) (cl : T -> T) (h : heap T)
  (cs : list (call T)) l s n,
  (0 < sz)%Z -> (0 < al)%Z -> (forall x, clone x = Some (cl x)) -> heap_wf h ->
  nd = false \/ forallb is_move cs = true ->
  chk = true \/ forallb (modest sz) cs = true ->
  run_calls (DefaultAllocator T) sz al chk nd clone cs (VState new_in tt h []) = Some (l, s) ->
  len sz s = Ok n s ->
  (forall i x, n < i -> exists s', insert (DefaultAllocator T) sz al chk nd i x s = Panic s' /\
     st_v s' = st_v s /\ st_h s' = st_h s /\ st_drops s' = st_drops s ++ (if nd then [x] else [])) /\
  (forall i, n <= i -> remove sz chk i s = Ok None s) /\
  (n = 0 -> pop sz s = Ok None s).
Proof. exact L_C06_out_of_range_is_harmless. Qed.
Print Assumptions C06_out_of_range_is_harmless.

Example C06_example :
  match run_calls (DefaultAllocator nat) 8 8 true false Some [CPush 5; CPush 6] (VState new_in tt (Heap 0 ∅) []) with
  | Some (l, s) => val (len 8 s) = Some 2 /\
      is_panic (insert (DefaultAllocator nat) 8 8 true false 3 1 s) = true /\ val (remove 8 true 2 s) = Some None
  | None => False
  end.
Proof. vm_compute. repeat split. Qed.

(** C07. Any program creating vectors (empty, with capacity, from slices, from
    iterators, by cloning) and calling methods on any of them in any order
    answers as if each vector were its own list: a clone starts as the mapped
    list with capacity equal to its length, and calls on one vector never
    change another. *)
Theorem C07_vectors_are_independent :
forall (T : Type) (sz al : Z) (chk nd : bool) (clone : T -> option T) (cl : T -> T) (h : heap T)
  (os : list (wop T)) l d ss,
  (0 < sz)%Z -> (0 < al)%Z -> (forall x, clone x = Some (cl x)) -> heap_wf h ->
  nd = false \/ forallb w_is_move os = true ->
  spec_wops (default_fits sz al) cl os [] = Some (l, d, ss) ->
  chk = true \/ forallb (w_modest sz) os = true ->
  exists w, w_run (DefaultAllocator T) sz al chk nd clone os (World [] tt h []) = Some (l, w) /\
    w_drops w = (if nd then d else []) /\ length (w_vecs w) = length ss /\
    forall i v s, w_vecs w !! i = Some v -> ss !! i = Some s ->
      let sv := VState v tt (w_h w) (w_drops w) in
      as_slice sz sv = Ok (items s) sv /\ capacity sz sv = Ok (room s) sv.
Proof. exact L_C07_vectors_are_independent. Qed.
Print Assumptions C07_vectors_are_independent.

Example C07_example :
  option_map fst (w_run (DefaultAllocator nat) 8 8 true false Some
    [WNew; WCall 0 (CPush 1); WCall 0 (CPush 2); WCall 0 (CPush 3); WClone 0; WCall 1 (CSet 0 9); WCall 0 CPop; WCall 1 CAsSlice; WCall 0 CAsSlice; WCall 1 CCapacity; WCall 0 CCapacity]
    (World [] tt (Heap 0 ∅) [])) =
  Some [AUnit; AUnit; AUnit; AUnit; AUnit; AUnit; AOpt (Some 3); ASlice [9; 2; 3]; ASlice [1; 2]; ANat 3; ANat 4].
Proof. vm_compute. reflexivity. Qed.

(** C08 is false: copying any non-empty slice of elements with destructors into
    a new vector (clone, [From<&[T]>], [from_in]) runs a destructor on
    uninitialised memory, for every element layout and heap. *)
Theorem C08_copying_drops_uninitialised_refuted :
forall (T : Type) (sz al : Z) (chk : bool) (clone : T -> option T) (v : vec) (h : heap T) (buf : list T),
  (0 < sz)%Z -> (0 < al)%Z -> heap_wf h -> (forall x, clone x <> None) ->
  buf <> [] -> default_fits sz al (length buf) = true ->
  from_in (DefaultAllocator T) sz al chk true clone buf (VState v tt h []) = UB.
Proof. exact L_C08_copying_drops_uninitialised_refuted. Qed.
Print Assumptions C08_copying_drops_uninitialised_refuted.

Example C08_witness :
  match w_run (DefaultAllocator nat) 8 8 true true Some [WNew; WCall 0 (CPush 1)] (World [] tt (Heap 0 ∅) []) with
  | Some (l, w) => l = [AUnit; AUnit] /\
      option_map fst (w_step (DefaultAllocator nat) 8 8 true true Some (WClone 0) w) = None
  | None => False
  end.
Proof. vm_compute. repeat split. Qed.

(** What remains true of C08 for elements with destructors: [assign] of a slice
    no longer than the vector drops exactly the overwritten elements, once
    each.  (For elements without destructors C01 and C03 cover everything.)
    Missing: [append], [clone], longer [assign] - those are refuted above. *)
Theorem C08_assign_within_length_partial :
forall (T : Type) (sz al : Z) (chk : bool) (clone : T -> option T) (cl : T -> T) (h : heap T) (cs : list (call T)) l s xs buf,
  (0 < sz)%Z -> (0 < al)%Z -> (forall x, clone x = Some (cl x)) -> heap_wf h ->
  forallb is_move cs = true ->
  chk = true \/ forallb (modest sz) cs = true ->
  run_calls (DefaultAllocator T) sz al chk true clone cs (VState new_in tt h []) = Some (l, s) ->
  as_slice sz s = Ok xs s -> length buf <= length xs ->
  exists s', assign (DefaultAllocator T) sz al chk true clone buf s = Ok tt s' /\
    as_slice sz s' = Ok (map cl buf) s' /\ st_drops s' = st_drops s ++ take (length buf) xs.
Proof. exact L_C08_assign_within_length_partial. Qed.
Print Assumptions C08_assign_within_length_partial.

Example C08_assign_example :
  match run_calls (DefaultAllocator nat) 8 8 true true Some [CPush 1; CPush 2; CPush 3] (VState new_in tt (Heap 0 ∅) []) with
  | Some (l, s) =>
    match assign (DefaultAllocator nat) 8 8 true true Some [7; 8] s with
    | Ok _ s' => val (as_slice 8 s') = Some [7; 8] /\ st_drops s' = [1; 2]
    | _ => False
    end
  | None => False
  end.
Proof. vm_compute. repeat split. Qed.

(** C09 is false: whenever a shorter slice is assigned to a vector of elements
    with destructors, the elements beyond the new length are neither held,
    nor returned, nor dropped - not even after the vector itself is dropped. *)
Theorem C09_assign_leaks_the_rest_refuted :
forall (T : Type) (sz al : Z) (chk : bool) (clone : T -> option T) (h : heap T) (cs : list (call T)) l s xs buf,
  (0 < sz)%Z -> (0 < al)%Z -> (forall x, clone x = Some x) -> heap_wf h ->
  forallb is_move cs = true ->
  chk = true \/ forallb (modest sz) cs = true ->
  run_calls (DefaultAllocator T) sz al chk true clone cs (VState new_in tt h []) = Some (l, s) ->
  as_slice sz s = Ok xs s -> length buf < length xs ->
  exists s' s'', assign (DefaultAllocator T) sz al chk true clone buf s = Ok tt s' /\
    clear (DefaultAllocator T) sz al chk true s' = Ok tt s'' /\
    concat (map given cs) ++ buf ≡ₚ concat (map returned l) ++ st_drops s'' ++ drop (length buf) xs /\
    drop (length buf) xs <> [].
Proof. exact L_C09_assign_leaks_the_rest_refuted. Qed.
Print Assumptions C09_assign_leaks_the_rest_refuted.

Example C09_witness :
  match run_calls (DefaultAllocator nat) 8 8 true true Some [CPush 1; CPush 2; CAssign [3]; CClear] (VState new_in tt (Heap 0 ∅) []) with
  | Some (l, s) => l = [AUnit; AUnit; AUnit; AUnit] /\ st_drops s = [1; 3]
  | None => False
  end.
Proof. vm_compute. repeat split. Qed.

(** C10. For a vector reached by any calls and any interleaving of iterator
    calls: answers follow the two-ended list specification, the front sequence,
    the rest and the reversed back sequence make up the list, and dropping the
    iterator then drops exactly the rest and restores the original heap. *)
Theorem C10_into_iter_yields_each_once :
forall (T : Type) (sz al : Z) (chk nd : bool) (clone : T -> option T) (cl : T -> T) (h : heap T)
  (cs : list (call T)) l s xs k (ics : list icall) la rest,
  (0 < sz)%Z -> (0 < al)%Z -> (forall x, clone x = Some (cl x)) -> heap_wf h ->
  nd = false \/ forallb is_move cs = true ->
  chk = true \/ forallb (modest sz) cs = true ->
  run_calls (DefaultAllocator T) sz al chk nd clone cs (VState new_in tt h []) = Some (l, s) ->
  as_slice sz s = Ok xs s -> capacity sz s = Ok k s ->
  ispec_calls k ics xs = (la, rest) ->
  from_front ics la ++ rest ++ rev (from_back ics la) = xs /\
  exists s1 s2, irun sz ics (vec_into_iter s) = Ok la s1 /\
    ii_drop (DefaultAllocator T) sz al chk nd s1 = Ok tt s2 /\
    st_drops (is_st s2) = st_drops s ++ (if nd then rest else []) /\
    h_blk (st_h (is_st s2)) = h_blk h.
Proof. exact L_C10_into_iter_yields_each_once. Qed.
Print Assumptions C10_into_iter_yields_each_once.

Example C10_example :
  match run_calls (DefaultAllocator nat) 8 8 true true Some [CPush 1; CPush 2; CPush 3; CPush 4] (VState new_in tt (Heap 0 ∅) []) with
  | Some (l, s) =>
    match irun 8 [INext; INextBack; ILen; INext] (vec_into_iter s) with
    | Ok la s1 => la = [IAOpt (Some 1); IAOpt (Some 4); IANat 2; IAOpt (Some 2)] /\
      match ii_drop (DefaultAllocator nat) 8 8 true true s1 with
      | Ok _ s2 => st_drops (is_st s2) = [3] /\ map_to_list (h_blk (st_h (is_st s2))) = []
      | _ => False
      end
    | _ => False
    end
  | None => False
  end.
Proof. vm_compute. repeat split. Qed.

(** C11 with overflow checks on, or without them as long as no [reserve] names
    more than [isize::MAX] bytes: in every reachable state with non-zero
    capacity the buffer is a live block of capacity * size bytes holding that
    many cells.  Missing: larger requests with overflow checks off - refuted
    below. *)
Theorem C11_capacity_is_backed_checked_partial :
forall (T : Type) (sz al : Z) (chk nd : bool) (clone : T -> option T) (cl : T -> T) (h : heap T)
  (cs : list (call T)) l s k,
  (0 < sz)%Z -> (0 < al)%Z -> (forall x, clone x = Some (cl x)) -> heap_wf h ->
  nd = false \/ forallb is_move cs = true ->
  chk = true \/ forallb (modest sz) cs = true ->
  run_calls (DefaultAllocator T) sz al chk nd clone cs (VState new_in tt h []) = Some (l, s) ->
  capacity sz s = Ok k s -> 0 < k ->
  exists b bk, v_begin (st_v s) = Ptr b 0 /\ h_blk (st_h s) !! b = Some bk /\
    bk_bytes bk = (Z.of_nat k * sz)%Z /\ bk_align bk = al /\ k <= length (bk_cells bk).
Proof. exact L_C11_capacity_is_backed_checked_partial. Qed.
Print Assumptions C11_capacity_is_backed_checked_partial.

Example C11_example :
  match run_calls (DefaultAllocator nat) 8 8 true false Some [CReserve 3; CPush 1] (VState new_in tt (Heap 0 ∅) []) with
  | Some (l, s) => val (capacity 8 s) = Some 3 /\ h_blk (st_h s) !! 0 = Some (Block 24 8 [Some 1; None; None])
  | None => False
  end.
Proof. vm_compute. repeat split. Qed.

(** C11 is false without overflow checks: every request whose byte size wraps
    to a small non-zero amount leaves the capacity pointer outside the
    allocation (undefined behaviour). *)
Theorem C11_capacity_wraps_unchecked_refuted :
forall (T : Type) (sz al : Z) (h : heap T) d n,
  (0 < sz)%Z -> (0 < al)%Z -> heap_wf h ->
  (Z.of_nat n < usize_lim)%Z -> (usize_lim <= Z.of_nat n * sz)%Z ->
  (0 < Z.of_nat n * sz mod usize_lim)%Z -> (Z.of_nat n * sz mod usize_lim <= isize_max + 1 - al)%Z ->
  reserve (DefaultAllocator T) sz al false n (VState new_in tt h d) = UB.
Proof. exact L_C11_capacity_wraps_unchecked_refuted. Qed.
Print Assumptions C11_capacity_wraps_unchecked_refuted.

(** Such requests exist: 2^61 + 1 elements of 8 bytes. *)
Example C11_witness : exists n : nat,
  (Z.of_nat n < usize_lim)%Z /\ (usize_lim <= Z.of_nat n * 8)%Z /\
  (0 < Z.of_nat n * 8 mod usize_lim)%Z /\ (Z.of_nat n * 8 mod usize_lim <= isize_max + 1 - 8)%Z.
Proof.
  exists (Z.to_nat (2 ^ 61 + 1)). rewrite Z2Nat.id by lia.
  repeat split; vm_compute; done.
Qed.

(** C12 is false: when the first clone in [append] panics on a new vector, the
    vector already counts the new elements, and dropping it (as unwinding
    does) drops uninitialised memory. *)
Theorem C12_append_panic_refuted :
forall (T : Type) (sz al : Z) (chk : bool) (clone : T -> option T) (h : heap T) x rest,
  (0 < sz)%Z -> (0 < al)%Z -> heap_wf h -> clone x = None ->
  default_fits sz al (length (x :: rest)) = true ->
  exists s', append (DefaultAllocator T) sz al chk true clone (x :: rest) (VState new_in tt h []) = Panic s' /\
    clear (DefaultAllocator T) sz al chk true s' = UB.
Proof. exact L_C12_append_panic_refuted. Qed.
Print Assumptions C12_append_panic_refuted.

Example C12_witness :
  match append (DefaultAllocator nat) 8 8 true false (fun x => if x =? 2 then None else Some x) [1; 2] (VState new_in tt (Heap 0 ∅) []) with
  | Panic s' => val (len 8 s') = Some 2 /\ is_ub (as_slice 8 s') = true
  | _ => False
  end.
Proof. vm_compute. repeat split. Qed.

(** What remains true of C12: a panicking [push], [insert] or [reserve]
    (allocation impossible) leaves a vector that holds what it held. Missing:
    [append] and [assign] with a panicking clone - refuted above. *)
Theorem C12_push_and_insert_panic_safe_partial :
forall (T : Type) (sz al : Z) (chk nd : bool) (clone : T -> option T) (cl : T -> T) (h : heap T)
  (cs : list (call T)) l s xs c s',
  (0 < sz)%Z -> (0 < al)%Z -> (forall x, clone x = Some (cl x)) -> heap_wf h ->
  nd = false \/ forallb is_move (c :: cs) = true ->
  chk = true \/ forallb (modest sz) (c :: cs) = true ->
  run_calls (DefaultAllocator T) sz al chk nd clone cs (VState new_in tt h []) = Some (l, s) ->
  as_slice sz s = Ok xs s ->
  step (DefaultAllocator T) sz al chk nd clone c s = Some (APanic, s') ->
  as_slice sz s' = Ok xs s' /\ st_drops s' = st_drops s ++ (if nd then given c else []).
Proof. exact L_C12_push_and_insert_panic_safe_partial. Qed.
Print Assumptions C12_push_and_insert_panic_safe_partial.

Example C12_example :
  match run_calls (DefaultAllocator nat) 8 8 true true Some [CPush 5] (VState new_in tt (Heap 0 ∅) []) with
  | Some (l, s) =>
    match step (DefaultAllocator nat) 8 8 true true Some (CInsert 2 6) s with
    | Some (a, s') => a = APanic /\ st_drops s' = [6]
    | None => False
    end
  | None => False
  end.
Proof. vm_compute. repeat split. Qed.

(** C13. Collecting from an array or iterator with any size hint: on success
    the vector holds exactly the elements in order, nothing was dropped, and the
    capacity is the hint when that suffices; on a panic (no memory for the hint
    or for growing) every element was dropped once and the heap is restored.
    A hint that can be allocated and covers the elements always succeeds.
    (Without overflow checks the hint must not exceed [isize::MAX] bytes.) *)
Theorem C13_collect_keeps_everything :
forall (T : Type) (sz al : Z) (chk nd : bool) (v : vec) (h : heap T) (hint : nat) (xs : list T),
  (0 < sz)%Z -> (0 < al)%Z -> heap_wf h ->
  chk = true \/ (sz <= isize_max /\ Z.of_nat hint * sz <= isize_max)%Z ->
  match from_iter (DefaultAllocator T) sz al chk nd hint xs (VState v tt h []) with
  | Ok v' s' =>
    let s := VState v' (st_a s') (st_h s') (st_drops s') in
    as_slice sz s = Ok xs s /\ st_drops s' = [] /\
    (length xs <= hint -> capacity sz s = Ok hint s)
  | Panic s' =>
    h_blk (st_h s') = h_blk h /\ st_drops s' ≡ₚ (if nd then xs else []) /\
    ~ (default_fits sz al hint = true /\ length xs <= hint)
  | UB => False
  end.
Proof. exact L_C13_collect_keeps_everything. Qed.
Print Assumptions C13_collect_keeps_everything.

Example C13_example :
  val (from_iter (DefaultAllocator nat) 8 8 true true 2 [4; 5; 6] (VState new_in tt (Heap 0 ∅) []))
  = Some (Vec (Ptr 1 0) (Ptr 1 3) (Ptr 1 4)).
Proof. vm_compute. reflexivity. Qed.

(** C75. For zero-sized element types [len], [capacity] and hence [push],
    [pop], [insert], [remove] panic on every vector, whatever its state. *)
Theorem C75_zero_sized_elements_panic :
forall (A T : Type) (AI : AllocImpl A T) (al : Z) (chk nd : bool) (s : vstate A T) x i,
  len 0 s = Panic s /\ capacity 0 s = Panic s /\
  push AI 0 al chk nd x s = Panic (log_drop nd x s) /\
  insert AI 0 al chk nd i x s = Panic (log_drop nd x s) /\
  pop 0 s = Panic s /\ remove 0 chk i s = Panic s.
Proof. exact L_C75_zero_sized_elements_panic. Qed.
Print Assumptions C75_zero_sized_elements_panic.

Example C75_example :
  option_map fst (run_calls (DefaultAllocator unit) 0 1 true false Some [CPush tt; CLen; CReserve 3] (VState new_in tt (Heap 0 ∅) []))
  = Some [APanic; APanic; APanic].
Proof. vm_compute. reflexivity. Qed.
