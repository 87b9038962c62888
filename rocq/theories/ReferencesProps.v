(** Property theorems.  Each is closed by the lemma of the same content in
    ReferencesDerived.v; examples show the hypotheses can be met. *)
From Verif Require Import Base Heap HeapLemmas Alloc AllocContract Vector VectorSpec IterSpec References.
From Verif Require Import ReferencesDerived.

Local Open Scope nat_scope.

(** C117.  Whatever is done with a vector, every reference it makes from a raw
    pointer is to memory that it owns: with making references checked, each program of calls
    runs as without. *)
Theorem C117_vector_references :
forall (T : Type) (sz al : Z) (chk nd : bool) (clone : T -> option T) (cl : T -> T) (h : heap T) (cs : list (call T)),
  (0 < sz)%Z -> (0 < al)%Z -> (forall x, clone x = Some (cl x)) -> heap_wf h ->
  nd = false \/ forallb is_move cs = true ->
  chk = true \/ forallb (modest sz) cs = true ->
  exists l s,
    r_calls (DefaultAllocator T) sz al chk nd clone (Rules false false) cs (VState new_in tt h []) = Some (l, s) /\
    run_calls (DefaultAllocator T) sz al chk nd clone cs (VState new_in tt h []) = Some (l, s).
Proof. exact L_C117_vector_references. Qed.
Print Assumptions C117_vector_references.

Example C117_vector_example :
  (exists s, r_calls (DefaultAllocator nat) 4 4 true false Some (Rules false false)
    [CReserve 2; CAsSlice; CAppend [7; 8; 9]; CSwap 0 2; CAsSlice; CClear; CAsSlice] (VState new_in tt (Heap 0 ∅) []) =
    Some ([AUnit; ASlice []; AUnit; AUnit; ASlice [9; 8; 7]; AUnit; ASlice []], s)).
Proof. eexists. vm_compute. reflexivity. Qed.

(** C117 for the consuming iterator, exactly when it holds.  After any calls, dropping the iterator and
    reading its slice make a reference to memory that is not there if and only if the vector had
    a capacity and as many elements were taken from the front as that capacity; otherwise
    they do what they do without the check.  Missing: the case in which it is false (below). *)
Theorem C117_into_iter_references_partial :
forall (T : Type) (sz al : Z) (chk nd : bool) (clone : T -> option T) (cl : T -> T) (h : heap T)
  (cs : list (call T)) l s xs k (ics : list icall) la rest,
  (0 < sz)%Z -> (0 < al)%Z -> (forall x, clone x = Some (cl x)) -> heap_wf h ->
  nd = false \/ forallb is_move cs = true ->
  chk = true \/ forallb (modest sz) cs = true ->
  run_calls (DefaultAllocator T) sz al chk nd clone cs (VState new_in tt h []) = Some (l, s) ->
  as_slice sz s = Ok xs s -> capacity sz s = Ok k s ->
  ispec_calls k ics xs = (la, rest) ->
  exists s1, irun sz ics (vec_into_iter s) = Ok la s1 /\
    (0 < k /\ length (from_front ics la) = k ->
       r_ii_as_slice sz (Rules false false) s1 = UB /\
       r_ii_drop (DefaultAllocator T) sz al chk nd (Rules false false) s1 = UB) /\
    (~ (0 < k /\ length (from_front ics la) = k) ->
       r_ii_as_slice sz (Rules false false) s1 = Ok rest s1 /\
       exists s2, r_ii_drop (DefaultAllocator T) sz al chk nd (Rules false false) s1 = Ok tt s2 /\
         ii_drop (DefaultAllocator T) sz al chk nd s1 = Ok tt s2).
Proof. exact L_C117_into_iter_references_partial. Qed.
Print Assumptions C117_into_iter_references_partial.

Example C117_into_iter_example :
  match run_calls (DefaultAllocator nat) 4 4 true false Some [CPush 1; CPush 2] (VState new_in tt (Heap 0 ∅) []) with
  | Some (_, s) =>
    match irun 4 [INext; INextBack] (vec_into_iter s), irun 4 [INext; INext] (vec_into_iter s) with
    | Ok _ s1, Ok _ s2 =>
      is_ok (r_ii_drop (DefaultAllocator nat) 4 4 true false (Rules false false) s1) = true /\
      is_ub (r_ii_drop (DefaultAllocator nat) 4 4 true false (Rules false false) s2) = true
    | _, _ => False
    end
  | None => False
  end.
Proof. vm_compute. done. Qed.

(** C117 is false of the consuming iterator: for every vector that is full and not empty, taking all
    elements from the front and dropping the iterator (what a [for] loop does) makes a reference
    to memory past the end of the allocation. *)
Theorem C117_into_iter_refuted :
forall (T : Type) (sz al : Z) (chk nd : bool) (clone : T -> option T) (cl : T -> T) (h : heap T)
  (cs : list (call T)) l s xs,
  (0 < sz)%Z -> (0 < al)%Z -> (forall x, clone x = Some (cl x)) -> heap_wf h ->
  nd = false \/ forallb is_move cs = true ->
  chk = true \/ forallb (modest sz) cs = true ->
  run_calls (DefaultAllocator T) sz al chk nd clone cs (VState new_in tt h []) = Some (l, s) ->
  as_slice sz s = Ok xs s -> capacity sz s = Ok (length xs) s -> xs <> [] ->
  exists s1, irun sz (repeat INext (length xs) ++ [INext]) (vec_into_iter s) =
      Ok (map (fun x => IAOpt (Some x)) xs ++ [IAOpt None]) s1 /\
    r_ii_drop (DefaultAllocator T) sz al chk nd (Rules false false) s1 = UB /\
    ii_drop (DefaultAllocator T) sz al chk nd s1 <> UB.
Proof. exact L_C117_into_iter_refuted. Qed.
Print Assumptions C117_into_iter_refuted.

Example C117_for_loop_example :
  match run_calls (DefaultAllocator nat) 4 4 true false Some [CReserve 3; CPush 1; CPush 2; CPush 3] (VState new_in tt (Heap 0 ∅) []) with
  | Some (_, s) => as_slice 4 s = Ok [1; 2; 3] s /\ capacity 4 s = Ok 3 s
  | None => False
  end.
Proof. vm_compute. done. Qed.

(** C118.  A vector that has elements, or no memory, makes references only to initialised elements when its
    slice is read.  Missing: vectors with memory and no elements, and [append] and [assign] (below). *)
Theorem C118_nonempty_slices_partial :
forall (T : Type) (sz al : Z) (chk nd : bool) (clone : T -> option T) (cl : T -> T) (h : heap T)
  (cs : list (call T)) l s xs k,
  (0 < sz)%Z -> (0 < al)%Z -> (forall x, clone x = Some (cl x)) -> heap_wf h ->
  nd = false \/ forallb is_move cs = true ->
  chk = true \/ forallb (modest sz) cs = true ->
  run_calls (DefaultAllocator T) sz al chk nd clone cs (VState new_in tt h []) = Some (l, s) ->
  as_slice sz s = Ok xs s -> capacity sz s = Ok k s -> xs <> [] \/ k = 0 ->
  r_calls (DefaultAllocator T) sz al chk nd clone (Rules true false) [CAsSlice] s = Some ([ASlice xs], s).
Proof. exact L_C118_nonempty_slices_partial. Qed.
Print Assumptions C118_nonempty_slices_partial.

Example C118_nonempty_example :
  match run_calls (DefaultAllocator nat) 4 4 true false Some [CReserve 3; CPush 1] (VState new_in tt (Heap 0 ∅) []) with
  | Some (_, s) => as_slice 4 s = Ok [1] s
  | None => False
  end.
Proof. vm_compute. done. Qed.

(** C118 is false of a vector with memory and no elements: reading its slice makes a reference to an uninitialised
    element.  So does clearing it. *)
Theorem C118_empty_slice_refuted :
forall (T : Type) (sz al : Z) (chk nd : bool) (clone : T -> option T) (h : heap T) (n : nat),
  (0 < sz)%Z -> (0 < al)%Z -> heap_wf h -> 0 < n -> (Z.of_nat n * sz <= isize_max + 1 - al)%Z ->
  r_calls (DefaultAllocator T) sz al chk nd clone (Rules true false) [CReserve n; CAsSlice] (VState new_in tt h []) = None /\
  r_calls (DefaultAllocator T) sz al chk nd clone (Rules true false) [CReserve n; CClear] (VState new_in tt h []) = None /\
  exists s, run_calls (DefaultAllocator T) sz al chk nd clone [CReserve n; CAsSlice] (VState new_in tt h []) = Some ([AUnit; ASlice []], s).
Proof. exact L_C118_empty_slice_refuted. Qed.
Print Assumptions C118_empty_slice_refuted.

Example C118_empty_example :
  is_ok (reserve (DefaultAllocator nat) 4 4 true 3 (VState new_in tt (Heap 0 ∅) [])) = true.
Proof. vm_compute. done. Qed.

(** C118 is false of [append]: appending any non-empty buffer that fits to a new vector makes a slice
    of elements that are not initialised yet. *)
Theorem C118_append_refuted :
forall (T : Type) (sz al : Z) (chk nd : bool) (clone : T -> option T) (h : heap T) (buf : list T),
  (0 < sz)%Z -> (0 < al)%Z -> heap_wf h -> buf <> [] -> (Z.of_nat (length buf) * sz <= isize_max + 1 - al)%Z ->
  r_calls (DefaultAllocator T) sz al chk nd clone (Rules true false) [CAppend buf] (VState new_in tt h []) = None /\
  r_calls (DefaultAllocator T) sz al chk nd clone (Rules true false) [CAssign buf] (VState new_in tt h []) = None.
Proof. exact L_C118_append_refuted. Qed.
Print Assumptions C118_append_refuted.

Example C118_append_example :
  run_calls (DefaultAllocator nat) 4 4 true false Some [CAppend [1; 2]] (VState new_in tt (Heap 0 ∅) []) <> None.
Proof. vm_compute. done. Qed.

(** C119.  Exactly when a vector's slice stays within the reference that it is made from: the vector has at
    most one element.  Missing: longer vectors, of which it is false. *)
Theorem C119_slice_reach_partial :
forall (T : Type) (sz al : Z) (chk nd : bool) (clone : T -> option T) (cl : T -> T) (h : heap T)
  (cs : list (call T)) l s xs,
  (0 < sz)%Z -> (0 < al)%Z -> (forall x, clone x = Some (cl x)) -> heap_wf h ->
  nd = false \/ forallb is_move cs = true ->
  chk = true \/ forallb (modest sz) cs = true ->
  run_calls (DefaultAllocator T) sz al chk nd clone cs (VState new_in tt h []) = Some (l, s) ->
  as_slice sz s = Ok xs s ->
  (length xs <= 1 ->
    r_calls (DefaultAllocator T) sz al chk nd clone (Rules false true) [CAsSlice] s = Some ([ASlice xs], s)) /\
  (2 <= length xs ->
    r_calls (DefaultAllocator T) sz al chk nd clone (Rules false true) [CAsSlice] s = None).
Proof. exact L_C119_slice_reach_partial. Qed.
Print Assumptions C119_slice_reach_partial.

Example C119_example :
  match run_calls (DefaultAllocator nat) 4 4 true false Some [CPush 1; CPush 2] (VState new_in tt (Heap 0 ∅) []) with
  | Some (_, s) => as_slice 4 s = Ok [1; 2] s
  | None => False
  end.
Proof. vm_compute. done. Qed.
