(** Property theorems.  Each is closed by the lemma of the same content in
    PrintSeqDerived.v; examples show the hypotheses can be met. *)
From Verif Require Import Base Heap Alloc AllocContract Vector VectorSpec Print PrintSpec.
From Verif Require Deque DequeSpec AddrMem FixedPoolSpec LinkedList LinkedListSpec.
Local Open Scope nat_scope.
From Verif Require Import PrintSeqDerived.

(** C102.  What a vector prints after any program reads back as the printed forms of its
    elements, in order. *)
Theorem C102_vector :
forall (T : Type) (sz al : Z) (chk nd : bool) (clone : T -> option T) (cl : T -> T) (h : heap T)
  (cs : list (call T)) l d xs cap (dbg : T -> text),
  (0 < sz)%Z -> (0 < al)%Z -> (forall x, clone x = Some (cl x)) -> heap_wf h ->
  nd = false \/ forallb is_move cs = true ->
  spec_calls (default_fits sz al) cl cs (SVec [] 0) = (l, d, SVec xs cap) ->
  chk = true \/ forallb (modest sz) cs = true -> no_commas dbg ->
  exists s t, run_calls (DefaultAllocator T) sz al chk nd clone cs (VState new_in tt h []) = Some (l, s) /\
    vector_fmt sz dbg s = Ok t s /\
    option_map spaced_items (between (lit "[") (lit "]") t) = Some (map dbg xs).
Proof. exact L_C102_vector. Qed.
Print Assumptions C102_vector.

Example C102_vector_case :
  match run_calls (DefaultAllocator Z) 8 8 true true Some [CPush 15; CPush 7; CInsert 0 120]%Z (VState new_in tt (Heap 0 ∅) []) with
  | Some (_, s) => val (vector_fmt 8 number s) = Some (lit "[120, 15, 7]") /\ val (vector_fmt 8 number (VState new_in tt (Heap 0 ∅) [])) = Some (lit "[]")
  | None => False
  end /\ option_map spaced_items (between (lit "[") (lit "]") (lit "[120, 15, 7]")) = Some [lit "120"; lit "15"; lit "7"].
Proof. by vm_compute. Qed.

(** The same for deques, and so for queues, which print the deque inside. *)
Theorem C102_deque :
forall (T : Type) (sz al : Z) (chk : bool) (h0 : heap (Deque.dcell T)) prog l s xs (dbg : T -> text),
  DequeSpec.Setup sz al h0 -> DequeSpec.built sz al chk h0 prog l s -> DequeSpec.contents sz chk s xs -> no_commas dbg ->
  exists t, deque_fmt sz chk dbg s = Ok t s /\
    option_map spaced_items (between (lit "[ ") (lit " ]") t) = Some (map dbg xs).
Proof. exact L_C102_deque. Qed.
Print Assumptions C102_deque.

Example C102_deque_case :
  match DequeSpec.dx_run [Deque.DPushBack 15; Deque.DPushBack 7; Deque.DPushFront 120]%Z with
  | Some (_, s) => val (deque_fmt 8 true number s) = Some (lit "[ 120, 15, 7 ]")
  | None => False
  end /\ match DequeSpec.dx_run [] with Some (_, s) => val (deque_fmt 8 true number s) = Some (lit "[  ]") | None => False end.
Proof. by vm_compute. Qed.

(** The same for lists, on the heap, fixed and conformant. *)
Theorem C102_list :
forall (T : Type) (pick : AddrMem.mem T -> Z -> Z -> Z) (chk : bool) (nsz nal obj : Z) (n : nat) (m0 : AddrMem.mem T)
  (prog : list (LinkedList.lcall T)) (dbg : T -> text),
  FixedPoolSpec.honest pick -> LinkedListSpec.short prog -> no_commas dbg ->
  (LinkedListSpec.ListSetup m0 obj 24 nsz nal -> exists l s xs t,
     LinkedListSpec.built pick false chk nsz nal obj m0 prog l s /\ LinkedListSpec.explains prog l (LinkedList.l_drops s) [] xs /\
     list_fmt chk nsz dbg s = Ok t s /\ option_map spaced_items (between (lit "[") (lit "]") t) = Some (map dbg xs)) /\
  (forall l s xs,
     (LinkedListSpec.FixedSetup m0 obj nsz nal n /\ LinkedListSpec.fixed_built pick false chk nsz nal n obj m0 prog l s) \/
     (LinkedListSpec.ConformantSetup m0 obj nsz nal n /\ LinkedListSpec.conformant_built pick false chk nsz nal n obj m0 prog l s) ->
     LinkedListSpec.contents chk nsz s xs -> exists t,
     list_fmt chk nsz dbg s = Ok t s /\ option_map spaced_items (between (lit "[") (lit "]") t) = Some (map dbg xs)).
Proof. exact L_C102_list. Qed.
Print Assumptions C102_list.

Example C102_list_case :
  match LinkedListSpec.lx_state false [LinkedList.LPushBack 15; LinkedList.LPushBack 7; LinkedList.LPushFront 120]%Z with
  | Some (_, s) => val (list_fmt true 24 number s) = Some (lit "[120, 15, 7]")
  | None => False
  end.
Proof. by vm_compute. Qed.

(** So sequences that print alike have elements that print alike, one by one. *)
Theorem C102_no_two_print_alike :
forall (T : Type) (dbg : T -> text) (xs ys : list T), no_commas dbg ->
  debug_list dbg xs = debug_list dbg ys -> map dbg xs = map dbg ys.
Proof. exact L_C102_no_two_print_alike. Qed.
Print Assumptions C102_no_two_print_alike.

Example C102_no_two_print_alike_case : debug_list number [1; 23]%Z = lit "[1, 23]" /\ debug_list number [12; 3]%Z = lit "[12, 3]".
Proof. by vm_compute. Qed.

(** Not so for strings, which print without escapes: for all [a] and [b], the vector of the
    two strings [a] and [b] and the vector of the one string [a", "b] print alike.  They are
    really printed by vectors that really hold those strings. *)
Theorem C102_vectors_of_strings_refuted :
forall (sz al : Z) (chk : bool) (h : heap (list Z)) (a b : list Z),
  (0 < sz)%Z -> (0 < al)%Z -> heap_wf h -> default_fits sz al 2 = true ->
  exists s1 s2 t,
    run_calls (DefaultAllocator (list Z)) sz al chk true Some [CPush a; CPush b] (VState new_in tt h []) = Some ([AUnit; AUnit], s1) /\
    run_calls (DefaultAllocator (list Z)) sz al chk true Some [CPush (a ++ lit """, """ ++ b)] (VState new_in tt h []) = Some ([AUnit], s2) /\
    vector_fmt sz quoted s1 = Ok t s1 /\ vector_fmt sz quoted s2 = Ok t s2 /\
    as_slice sz s1 = Ok [a; b] s1 /\ as_slice sz s2 = Ok [a ++ lit """, """ ++ b] s2.
Proof. exact L_C102_vectors_of_strings_refuted. Qed.
Print Assumptions C102_vectors_of_strings_refuted.

Example C102_vectors_of_strings_refuted_case :
  debug_list quoted [lit "a"; lit "b"] = lit "[""a"", ""b""]" /\ debug_list quoted [lit "a"", ""b"] = lit "[""a"", ""b""]".
Proof. by vm_compute. Qed.
