(** Property theorems.  Each is closed by the lemma of the same content in
    OutOfMemoryDerived.v; examples show the hypotheses can be met. *)
From Verif Require Import Base Heap Alloc AddrMem HashTable HashTableSpec Deque DequeSpec FixedPoolSpec LinkedList LinkedListSpec Vector VectorSpec String OutOfMemory OutOfMemorySpec.
Local Open Scope nat_scope.
From Verif Require Import OutOfMemoryDerived.

(** An allocation that fails is not reported: after [[WNew; push 1]] succeeds, a vector
    whose buffer must grow has undefined behaviour when the allocator returns null. *)
Theorem C87_vector_refuted :
exists (prog : list (wop Z)) (o : wop Z) w,
  option_map snd (w_run (DefaultAllocator Z) 4 4 true false Some prog (World [] tt (Heap 0 ∅) [])) = Some w /\
  w_step (DefaultAllocator Z) 4 4 true false Some o w <> None /\ w_step (OutOfMemory Z) 4 4 true false Some o w = None.
Proof. exact L_C87_vector_refuted. Qed.
Print Assumptions C87_vector_refuted.

(** Exactly the calls that would have been given a new block are undefined when the
    allocator returns null; every other call does what it does while there is memory. *)
Theorem C87_vector_partial :
forall (T : Type) (sz al : Z) (chk nd : bool) (clone : T -> option T) (o : wop T) w a w',
  w_step (DefaultAllocator T) sz al chk nd clone o w = Some (a, w') ->
  w_step (OutOfMemory T) sz al chk nd clone o w = if h_next (w_h w') =? h_next (w_h w) then Some (a, w') else None.
Proof. exact L_C87_vector_partial. Qed.
Print Assumptions C87_vector_partial.

Example C87_vector_partial_case :
  match w_run (DefaultAllocator Z) 4 4 true false Some [WWithCapacity 2; WCall 0 (CPush 1%Z)] (World [] tt (Heap 0 ∅) []) with
  | Some (_, w) =>
    option_map fst (w_step (OutOfMemory Z) 4 4 true false Some (WCall 0 (CPush 2%Z)) w) = Some AUnit /\
    option_map fst (w_step (OutOfMemory Z) 4 4 true false Some (WCall 0 CPop) w) = Some (AOpt (Some 1%Z)) /\
    option_map fst (w_step (OutOfMemory Z) 4 4 true false Some (WCall 0 (CReserve 10)) w) = None /\
    option_map fst (w_step (DefaultAllocator Z) 4 4 true false Some (WCall 0 (CReserve 10)) w) = Some AUnit
  | None => False
  end.
Proof. by vm_compute. Qed.

(** The same for strings: turning a text into a string. *)
Theorem C87_string_refuted :
exists (o : sop) w,
  s_wstep (DefaultAllocator Z) true o w <> None /\ s_wstep (OutOfMemory Z) true o w = None /\ w = World [] tt (Heap 0 ∅) [].
Proof. exact L_C87_string_refuted. Qed.
Print Assumptions C87_string_refuted.

(** Strings, over the allocator that adds the terminator: again exactly the calls that
    would have been given a new block are undefined. *)
Theorem C87_string_partial :
forall (chk : bool) (o : sop) w a w',
  s_wstep (DefaultAllocator Z) chk o w = Some (a, w') ->
  s_wstep (OutOfMemory Z) chk o w = if h_next (w_h w') =? h_next (w_h w) then Some (a, w') else None.
Proof. exact L_C87_string_partial. Qed.
Print Assumptions C87_string_partial.

Example C87_string_partial_case :
  match s_wrun (DefaultAllocator Z) true [OFrom [104; 105]%Z] (World [] tt (Heap 0 ∅) []) with
  | Some (_, w) =>
    option_map fst (s_wstep (OutOfMemory Z) true (OEq 0 0) w) = Some (SBool true) /\
    option_map fst (s_wstep (OutOfMemory Z) true (OClone 0) w) = None /\
    option_map fst (s_wstep (DefaultAllocator Z) true (OClone 0) w) = Some SUnit
  | None => False
  end.
Proof. by vm_compute. Qed.

(** Inserting into a hash table without memory for the node, or for the larger bucket
    array, is undefined. *)
Theorem C87_table_refuted :
exists (prog : list (hcall Z Z)) (c : hcall Z Z) s,
  option_map snd (hx_run prog) = Some s /\ h_call 24 8 0 true hx_hash Z.eqb c s <> UB /\
  h_call_in (OutOfMemory _) 24 8 0 true hx_hash Z.eqb c s = UB.
Proof. exact L_C87_table_refuted. Qed.
Print Assumptions C87_table_refuted.

(** Exactly the calls that would have been given a new block are undefined, and every
    other call does what it does while there is memory. *)
Theorem C87_table_partial :
forall (K V : Type) (nsz nal : Z) (eb : nat) (chk : bool) (hash : K -> Z) (eqb : K -> K -> bool) (c : hcall K V) s,
  undefined_iff_needed (fun s => h_next (t_h s)) s (h_call nsz nal eb chk hash eqb c s)
    (h_call_in (OutOfMemory _) nsz nal eb chk hash eqb c s).
Proof. exact L_C87_table_partial. Qed.
Print Assumptions C87_table_partial.

Example C87_table_partial_case :
  match hx_run [HInsert 1 10; HInsert 2 20]%Z with
  | Some (_, s) =>
    val (h_call_in (OutOfMemory _) 24 8 0 true hx_hash Z.eqb (HInsert 2 21)%Z s) = Some (HVal (Some 20%Z)) /\
    val (h_call_in (OutOfMemory _) 24 8 0 true hx_hash Z.eqb (HRemove 1)%Z s) = Some (HVal (Some 10%Z)) /\
    is_ub (h_call_in (OutOfMemory _) 24 8 0 true hx_hash Z.eqb (HEntryOr 3 None 30)%Z s) = true /\
    is_ok (h_call 24 8 0 true hx_hash Z.eqb (HEntryOr 3 None 30)%Z s) = true
  | None => False
  end.
Proof. by vm_compute. Qed.

(** A deque without memory: making one is undefined. *)
Theorem C87_deque_refuted :
exists s : dstate Z, init 8 8 s <> UB /\ init_in (OutOfMemory _) 8 8 s = UB /\ d_h s = Heap 0 ∅.
Proof. exact L_C87_deque_refuted. Qed.
Print Assumptions C87_deque_refuted.

(** Making a deque, and every call on one, is undefined without memory exactly when it
    would have been given a new block. *)
Theorem C87_deque_partial :
forall (T : Type) (sz al : Z) (chk : bool) (s : dstate T),
  undefined_iff_needed (fun s => h_next (d_h s)) s (init sz al s) (init_in (OutOfMemory _) sz al s) /\
  forall c, undefined_iff_needed (fun s => h_next (d_h s)) s (d_call sz al chk c s) (d_call_in (OutOfMemory _) sz al chk c s).
Proof. exact L_C87_deque_partial. Qed.
Print Assumptions C87_deque_partial.

Example C87_deque_partial_case :
  match dx_run (map (fun i => DPushBack (Z.of_nat i)) (seq 0 31)) with
  | Some (_, s) =>
    val (d_call_in (OutOfMemory _) 8 8 true DLen s) = Some (DNat 31) /\
    is_ub (d_call_in (OutOfMemory _) 8 8 true (DPushBack 31%Z) s) = true /\
    is_ok (d_call 8 8 true (DPushBack 31%Z) s) = true
  | None => False
  end.
Proof. by vm_compute. Qed.

(** A list reports it: a push that gets no memory panics, drops the value it was given
    and nothing else, and leaves the list as it was. *)
Theorem C87_list :
forall (T : Type) (pick : mem T -> Z -> Z -> Z) (chk : bool) (nsz nal obj : Z) (m0 : mem T) (prog : list (lcall T)) l s x xs,
  ListSetup m0 obj 24 nsz nal -> honest pick -> short prog ->
  built pick false chk nsz nal obj m0 prog l s -> contents chk nsz s xs ->
  pick (l_mem s) nsz nal = 0%Z ->
  forall back : bool,
  exists s', (if back then LinkedList.push_back (DefaultAddrAlloc pick false) chk nsz nal x s
              else LinkedList.push_front (DefaultAddrAlloc pick false) chk nsz nal x s) = Panic s' /\
    contents chk nsz s' xs /\ l_size s' = l_size s /\ l_drops s' = l_drops s ++ [x].
Proof. exact L_C87_list. Qed.
Print Assumptions C87_list.

Example C87_list_case :
  match list_new 4096 tt (lx_mem 24) with
  | Ok _ s0 =>
    match l_run (DefaultAddrAlloc (fit_pick 65536 64 2) false) true 24 8 [LPushBack 1%Z; LPushBack 2%Z] s0 with
    | Some (_, s) =>
      fit_pick 65536 64 2 (l_mem s) 24 8 = 0%Z /\
      match LinkedList.push_front (DefaultAddrAlloc (fit_pick 65536 64 2) false) true 24 8 3%Z s with
      | Panic s' => val (iter_all true 24 s') = Some [1; 2]%Z /\ l_drops s' = [3%Z]
      | _ => False
      end
    | None => False
    end
  | _ => False
  end.
Proof. by vm_compute. Qed.
