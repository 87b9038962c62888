(** Property theorems.  Each is closed by the lemma of the same content in
    LinkedListDerived.v; examples show the hypotheses can be met. *)
From Verif Require Import Base Alloc AddrMem FixedPool FixedPoolSpec LinkedList LinkedListSpec.
Local Open Scope Z_scope.
From Verif Require Import LinkedListDerived.

(** A list over an allocator that finds room answers every program like a list, drops
    the same elements, and has the same contents. *)
Theorem C53_list_refines_list :
forall (T : Type) (pick : mem T -> Z -> Z -> Z) (chk : bool) (nsz nal obj : Z) (m0 : mem T) (prog : list (lcall T)),
  ListSetup m0 obj 24 nsz nal -> honest pick -> room pick (m_live m0) nsz nal (peak prog 0) -> short prog ->
  exists l s, built pick false chk nsz nal obj m0 prog l s /\ as_a_list chk nsz prog l s.
Proof. exact L_C53_list_refines_list. Qed.
Print Assumptions C53_list_refines_list.

Example C53_list_refines_list_case :
  (ListSetup (lx_mem 24) 4096 24 24 8 /\ honest lx_pick /\ room lx_pick (m_live (lx_mem 24)) 24 8 4) /\
  option_map fst (lx_state false [LPushBack 1; LPushBack 2; LPushFront 3; LExtend [4]; LPopFront; LBack; LFrontMut 7; LLen; LPopBack; LIter_; LClear; LPopBack; LIsEmpty]) =
  Some (map Some [AUnit; AUnit; AUnit; AUnit; AOpt (Some 3); AOpt (Some 4); ABool true; ANum 3; AOpt (Some 4); AList [7; 2]; AUnit; AOpt None; ABool true]).
Proof. split; [|by vm_compute]. split; [by apply LinkedListDerived.lx_setup|]. split; [apply LinkedListDerived.fit_honest|]. apply LinkedListDerived.lx_room; lia. Qed.

(** Whatever an honest allocator refuses, no program has undefined behaviour: the
    answers are those of a list, except that a push that gets no memory panics and
    leaves the list as it was ([extend]: with the elements pushed so far). *)
Theorem C53_list_after_refusals :
forall (T : Type) (pick : mem T -> Z -> Z -> Z) (chk : bool) (nsz nal obj : Z) (m0 : mem T) (prog : list (lcall T)),
  ListSetup m0 obj 24 nsz nal -> honest pick -> short prog ->
  exists l s xs, built pick false chk nsz nal obj m0 prog l s /\ explains prog l (l_drops s) [] xs /\ contents chk nsz s xs.
Proof. exact L_C53_list_after_refusals. Qed.
Print Assumptions C53_list_after_refusals.

Example C53_list_after_refusals_case :
  match list_new 4096 tt (lx_mem 24) with
  | Ok _ s0 => option_map fst (l_run (DefaultAddrAlloc (fit_pick 65536 64 2) false) true 24 8 [LPushBack 1; LExtend [2; 3; 4]; LIter_; LPopFront; LPushFront 5; LIter_] s0)
  | _ => None
  end = Some [Some AUnit; None; Some (AList [1; 2]); Some (AOpt (Some 1)); Some AUnit; Some (AList [5; 2])].
Proof. by vm_compute. Qed.

(** After any program the nodes form a consistent ring through the sentinel. *)
Theorem C54_ring_consistent :
forall (T : Type) (pick : mem T -> Z -> Z -> Z) (chk : bool) (nsz nal obj : Z) (m0 : mem T) (prog : list (lcall T)) l s,
  ListSetup m0 obj 24 nsz nal -> honest pick -> short prog -> built pick false chk nsz nal obj m0 prog l s ->
  exists ps xs, ring_of nsz obj s ps xs /\ contents chk nsz s xs.
Proof. exact L_C54_ring_consistent. Qed.
Print Assumptions C54_ring_consistent.

Example C54_ring_consistent_case :
  match lx_state false [LPushBack 1; LPushBack 2; LPushFront 3; LPopBack] with
  | Some (_, s) => map (load_word (l_mem s)) [4096; 4104; 65536; 65544; 65664; 65672] =
      [Some 65664; Some 65536; Some 4096; Some 65664; Some 65536; Some 4096]
  | None => False
  end.
Proof. by vm_compute. Qed.

(** The same for fixed lists of both kinds. *)
Theorem C54_fixed_ring_consistent :
forall (T : Type) (pick : mem T -> Z -> Z -> Z) (chk : bool) (nsz nal obj : Z) (n : nat) (m0 : mem T) (prog : list (lcall T)) l s,
  honest pick -> short prog ->
  (FixedSetup m0 obj nsz nal n /\ fixed_built pick false chk nsz nal n obj m0 prog l s) \/
  (ConformantSetup m0 obj nsz nal n /\ conformant_built pick false chk nsz nal n obj m0 prog l s) ->
  exists ps xs, ring_of nsz obj s ps xs /\ contents chk nsz s xs.
Proof. exact L_C54_fixed_ring_consistent. Qed.
Print Assumptions C54_fixed_ring_consistent.

Example C54_fixed_ring_consistent_case :
  FixedSetup (lx_mem (fixed_list_bytes 24 8 2)) 4096 24 8 2 /\ 
  match lx_fixed false lx_pick 2 [LPushBack 1; LPushBack 2; LPushFront 3] with
  | Some (_, s) => map (load_word (l_mem s)) [4096; 65536; 4160; 4184] = [Some 65536; Some 4160; Some 4184; Some 4096]
  | None => False
  end.
Proof. split; [|by vm_compute]. split; [by apply LinkedListDerived.lx_setup|]. by exists 512. Qed.

(** Iterating over any reachable list yields its elements in order and then nothing,
    and the size hint is exact all along. *)
Theorem C55_iteration_exact :
forall (T : Type) (pick : mem T -> Z -> Z -> Z) (chk : bool) (nsz nal obj : Z) (m0 : mem T) (prog : list (lcall T)) l s,
  ListSetup m0 obj 24 nsz nal -> honest pick -> short prog -> built pick false chk nsz nal obj m0 prog l s ->
  exists xs, explains prog l (l_drops s) [] xs /\ iterates chk nsz s xs.
Proof. exact L_C55_iteration_exact. Qed.
Print Assumptions C55_iteration_exact.

Example C55_iteration_exact_case :
  match lx_state false [LPushBack 1; LPushBack 2; LPushFront 3] with
  | Some (_, s) =>
      match iter s with
      | Ok i _ => size_hint i = (3, Some 3) /\
          match iter_take true 24 2 i s with Ok (l, i') _ => l = [Some 3; Some 1] /\ size_hint i' = (1, Some 1) | _ => False end
      | _ => False
      end
  | None => False
  end.
Proof. by vm_compute. Qed.

(** The same for fixed lists of both kinds. *)
Theorem C55_fixed_iteration_exact :
forall (T : Type) (pick : mem T -> Z -> Z -> Z) (chk : bool) (nsz nal obj : Z) (n : nat) (m0 : mem T) (prog : list (lcall T)) l s,
  honest pick -> short prog ->
  (FixedSetup m0 obj nsz nal n /\ fixed_built pick false chk nsz nal n obj m0 prog l s) \/
  (ConformantSetup m0 obj nsz nal n /\ conformant_built pick false chk nsz nal n obj m0 prog l s) ->
  exists xs, explains prog l (l_drops s) [] xs /\ iterates chk nsz s xs.
Proof. exact L_C55_fixed_iteration_exact. Qed.
Print Assumptions C55_fixed_iteration_exact.

Example C55_fixed_iteration_exact_case :
  match lx_fixed false lx_pick 2 [LPushBack 1; LPushBack 2; LPushFront 3] with
  | Some (_, s) =>
      match iter s with
      | Ok i _ => match iter_take true 24 4 i s with Ok (l, i') _ => l = [Some 3; Some 1; Some 2; None] /\ size_hint i' = (0, Some 0) | _ => False end
      | _ => False
      end
  | None => False
  end.
Proof. by vm_compute. Qed.

(** The property fails always: with an allocator whose contract demands the layout of
    the allocation (as that of [alloc::dealloc] does), giving back any node of any
    list is undefined behaviour: the node is freed as [size_of] many headers of 16
    bytes. *)
Theorem C56_free_layout_refuted :
forall (T : Type) (pick : mem T -> Z -> Z -> Z) (chk : bool) (nsz nal obj : Z) (m0 : mem T) (prog : list (lcall T)) l s x xs,
  ListSetup m0 obj 24 nsz nal -> honest pick -> short prog -> forallb (fun c => negb (frees c)) prog = true ->
  built pick true chk nsz nal obj m0 prog l s -> contents chk nsz s (x :: xs) ->
  pop_front (DefaultAddrAlloc pick true) chk nsz s = UB /\ pop_back (DefaultAddrAlloc pick true) chk nsz s = UB /\
  clear (DefaultAddrAlloc pick true) chk nsz s = UB /\ list_drop (DefaultAddrAlloc pick true) chk nsz s = UB.
Proof. exact L_C56_free_layout_refuted. Qed.
Print Assumptions C56_free_layout_refuted.

Example C56_free_layout_refuted_case :
  match lx_state true [LPushBack 1; LPushFront 2] with
  | Some (l, s) => iter_all true 24 s = Ok [2; 1] s /\ is_ub (pop_front (DefaultAddrAlloc lx_pick true) true 24 s) = true
  | None => False
  end.
Proof. vm_compute. by split. Qed.

(** With an allocator that ignores sizes: every element handed to the list is handed
    out or dropped exactly once, and when the list is gone every node is freed. *)
Theorem C57_list_drop :
forall (T : Type) (pick : mem T -> Z -> Z -> Z) (chk : bool) (nsz nal obj : Z) (m0 : mem T) (prog : list (lcall T)) l s,
  ListSetup m0 obj 24 nsz nal -> honest pick -> short prog -> forallb no_rewrite prog = true ->
  built pick false chk nsz nal obj m0 prog l s ->
  exists s', list_drop (DefaultAddrAlloc pick false) chk nsz s = Ok tt s' /\
    concat (map given prog) ≡ₚ all_taken prog l ++ l_drops s' /\ m_live (l_mem s') ≡ₚ m_live m0.
Proof. exact L_C57_list_drop. Qed.
Print Assumptions C57_list_drop.

Example C57_list_drop_case :
  match lx_state false [LPushBack 1; LPushBack 2; LPushFront 3; LExtend [4; 5]; LPopFront; LFrontMut 7] with
  | Some (_, s) =>
      match list_drop (DefaultAddrAlloc lx_pick false) true 24 s with
      | Ok _ s' => l_drops s' = [1; 7; 2; 4; 5] /\ m_live (l_mem s') = m_live (lx_mem 24)
      | _ => False
      end
  | None => False
  end.
Proof. by vm_compute. Qed.

(** The same for fixed lists of both kinds. *)
Theorem C57_fixed_list_drop :
forall (T : Type) (pick : mem T -> Z -> Z -> Z) (chk : bool) (nsz nal obj : Z) (n : nat) (m0 : mem T) (prog : list (lcall T)) l s,
  honest pick -> short prog -> forallb no_rewrite prog = true ->
  (FixedSetup m0 obj nsz nal n /\ fixed_built pick false chk nsz nal n obj m0 prog l s) \/
  (ConformantSetup m0 obj nsz nal n /\ conformant_built pick false chk nsz nal n obj m0 prog l s) ->
  exists s', list_drop (FixedListAlloc pick false chk nsz nal) chk nsz s = Ok tt s' /\
    concat (map given prog) ≡ₚ all_taken prog l ++ l_drops s' /\ m_live (l_mem s') ≡ₚ m_live m0.
Proof. exact L_C57_fixed_list_drop. Qed.
Print Assumptions C57_fixed_list_drop.

Example C57_fixed_list_drop_case :
  match lx_fixed false lx_pick 2 [LPushBack 1; LPushBack 2; LPushFront 3; LPopBack; LPushBack 4] with
  | Some (_, s) =>
      match list_drop (FixedListAlloc lx_pick false true 24 8) true 24 s with
      | Ok _ s' => l_drops s' = [3; 1; 4] /\ length (m_live (l_mem s')) = 1%nat
      | _ => False
      end
  | None => False
  end.
Proof. by vm_compute. Qed.

(** Fixed lists of both kinds answer like a list, also beyond their buffer. *)
Theorem C61_fixed_list_refines_list :
forall (T : Type) (pick : mem T -> Z -> Z -> Z) (chk : bool) (nsz nal obj : Z) (n : nat) (m0 : mem T) (prog : list (lcall T)),
  honest pick -> room pick (m_live m0) nsz nal (peak prog 0) -> short prog ->
  (FixedSetup m0 obj nsz nal n -> exists l s, fixed_built pick false chk nsz nal n obj m0 prog l s /\ as_a_list chk nsz prog l s) /\
  (ConformantSetup m0 obj nsz nal n -> exists l s, conformant_built pick false chk nsz nal n obj m0 prog l s /\ as_a_list chk nsz prog l s).
Proof. exact L_C61_fixed_list_refines_list. Qed.
Print Assumptions C61_fixed_list_refines_list.

Example C61_fixed_list_refines_list_case :
  (FixedSetup (lx_mem (fixed_list_bytes 24 8 2)) 4096 24 8 2 /\ room lx_pick (m_live (lx_mem (fixed_list_bytes 24 8 2))) 24 8 5) /\
  option_map fst (lx_fixed false lx_pick 2 [LExtend [1; 2; 3; 4]; LPopFront; LPushFront 5; LPushFront 6; LIter_; LSize]) =
  Some (map Some [AUnit; AOpt (Some 1); AUnit; AUnit; AList [6; 5; 2; 3; 4]; ANum 5]).
Proof.
  split; [|by vm_compute]. split; [split; [by apply LinkedListDerived.lx_setup|by exists 512]|]. apply LinkedListDerived.lx_room; [by vm_compute|lia].
Qed.

(** A fixed list that never holds more elements than it has nodes answers like a list
    whatever the overflow allocator is, even one that insists on layouts: no request
    reaches it, from creation to drop. *)
Theorem C61_small_lists_stay_inside :
forall (T : Type) (pick : mem T -> Z -> Z -> Z) (strict chk : bool) (nsz nal obj : Z) (n : nat) (m0 : mem T) (prog : list (lcall T)),
  (peak prog 0 <= n)%nat -> short prog ->
  (FixedSetup m0 obj nsz nal n -> exists l s s', fixed_built pick strict chk nsz nal n obj m0 prog l s /\ as_a_list chk nsz prog l s /\
     list_drop (FixedListAlloc pick strict chk nsz nal) chk nsz s = Ok tt s' /\
     m_live (l_mem s) = m_live m0 /\ m_time (l_mem s) = m_time m0 /\ m_live (l_mem s') = m_live m0 /\ m_time (l_mem s') = m_time m0) /\
  (ConformantSetup m0 obj nsz nal n -> exists l s s', conformant_built pick strict chk nsz nal n obj m0 prog l s /\ as_a_list chk nsz prog l s /\
     list_drop (FixedListAlloc pick strict chk nsz nal) chk nsz s = Ok tt s' /\
     m_live (l_mem s) = m_live m0 /\ m_time (l_mem s) = m_time m0 /\ m_live (l_mem s') = m_live m0 /\ m_time (l_mem s') = m_time m0).
Proof. exact L_C61_small_lists_stay_inside. Qed.
Print Assumptions C61_small_lists_stay_inside.

Example C61_small_lists_stay_inside_case :
  FixedSetup (lx_mem (fixed_list_bytes 24 8 3)) 4096 24 8 3 /\
  let prog := [LExtend [1; 2; 3]; LPopFront; LPushBack 4; LClear; LPushFront 5; LPushFront 6; LIter_] in
  peak prog 0 = 3%nat /\
  option_map fst (lx_fixed true (fun _ _ _ => 0) 3 prog) = Some (map Some [AUnit; AOpt (Some 1); AUnit; AUnit; AUnit; AUnit; AList [6; 5]]).
Proof. split; [split; [by apply LinkedListDerived.lx_setup|by exists 512]|]. by vm_compute. Qed.

(** Nodes come from the buffer while it has a free one: after any program, as many
    elements as the buffer has free nodes can be added without a request to the
    overflow allocator. *)
Theorem C61_buffer_first :
forall (T : Type) (pick : mem T -> Z -> Z -> Z) (chk : bool) (nsz nal obj : Z) (n : nat) (m0 : mem T) (prog cs : list (lcall T)) l s ps,
  honest pick -> short prog -> follow_next (l_mem s) obj ps obj -> obj ∉ ps -> forallb (fun c => negb (frees c)) cs = true ->
  Z.of_nat (length ps + length (concat (map pushed cs))) < u32_lim ->
  (FixedSetup m0 obj nsz nal n /\ fixed_built pick false chk nsz nal n obj m0 prog l s /\
     (length (inside (obj + fixed_buffer_off nal) (Z.of_nat n * nsz) ps) + length (concat (map pushed cs)) <= n)%nat) \/
  (ConformantSetup m0 obj nsz nal n /\ conformant_built pick false chk nsz nal n obj m0 prog l s /\
     (length (inside (obj + base_list_size) ((Z.of_nat n + 1) * nsz - 1) ps) + length (concat (map pushed cs)) <= n)%nat) ->
  exists l' s', l_run (FixedListAlloc pick false chk nsz nal) chk nsz nal cs s = Some (l', s') /\ None ∉ l' /\
    m_time (l_mem s') = m_time (l_mem s) /\ m_live (l_mem s') ≡ₚ m_live (l_mem s).
Proof. exact L_C61_buffer_first. Qed.
Print Assumptions C61_buffer_first.

Example C61_buffer_first_case :
  match lx_fixed false lx_pick 2 [LExtend [1; 2; 3]; LPopFront] with
  | Some (_, s) =>
      follow_next (l_mem s) 4096 [4184; 65536] 4096 /\ inside (4096 + fixed_buffer_off 8) (2 * 24) [4184; 65536] = [4184] /\
      match l_run (FixedListAlloc lx_pick false true 24 8) true 24 8 [LPushBack 4; LPushBack 5] s with
      | Some (_, s') => map (load_word (l_mem s')) [65536; 4160] = [Some 4160; Some 65600]
      | None => False
      end
  | None => False
  end.
Proof. by vm_compute. Qed.

(** [iter_mut] borrows the list shared, so safe code may hold two such iterators: both
    yield a mutable reference to the same element of any non-empty list. *)
Theorem C81_iter_mut_exclusive_refuted :
forall (T : Type) (pick : mem T -> Z -> Z -> Z) (chk : bool) (nsz nal obj : Z) (m0 : mem T) (prog : list (lcall T)) l s x xs,
  ListSetup m0 obj 24 nsz nal -> honest pick -> short prog -> built pick false chk nsz nal obj m0 prog l s -> contents chk nsz s (x :: xs) ->
  exists i1 i2 p i1' i2', iter s = Ok i1 s /\ iter s = Ok i2 s /\
    iter_next chk i1 s = Ok (Some p, i1') s /\ iter_next chk i2 s = Ok (Some p, i2') s.
Proof. exact L_C81_iter_mut_exclusive_refuted. Qed.
Print Assumptions C81_iter_mut_exclusive_refuted.

Example C81_iter_mut_exclusive_refuted_case :
  match lx_state false [LPushBack 1; LPushBack 2] with
  | Some (_, s) => match iter s with Ok i _ => val (iter_next true i s) = Some (Some 65536, LIter 4096 65536 1) | _ => False end
  | None => False
  end.
Proof. by vm_compute. Qed.
