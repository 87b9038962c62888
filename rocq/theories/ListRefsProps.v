(** Property theorems.  Each is closed by the lemma of the same content in
    ListRefsDerived.v; examples show the hypotheses can be met. *)
From Verif Require Import Base Alloc AddrMem FixedPool FixedPoolSpec FixedPoolProofs LinkedList LinkedListSpec LinkedListProofs LinkedListCalls LinkedListRuns LinkedListFixed LinkedListDerived ListRefs ListRefsSpec.
Local Open Scope Z_scope.
From Verif Require Import ListRefsDerived.

(** Go on with any program after any other on a new list: the rule is broken iff a call of it adds an
    element to the front or a first one, or takes one out.  Otherwise the checks change nothing. *)
Theorem C124_object_partial :
forall (T : Type) (pick : mem T -> Z -> Z -> Z) (chk : bool) (nsz nal vsz obj : Z) (m0 : mem T) (prog prog' : list (lcall T)) l s,
  ListSetup m0 obj 24 nsz nal -> honest pick -> room pick (m_live m0) nsz nal (peak (prog ++ prog') 0) -> short (prog ++ prog') ->
  built pick false chk nsz nal obj m0 prog l s ->
  l_run_r (DefaultAddrAlloc pick false) chk nsz nal vsz true false prog' s =
  if some_call relinks_object prog' (snd (spec_run prog [])) then None
  else l_run (DefaultAddrAlloc pick false) chk nsz nal prog' s.
Proof. exact L_C124_object_partial. Qed.
Print Assumptions C124_object_partial.

(** Iterating over three elements and adding a fourth at the back is fine, taking one out is not. *)
Example C124_object_ex :
  (ListSetup (lx_mem 24) 4096 24 24 8 /\ honest lx_pick /\ room lx_pick (m_live (lx_mem 24)) 24 8 4) /\
  match lx_state false [LPushBack 1; LPushBack 2; LPushFront 3] with
  | Some (_, s) =>
      option_map fst (l_run_r (DefaultAddrAlloc lx_pick false) true 24 8 8 true false [LPushBack 4; LFrontMut 9; LIter_; LClear] s) =
        Some (map Some [AUnit; ABool true; AList [9; 1; 2; 4]; AUnit]) /\
      l_run_r (DefaultAddrAlloc lx_pick false) true 24 8 8 true false [LPushBack 4; LPopBack] s = None /\
      l_run_r (DefaultAddrAlloc lx_pick false) true 24 8 8 true false [LPushFront 4] s = None
  | None => False
  end.
Proof. split; [|by vm_compute]. split; [by apply LinkedListDerived.lx_setup|]. split; [apply LinkedListDerived.fit_honest|]. apply LinkedListDerived.lx_room; lia. Qed.

(** Fixed lists of both kinds, also beyond their buffer: the same calls break the rule about the links of
    the list object. *)
Theorem C124_fixed_object_partial :
forall (T : Type) (pick : mem T -> Z -> Z -> Z) (chk : bool) (nsz nal vsz obj : Z) (n : nat) (m0 : mem T) (prog prog' : list (lcall T)) l s,
  honest pick -> room pick (m_live m0) nsz nal (peak (prog ++ prog') 0) -> short (prog ++ prog') ->
  (FixedSetup m0 obj nsz nal n /\ fixed_built pick false chk nsz nal n obj m0 prog l s) \/
  (ConformantSetup m0 obj nsz nal n /\ conformant_built pick false chk nsz nal n obj m0 prog l s) ->
  l_run_r (FixedListAlloc pick false chk nsz nal) chk nsz nal vsz true false prog' s =
  if some_call relinks_object prog' (snd (spec_run prog [])) then None
  else l_run (FixedListAlloc pick false chk nsz nal) chk nsz nal prog' s.
Proof. exact L_C124_fixed_object_partial. Qed.
Print Assumptions C124_fixed_object_partial.

(** A list with two nodes of its own that holds three elements. *)
Example C124_fixed_object_ex :
  (FixedSetup (lx_mem (fixed_list_bytes 24 8 2)) 4096 24 8 2 /\ room lx_pick (m_live (lx_mem (fixed_list_bytes 24 8 2))) 24 8 4) /\
  match lx_fixed false lx_pick 2 [LPushBack 1; LPushBack 2; LPushFront 3] with
  | Some (_, s) =>
      option_map fst (l_run_r (FixedListAlloc lx_pick false true 24 8) true 24 8 8 true false [LPushBack 4; LIter_; LClear] s) =
        Some (map Some [AUnit; AList [3; 1; 2; 4]; AUnit]) /\
      l_run_r (FixedListAlloc lx_pick false true 24 8) true 24 8 8 true false [LPushBack 4; LPopBack] s = None
  | None => False
  end.
Proof.
  split; [|by vm_compute]. split; [split; [by apply LinkedListDerived.lx_setup|by exists 512]|]. apply LinkedListDerived.lx_room; [by vm_compute|lia].
Qed.

(** Whether or not the allocator refuses, now or before: a call breaks the rule iff it is one of those
    named and it changes the number of elements.  A call that is refused its first element does not. *)
Theorem C124_refusals_partial :
forall (T : Type) (pick : mem T -> Z -> Z -> Z) (chk : bool) (nsz nal vsz obj : Z) (m0 : mem T) (prog : list (lcall T)) c l s xs,
  ListSetup m0 obj 24 nsz nal -> honest pick -> Z.of_nat (peak prog 0 + length (pushed c)) < u32_lim ->
  built pick false chk nsz nal obj m0 prog l s -> contents chk nsz s xs ->
  exists s' xs', ((exists a, l_call (DefaultAddrAlloc pick false) chk nsz nal c s = Ok a s') \/ l_call (DefaultAddrAlloc pick false) chk nsz nal c s = Panic s') /\ contents chk nsz s' xs' /\
    l_call_r (DefaultAddrAlloc pick false) chk nsz nal vsz true false c s =
    if relinks_object c xs && negb (length xs =? length xs')%nat then UB else l_call (DefaultAddrAlloc pick false) chk nsz nal c s.
Proof. exact L_C124_refusals_partial. Qed.
Print Assumptions C124_refusals_partial.

(** An allocator that refuses all but one node: adding to the front is harmless when refused. *)
Example C124_refusals_ex :
  let one := fun (m : mem Z) bytes align => if (length (m_live m) =? 1)%nat then lx_pick m bytes align else 0 in
  match list_new 4096 tt (lx_mem 24) with
  | Ok _ s0 =>
      match l_run (DefaultAddrAlloc one false) true 24 8 [LPushBack 1; LPushBack 2] s0 with
      | Some (l, s) => l = [Some AUnit; None] /\ is_panic (l_call_r (DefaultAddrAlloc one false) true 24 8 8 true false (LPushFront 3) s) = true
      | None => False
      end /\
      is_ub (l_call_r (DefaultAddrAlloc one false) true 24 8 8 true false (LPushFront 3) s0) = true /\
      is_ub (l_call_r (DefaultAddrAlloc one false) true 24 8 8 true false (LExtend [3; 4]) s0) = true /\
      is_panic (l_call (DefaultAddrAlloc one false) true 24 8 (LExtend [3; 4]) s0) = true
  | _ => False
  end.
Proof. vm_compute. repeat split; reflexivity. Qed.

(** The same for fixed lists of both kinds, whose overflow allocator may refuse. *)
Theorem C124_fixed_refusals_partial :
forall (T : Type) (pick : mem T -> Z -> Z -> Z) (chk : bool) (nsz nal vsz obj : Z) (n : nat) (m0 : mem T) (prog : list (lcall T)) c l s xs,
  honest pick -> Z.of_nat (peak prog 0 + length (pushed c)) < u32_lim ->
  (FixedSetup m0 obj nsz nal n /\ fixed_built pick false chk nsz nal n obj m0 prog l s) \/
  (ConformantSetup m0 obj nsz nal n /\ conformant_built pick false chk nsz nal n obj m0 prog l s) ->
  contents chk nsz s xs ->
  exists s' xs', ((exists a, l_call (FixedListAlloc pick false chk nsz nal) chk nsz nal c s = Ok a s') \/ l_call (FixedListAlloc pick false chk nsz nal) chk nsz nal c s = Panic s') /\ contents chk nsz s' xs' /\
    l_call_r (FixedListAlloc pick false chk nsz nal) chk nsz nal vsz true false c s =
    if relinks_object c xs && negb (length xs =? length xs')%nat then UB else l_call (FixedListAlloc pick false chk nsz nal) chk nsz nal c s.
Proof. exact L_C124_fixed_refusals_partial. Qed.
Print Assumptions C124_fixed_refusals_partial.

(** Two nodes in the buffer and no others. *)
Example C124_fixed_refusals_ex :
  match lx_fixed false (fun _ _ _ => 0) 2 [LPushBack 1; LPushBack 2; LPushBack 3] with
  | Some (l, s) => l = [Some AUnit; Some AUnit; None] /\
      is_panic (l_call_r (FixedListAlloc (fun _ _ _ => 0) false true 24 8) true 24 8 8 true false (LPushFront 3) s) = true /\
      is_ub (l_call_r (FixedListAlloc (fun _ _ _ => 0) false true 24 8) true 24 8 8 true false LPopFront s) = true
  | None => False
  end.
Proof. vm_compute. repeat split; reflexivity. Qed.

(** On a new list, a program breaks the rule iff it adds any element. *)
Theorem C124_new_lists :
forall (T : Type) (pick : mem T -> Z -> Z -> Z) (chk : bool) (nsz nal vsz obj : Z) (m0 : mem T) (prog : list (lcall T)) s,
  ListSetup m0 obj 24 nsz nal -> honest pick -> room pick (m_live m0) nsz nal (peak prog 0) -> short prog ->
  list_new obj tt m0 = Ok tt s ->
  (l_run_r (DefaultAddrAlloc pick false) chk nsz nal vsz true false prog s = None <-> exists c, c ∈ prog /\ pushed c <> []) /\
  ((forall c, c ∈ prog -> pushed c = []) ->
     l_run_r (DefaultAddrAlloc pick false) chk nsz nal vsz true false prog s = l_run (DefaultAddrAlloc pick false) chk nsz nal prog s).
Proof. exact L_C124_new_lists. Qed.
Print Assumptions C124_new_lists.

(** One added element is enough. *)
Example C124_new_lists_ex :
  match list_new 4096 tt (lx_mem 24) with
  | Ok _ s =>
      option_map fst (l_run_r (DefaultAddrAlloc lx_pick false) true 24 8 8 true false [LPopBack; LIter_; LExtend []; LClear; LFront] s) =
        Some (map Some [AOpt None; AList []; AUnit; AUnit; AOpt None]) /\
      l_run_r (DefaultAddrAlloc lx_pick false) true 24 8 8 true false [LPopBack; LExtend [1]] s = None
  | _ => False
  end.
Proof. by vm_compute. Qed.

(** Some program has defined behaviour but for the rule, and breaks it. *)
Theorem C124_object_refuted :
exists (prog : list (lcall Z)) (s : lstate unit Z),
  ListSetup (lx_mem 24) 4096 24 24 8 /\ honest lx_pick /\ room lx_pick (m_live (lx_mem 24)) 24 8 (peak prog 0) /\ short prog /\
  list_new 4096 tt (lx_mem 24) = Ok tt s /\
  is_Some (l_run (DefaultAddrAlloc lx_pick false) true 24 8 prog s) /\
  l_run_r (DefaultAddrAlloc lx_pick false) true 24 8 8 true false prog s = None.
Proof. exact L_C124_object_refuted. Qed.
Print Assumptions C124_object_refuted.

(** Go on with any program after any other on a new list: the rule is broken iff a call of it reads,
    changes or drops an element in its node, and there is more to the node than its links. *)
Theorem C125_elements_partial :
forall (T : Type) (pick : mem T -> Z -> Z -> Z) (chk : bool) (nsz nal vsz obj : Z) (m0 : mem T) (prog prog' : list (lcall T)) l s,
  ListSetup m0 obj 24 nsz nal -> honest pick -> room pick (m_live m0) nsz nal (peak (prog ++ prog') 0) -> short (prog ++ prog') ->
  built pick false chk nsz nal obj m0 prog l s ->
  l_run_r (DefaultAddrAlloc pick false) chk nsz nal vsz false true prog' s =
  if some_call (uses_element (16 <? nsz) (0 <? vsz)) prog' (snd (spec_run prog [])) then None
  else l_run (DefaultAddrAlloc pick false) chk nsz nal prog' s.
Proof. exact L_C125_elements_partial. Qed.
Print Assumptions C125_elements_partial.

(** Adding elements is fine, looking at one is not; with elements of no bytes, it is. *)
Example C125_elements_ex :
  match lx_state false [LPushBack 1] with
  | Some (_, s) =>
      option_map fst (l_run_r (DefaultAddrAlloc lx_pick false) true 24 8 8 false true [LPushFront 4; LExtend [5; 6]; LLen] s) = Some (map Some [AUnit; AUnit; ANum 4]) /\
      l_run_r (DefaultAddrAlloc lx_pick false) true 24 8 8 false true [LPushFront 4; LBack] s = None /\
      l_run_r (DefaultAddrAlloc lx_pick false) true 24 8 8 false true [LIter_] s = None
  | None => False
  end /\
  match list_new 4096 tt (lx_mem 24) with
  | Ok _ s => option_map fst (l_run_r (DefaultAddrAlloc lx_pick false) true 16 8 0 false true [LPushBack 1; LFront; LPopBack] s) = Some (map Some [AUnit; AOpt (Some 1); AOpt (Some 1)])
  | _ => False
  end.
Proof. by vm_compute. Qed.

(** Fixed lists of both kinds, also beyond their buffer: the same calls break the rule about the elements,
    and dropping the list does iff it has elements of at least one byte. *)
Theorem C125_fixed_elements_partial :
forall (T : Type) (pick : mem T -> Z -> Z -> Z) (chk : bool) (nsz nal vsz obj : Z) (n : nat) (m0 : mem T) (prog prog' : list (lcall T)) l s,
  honest pick -> room pick (m_live m0) nsz nal (peak (prog ++ prog') 0) -> short (prog ++ prog') ->
  (FixedSetup m0 obj nsz nal n /\ fixed_built pick false chk nsz nal n obj m0 prog l s) \/
  (ConformantSetup m0 obj nsz nal n /\ conformant_built pick false chk nsz nal n obj m0 prog l s) ->
  l_run_r (FixedListAlloc pick false chk nsz nal) chk nsz nal vsz false true prog' s =
  (if some_call (uses_element (16 <? nsz) (0 <? vsz)) prog' (snd (spec_run prog [])) then None
   else l_run (FixedListAlloc pick false chk nsz nal) chk nsz nal prog' s) /\
  list_drop_r (FixedListAlloc pick false chk nsz nal) chk nsz vsz true s =
  match snd (spec_run prog []) with
  | [] => list_drop (FixedListAlloc pick false chk nsz nal) chk nsz s
  | _ => if 0 <? vsz then UB else list_drop (FixedListAlloc pick false chk nsz nal) chk nsz s
  end.
Proof. exact L_C125_fixed_elements_partial. Qed.
Print Assumptions C125_fixed_elements_partial.

(** A list with two nodes of its own that holds three elements. *)
Example C125_fixed_elements_ex :
  match lx_fixed false lx_pick 2 [LPushBack 1; LPushBack 2; LPushFront 3] with
  | Some (_, s) =>
      option_map fst (l_run_r (FixedListAlloc lx_pick false true 24 8) true 24 8 8 false true [LPushBack 4; LSize] s) = Some (map Some [AUnit; ANum 4]) /\
      l_run_r (FixedListAlloc lx_pick false true 24 8) true 24 8 8 false true [LPushBack 4; LPopBack] s = None /\
      is_ub (list_drop_r (FixedListAlloc lx_pick false true 24 8) true 24 8 true s) = true
  | None => False
  end.
Proof. by vm_compute. Qed.

(** Whether or not the allocator refuses, now or before: the same calls break the rule, and so does
    dropping the list, iff it has elements of at least one byte. *)
Theorem C125_refusals_partial :
forall (T : Type) (pick : mem T -> Z -> Z -> Z) (chk : bool) (nsz nal vsz obj : Z) (m0 : mem T) (prog : list (lcall T)) c l s xs,
  ListSetup m0 obj 24 nsz nal -> honest pick -> Z.of_nat (peak prog 0 + length (pushed c)) < u32_lim ->
  built pick false chk nsz nal obj m0 prog l s -> contents chk nsz s xs ->
  l_call_r (DefaultAddrAlloc pick false) chk nsz nal vsz false true c s =
  (if uses_element (16 <? nsz) (0 <? vsz) c xs then UB else l_call (DefaultAddrAlloc pick false) chk nsz nal c s) /\
  list_drop_r (DefaultAddrAlloc pick false) chk nsz vsz true s =
  match xs with [] => list_drop (DefaultAddrAlloc pick false) chk nsz s | _ => if 0 <? vsz then UB else list_drop (DefaultAddrAlloc pick false) chk nsz s end.
Proof. exact L_C125_refusals_partial. Qed.
Print Assumptions C125_refusals_partial.

(** An allocator that refuses all but one node. *)
Example C125_refusals_ex :
  let one := fun (m : mem Z) bytes align => if (length (m_live m) =? 1)%nat then lx_pick m bytes align else 0 in
  match list_new 4096 tt (lx_mem 24) with
  | Ok _ s0 =>
      match l_run (DefaultAddrAlloc one false) true 24 8 [LPushBack 1; LPushBack 2] s0 with
      | Some (l, s) => l = [Some AUnit; None] /\
          is_panic (l_call_r (DefaultAddrAlloc one false) true 24 8 8 false true (LPushFront 3) s) = true /\
          is_ub (l_call_r (DefaultAddrAlloc one false) true 24 8 8 false true LFront s) = true
      | None => False
      end
  | _ => False
  end.
Proof. vm_compute. repeat split; reflexivity. Qed.

(** The same for fixed lists of both kinds, whose overflow allocator may refuse. *)
Theorem C125_fixed_refusals_partial :
forall (T : Type) (pick : mem T -> Z -> Z -> Z) (chk : bool) (nsz nal vsz obj : Z) (n : nat) (m0 : mem T) (prog : list (lcall T)) c l s xs,
  honest pick -> Z.of_nat (peak prog 0 + length (pushed c)) < u32_lim ->
  (FixedSetup m0 obj nsz nal n /\ fixed_built pick false chk nsz nal n obj m0 prog l s) \/
  (ConformantSetup m0 obj nsz nal n /\ conformant_built pick false chk nsz nal n obj m0 prog l s) ->
  contents chk nsz s xs ->
  l_call_r (FixedListAlloc pick false chk nsz nal) chk nsz nal vsz false true c s =
  (if uses_element (16 <? nsz) (0 <? vsz) c xs then UB else l_call (FixedListAlloc pick false chk nsz nal) chk nsz nal c s) /\
  list_drop_r (FixedListAlloc pick false chk nsz nal) chk nsz vsz true s =
  match xs with [] => list_drop (FixedListAlloc pick false chk nsz nal) chk nsz s | _ => if 0 <? vsz then UB else list_drop (FixedListAlloc pick false chk nsz nal) chk nsz s end.
Proof. exact L_C125_fixed_refusals_partial. Qed.
Print Assumptions C125_fixed_refusals_partial.

(** Two nodes in the buffer and no others. *)
Example C125_fixed_refusals_ex :
  match lx_fixed false (fun _ _ _ => 0) 2 [LPushBack 1; LPushBack 2; LPushBack 3] with
  | Some (l, s) => l = [Some AUnit; Some AUnit; None] /\
      is_panic (l_call_r (FixedListAlloc (fun _ _ _ => 0) false true 24 8) true 24 8 8 false true (LPushFront 3) s) = true /\
      is_ub (l_call_r (FixedListAlloc (fun _ _ _ => 0) false true 24 8) true 24 8 8 false true LPopFront s) = true
  | None => False
  end.
Proof. vm_compute. repeat split; reflexivity. Qed.

(** Dropping the list breaks the rule iff it has elements, of at least one byte. *)
Theorem C125_drop :
forall (T : Type) (pick : mem T -> Z -> Z -> Z) (chk : bool) (nsz nal vsz obj : Z) (m0 : mem T) (prog : list (lcall T)) l s,
  ListSetup m0 obj 24 nsz nal -> honest pick -> room pick (m_live m0) nsz nal (peak prog 0) -> short prog ->
  built pick false chk nsz nal obj m0 prog l s ->
  list_drop_r (DefaultAddrAlloc pick false) chk nsz vsz true s =
  match snd (spec_run prog []) with
  | [] => list_drop (DefaultAddrAlloc pick false) chk nsz s
  | _ => if 0 <? vsz then UB else list_drop (DefaultAddrAlloc pick false) chk nsz s
  end.
Proof. exact L_C125_drop. Qed.
Print Assumptions C125_drop.

(** A list of two elements of eight bytes. *)
Example C125_drop_ex :
  match lx_state false [LPushBack 1; LPushBack 2] with
  | Some (_, s) => is_ub (list_drop_r (DefaultAddrAlloc lx_pick false) true 24 8 true s) = true /\
      is_ok (list_drop (DefaultAddrAlloc lx_pick false) true 24 s) = true
  | None => False
  end.
Proof. vm_compute. by split. Qed.

(** Some program has defined behaviour but for the rule, and breaks it. *)
Theorem C125_elements_refuted :
exists (prog : list (lcall Z)) (s : lstate unit Z),
  ListSetup (lx_mem 24) 4096 24 24 8 /\ honest lx_pick /\ room lx_pick (m_live (lx_mem 24)) 24 8 (peak prog 0) /\ short prog /\
  list_new 4096 tt (lx_mem 24) = Ok tt s /\
  is_Some (l_run (DefaultAddrAlloc lx_pick false) true 24 8 prog s) /\
  l_run_r (DefaultAddrAlloc lx_pick false) true 24 8 8 false true prog s = None.
Proof. exact L_C125_elements_refuted. Qed.
Print Assumptions C125_elements_refuted.
