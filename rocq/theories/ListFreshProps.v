(** Property theorems.  Each is closed by the lemma of the same content in
    ListFreshDerived.v; examples show the hypotheses can be met. *)
From Verif Require Import Base Alloc AddrMem FixedPool FixedPoolSpec FixedPoolProofs LinkedList LinkedListSpec LinkedListProofs LinkedListCalls LinkedListRuns LinkedListFixed LinkedListDerived ListFresh ListFreshSpec.
Local Open Scope Z_scope.
From Verif Require Import ListFreshDerived.

(** Go on with any program after any other on a new list whose allocator finds room: the rule is broken
    iff a call of it adds an element.  Otherwise the check changes nothing. *)
Theorem C126_programs_partial :
forall (T : Type) (pick : mem T -> Z -> Z -> Z) (chk : bool) (nsz nal obj : Z) (m0 : mem T) (prog prog' : list (lcall T)) l s,
  ListSetup m0 obj 24 nsz nal -> honest pick -> room pick (m_live m0) nsz nal (peak prog 0 + length (concat (map pushed prog'))) ->
  Z.of_nat (peak prog 0 + length (concat (map pushed prog'))) < u32_lim ->
  built pick false chk nsz nal obj m0 prog l s ->
  l_run_i (DefaultAddrAlloc pick false) chk nsz nal prog' s =
  if existsb adds prog' then None else l_run (DefaultAddrAlloc pick false) chk nsz nal prog' s.
Proof. exact L_C126_programs_partial. Qed.
Print Assumptions C126_programs_partial.

(** Looking, iterating and taking out are fine; adding one element is not. *)
Example C126_programs_ex :
  (ListSetup (lx_mem 24) 4096 24 24 8 /\ honest lx_pick /\ room lx_pick (m_live (lx_mem 24)) 24 8 4) /\
  match lx_state false [LPushBack 1; LPushBack 2; LPushFront 3] with
  | Some (_, s) =>
      option_map fst (l_run_i (DefaultAddrAlloc lx_pick false) true 24 8 [LPopBack; LFrontMut 9; LIter_; LExtend []; LClear] s) =
        Some (map Some [AOpt (Some 2); ABool true; AList [9; 1]; AUnit; AUnit]) /\
      l_run_i (DefaultAddrAlloc lx_pick false) true 24 8 [LPopBack; LPushBack 4] s = None
  | None => False
  end.
Proof. split; [|by vm_compute]. split; [by apply LinkedListDerived.lx_setup|]. split; [apply LinkedListDerived.fit_honest|]. apply LinkedListDerived.lx_room; lia. Qed.

(** Whether or not the allocator refuses, now or before: a call breaks the rule iff it adds at least one
    element. *)
Theorem C126_calls_partial :
forall (T : Type) (pick : mem T -> Z -> Z -> Z) (chk : bool) (nsz nal obj : Z) (m0 : mem T) (prog : list (lcall T)) c l s xs,
  ListSetup m0 obj 24 nsz nal -> honest pick -> Z.of_nat (peak prog 0 + length (pushed c)) < u32_lim ->
  built pick false chk nsz nal obj m0 prog l s -> contents chk nsz s xs ->
  exists s' xs', ((exists a, l_call (DefaultAddrAlloc pick false) chk nsz nal c s = Ok a s') \/ l_call (DefaultAddrAlloc pick false) chk nsz nal c s = Panic s') /\
    contents chk nsz s' xs' /\
    l_call_i (DefaultAddrAlloc pick false) chk nsz nal c s =
    if adds c && negb (length xs =? length xs')%nat then UB else l_call (DefaultAddrAlloc pick false) chk nsz nal c s.
Proof. exact L_C126_calls_partial. Qed.
Print Assumptions C126_calls_partial.

(** An allocator that refuses all but one node: the refused call makes no reference. *)
Example C126_calls_ex :
  let one := fun (m : mem Z) bytes align => if (length (m_live m) =? 1)%nat then lx_pick m bytes align else 0 in
  match list_new 4096 tt (lx_mem 24) with
  | Ok _ s0 =>
      match l_run (DefaultAddrAlloc one false) true 24 8 [LPushBack 1] s0 with
      | Some (l, s) => is_panic (l_call_i (DefaultAddrAlloc one false) true 24 8 (LPushFront 3) s) = true
      | None => False
      end /\
      is_ub (l_call_i (DefaultAddrAlloc one false) true 24 8 (LPushFront 3) s0) = true /\
      is_ub (l_call_i (DefaultAddrAlloc one false) true 24 8 (LExtend [3; 4]) s0) = true
  | _ => False
  end.
Proof. vm_compute. repeat split; reflexivity. Qed.

(** On a new fixed list of either kind, in memory where nothing has been stored, a program breaks the rule
    iff a call of it adds an element. *)
Theorem C126_new_fixed_partial :
forall (T : Type) (pick : mem T -> Z -> Z -> Z) (chk : bool) (nsz nal obj : Z) (n : nat) (m0 : mem T) (prog : list (lcall T)) s,
  honest pick -> room pick (m_live m0) nsz nal (peak prog 0) -> short prog ->
  (FixedSetup m0 obj nsz nal n /\ (forall a, obj <= a < obj + fixed_list_bytes nsz nal (Z.of_nat n) -> m_val m0 !! a = None) /\
     fixed_list_new chk nsz nal (Z.of_nat n) obj m0 = Ok tt s) \/
  (ConformantSetup m0 obj nsz nal n /\ (forall a, obj <= a < obj + conformant_bytes nsz (Z.of_nat n) -> m_val m0 !! a = None) /\
     conformant_new chk nsz nal (Z.of_nat n) obj m0 = Ok tt s) ->
  l_run_i (FixedListAlloc pick false chk nsz nal) chk nsz nal prog s =
  if existsb adds prog then None else l_run (FixedListAlloc pick false chk nsz nal) chk nsz nal prog s.
Proof. exact L_C126_new_fixed_partial. Qed.
Print Assumptions C126_new_fixed_partial.

(** A new list with two nodes of its own. *)
Example C126_new_fixed_ex :
  (FixedSetup (lx_mem (fixed_list_bytes 24 8 2)) 4096 24 8 2 /\ m_val (lx_mem (fixed_list_bytes 24 8 2)) = ∅ /\
   room lx_pick (m_live (lx_mem (fixed_list_bytes 24 8 2))) 24 8 4) /\
  match fixed_list_new true 24 8 2 4096 (lx_mem (fixed_list_bytes 24 8 2)) with
  | Ok _ s =>
      option_map fst (l_run_i (FixedListAlloc lx_pick false true 24 8) true 24 8 [LPopBack; LClear; LIter_; LExtend []] s) =
        Some (map Some [AOpt None; AUnit; AList []; AUnit]) /\
      l_run_i (FixedListAlloc lx_pick false true 24 8) true 24 8 [LPopBack; LPushBack 4] s = None
  | _ => False
  end.
Proof.
  split; [|by vm_compute]. split; [split; [by apply LinkedListDerived.lx_setup|by exists 512]|]. split; [done|].
  apply LinkedListDerived.lx_room; [by vm_compute|lia].
Qed.

(** Some program has defined behaviour but for the rule, and breaks it. *)
Theorem C126_nodes_refuted :
exists (prog : list (lcall Z)) (s : lstate unit Z),
  ListSetup (lx_mem 24) 4096 24 24 8 /\ honest lx_pick /\ room lx_pick (m_live (lx_mem 24)) 24 8 (peak prog 0) /\ short prog /\
  list_new 4096 tt (lx_mem 24) = Ok tt s /\
  is_Some (l_run (DefaultAddrAlloc lx_pick false) true 24 8 prog s) /\
  l_run_i (DefaultAddrAlloc lx_pick false) true 24 8 prog s = None.
Proof. exact L_C126_nodes_refuted. Qed.
Print Assumptions C126_nodes_refuted.
