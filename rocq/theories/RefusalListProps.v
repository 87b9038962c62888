(** Property theorems.  Each is closed by the lemma of the same content in
    RefusalListDerived.v; examples show the hypotheses can be met. *)
From Verif Require Import Base Alloc AddrMem FixedPool FixedPoolSpec LinkedList LinkedListSpec RefusalList.
Local Open Scope Z_scope.
From Verif Require Import RefusalListDerived.

(** C104 for lists: whatever the allocator refuses, by panicking or with a null pointer, and
    whenever: a push that is refused panics, leaves the list as it was ([extend]: with the
    elements pushed so far) and drops what it was given; all later calls answer as usual.
    The destructor drops just the elements that are in the list and gives every node back. *)
Theorem C104_list :
forall (T : Type) (pick : mem T -> Z -> Z -> Z) (refuse : mem T -> Z -> bool) (chk : bool) (nsz nal obj : Z) (m0 : mem T) (prog : list (lcall T)),
  ListSetup m0 obj 24 nsz nal -> honest pick -> short prog ->
  exists s0 l s xs s', list_new obj tt m0 = Ok tt s0 /\ l_run (RefusingAddr pick false refuse) chk nsz nal prog s0 = Some (l, s) /\
    explains prog l (l_drops s) [] xs /\ contents chk nsz s xs /\
    list_drop (RefusingAddr pick false refuse) chk nsz s = Ok tt s' /\ l_drops s' = l_drops s ++ xs /\ m_live (l_mem s') ≡ₚ m_live m0.
Proof. exact L_C104_list. Qed.
Print Assumptions C104_list.

(** The second and the third request are refused. *)
Example C104_list_case :
  match list_new 4096 tt (lx_mem 24) with
  | Ok _ s0 =>
    match l_run (RefusingAddr lx_pick false (fun m _ => (m_time m =? 1)%nat || (m_time m =? 2)%nat)) true 24 8
        [LPushBack 1; LPushFront 2; LExtend [3; 4]; LIter_; LExtend [5; 6]; LPopFront; LIter_] s0 with
    | Some (l, s) => l = [Some AUnit; None; None; Some (AList [1]); Some AUnit; Some (AOpt (Some 1)); Some (AList [5; 6])] /\ l_drops s = [2; 3; 4]
    | None => False
    end
  | _ => False
  end.
Proof. by vm_compute. Qed.

(** C104 for fixed lists of both kinds, over such an allocator for the nodes beyond their
    buffer. *)
Theorem C104_fixed_list :
forall (T : Type) (pick : mem T -> Z -> Z -> Z) (refuse : mem T -> Z -> bool) (chk : bool) (nsz nal obj : Z) (n : nat) (m0 : mem T) (prog : list (lcall T))
  (new : outcome (lstate (opool unit) T) unit),
  honest pick -> short prog ->
  (FixedSetup m0 obj nsz nal n /\ new = fixed_list_new chk nsz nal (Z.of_nat n) obj m0) \/
  (ConformantSetup m0 obj nsz nal n /\ new = conformant_new chk nsz nal (Z.of_nat n) obj m0) ->
  exists s0 l s xs s', new = Ok tt s0 /\ l_run (RefusingFixed pick false chk nsz nal refuse) chk nsz nal prog s0 = Some (l, s) /\
    explains prog l (l_drops s) [] xs /\ contents chk nsz s xs /\
    list_drop (RefusingFixed pick false chk nsz nal refuse) chk nsz s = Ok tt s' /\ l_drops s' = l_drops s ++ xs /\ m_live (l_mem s') ≡ₚ m_live m0.
Proof. exact L_C104_fixed_list. Qed.
Print Assumptions C104_fixed_list.

(** Two nodes in the buffer; the first request beyond it is refused. *)
Example C104_fixed_list_case :
  match fixed_list_new true 24 8 2 4096 (lx_mem (fixed_list_bytes 24 8 2)) with
  | Ok _ s0 =>
    match l_run (RefusingFixed lx_pick false true 24 8 (fun m _ => (m_time m =? 0)%nat)) true 24 8 [LExtend [1; 2; 3; 4]; LIter_; LPushFront 5; LIter_] s0 with
    | Some (l, s) => l = [None; Some (AList [1; 2]); Some AUnit; Some (AList [5; 1; 2])] /\ l_drops s = [3; 4]
    | None => False
    end
  | _ => False
  end.
Proof. by vm_compute. Qed.
