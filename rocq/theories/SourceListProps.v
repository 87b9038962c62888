(** Property theorems.  Each is closed by the lemma of the same content in
    SourceListDerived.v; examples show the hypotheses can be met. *)
(** C100, linked lists: a panic of the iterator by which they are extended. *)
From Verif Require Import Base Alloc AddrMem Source.
From Verif Require Import FixedPool FixedPoolSpec LinkedList LinkedListSpec.
From Verif Require Import SourceListDerived.

(** Extending a list, after any program.  If the iterator panics, the list keeps all elements
    yielded so far, in order.  If memory runs out first, the list keeps those before the refused
    one, and that one is dropped.  In each case the list is in a state that calls without panics of
    the iterator lead to as well. *)
Theorem C100_list_extend :
forall (T : Type) (pick : mem T -> Z -> Z -> Z) (chk : bool) (nsz nal obj : Z) (m0 : mem T) (prog : list (lcall T)) l s xs (src : source T),
  ListSetup m0 obj 24 nsz nal -> honest pick -> short prog -> built pick false chk nsz nal obj m0 prog l s -> contents chk nsz s xs ->
  (Z.of_nat (length xs + length (yields src)) < u32_lim)%Z ->
  match list_extend (DefaultAddrAlloc pick false) chk nsz nal src s with
  | (Ok _ s', n) => panics src = false /\ contents chk nsz s' (xs ++ yields src) /\ l_drops s' = l_drops s /\
      exists prog' l', built pick false chk nsz nal obj m0 prog' l' s'
  | (Panic s', n) =>
    ((panics src = true /\ contents chk nsz s' (xs ++ yields src) /\ l_drops s' = l_drops s) \/
     (exists ys x, take n (yields src) = ys ++ [x] /\ contents chk nsz s' (xs ++ ys) /\ l_drops s' = l_drops s ++ [x])) /\
    exists prog' l', built pick false chk nsz nal obj m0 prog' l' s'
  | (UB, _) => False
  end.
Proof. exact L_C100_list_extend. Qed.
Print Assumptions C100_list_extend.

Example C100_list_extend_case :
  match list_new 4096 tt (lx_mem 24) with
  | Ok _ s0 =>
    match list_extend (DefaultAddrAlloc (fit_pick 65536 64 9) false) true 24 8 (Source [1; 2; 3]%Z true) s0 with
    | (Panic s, n) => n = 3 /\ val (iter_all true 24 s) = Some [1; 2; 3]%Z /\ l_drops s = []
    | _ => False
    end /\
    (** room for two nodes only *)
    match list_extend (DefaultAddrAlloc (fit_pick 65536 64 2) false) true 24 8 (Source [1; 2; 3; 4]%Z false) s0 with
    | (Panic s, n) => n = 3 /\ val (iter_all true 24 s) = Some [1; 2]%Z /\ l_drops s = [3]%Z
    | _ => False
    end
  | _ => False
  end.
Proof. vm_compute. repeat split. Qed.
