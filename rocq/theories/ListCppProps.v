(** Property theorems.  Each is closed by the lemma of the same content in
    ListCppDerived.v; examples show the hypotheses can be met. *)
From Verif Require Import Base Alloc AddrMem FixedPool FixedPoolSpec LinkedList LinkedListSpec ListCpp ListCppSpec.
Local Open Scope Z_scope.
From Verif Require Import ListCppDerived.



(** A list created in Rust and then used by a program in both languages, in any order,
    behaves as one list: both sides see the same elements, in the same order forwards and
    backwards, and the nodes stay a consistent ring.  C++ may insert and erase anywhere,
    assign, reverse and read.  Needed: C++ keeps its iterators in range, and the
    allocator has room. *)
Theorem C94_shared_list :
forall (T : Type) (pick : mem T -> Z -> Z -> Z) (chk : bool) (nsz nal obj : Z) (m0 : mem T) (prog : list (mcall T)) (B : nat),
  ListSetup m0 obj 24 nsz nal -> honest pick -> room pick (m_live m0) nsz nal B -> Z.of_nat B < u32_lim -> proper B prog [] ->
  exists l s, shared pick chk nsz nal obj m0 prog l s /\ as_a_shared_list chk nsz obj prog l s.
Proof. exact L_C94_shared_list. Qed.
Print Assumptions C94_shared_list.

Example C94_shared_list_case :
  (ListSetup (lx_mem 24) 4096 24 24 8 /\ honest lx_pick /\ room lx_pick (m_live (lx_mem 24)) 24 8 4 /\ proper 4 mx_prog []) /\
  option_map fst (mx_default mx_prog) =
  Some (map Some [AUnit; AUnit; AUnit; AList [2; 3; 1]; AUnit; AList [1; 3; 2]; AOpt (Some 1); AList [2; 3];
    AUnit; AUnit; AUnit; AList [4; 9]; ANum 2; AUnit; AUnit; AList [4; 9; 5]; AOpt (Some 5); ANum 2]).
Proof.
  split; [|by vm_compute]. split; [by apply LinkedListDerived.lx_setup|]. split; [apply LinkedListDerived.fit_honest|].
  split; [apply LinkedListDerived.lx_room; lia|]. cbn. lia.
Qed.

(** The same for a fixed list with room for [n] nodes of its own, whose allocator both
    languages use. *)
Theorem C94_shared_fixed_list :
forall (T : Type) (pick : mem T -> Z -> Z -> Z) (chk : bool) (nsz nal obj : Z) (n : nat) (m0 : mem T) (prog : list (mcall T)) (B : nat),
  FixedSetup m0 obj nsz nal n -> honest pick -> room pick (m_live m0) nsz nal B -> Z.of_nat B < u32_lim -> proper B prog [] ->
  exists l s, fixed_shared pick chk nsz nal n obj m0 prog l s /\ as_a_shared_list chk nsz obj prog l s.
Proof. exact L_C94_shared_fixed_list. Qed.
Print Assumptions C94_shared_fixed_list.

Example C94_shared_fixed_list_case :
  FixedSetup (lx_mem (fixed_list_bytes 24 8 2)) 4096 24 8 2 /\
  option_map fst (mx_fixed 2 mx_prog) =
  Some (map Some [AUnit; AUnit; AUnit; AList [2; 3; 1]; AUnit; AList [1; 3; 2]; AOpt (Some 1); AList [2; 3];
    AUnit; AUnit; AUnit; AList [4; 9]; ANum 2; AUnit; AUnit; AList [4; 9; 5]; AOpt (Some 5); ANum 2]).
Proof. split; [|by vm_compute]. split; [by apply LinkedListDerived.lx_setup|by exists 512]. Qed.

(** When Rust drops a list that both languages used, every element handed over by either
    side has been handed out or destroyed exactly once, and all nodes are given back. *)
Theorem C94_shared_list_drop :
forall (T : Type) (pick : mem T -> Z -> Z -> Z) (chk : bool) (nsz nal obj : Z) (m0 : mem T) (prog : list (mcall T)) (B : nat) l s,
  ListSetup m0 obj 24 nsz nal -> honest pick -> room pick (m_live m0) nsz nal B -> Z.of_nat B < u32_lim -> proper B prog [] ->
  forallb m_no_rewrite prog = true -> shared pick chk nsz nal obj m0 prog l s ->
  exists s' answers, list_drop (DefaultAddrAlloc pick false) chk nsz s = Ok tt s' /\ l = map Some answers /\
    concat (map m_given prog) ≡ₚ m_all_taken prog answers ++ l_drops s' /\ m_live (l_mem s') ≡ₚ m_live m0.
Proof. exact L_C94_shared_list_drop. Qed.
Print Assumptions C94_shared_list_drop.

Example C94_shared_list_drop_case :
  match mx_default mx_prog with
  | Some (_, s) =>
      match list_drop (DefaultAddrAlloc lx_pick false) true 24 s with
      | Ok _ s' => l_drops s' = [2; 3; 6; 4; 9] /\ m_live (l_mem s') = m_live (lx_mem 24)
      | _ => False
      end
  | None => False
  end.
Proof. by vm_compute. Qed.
