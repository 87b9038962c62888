(** Property theorems.  Each is closed by the lemma of the same content in
    ListWorldDerived.v; examples show the hypotheses can be met. *)
From Verif Require Import Base Alloc AddrMem FixedPool FixedPoolSpec LinkedList LinkedListSpec ListWorld ListWorldSpec.
Local Open Scope Z_scope.
From Verif Require Import ListWorldDerived.

(** C108 for lists: any number of lists in one memory, created, used in any order and
    dropped, each at its own place and all over one allocator, behave as so many
    separate lists.  No step is undefined; the answers and the destroyed elements are
    those of the specification, in which a call concerns only the list at its place;
    at the end every list shows its elements, and the heap holds one node for each
    of them and nothing else.  When the allocator has room, no call panics. *)
Theorem C108_lists_apart :
forall (T : Type) (pick : mem T -> Z -> Z -> Z) (chk : bool) (nsz nal : Z) (m0 : mem T) (addrs : list Z) (os : list (wop T)),
  WorldSetup m0 addrs nsz nal -> honest pick -> legal os (map (fun _ => false) addrs) = true -> Z.of_nat (added os) < u32_lim ->
  exists l w ls,
    w_run pick false chk nsz nal os (w_start addrs m0) = Some (l, w) /\
    w_explains os l (lw_drops w) (map (fun _ => None) addrs) ls /\
    w_shows chk nsz w ls /\
    (exists ps, m_live (lw_mem w) ≡ₚ m_live m0 ++ map (fun p => Region p nsz nal true) ps /\ NoDup ps /\
      length ps = length (flat_map (fun o : option (list T) => match o with Some xs => xs | None => [] end) ls)) /\
    (room pick (m_live m0) nsz nal (added os) -> None ∉ l).
Proof. exact L_C108_lists_apart. Qed.
Print Assumptions C108_lists_apart.

Example C108_lists_apart_case :
  option_map fst (wx_run [WNew 0; WNew 1; WCall 0 (LPushBack 1); WCall 1 (LPushBack 7); WCall 0 (LPushBack 2); WCall 1 (LPushFront 8);
      WCall 0 LPopFront; WCall 1 LIter_; WDrop 1; WCall 0 (LExtend [3; 4]); WNew 1; WCall 1 LIter_; WCall 0 LIter_])
  = Some [Some AUnit; Some AUnit; Some AUnit; Some AUnit; Some AUnit; Some AUnit; Some (AOpt (Some 1)); Some (AList [8; 7]); Some AUnit; Some AUnit; Some AUnit;
      Some (AList []); Some (AList [2; 3; 4])].
Proof. vm_compute. reflexivity. Qed.

(** C109 is false of lists.  Take any program that creates, uses and drops lists, and
    exchange two of the lists then present, neither of which begins a heap block.  The
    exchange itself is defined.  Afterwards dropping or clearing either of the two is
    undefined, whatever they hold: its nodes lead to the other sentinel, which is then
    handed to the allocator as if it were a node. *)
Theorem C109_list_swap_refuted :
forall (T : Type) (pick : mem T -> Z -> Z -> Z) (chk : bool) (nsz nal : Z) (m0 : mem T) (addrs : list Z) (os : list (wop T)) l w i j a n b k,
  WorldSetup m0 addrs nsz nal -> honest pick -> legal os (map (fun _ => false) addrs) = true -> Z.of_nat (added os) < u32_lim ->
  w_run pick false chk nsz nal os (w_start addrs m0) = Some (l, w) ->
  i <> j -> live_at w i = Some (a, n) -> live_at w j = Some (b, k) ->
  (forall r, r ∈ m_live m0 -> r_base r = a \/ r_base r = b -> r_heap r = false) ->
  exists w', w_step pick false chk nsz nal (WSwap i j) w = Some (Some AUnit, w') /\
    forall o, o ∈ [WDrop i; WDrop j; WCall i LClear; WCall j LClear] -> w_step pick false chk nsz nal o w' = None.
Proof. exact L_C109_list_swap_refuted. Qed.
Print Assumptions C109_list_swap_refuted.

Example C109_list_swap_refuted_case :
  let go os := option_map fst (wx_run ([WNew 0; WNew 1; WCall 0 (LPushBack 1); WCall 1 (LPushBack 7); WSwap 0 1] ++ os)) in
  go [WCall 0 LFront; WCall 1 LBack; WCall 0 LIter_] =
    Some [Some AUnit; Some AUnit; Some AUnit; Some AUnit; Some AUnit; Some (AOpt (Some 7)); Some (AOpt (Some 1)); None] /\
  go [WDrop 0] = None /\ go [WDrop 1] = None /\
  option_map fst (wx_run [WNew 0; WNew 1; WSwap 0 1; WDrop 1]) = None.
Proof. vm_compute. split_and!; reflexivity. Qed.
