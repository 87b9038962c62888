(** Property theorems.  Each is closed by the lemma of the same content in
    TreeAnyDerived.v; examples show the hypotheses can be met. *)
From Verif Require Import Base Alloc AddrMem FixedPool FixedPoolSpec LinkedList LinkedListSpec RBTree RBTreeSpec TreeAny TreeAnySpec.
Local Open Scope Z_scope.
From Verif Require Import TreeAnyDerived.

(** C93. Whatever the comparator of a map or set over a tree answers at each evaluation -
    also different answers for the same keys, or a panic - every program of calls on a
    tree in memory, sorted or not, runs without undefined behaviour.  The nodes, their
    links and keys stay as they are.  Call by call the answers, drops and values are
    what the call may do: a lookup answers nothing or an entry that is there, a write
    replaces one value, which is dropped, or drops the value given; a call that panics
    changes no entry. *)
Theorem C93_tree_any_comparator :
forall (A K V : Type) (nsz : Z) (co : nat -> K -> K -> option bool) (s : tstate A K V) (t : tree K V) (cs : list (tcall K V)),
  24 <= nsz -> holds nsz s t ->
  exists l s' ds t', ta_run nsz co cs (s, O) = Some (l, s') /\
    holds nsz (fst s') t' /\ skeleton t' = skeleton t /\ t_drops (fst s') = t_drops s ++ concat ds /\
    m_word (t_mem (fst s')) = m_word (t_mem s) /\ m_live (t_mem (fst s')) = m_live (t_mem s) /\
    t_edits cs l ds (entries t) (entries t').
Proof. exact L_C93_tree_any_comparator. Qed.
Print Assumptions C93_tree_any_comparator.

Example C93_tree_any_comparator_case :
  holds 40 (rx_state 2048 2176) rx_tree /\
  option_map (fun r => (fst r, snd (snd r))) (tx_odd [TGet 10; TGetMut 30 31; TContains 20; TGet 20; TInsert 1 2; TIterAll; TGetMut 20 21; TLen]) =
    Some ([Some (TVal (Some 100)); Some (TBool true); None; Some (TVal (Some 31)); None;
           Some (TList [(10, 31); (20, 200); (30, 300)]); None; Some (TNum 3)], 18%nat).
Proof. split; [apply RBTreeDerived.rx_holds|by vm_compute]. Qed.

(** C93, time.  On a red-black tree with [n] entries a lookup evaluates the comparator
    at most [4 log2 (n+1)] times, whatever it answers. *)
Theorem C93_tree_any_bounded :
forall (A K V : Type) (nsz : Z) (co : nat -> K -> K -> option bool) (s : tstate A K V) (t : tree K V) (k : K) (n : nat),
  24 <= nsz -> holds nsz s t -> red_black t ->
  exists r s' n', ta_call nsz co (TGet k) (s, n) = r /\ (r = Panic (s', n') \/ exists o, r = Ok (TVal o) (s', n')) /\
    s' = s /\ (n' <= n + 4 * Nat.log2 (length (entries t) + 1))%nat.
Proof. exact L_C93_tree_any_bounded. Qed.
Print Assumptions C93_tree_any_bounded.

Example C93_tree_any_bounded_case :
  holds 40 (rx_state 2048 2176) rx_tree /\ red_black rx_tree /\
  match ta_call 40 (fun _ _ _ => Some true) (TGet 30) (rx_state 2048 2176, O) with Ok a s => (a, snd s) | _ => (TNum 0, O) end = (TVal None, 2%nat).
Proof. split; [apply RBTreeDerived.rx_holds|]. split; [|by vm_compute]. split; [done|]. split; [by vm_compute|]. by exists 1%nat, 0%nat. Qed.

(** C93, link.  With a comparator that always answers, and the same for the same keys,
    this is the tree of the other properties. *)
Theorem C93_tree_any_extends :
forall (A K V : Type) (nsz : Z) (cmp : K -> K -> bool) (s : tstate A K V) (t : tree K V) (cs : list (tcall K V)),
  24 <= nsz -> holds nsz s t ->
  option_map (fun r => (fst r, fst (snd r))) (ta_run nsz (fun _ a b => Some (cmp a b)) cs (s, O)) = t_run nsz cmp cs s.
Proof. exact L_C93_tree_any_extends. Qed.
Print Assumptions C93_tree_any_extends.

Example C93_tree_any_extends_case :
  holds 40 (rx_state 2048 2176) rx_tree /\
  option_map fst (t_run 40 Z.gtb [TGet 10; TGet 20; TContains 30] (rx_state 2048 2176)) = Some [Some (TVal None); Some (TVal (Some 200)); Some (TBool false)].
Proof. split; [apply RBTreeDerived.rx_holds|by vm_compute]. Qed.
