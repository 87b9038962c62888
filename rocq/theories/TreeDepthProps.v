(** Property theorems.  Each is closed by the lemma of the same content in
    TreeDepthDerived.v; examples show the hypotheses can be met. *)
From Verif Require Import Base Alloc AddrMem FixedPool LinkedList RBTree RBTreeSpec TreeDepth.
Local Open Scope Z_scope.
From Verif Require Import TreeDepthDerived.

(** C99, maps and sets.  Dropping (or clearing) a map nests at most twice the logarithm of
    its size many calls of the freeing function, and the counting function does exactly
    what [drop] and [clear] do. *)
Theorem C99_tree_drop_depth :
forall (K V : Type) (pick : mem (K * V) -> Z -> Z -> Z) (strict chk : bool) (nsz nal : Z) (rest : list region)
    (s : tstate unit K V) (t : tree K V),
  tree_layout nsz nal -> holds nsz s t -> owns nsz nal (t_mem s) t rest -> red_black t ->
  exists d s', free_nodes_depth (DefaultAddrAlloc pick strict) chk nsz nal s = Ok d s' /\
    t_drop (DefaultAddrAlloc pick strict) chk nsz nal s = Ok tt s' /\ t_clear (DefaultAddrAlloc pick strict) chk nsz nal s = Ok tt s' /\
    (d <= 2 * Nat.log2 (length (entries t) + 1))%nat.
Proof. exact L_C99_tree_drop_depth. Qed.
Print Assumptions C99_tree_drop_depth.

Example C99_tree_drop_depth_case :
  (tree_layout 40 8 /\ holds 40 (rx_state 2048 2176) rx_tree /\ owns 40 8 (t_mem (rx_state 2048 2176)) rx_tree [rx_object] /\ red_black rx_tree) /\
  val (free_nodes_depth (DefaultAddrAlloc rx_pick true) true 40 8 (rx_state 2048 2176)) = Some 2%nat /\
  length (entries rx_tree) = 3%nat /\ (2 * Nat.log2 (3 + 1) = 4)%nat.
Proof.
  split; [|by vm_compute]. split; [apply RBTreeDerived.rx_layout|]. split; [apply RBTreeDerived.rx_holds|].
  split; [apply RBTreeDerived.rx_owns|apply RBTreeDerived.rx_red_black].
Qed.
