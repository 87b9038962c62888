(** How deep the calls nest when a map is dropped or cleared
    (/repo/src/internal/rb_tree/mod.rs): the functions of RBTree.v, counting. *)
From Verif Require Import Base AddrMem FixedPool RBTree.
Local Open Scope Z_scope.

Section depth.
Context {A K V : Type}.
Variable aa : AddrAlloc A (K * V).
Variable chk : bool.
Variables nsz nal : Z.
Local Notation tstate := (tstate A K V).

(** mod.rs:255-264, [free_tree], which calls itself on the left and then on the right;
    returns how many of its calls are in progress at once.  The first argument bounds the
    recursion, as in RBTree.v. *)
Fixpoint free_tree_depth (fuel : nat) (root : Z) : M tstate nat :=
  match fuel with
  | O => ub
  | S f =>
    do l <- get_left root;
    do dl <- (if (l =? 0) then ret 0%nat else free_tree_depth f l);
    do r <- get_right root;
    do dr <- (if (r =? 0) then ret 0%nat else free_tree_depth f r);
    run t_in_alloc (deallocate aa chk nsz nal root 1);
    ret (S (Nat.max dl dr))
  end.

(** mod.rs:267-271, [free_nodes], and so [clear] (mod.rs:114) and [drop] (mod.rs:52). *)
Definition free_nodes_depth : M tstate nat :=
  do p <- t_parent;
  do m <- gets t_mem;
  if (p =? 0) then ret 0%nat else free_tree_depth (size (m_word m)) p.
End depth.
