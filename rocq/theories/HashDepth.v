(** How deep the calls nest when a hash table is dropped or cleared
    (/repo/src/internal/hash_table/mod.rs): the functions of HashTable.v, counting. *)
From Verif Require Import Base Heap Alloc HashTable.
Local Open Scope nat_scope.

(** The largest count of a loop's passes: the calls made by one pass have returned when
    the next begins. *)
Fixpoint deepest {S A} (l : list A) (f : A -> M S nat) : M S nat :=
  match l with
  | [] => ret 0
  | x :: l' => do d <- f x; do e <- deepest l' f; ret (Nat.max d e)
  end.

Section depth.
Context {K V : Type}.
Variables nsz nal : Z.
Variable eb : nat.
Local Notation tstate := (tstate K V).

(** mod.rs:322-332, [free_bucket], which calls itself on the next node before it frees
    its own; returns how many of its calls are in progress at once.  The first argument
    bounds the recursion, as in HashTable.v. *)
Fixpoint free_bucket_depth (f : nat) (p : ptr) : M tstate nat :=
  match f with
  | O => ub
  | S f' =>
    do n <- node_at p;
    let '(k, v, nx) := n in
    do d <- (if is_null nx then ret 0 else free_bucket_depth f' nx);
    run drop_all [inl k; inr v];
    run deallocate p nsz nal 1;
    ret (S d)
  end.

(** mod.rs:335-348, [free_buckets], and so [clear] (mod.rs:63-66) and [drop]
    (mod.rs:432-433). *)
Definition free_buckets_depth : M tstate nat :=
  do s <- gets id;
  if (1 <? t_bc s)%Z then
    let n := Z.to_nat (t_bc s) in
    do d <- deepest (seq 0 n) (fun i =>
      do slot <- or_ub (hadd (t_h s) (t_arr s) i);
      do p <- read_slot slot;
      if is_null p then ret 0
      else do f <- gets fuel; free_bucket_depth f p);
    run for_each (seq 0 n) (fun i =>
      do slot <- or_ub (hadd (t_h s) (t_arr s) i);
      write_slot eb slot Null);
    ret d
  else ret 0.
End depth.
