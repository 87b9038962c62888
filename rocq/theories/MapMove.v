(** Moving a map or set: Rust moves a value by copying its bytes, and what was in the old
    place must not be used any more.  The nodes of a tree hold the address of the object. *)
From Verif Require Import Base Alloc AddrMem FixedPool LinkedList RBTree.
Local Open Scope Z_scope.

Section map_move.
Context {A K V : Type}.
Local Notation tstate := (tstate A K V).

(** [let new = old;] for src/map/mod.rs:15-18 and src/set/mod.rs:12-14 (the tree of
    src/internal/rb_tree/mod.rs:14-27): the three pointers are copied to the object at
    [obj], the other fields are fields of the record.  Then the storage of the old object
    goes away: the regions that its pointers lie in are not live any more. *)
Definition t_move (obj : Z) : M tstate unit :=
  do old <- gets t_obj;
  do b <- t_word (old + 8);
  do e <- t_word (old + 16);
  do p <- t_word (old + 24);
  run t_put (obj + 8) b;
  run t_put (obj + 16) e;
  run t_put (obj + 24) p;
  modify (fun s =>
    TState obj (t_size s) (t_alloc s)
      (Mem (List.filter (fun r => negb (meets (old + 8) 24 r)) (m_live (t_mem s))) (m_word (t_mem s)) (m_val (t_mem s)) (m_time (t_mem s)))
      (t_drops s)).

(** [std::mem::take(&mut old)] into an object at [obj]: the pointers are copied, and the
    old object becomes the empty map that [Default] makes (mod.rs:43-49, 31-40; the
    allocator of that map is not followed, the state goes on with the new object). *)
Definition t_take (obj : Z) : M tstate unit :=
  do old <- gets t_obj;
  do b <- t_word (old + 8);
  do e <- t_word (old + 16);
  do p <- t_word (old + 24);
  run t_put (obj + 8) b;
  run t_put (obj + 16) e;
  run t_put (obj + 24) p;
  run t_put (old + 8) 0;
  run t_put (old + 16) 0;
  run t_put (old + 24) 0;
  modify (fun s => TState obj (t_size s) (t_alloc s) (t_mem s) (t_drops s)).
End map_move.
