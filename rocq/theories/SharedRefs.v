(** Which shared references that a deque or a hash table has handed out are still good.
    Rust's rule (Stacked Borrows): making a mutable reference to a value ends all
    shared references to it that were made before; making a shared one ends none.
    [Iter] of both containers makes a mutable reference to each element it passes and turns
    that into a shared one.
    Simplifications: the container is only read meanwhile, so its state does not change; a value is
    named by the pointer to it (a hash node by the pointer to the node; only the value
    in it is meant). *)
From Verif Require Import Base Heap Deque.
From Verif Require HashTable.
Local Open Scope nat_scope.

(** A reference to [p] is handed out after those in [rs], each with whether it is still good;
    [excl]: it is made from a mutable reference (src/deque/iter.rs:117, 143, 273 and 279,
    src/internal/hash_table/iter.rs:183 and 266), not from a shared one
    (src/internal/hash_table/mod.rs:101). *)
Definition hand (excl : bool) (p : ptr) (rs : list (ptr * bool)) : list (ptr * bool) :=
  (if excl then map (fun r => (fst r, snd r && negb (bool_decide (fst r = p)))) rs else rs) ++ [(p, true)].

Section deque.
Context {T : Type}.
Variable chk : bool.

(** Steps of several shared iterators in any order: [next] or [next_back]
    (src/deque/iter.rs:269-281) of the iterator of that number. *)
Fixpoint d_share (sch : list (nat * bool)) (its : list raw_iter) (rs : list (ptr * bool)) : M (dstate T) (list (ptr * bool)) :=
  match sch with
  | [] => ret rs
  | (j, d) :: sch' =>
    match its !! j with
    | None => d_share sch' its rs
    | Some it =>
      do r <- (if (d : bool) then raw_next chk it else raw_next_back chk it);
      d_share sch' (<[j := snd r]> its) (match fst r with Some p => hand true p rs | None => rs end)
    end
  end.

(** src/deque/mod.rs:62-64, [iter], called [m] times; then the steps. *)
Definition d_shared (m : nat) (sch : list (nat * bool)) : M (dstate T) (list (ptr * bool)) :=
  do it <- iter; d_share sch (replicate m it) [].
End deque.

(** What is done with a shared hash table: [next] of the iterator of that number, or [get]. *)
Inductive sop (K : Type) : Type := SNext (j : nat) | SGet (k : K).
Arguments SNext {K}.
Arguments SGet {K}.

Section hash.
Context {K V : Type}.
Variable hash : K -> Z.
Variable eqb : K -> K -> bool.

(** src/internal/hash_table/mod.rs:100-103, [get], keeping the node. *)
Definition get_node (k : K) : M (HashTable.tstate K V) (option ptr) :=
  do slot <- HashTable.bucket_for_key hash k;
  HashTable.find_from eqb slot k.

(** Steps of several shared iterators (src/internal/hash_table/iter.rs:262-268) and calls
    of [get], in any order. *)
Fixpoint h_share (ops : list (sop K)) (its : list HashTable.raw_iter) (rs : list (ptr * bool)) :
    M (HashTable.tstate K V) (list (ptr * bool)) :=
  match ops with
  | [] => ret rs
  | SNext j :: ops' =>
    match its !! j with
    | None => h_share ops' its rs
    | Some it =>
      do r <- HashTable.iter_next it;
      h_share ops' (<[j := snd r]> its) (match fst r with Some p => hand true p rs | None => rs end)
    end
  | SGet k :: ops' =>
    do o <- get_node k;
    h_share ops' its (match o with Some p => hand false p rs | None => rs end)
  end.

(** src/internal/hash_table/mod.rs:142-144, [iter], called [m] times; then the rest. *)
Definition h_shared (m : nat) (ops : list (sop K)) : M (HashTable.tstate K V) (list (ptr * bool)) :=
  do it <- HashTable.iter; h_share ops (replicate m it) [].
End hash.
