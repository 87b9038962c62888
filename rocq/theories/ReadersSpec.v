(** Threads that share a container by reference.  This is what the Sync promises of the
    repository allow: src/vector/mod.rs:426-427, src/string/mod.rs:266-267,
    src/deque/mod.rs:22-23, src/queue.rs:15-16, src/hash_map/mod.rs:183-190,
    src/hash_set/mod.rs:145-152, src/internal/hash_table/mod.rs:451-458,
    src/map/mod.rs:164-172, src/vector_map/mod.rs:290-297.  A thread is the list of its
    calls; the threads take turns call by call, in any order (simplification: a turn is a
    whole call, not one memory access). *)
From Verif Require Import Base Vector String VectorMap Deque HashTable LinkedList RBTree.
Local Open Scope nat_scope.

(** An order in which the calls of the threads happen: each call with the number of its
    thread. *)
Inductive order {C : Type} : list (list C) -> list (nat * C) -> Prop :=
| order_done ts : Forall (fun t => t = []) ts -> order ts []
| order_turn ts i c t l : ts !! i = Some (c :: t) -> order (<[i := t]> ts) l -> order ts ((i, c) :: l).

(** A call on the shared state answers or panics, which is an answer [None]; undefined
    behaviour gives no step. *)
Definition answers {S C R : Type} (call : C -> M S R) (c : C) (s : S) : option (option R * S) :=
  match call c s with
  | Ok a s' => Some (Some a, s')
  | Panic s' => Some (None, s')
  | UB => None
  end.
Fixpoint in_turn {S C R : Type} (step : C -> S -> option (R * S)) (cs : list C) (s : S) : option (list R * S) :=
  match cs with
  | [] => Some ([], s)
  | c :: cs' =>
    match step c s with
    | Some (a, s') => match in_turn step cs' s' with Some (l, s'') => Some (a :: l, s'') | None => None end
    | None => None
    end
  end.
(** The answers that thread [i] got. *)
Definition heard {C R : Type} (i : nat) (o : list (nat * C)) (l : list R) : list R :=
  map snd (List.filter (fun p => fst (fst p) =? i) (zip o l)).

(** Whatever the order, nothing is undefined, the state does not change, and each thread
    gets the answers it would get alone. *)
Definition undisturbed {S C R : Type} (step : C -> S -> option (R * S)) (threads : list (list C)) (s : S) : Prop :=
  forall o, order threads o ->
  exists l, in_turn step (map snd o) s = Some (l, s) /\
    forall i t, threads !! i = Some t -> in_turn step t s = Some (heard i o l, s).

(** The calls that take the container by shared reference. *)
Definition shares_vector {T} (c : call T) : bool :=
  match c with CLen | CCapacity | CIsEmpty | CIsFull | CAsSlice => true | _ => false end.
Definition shares_string (o : sop) : bool :=
  match o with
  | OEq _ _ => true
  | OCall _ c => match c with String.SLen | SCapacity | String.SIsEmpty | SIsFull | SBytes | SHash => true | _ => false end
  | _ => false
  end.
(** The strings an operation names exist. *)
Definition on_strings (n : nat) (o : sop) : bool :=
  match o with OEq i j => (i <? n) && (j <? n) | OCall i _ => i <? n | _ => true end.
Definition shares_vector_map {K V} (c : mcall K V) : bool :=
  match c with MGet _ | MContains _ | MLen | MIsEmpty | MCapacity => true | _ => false end.
Definition shares_deque {T} (c : dcall T) : bool :=
  match c with DFront | DBack | DLen | DIsEmpty | DIter => true | _ => false end.
Definition shares_queue {T} (c : qcall T) : bool :=
  match c with QTop | QLen | QIsEmpty | QIter => true | _ => false end.
Definition shares_hash {K V} (c : hcall K V) : bool :=
  match c with HGet _ | HContains _ | HLen | HIsEmpty | HIter => true | _ => false end.
Definition shares_set {K} (c : HashTable.scall K) : bool :=
  match c with SContains _ | SGet _ | SLen | SIsEmpty | SIter => true | _ => false end.
Definition shares_list {T} (c : lcall T) : bool :=
  match c with LFront | LBack | LLen | LSize | LIsEmpty | LEmpty | LIter_ => true | _ => false end.
Definition shares_tree {K V} (c : tcall K V) : bool :=
  match c with TGet _ | TContains _ | TLen | TIsEmpty | TIterAll => true | _ => false end.
