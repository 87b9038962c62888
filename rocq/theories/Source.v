(** Code of the caller that the crate runs and that may panic: the [next] of an iterator
    from which a container is filled, and the closures of a hash table entry.  The
    containers are those of Vector.v, VectorMap.v, Deque.v, HashTable.v and
    LinkedList.v. *)
From Verif Require Import Base Heap Alloc AddrMem.
From Verif Require Vector VectorMap Deque HashTable LinkedList.

(** An iterator: the elements that its [next] yields, one call after the other, and
    whether the call after that panics or ends the iteration.  An element comes into
    being when it is yielded. *)
Record source (T : Type) : Type := Source { yields : list T; panics : bool }.
Arguments Source {T}.
Arguments yields {T}.
Arguments panics {T}.

Section drain.
Context {S T : Type}.
(** What the container does with an element. *)
Variable f : T -> M S unit.

(** [for elem in iter { f(elem) }] and [iter.for_each(f)]: the outcome, and how many
    elements were yielded. *)
Fixpoint drain (xs : list T) (bad : bool) (s : S) : outcome S unit * nat :=
  match xs with
  | [] => (if bad then Panic s else Ok tt s, 0)
  | x :: xs' =>
    match f x s with
    | Ok _ s' => let '(r, n) := drain xs' bad s' in (r, Datatypes.S n)
    | Panic s' => (Panic s', 1)
    | UB => (UB, 1)
    end
  end.

(** Unwinding drops the container that is being filled. *)
Definition unwinding (drop : M S unit) (r : outcome S unit) : outcome S unit :=
  match r with
  | Panic s => match drop s with Ok _ s' => Panic s' | _ => UB end
  | r => r
  end.
Definition collect (drop : M S unit) (src : source T) (s : S) : outcome S unit * nat :=
  let '(r, n) := drain (yields src) (panics src) s in (unwinding drop r, n).
End drain.

(** src/vector/mod.rs:392-402, [from_iter]; [hint] is the lower bound of [size_hint]. *)
Definition vector_collect {A T} (AI : AllocImpl A T) (sz al : Z) (chk nd : bool) (hint : nat) (src : source T)
    (s : Vector.vstate A T) : outcome (Vector.vstate A T) unit * nat :=
  let drop := Vector.clear AI sz al chk nd in
  match Vector.reserve AI sz al chk hint s with
  | Ok _ s' => collect (Vector.push AI sz al chk nd) drop src s'
  | r => (unwinding drop r, 0)
  end.

(** src/vector_map/mod.rs:277-288, [from_iter]; a replaced value is dropped. *)
Definition map_put {A K V} (AI : AllocImpl A (K * V)) (sz al : Z) (chk nd : bool) (cmp eqb : K -> K -> bool)
    (kv : K * V) : M (VectorMap.mstate A K V) unit :=
  do o <- VectorMap.vm_insert AI sz al chk nd cmp eqb (fst kv) (snd kv);
  VectorMap.drop_lone nd (match o with Some v => [inr v] | None => [] end).
Definition map_collect {A K V} (AI : AllocImpl A (K * V)) (sz al : Z) (chk nd : bool) (cmp eqb : K -> K -> bool)
    (src : source (K * V)) (s : VectorMap.mstate A K V) : outcome (VectorMap.mstate A K V) unit * nat :=
  collect (map_put AI sz al chk nd cmp eqb) (VectorMap.base (Vector.clear AI sz al chk nd)) src s.

(** src/deque/mod.rs:459-465, [from_iter]; src/queue.rs:96-102 calls it. *)
Definition deque_collect {T} (sz al : Z) (chk : bool) (src : source T) (h : heap (Deque.dcell T))
    : outcome (Deque.dstate T) unit * nat :=
  match Deque.deque_new sz al h [] with
  | Ok _ s => collect (Deque.push_back sz al chk) (Deque.deque_drop sz al chk) src s
  | Panic s => (Panic s, 0)
  | UB => (UB, 0)
  end.

Section hash.
Context {K V : Type}.
Variables (nsz nal : Z) (eb : nat) (chk : bool) (hash : K -> Z) (eqb : K -> K -> bool).
Local Notation tstate := (HashTable.tstate K V).

(** src/internal/hash_table/mod.rs:437-449, [from_iter], and so
    src/hash_map/mod.rs:171-181 and src/hash_set/mod.rs:133-143; a replaced value is
    dropped. *)
Definition table_put (kv : K * V) : M tstate unit :=
  do o <- HashTable.insert nsz nal eb chk hash eqb (fst kv) (snd kv);
  match o with Some v => HashTable.drop_all [inr v] | None => ret tt end.
Definition table_collect (src : source (K * V)) (h : heap (HashTable.tcell K V)) : outcome tstate unit * nat :=
  collect table_put (HashTable.ht_drop nsz nal eb) src (HashTable.ht_new eb h []).

(** src/internal/hash_table/entry.rs:28-34, [and_modify], for a closure that turns the
    value [v] into [f v] and then returns or panics; unwinding drops the entry. *)
Definition modify_entry (e : ptr + ptr * K) (f : V -> V) (bad : bool) : M tstate unit :=
  run HashTable.and_modify eb e f;
  match e with
  | inl _ => if bad then panic else ret tt
  | inr _ => ret tt
  end.
(** entry.rs:50-61, [or_insert_with], for a closure that returns a value or panics. *)
Definition insert_entry (e : ptr + ptr * K) (d : option V) : M tstate (bool * V) :=
  match e, d with
  | inr (_, k), None => run HashTable.drop_entry e; panic
  | inl p, _ => do n <- HashTable.node_at p; let '(k, v, nx) := n in ret (false, v)
  | inr _, Some v => HashTable.or_insert_with nsz nal eb chk hash e v
  end.
(** [entry(k).and_modify(f).or_insert_with(d)]. *)
Definition entry_chain (k : K) (f : V -> V) (bad : bool) (d : option V) : M tstate (bool * V) :=
  do e <- HashTable.entry hash eqb k;
  run modify_entry e f bad;
  insert_entry e d.
End hash.

(** src/list/mod.rs:238-244, [extend]; the list stays. *)
Definition list_extend {A T} (aa : AddrAlloc A T) (chk : bool) (nsz nal : Z) (src : source T)
    (s : LinkedList.lstate A T) : outcome (LinkedList.lstate A T) unit * nat :=
  drain (LinkedList.push_back aa chk nsz nal) (yields src) (panics src) s.
