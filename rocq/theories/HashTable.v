(** Model of src/internal/hash_table/{mod,entry,node,iter}.rs, and of
    src/hash_map/mod.rs and src/hash_set/mod.rs, which only forward to it.

    Simplifications: the allocator is [DefaultAllocator]; a node is one cell of
    a block with the layout of [Node<K, V>]; a [u32] is a [Z]; loops over linked
    nodes get more fuel than there are blocks, running out counts as undefined
    behaviour (so the theorems exclude it).  Creating a [&mut] slice over the
    static array or over fresh memory is not by itself undefined here; writing to
    the static array is.  Stack depth of the recursion is not modelled. *)
From Verif Require Import Base Heap Alloc RehashPolicy.

(** Contents of memory: a node (node.rs:3-7), a slot of a bucket array, the
    all-ones word that ends every bucket array. *)
Inductive tcell (K V : Type) : Type :=
| TNode (k : K) (v : V) (next : ptr)
| TSlot (p : ptr)
| TOnes.
Arguments TNode {K V}.
Arguments TSlot {K V}.
Arguments TOnes {K V}.

(** mod.rs:30-46 with the heap and the log of dropped keys and values; of the
    policy only [next_resize] changes. *)
Record tstate (K V : Type) : Type := TState {
  t_arr : ptr;
  t_bc : Z;
  t_ec : Z;
  t_nr : Z;
  t_h : heap (tcell K V);
  t_drops : list (K + V)
}.
Arguments TState {K V}.
Arguments t_arr {K V}.
Arguments t_bc {K V}.
Arguments t_ec {K V}.
Arguments t_nr {K V}.
Arguments t_h {K V}.
Arguments t_drops {K V}.

(** A [*mut *mut Node]: the address of a slot or of the [next] field of a node. *)
Inductive place : Type := ASlot (p : ptr) | ANext (p : ptr).

(** iter.rs:39-42, [RawIter]: the rest of the slice of slots (start, length), the
    next node. *)
Record raw_iter : Type := RawIter { ri_p : ptr; ri_n : nat; ri_node : ptr }.
(** iter.rs:9-13 and 20-24, [CompatIter], [CompatIterMut]. *)
Record compat_iter : Type := CompatIter { ci_node : ptr; ci_bucket : ptr }.

Section hash_table.
Context {K V : Type}.
(** [size_of] and [align_of] of [Node<K, V>]. *)
Variables nsz nal : Z.
(** The block of the static [EMPTY_BUCKET_ARR] (mod.rs:49). *)
Variable eb : nat.
Variable chk : bool.
(** [H::hash] and [E::equals]; pure and total. *)
Variable hash : K -> Z.
Variable eqb : K -> K -> bool.

Local Notation tstate := (tstate K V).

Definition set_h (h : heap (tcell K V)) : M tstate unit :=
  modify (fun s => TState (t_arr s) (t_bc s) (t_ec s) (t_nr s) h (t_drops s)).
Definition set_ec (ec : Z) : M tstate unit :=
  modify (fun s => TState (t_arr s) (t_bc s) ec (t_nr s) (t_h s) (t_drops s)).
Definition set_buckets (arr : ptr) (bc : Z) : M tstate unit :=
  modify (fun s => TState arr bc (t_ec s) (t_nr s) (t_h s) (t_drops s)).
Definition logged (l : list (K + V)) (s : tstate) : tstate :=
  TState (t_arr s) (t_bc s) (t_ec s) (t_nr s) (t_h s) (t_drops s ++ l).
Definition drop_all (l : list (K + V)) : M tstate unit := modify (logged l).

(** Memory access.  The static array is read-only. *)
Definition read_slot (p : ptr) : M tstate ptr :=
  do h <- gets t_h;
  match hload h p with Some (TSlot q) => ret q | _ => ub end.
Definition store (p : ptr) (c : tcell K V) : M tstate unit :=
  do h <- gets t_h;
  match p with
  | Ptr b _ => if b =? eb then ub else do h' <- or_ub (hstore h p c); set_h h'
  | Null => ub
  end.
Definition write_slot (p q : ptr) : M tstate unit := store p (TSlot q).
Definition node_at (p : ptr) : M tstate (K * V * ptr) :=
  do h <- gets t_h;
  match hload h p with Some (TNode k v nx) => ret (k, v, nx) | _ => ub end.

(** src/allocator.rs:15-21 and 47-53 with the default allocator. *)
Definition allocate (sz al : Z) (n : Z) : M tstate ptr := fun s =>
  match default_alloc sz (n * sz) al (tt, t_h s) with
  | Ok p (_, h) => Ok p (TState (t_arr s) (t_bc s) (t_ec s) (t_nr s) h (t_drops s))
  | Panic _ => Panic s
  | UB => UB
  end.
Definition deallocate (p : ptr) (sz al : Z) (n : Z) : M tstate unit := fun s =>
  match default_free p (n * sz) al (tt, t_h s) with
  | Ok _ (_, h) => Ok tt (TState (t_arr s) (t_bc s) (t_ec s) (t_nr s) h (t_drops s))
  | Panic _ => Panic s
  | UB => UB
  end.

Definition fuel (s : tstate) : nat := S (h_next (t_h s)).

Fixpoint for_each {S A} (l : list A) (f : A -> M S unit) : M S unit :=
  match l with
  | [] => ret tt
  | x :: l' => run f x; for_each l' f
  end.

(** mod.rs:251-254, [bucket_index]; the remainder by zero panics. *)
Definition bucket_index (bc : Z) (key : K) : M tstate nat :=
  if (bc =? 0)%Z then panic else ret (Z.to_nat (hash key mod bc)).

(** mod.rs:257-264 and 227-229, [buckets], [bucket_for_key]: a checked index. *)
Definition bucket_for_key (key : K) : M tstate ptr :=
  do s <- gets id;
  do ss <- or_ub (hslice (t_h s) (t_arr s) (Z.to_nat (t_bc s)));
  do i <- bucket_index (t_bc s) key;
  if i <? length ss then or_ub (hadd (t_h s) (t_arr s) i) else panic.

(** mod.rs:236-241, [bucket_for_key_mut]. *)
Definition bucket_for_key_mut (key : K) : M tstate ptr :=
  do s <- gets id;
  do i <- bucket_index (t_bc s) key;
  or_ub (hadd (t_h s) (t_arr s) i).

(** mod.rs:289-315, [find_in_bucket] and [find_in_bucket_mut]. *)
Fixpoint find_in_bucket (f : nat) (p : ptr) (key : K) : M tstate (option ptr) :=
  match f with
  | O => ub
  | S f' =>
    match p with
    | Null => ret None
    | _ =>
      do n <- node_at p;
      let '(k, v, nx) := n in
      if eqb k key then ret (Some p) else find_in_bucket f' nx key
    end
  end.

(** The node for a key, from its slot. *)
Definition find_from (slot : ptr) (key : K) : M tstate (option ptr) :=
  do p <- read_slot slot;
  do f <- gets fuel;
  find_in_bucket f p key.

(** mod.rs:100-103, [get]. *)
Definition get (key : K) : M tstate (option (K * V)) :=
  do slot <- bucket_for_key key;
  do o <- find_from slot key;
  match o with
  | None => ret None
  | Some p => do n <- node_at p; let '(k, v, nx) := n in ret (Some (k, v))
  end.

(** mod.rs:73-75, [contains_key]. *)
Definition contains_key (key : K) : M tstate bool :=
  do o <- get key; ret (match o with Some _ => true | None => false end).

(** mod.rs:110-113, [get_mut], followed by the caller writing [v] through the
    reference (the old value is dropped by the assignment); answers whether there
    was one. *)
Definition get_mut_set (key : K) (v : V) : M tstate bool :=
  do slot <- bucket_for_key_mut key;
  do o <- find_from slot key;
  match o with
  | None => run drop_all [inr v]; ret false
  | Some p =>
    do n <- node_at p;
    let '(k, old, nx) := n in
    run store p (TNode k v nx);
    run drop_all [inr old];
    ret true
  end.

(** mod.rs:322-332, [free_bucket]: frees the next node first. *)
Fixpoint free_bucket (f : nat) (p : ptr) : M tstate unit :=
  match f with
  | O => ub
  | S f' =>
    do n <- node_at p;
    let '(k, v, nx) := n in
    if! negb (is_null nx) then free_bucket f' nx;
    run drop_all [inl k; inr v];
    deallocate p nsz nal 1
  end.

(** mod.rs:335-348, [free_buckets]; frees the nodes, never the array. *)
Definition free_buckets : M tstate unit :=
  do s <- gets id;
  if (1 <? t_bc s)%Z then
    let n := Z.to_nat (t_bc s) in
    run for_each (seq 0 n) (fun i =>
      do slot <- or_ub (hadd (t_h s) (t_arr s) i);
      do p <- read_slot slot;
      if is_null p then ret tt
      else do f <- gets fuel; free_bucket f p);
    for_each (seq 0 n) (fun i =>
      do slot <- or_ub (hadd (t_h s) (t_arr s) i);
      write_slot slot Null)
  else ret tt.

(** mod.rs:405-411, moving the nodes of one old bucket to the front of their new
    buckets in the array [nb] of [bc] slots and a sentinel (checked index). *)
Fixpoint rehash_bucket (f : nat) (nb : ptr) (bc : Z) (p : ptr) : M tstate unit :=
  match f with
  | O => ub
  | S f' =>
    match p with
    | Null => ret tt
    | _ =>
      do n <- node_at p;
      let '(k, v, nx) := n in
      do i <- bucket_index bc k;
      do h <- gets t_h;
      if (Z.of_nat i <? bc + 1)%Z then
        do slot <- or_ub (hadd h nb i);
        do q <- read_slot slot;
        run store p (TNode k v q);
        run write_slot slot p;
        rehash_bucket f' nb bc nx
      else panic
    end
  end.

(** mod.rs:388-418, [rehash]. *)
Definition rehash (bc : Z) : M tstate unit :=
  do n <- u32 chk (bc + 1);
  do nb <- allocate 8 8 n;
  do h <- gets t_h;
  (* 396-398 *)
  run for_each (seq 0 (Z.to_nat n)) (fun i => do slot <- or_ub (hadd h nb i); write_slot slot Null);
  (if (bc <? n)%Z then
    run (do slot <- or_ub (hadd h nb (Z.to_nat bc)); store slot TOnes);
    (* 400-413 *)
    do s <- gets id;
    run (if is_null (t_arr s) then ret tt else
      for_each (seq 0 (Z.to_nat (t_bc s))) (fun i =>
        do slot <- or_ub (hadd (t_h s) (t_arr s) i);
        do p <- read_slot slot;
        if is_null p then ret tt
        else
          do f <- gets fuel;
          run rehash_bucket f nb bc p;
          write_slot slot Null));
    (* 415-417 *)
    run free_buckets;
    set_buckets nb bc
  else panic).

(** The policy applied to this table (mod.rs:364-366). *)
Definition rehash_required : M tstate (option Z) := fun s =>
  match get_rehash_required chk (t_bc s) (t_ec s) 1 (t_nr s) with
  | Ok o nr => Ok o (TState (t_arr s) (t_bc s) (t_ec s) nr (t_h s) (t_drops s))
  | Panic nr => Panic (TState (t_arr s) (t_bc s) (t_ec s) nr (t_h s) (t_drops s))
  | UB => UB
  end.

(** mod.rs:357-381, [insert_impl]; a panic before the node is written drops the
    value and the key. *)
Definition insert_impl (target : ptr) (k : K) (v : V) : M tstate ptr :=
  do tn <- on_unwind (logged [inr v; inl k]) (
    do o <- rehash_required;
    do target <- match o with
                 | Some bc => run rehash bc; bucket_for_key_mut k
                 | None => ret target
                 end;
    do node <- allocate nsz nal 1;
    ret (target, node));
  let '(target, node) := tn in
  do nx <- read_slot target;
  run store node (TNode k v nx);
  run write_slot target node;
  do s <- gets id;
  do ec <- u32 chk (t_ec s + 1);
  run set_ec ec;
  ret node.

(** mod.rs:122-133, [insert]. *)
Definition insert (k : K) (v : V) : M tstate (option V) :=
  do target <- on_unwind (logged [inr v; inl k]) (bucket_for_key_mut k);
  do o <- find_from target k;
  match o with
  | Some p =>
    do n <- node_at p;
    let '(k0, old, nx) := n in
    run store p (TNode k0 v nx);
    run drop_all [inl k];
    ret (Some old)
  | None => run insert_impl target k v; ret None
  end.

(** mod.rs:80-93, [entry]: the found node, or the slot and the key. *)
Definition entry (k : K) : M tstate (ptr + ptr * K) :=
  do target <- on_unwind (logged [inl k]) (bucket_for_key_mut k);
  do o <- find_from target k;
  match o with
  | Some p => run drop_all [inl k]; ret (inl p)
  | None => ret (inr (target, k))
  end.

(** entry.rs:28-34, [and_modify]; [f] is what the closure makes of the value in
    place (a closure that drops part of the value is not modelled). *)
Definition and_modify (e : ptr + ptr * K) (f : V -> V) : M tstate unit :=
  match e with
  | inl p =>
    do n <- node_at p;
    let '(k, v, nx) := n in store p (TNode k (f v) nx)
  | inr _ => ret tt
  end.

(** entry.rs:50-61, [or_insert_with]; answers whether the closure ran, and the
    value seen through the returned reference. *)
Definition or_insert_with (e : ptr + ptr * K) (dflt : V) : M tstate (bool * V) :=
  match e with
  | inl p => do n <- node_at p; let '(k, v, nx) := n in ret (false, v)
  | inr (target, k) =>
    do p <- insert_impl target k dflt;
    do n <- node_at p;
    let '(k, v, nx) := n in ret (true, v)
  end.

(** entry.rs:41-43, [or_insert]: the closure owns the default and drops it when
    it is not called. *)
Definition or_insert (e : ptr + ptr * K) (dflt : V) : M tstate V :=
  do r <- or_insert_with e dflt;
  if! negb (fst r) then drop_all [inr dflt];
  ret (snd r).

(** An entry that goes out of scope unused drops the key it holds. *)
Definition drop_entry (e : ptr + ptr * K) : M tstate unit :=
  match e with inl _ => ret tt | inr (_, k) => drop_all [inl k] end.

Definition read_place (a : place) : M tstate ptr :=
  match a with
  | ASlot p => read_slot p
  | ANext p => do n <- node_at p; ret (snd n)
  end.
Definition write_place (a : place) (q : ptr) : M tstate unit :=
  match a with
  | ASlot p => write_slot p q
  | ANext p => do n <- node_at p; let '(k, v, nx) := n in store p (TNode k v q)
  end.

(** mod.rs:202-204. *)
Fixpoint find_place (f : nat) (a : place) (key : K) : M tstate place :=
  match f with
  | O => ub
  | S f' =>
    do p <- read_place a;
    match p with
    | Null => ret a
    | _ =>
      do n <- node_at p;
      let '(k, v, nx) := n in
      if eqb k key then ret a else find_place f' (ANext p) key
    end
  end.

(** mod.rs:197-220, [remove_entry]. *)
Definition remove_entry (key : K) : M tstate (option (K * V)) :=
  do slot <- bucket_for_key_mut key;
  do f <- gets fuel;
  do a <- find_place f (ASlot slot) key;
  do p <- read_place a;
  match p with
  | Null => ret None
  | _ =>
    do n <- node_at p;
    let '(k, v, nx) := n in
    run write_place a nx;
    run deallocate p nsz nal 1;
    do s <- gets id;
    do ec <- on_unwind (logged [inr v; inl k]) (u32 chk (t_ec s - 1));
    run set_ec ec;
    ret (Some (k, v))
  end.

(** mod.rs:187-189, [remove]: drops the stored key. *)
Definition remove (key : K) : M tstate (option V) :=
  do o <- remove_entry key;
  match o with
  | Some (k, v) => run drop_all [inl k]; ret (Some v)
  | None => ret None
  end.

(** mod.rs:63-66, [clear]. *)
Definition clear : M tstate unit := run free_buckets; set_ec 0.

(** mod.rs:154-156 and 136-138, [len], [is_empty]. *)
Definition len : M tstate Z := gets t_ec.
Definition is_empty : M tstate bool := gets (fun s => t_ec s =? 0)%Z.

(** mod.rs:167-179, [new_in]. *)
Definition ht_new (h : heap (tcell K V)) (d : list (K + V)) : tstate := TState (Ptr eb 0) 1 0 0 h d.

(** mod.rs:431-435, [Drop]. *)
Definition ht_drop : M tstate unit := free_buckets.

(** mod.rs:437-449, the loop of [FromIterator]; the answers of [insert] (old
    values) are dropped, and when an insertion panics the iterator drops the pairs
    it still owns. *)
Definition pair_parts (kvs : list (K * V)) : list (K + V) :=
  flat_map (fun kv => [inl (fst kv); inr (snd kv)]) kvs.
Fixpoint insert_all (kvs : list (K * V)) : M tstate unit :=
  match kvs with
  | [] => ret tt
  | (k, v) :: kvs' =>
    do o <- on_unwind (logged (pair_parts kvs')) (insert k v);
    run match o with Some old => drop_all [inr old] | None => ret tt end;
    insert_all kvs'
  end.

(** ** Iterators *)
(** iter.rs:157-162, [next_bucket]: the first non-null slot of the rest of the
    slice, and the rest after it. *)
Fixpoint next_bucket (p : ptr) (n : nat) : M tstate (ptr * nat * option ptr) :=
  match n with
  | O => ret (p, O, None)
  | S n' =>
    do q <- read_slot p;
    do h <- gets t_h;
    do p' <- or_ub (hadd h p 1);
    if is_null q then next_bucket p' n' else ret (p', n', Some q)
  end.

Definition or_null (o : option ptr) : ptr := match o with Some p => p | None => Null end.

(** mod.rs:142-151 and 267-273, iter.rs:146-154, [iter], [buckets_imut],
    [RawIter::new]; 255-259 and 327-331 wrap it. *)
Definition iter : M tstate raw_iter :=
  do s <- gets id;
  let n := if is_null (t_arr s) then O else Z.to_nat (t_bc s) in
  do r <- next_bucket (t_arr s) n;
  let '(p, n, o) := r in
  ret (RawIter p n (or_null o)).

(** iter.rs:38, 198 and 283, the derived [clone] of [RawIter], [Iter] and [IterMut]:
    the slice iterator and the node pointer are copied. *)
Definition it_clone (it : raw_iter) : raw_iter := RawIter (ri_p it) (ri_n it) (ri_node it).

(** iter.rs:168-183, [next]: the node that is yielded and the iterator after; 265-267 and
    337-339 forward to it. *)
Definition iter_next (it : raw_iter) : M tstate (option ptr * raw_iter) :=
  match ri_node it with
  | Null => ret (None, it)
  | p =>
    do n <- node_at p;
    let '(k, v, nx) := n in
    if is_null nx then
      do r <- next_bucket (ri_p it) (ri_n it);
      let '(sp, sn, o) := r in
      ret (Some p, RawIter sp sn (or_null o))
    else ret (Some p, RawIter (ri_p it) (ri_n it) nx)
  end.

(** Collecting an iterator: the yielded entries. *)
Fixpoint iter_all (f : nat) (it : raw_iter) : M tstate (list (K * V)) :=
  match f with
  | O => ub
  | S f' =>
    do r <- iter_next it;
    match fst r with
    | None => ret []
    | Some p =>
      do n <- node_at p;
      let '(k, v, nx) := n in
      do l <- iter_all f' (snd r);
      ret ((k, v) :: l)
    end
  end.

(** Running [iter_mut] to the end, the caller replacing each value [v] of key [k]
    by [g k v] in place; answers the entries as yielded. *)
Fixpoint iter_mut_all (f : nat) (g : K -> V -> V) (it : raw_iter) : M tstate (list (K * V)) :=
  match f with
  | O => ub
  | S f' =>
    do r <- iter_next it;
    match fst r with
    | None => ret []
    | Some p =>
      do n <- node_at p;
      let '(k, v, nx) := n in
      run store p (TNode k (g k v) nx);
      do l <- iter_mut_all f' g (snd r);
      ret ((k, v) :: l)
    end
  end.

(** [n] calls of [next]: the nodes yielded and the iterator after. *)
Fixpoint iter_take (n : nat) (it : raw_iter) : M tstate (list ptr * raw_iter) :=
  match n with
  | O => ret ([], it)
  | S n' =>
    do r <- iter_next it;
    do r' <- iter_take n' (snd r);
    ret (match fst r with Some p => p :: fst r' | None => fst r' end, snd r')
  end.

(** iter.rs:47-63 and 72-89, [into_compat], [into_compat_mut]; 206-208, 291-293, 297-299
    and hash_set/iter.rs:19-21 forward to them. *)
Definition into_compat (it : raw_iter) : M tstate (compat_iter * compat_iter) :=
  do h <- gets t_h;
  do e <- or_ub (hadd h (ri_p it) (ri_n it));
  ret (CompatIter (ri_node it) (ri_p it), CompatIter Null e).

(** iter.rs:104-113 and 128-137, [from_compat], [from_compat_mut]; 223-227, 242-246,
    314-318 and hash_set/iter.rs:36-40 wrap the result. *)
Definition from_compat (b e : compat_iter) : M tstate raw_iter :=
  do n <- or_ub (pdiff (ci_bucket e) (ci_bucket b));
  do h <- gets t_h;
  run or_ub (hslice h (ci_bucket b) n);
  ret (RawIter (ci_bucket b) n (ci_node b)).

(** ** Programs *)
Inductive hcall : Type :=
| HInsert (k : K) (v : V)
| HGet (k : K)
| HContains (k : K)
| HGetMutSet (k : K) (v : V)
| HRemove (k : K)
| HRemoveEntry (k : K)
| HEntryOr (k : K) (f : option (V -> V)) (v : V)
| HEntryWith (k : K) (f : option (V -> V)) (v : V)
| HEntryDrop (k : K) (f : option (V -> V))
| HExtend (kvs : list (K * V))
| HLen
| HIsEmpty
| HClear
| HIter
| HIterMut (g : K -> V -> V).

Inductive hanswer : Type :=
| HUnit
| HVal (o : option V)
| HPair (o : option (K * V))
| HRef (called : bool) (v : V)
| HBool (b : bool)
| HNat (n : Z)
| HPairs (l : list (K * V)).

(** [entry(k)], then [and_modify(f)] if wanted. *)
Definition entry_mod (k : K) (f : option (V -> V)) : M tstate (ptr + ptr * K) :=
  do e <- entry k;
  run match f with Some f => and_modify e f | None => ret tt end;
  ret e.

(** One call of a method of [HashMap] (hash_map/mod.rs:44-144) or [HashSet]
    (hash_set/mod.rs:40-109, with [V = ()]). *)
Definition h_call (c : hcall) : M tstate hanswer :=
  match c with
  | HInsert k v => do o <- insert k v; ret (HVal o)
  | HGet k => do o <- get k; ret (HPair o)
  | HContains k => do b <- contains_key k; ret (HBool b)
  | HGetMutSet k v => do b <- get_mut_set k v; ret (HBool b)
  | HRemove k => do o <- remove k; ret (HVal o)
  | HRemoveEntry k => do o <- remove_entry k; ret (HPair o)
  | HEntryOr k f v =>
    do e <- entry_mod k f;
    do v <- or_insert e v; ret (HRef true v)
  | HEntryWith k f v => do e <- entry_mod k f; do r <- or_insert_with e v; ret (HRef (fst r) (snd r))
  | HEntryDrop k f => do e <- entry_mod k f; run drop_entry e; ret (HBool (match e with inl _ => true | inr _ => false end))
  | HExtend kvs => run insert_all kvs; ret HUnit
  | HLen => do n <- len; ret (HNat n)
  | HIsEmpty => do b <- is_empty; ret (HBool b)
  | HClear => run clear; ret HUnit
  | HIter => do it <- iter; do f <- gets fuel; do l <- iter_all f it; ret (HPairs l)
  | HIterMut g => do it <- iter; do f <- gets fuel; do l <- iter_mut_all f g it; ret (HPairs l)
  end.

(** A program: calls one after the other; a panic is caught by the caller and
    answered [None]; [None] overall is undefined behaviour. *)
Fixpoint h_run (cs : list hcall) (s : tstate) : option (list (option hanswer) * tstate) :=
  match cs with
  | [] => Some ([], s)
  | c :: cs' =>
    match h_call c s with
    | UB => None
    | Ok a s' => match h_run cs' s' with Some (l, s'') => Some (Some a :: l, s'') | None => None end
    | Panic s' => match h_run cs' s' with Some (l, s'') => Some (None :: l, s'') | None => None end
    end
  end.

End hash_table.
Arguments hcall : clear implicits.
Arguments hanswer : clear implicits.

(** ** HashSet *)
Section hash_set.
Context {K : Type}.
Variables nsz nal : Z.
Variable eb : nat.
Variable chk : bool.
Variable hash : K -> Z.
Variable eqb : K -> K -> bool.

Local Notation tstate := (tstate K unit).

(** hash_set/mod.rs:71-73, [insert]. *)
Definition set_insert (k : K) : M tstate bool :=
  do o <- insert nsz nal eb chk hash eqb k tt;
  ret (match o with Some _ => true | None => false end).

(** hash_set/mod.rs:60-62, [get]. *)
Definition set_get (k : K) : M tstate (option K) :=
  do o <- get hash eqb k; ret (option_map fst o).

(** hash_set/mod.rs:106-108, [remove]. *)
Definition set_remove (k : K) : M tstate (option K) :=
  do o <- remove_entry nsz nal eb chk hash eqb k; ret (option_map fst o).

(** hash_set/mod.rs:96-98 and hash_set/iter.rs:54-61, [iter] collected. *)
Definition set_iter : M tstate (list K) :=
  do it <- iter; do f <- gets fuel; do l <- iter_all f it; ret (map fst l).

(** hash_set/mod.rs:133-143, [from_iter] on an existing table. *)
Definition set_extend (ks : list K) : M tstate unit :=
  insert_all nsz nal eb chk hash eqb (map (fun k => (k, tt)) ks).

Inductive scall : Type :=
| SInsert (k : K)
| SContains (k : K)
| SGet (k : K)
| SRemove (k : K)
| SExtend (ks : list K)
| SLen
| SIsEmpty
| SClear
| SIter.

Inductive sanswer : Type :=
| SUnit
| SBool (b : bool)
| SKey (o : option K)
| SNat (n : Z)
| SKeys (l : list K).

(** One call of a method of [HashSet] (hash_set/mod.rs:40-109). *)
Definition set_call (c : scall) : M tstate sanswer :=
  match c with
  | SInsert k => do b <- set_insert k; ret (SBool b)
  | SContains k => do b <- contains_key hash eqb k; ret (SBool b)
  | SGet k => do o <- set_get k; ret (SKey o)
  | SRemove k => do o <- set_remove k; ret (SKey o)
  | SExtend ks => run set_extend ks; ret SUnit
  | SLen => do n <- len; ret (SNat n)
  | SIsEmpty => do b <- is_empty; ret (SBool b)
  | SClear => run clear nsz nal eb; ret SUnit
  | SIter => do l <- set_iter; ret (SKeys l)
  end.

Fixpoint set_run (cs : list scall) (s : tstate) : option (list (option sanswer) * tstate) :=
  match cs with
  | [] => Some ([], s)
  | c :: cs' =>
    match set_call c s with
    | UB => None
    | Ok a s' => match set_run cs' s' with Some (l, s'') => Some (Some a :: l, s'') | None => None end
    | Panic s' => match set_run cs' s' with Some (l, s'') => Some (None :: l, s'') | None => None end
    end
  end.
End hash_set.
Arguments scall : clear implicits.
Arguments sanswer : clear implicits.
