(** Model of src/internal/rb_tree/{mod,node,iter}.rs and of the wrappers src/map/mod.rs,
    src/set/mod.rs and src/fixed_map/mod.rs.

    The pointers [begin], [end], [parent] of the tree object lie in memory, where the
    iterator reads them as a node (the anchor); the other fields are fields of a
    record.  A reference to a node or to its entry is the address of the node.  The
    crate cannot insert, so trees with entries come from C++.
    Simplifications: a [&mut Node] made of the anchor is not required to cover a whole
    node (in TreeRefs.v it is); comparators do not panic; loops and the recursion of [free_tree] get as fuel
    the number of words in memory, running out counts as undefined behaviour (so the
    theorems exclude it). *)
From Verif Require Import Base Alloc AddrMem FixedPool LinkedList.
Local Open Scope Z_scope.

(** ** src/internal/rb_tree/node.rs:22-83, [ParentColor]: a word *)

(** node.rs:5-10, [Color], and its [From<u32>], 12-20. *)
Inductive color : Type := Red | Black.
Definition color_as_usize (c : color) : Z := match c with Red => 0 | Black => 1 end.
Definition color_from {S : Type} (n : Z) : M S color :=
  if (n =? 0) then ret Red else if (n =? 1) then ret Black else panic.

(** [!1] on a [usize]. *)
Definition not1 : Z := usize_lim - 1 - 1.

(** node.rs:41-43, [color]; 46-48, [ptr]; 55-57, [_set_color]; 64-66, [_set_ptr];
    33-38, [_new]; 75-83, [default]. *)
Definition pc_default : Z := 0.
Definition pc_color {S : Type} (raw : Z) : M S color := color_from (Z.land raw 1).
Definition pc_ptr (raw : Z) : Z := Z.land raw not1.
Definition pc_set_color (raw : Z) (c : color) : Z := Z.lor (Z.land raw not1) (color_as_usize c).
Definition pc_set_ptr (raw p : Z) : Z := Z.lor (Z.land raw 1) p.
Definition pc_new (c : color) (p : Z) : Z := pc_set_ptr (pc_set_color pc_default c) p.

(** src/internal/rb_tree/mod.rs:14-27, [RBTree] at address [t_obj], with the memory
    and the log of dropped keys and values.  The functor takes the first byte, the
    three pointers follow at 8, 16 and 24. *)
Record tstate (A K V : Type) : Type := TState {
  t_obj : Z;
  t_size : Z;
  t_alloc : A;
  t_mem : mem (K * V);
  t_drops : list (K + V)
}.
Arguments TState {A K V}.
Arguments t_obj {A K V}.
Arguments t_size {A K V}.
Arguments t_alloc {A K V}.
Arguments t_mem {A K V}.
Arguments t_drops {A K V}.

(** src/internal/rb_tree/iter.rs:6-16, [Iter] and [IterMut]. *)
Record titer : Type := TIter { ti_node : Z; ti_anchor : Z }.

(** Calls of a program, and answers.  [TGetMut k v] assigns [v] through the reference;
    [TIterMut g] replaces each value [v] by [g v]. *)
Inductive tcall (K V : Type) : Type :=
| TGet (k : K) | TGetMut (k : K) (v : V) | TContains (k : K) | TLen | TIsEmpty
| TIterAll | TIterMut (g : V -> V) | TInsert (k : K) (v : V) | TRemove (k : K) | TRemoveEntry (k : K).
Arguments TGet {K V}. Arguments TGetMut {K V}. Arguments TContains {K V}. Arguments TLen {K V}.
Arguments TIsEmpty {K V}. Arguments TIterAll {K V}. Arguments TIterMut {K V}. Arguments TInsert {K V}.
Arguments TRemove {K V}. Arguments TRemoveEntry {K V}.
Inductive tanswer (K V : Type) : Type :=
| TVal (o : option V) | TBool (b : bool) | TNum (n : Z) | TList (l : list (K * V)) | TEntry (o : option (K * V)).
Arguments TVal {K V}. Arguments TBool {K V}. Arguments TNum {K V}. Arguments TList {K V}. Arguments TEntry {K V}.

Section tree.
Context {A K V : Type}.
Variable aa : AddrAlloc A (K * V).
Variable chk : bool.
(** [size_of::<Node<K, V>>()] and [align_of::<Node<K, V>>()]. *)
Variables nsz nal : Z.
(** [C::compare]. *)
Variable cmp : K -> K -> bool.

Local Notation tstate := (tstate A K V).

Definition t_set_mem (m : mem (K * V)) : M tstate unit :=
  modify (fun s => TState (t_obj s) (t_size s) (t_alloc s) m (t_drops s)).
Definition t_logged (l : list (K + V)) (s : tstate) : tstate :=
  TState (t_obj s) (t_size s) (t_alloc s) (t_mem s) (t_drops s ++ l).

(** Memory access: node.rs:87-92, the fields of a [Node]; 143-145 and 178-180, [left],
    [right]; 236-248, [key], [val], [val_mut]. *)
Definition t_word (a : Z) : M tstate Z := do m <- gets t_mem; or_ub (load_word m a).
Definition t_put (a w : Z) : M tstate unit := do m <- gets t_mem; do m' <- or_ub (store_word m a w); t_set_mem m'.
Definition get_right (a : Z) : M tstate Z := t_word a.
Definition get_left (a : Z) : M tstate Z := t_word (a + 8).
Definition get_pc (a : Z) : M tstate Z := t_word (a + 16).
Definition get_pair (a : Z) : M tstate (K * V) := do m <- gets t_mem; or_ub (load_val m a nsz).
Definition put_pair (a : Z) (e : K * V) : M tstate unit :=
  do m <- gets t_mem; do m' <- or_ub (store_val m a nsz e); t_set_mem m'.

(** node.rs:161-163, [_parent], as a pointer. *)
Definition get_parent (a : Z) : M tstate Z := do w <- get_pc a; ret (pc_ptr w).
(** node.rs:129-131, [_color]; 138-140, [_set_color]. *)
Definition node_color (a : Z) : M tstate color := do w <- get_pc a; pc_color w.
Definition node_set_color (a : Z) (c : color) : M tstate unit := do w <- get_pc a; t_put (a + 16) (pc_set_color w c).
(** node.rs:171-175, [_set_parent]: returns the old parent. *)
Definition set_parent (a p : Z) : M tstate Z :=
  do w <- get_pc a;
  run t_put (a + 16) (pc_set_ptr w p);
  ret (pc_ptr w).
(** node.rs:153-158, [_set_left]; 188-193, [_set_right]: return the old child. *)
Definition set_left (a l : Z) : M tstate Z :=
  do old <- get_left a;
  run t_put (a + 8) l;
  if (l =? 0) then ret old else run set_parent l a; ret old.
Definition set_right (a r : Z) : M tstate Z :=
  do old <- get_right a;
  run t_put a r;
  if (r =? 0) then ret old else run set_parent r a; ret old.

(** node.rs:208-210, the loop down the left children. *)
Fixpoint leftmost (fuel : nat) (a : Z) : M tstate Z :=
  do l <- get_left a;
  if (l =? 0) then ret a else
  match fuel with O => ub | S f => leftmost f l end.
(** node.rs:219-223, the loop up the ancestors. *)
Fixpoint climb (fuel : nat) (self parent : Z) : M tstate (Z * Z) :=
  do r <- get_right parent;
  if (self =? r) then
    match fuel with
    | O => ub
    | S f => do pp <- get_parent parent; climb f parent pp
    end
  else ret (self, parent).
(** node.rs:204-233, [next] and [next_mut]. *)
Definition node_next (self : Z) : M tstate Z :=
  do m <- gets t_mem;
  do r <- get_right self;
  if negb (r =? 0) then leftmost (size (m_word m)) r else
  do p <- get_parent self;
  do sp <- climb (size (m_word m)) self p;
  do r' <- get_right (fst sp);
  if negb (r' =? snd sp) then ret (snd sp) else ret (fst sp).

(** The fields of the object; [&self.begin] as a node is the anchor. *)
Definition anchor (obj : Z) : Z := obj + 8.
Definition t_begin : M tstate Z := do o <- gets t_obj; t_word (o + 8).
Definition t_parent : M tstate Z := do o <- gets t_obj; t_word (o + 24).

(** src/internal/rb_tree/mod.rs:31-40, [new]; also 63-72, [with_allocator]; 81-90,
    [with_compare]; 102-111, [with_allocator_and_compare], which set the same. *)
Definition tree_new (obj : Z) (a : A) (m : mem (K * V)) : outcome tstate unit :=
  (run t_put (obj + 8) 0;
   run t_put (obj + 16) 0;
   t_put (obj + 24) 0) (TState obj 0 a m []).

(** mod.rs:215-224, the loop of [find_in_tree]: the node, and the number of nodes
    visited. *)
Fixpoint find_loop (fuel : nat) (key : K) (p : Z) : M tstate (option Z * nat) :=
  if (p =? 0) then ret (None, O) else
  match fuel with
  | O => ub
  | S f =>
    do e <- get_pair p;
    if cmp key (fst e) then
      do l <- get_left p;
      do r <- find_loop f key l; ret (fst r, S (snd r))
    else if negb (cmp (fst e) key) then ret (Some p, 1%nat)
    else
      do q <- get_right p;
      do r <- find_loop f key q; ret (fst r, S (snd r))
  end.
Definition find_counting (key : K) : M tstate (option Z * nat) :=
  do p <- t_parent;
  do m <- gets t_mem;
  find_loop (size (m_word m)) key p.
(** mod.rs:213-226, [find_in_tree]. *)
Definition find_in_tree (key : K) : M tstate (option Z) := do r <- find_counting key; ret (fst r).

(** mod.rs:133-135, [get]; map/mod.rs:81-83. *)
Definition t_get (key : K) : M tstate (option V) :=
  do o <- find_in_tree key;
  match o with None => ret None | Some p => do e <- get_pair p; ret (Some (snd e)) end.
(** mod.rs:124-126, [contains_key]; map/mod.rs:72-74, set/mod.rs:67-69. *)
Definition t_contains_key (key : K) : M tstate bool :=
  do o <- t_get key; ret (match o with Some _ => true | None => false end).
(** mod.rs:142-144, [get_mut]; map/mod.rs:90-92. *)
Definition t_get_mut (key : K) : M tstate (option Z) := find_in_tree key.
(** [*get_mut(key)? = v]: the old value is dropped; without an entry, [v] is. *)
Definition t_assign (key : K) (v : V) : M tstate bool :=
  do o <- t_get_mut key;
  match o with
  | None => run modify (t_logged [inr v]); ret false
  | Some p =>
    do e <- get_pair p;
    run put_pair p (fst e, v);
    run modify (t_logged [inr (snd e)]);
    ret true
  end.

(** mod.rs:233-248, [_find_insertion_position]. *)
Fixpoint insertion_loop (fuel : nat) (key : K) (cur prev : Z) : M tstate Z :=
  if (cur =? 0) then ret prev else
  match fuel with
  | O => ub
  | S f =>
    do e <- get_pair cur;
    do nx <- (if cmp key (fst e) then get_left cur else get_right cur);
    insertion_loop f key nx cur
  end.
Definition find_insertion_position (key : K) : M tstate Z :=
  do p <- t_parent;
  do m <- gets t_mem;
  insertion_loop (size (m_word m)) key p 0.
(** mod.rs:153-156, [_insert]: [unimplemented!()]; the arguments are dropped. *)
Definition t_insert (key : K) (v : V) : M tstate (option V) :=
  on_unwind (t_logged [inr v; inl key]) (
    run find_insertion_position key;
    panic).
(** mod.rs:202-204, [remove_entry]: [unimplemented!()]; 192-194, [_remove]. *)
Definition t_remove_entry (key : K) : M tstate (option (K * V)) := panic.
Definition t_remove (key : K) : M tstate (option V) :=
  do o <- t_remove_entry key; ret (option_map snd o).

(** mod.rs:182-184, [len]; 159-161, [is_empty]. *)
Definition t_len : M tstate Z := gets t_size.
Definition t_is_empty : M tstate bool := do n <- t_len; ret (n =? 0).

(** mod.rs:173-179, [iter], [iter_mut]. *)
Definition t_iter : M tstate titer :=
  do b <- t_begin; do o <- gets t_obj; ret (TIter b (anchor o)).
(** iter.rs:21-31 and 37-47, [next]: the place of the entry, and the iterator after. *)
Definition titer_next (i : titer) : M tstate (option Z * titer) :=
  if (ti_node i =? ti_anchor i) then ret (None, i)
  else if (ti_node i =? 0) then ret (None, i)
  else do n <- node_next (ti_node i); ret (Some (ti_node i), TIter n (ti_anchor i)).

(** [k] calls of [next]. *)
Fixpoint titer_take (k : nat) (i : titer) : M tstate (list (option (K * V)) * titer) :=
  match k with
  | O => ret ([], i)
  | S k' =>
    do r <- titer_next i;
    do e <- (match fst r with None => ret None | Some p => do e <- get_pair p; ret (Some e) end);
    do r' <- titer_take k' (snd r);
    ret (e :: fst r', snd r')
  end.
(** Iterating to the end, with [iter] and with [iter_mut] applying [g] to each value;
    fuel as above. *)
Fixpoint titer_loop (fuel : nat) (i : titer) : M tstate (list (K * V)) :=
  do r <- titer_next i;
  match fst r with
  | None => ret []
  | Some p =>
    match fuel with
    | O => ub
    | S f => do e <- get_pair p; do l <- titer_loop f (snd r); ret (e :: l)
    end
  end.
Definition t_iter_all : M tstate (list (K * V)) :=
  do i <- t_iter; do m <- gets t_mem; titer_loop (size (m_word m)) i.
Fixpoint titer_mut_loop (fuel : nat) (g : V -> V) (i : titer) : M tstate (list (K * V)) :=
  do r <- titer_next i;
  match fst r with
  | None => ret []
  | Some p =>
    match fuel with
    | O => ub
    | S f =>
      do e <- get_pair p;
      run put_pair p (fst e, g (snd e));
      do l <- titer_mut_loop f g (snd r); ret (e :: l)
    end
  end.
Definition t_iter_mut_all (g : V -> V) : M tstate (list (K * V)) :=
  do i <- t_iter; do m <- gets t_mem; titer_mut_loop (size (m_word m)) g i.

(** Running a method of the allocator field. *)
Definition t_in_alloc {R} (f : M (A * mem (K * V)) R) : M tstate R := fun s =>
  match f (t_alloc s, t_mem s) with
  | Ok r (a, m) => Ok r (TState (t_obj s) (t_size s) a m (t_drops s))
  | Panic (a, m) => Panic (TState (t_obj s) (t_size s) a m (t_drops s))
  | UB => UB
  end.

(** mod.rs:255-264, [free_tree]: left, right, then the node itself; the entry is not
    dropped. *)
Fixpoint free_tree (fuel : nat) (root : Z) : M tstate unit :=
  match fuel with
  | O => ub
  | S f =>
    do l <- get_left root;
    run (if (l =? 0) then ret tt else free_tree f l);
    do r <- get_right root;
    run (if (r =? 0) then ret tt else free_tree f r);
    t_in_alloc (deallocate aa chk nsz nal root 1)
  end.
(** mod.rs:267-271, [free_nodes]. *)
Definition free_nodes : M tstate unit :=
  do p <- t_parent;
  do m <- gets t_mem;
  if (p =? 0) then ret tt else free_tree (size (m_word m)) p.
(** mod.rs:114-116, [clear]; map/mod.rs:62-64, set/mod.rs:58-60. *)
Definition t_clear : M tstate unit := free_nodes.
(** mod.rs:51-55, [Drop]. *)
Definition t_drop : M tstate unit := free_nodes.

(** ** Programs *)
Definition t_call (c : tcall K V) : M tstate (tanswer K V) :=
  match c with
  | TGet k => do o <- t_get k; ret (TVal o)
  | TGetMut k v => do b <- t_assign k v; ret (TBool b)
  | TContains k => do b <- t_contains_key k; ret (TBool b)
  | TLen => do n <- t_len; ret (TNum n)
  | TIsEmpty => do b <- t_is_empty; ret (TBool b)
  | TIterAll => do l <- t_iter_all; ret (TList l)
  | TIterMut g => do l <- t_iter_mut_all g; ret (TList l)
  | TInsert k v => do o <- t_insert k v; ret (TVal o)
  | TRemove k => do o <- t_remove k; ret (TVal o)
  | TRemoveEntry k => do o <- t_remove_entry k; ret (TEntry o)
  end.

(** A program goes on after a panic: the answer is then [None]. *)
Fixpoint t_run (cs : list (tcall K V)) (s : tstate) : option (list (option (tanswer K V)) * tstate) :=
  match cs with
  | [] => Some ([], s)
  | c :: cs' =>
    match t_call c s with
    | Ok a s' => match t_run cs' s' with Some (l, s'') => Some (Some a :: l, s'') | None => None end
    | Panic s' => match t_run cs' s' with Some (l, s'') => Some (None :: l, s'') | None => None end
    | UB => None
    end
  end.

End tree.
