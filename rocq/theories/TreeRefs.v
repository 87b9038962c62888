(** The references to nodes that maps and sets make, checked when they are made: a
    reference to a node must refer to as many bytes of live memory as a node has, at an address with the
    alignment of a node (the Rust reference, "Behavior considered undefined").  The functions are those of
    RBTree.v with the checks added; the iterator makes such references of the anchor
    as well, which is not a node but the last fields of the map object.
    [held] adds the rule of Stacked and Tree Borrows that memory must not be freed while the
    reference that a running function got as its argument is to it.
    Simplifications: whether the bytes are initialised and, but for [held], which
    references exist at the same time is not checked. *)
From Verif Require Import Base Alloc AddrMem FixedPool LinkedList RBTree.
Local Open Scope Z_scope.

Section refs.
Context {A K V : Type}.
Variables nsz nal : Z.
Variable cmp : K -> K -> bool.

Local Notation tstate := (tstate A K V).

(** May there be a reference to a node at [a]? *)
Definition node_ok (s : tstate) (a : Z) : bool := accessible (t_mem s) a nsz && (a mod nal =? 0).
(** [&mut *a], and [a.as_mut()] and [a.as_ref()] of a pointer that is not null. *)
Definition refer (a : Z) : M tstate unit := do s <- gets id; if node_ok s a then ret tt else ub.

(** src/internal/rb_tree/node.rs:208-210, the loop down the left children. *)
Fixpoint leftmost_r (fuel : nat) (a : Z) : M tstate Z :=
  do l <- get_left a;
  if (l =? 0) then ret a else
  match fuel with O => ub | S f => run refer l; leftmost_r f l end.
(** src/internal/rb_tree/node.rs:219-223, the loop up the ancestors; 220 makes the reference. *)
Fixpoint climb_r (fuel : nat) (self parent : Z) : M tstate (Z * Z) :=
  do r <- get_right parent;
  if (self =? r) then
    match fuel with
    | O => ub
    | S f => do pp <- get_parent parent; run refer pp; climb_r f parent pp
    end
  else ret (self, parent).
(** src/internal/rb_tree/node.rs:204-233, [next] and [next_mut]; 205 and 218 make references. *)
Definition node_next_r (self : Z) : M tstate Z :=
  do m <- gets t_mem;
  do r <- get_right self;
  if negb (r =? 0) then run refer r; leftmost_r (size (m_word m)) r else
  do p <- get_parent self;
  run refer p;
  do sp <- climb_r (size (m_word m)) self p;
  do r' <- get_right (fst sp);
  if negb (r' =? snd sp) then ret (snd sp) else ret (fst sp).

(** src/internal/rb_tree/iter.rs:21-31 and 37-47, [next]; 26 and 42 make the reference. *)
Definition titer_next_r (i : titer) : M tstate (option Z * titer) :=
  if (ti_node i =? ti_anchor i) then ret (None, i)
  else if (ti_node i =? 0) then ret (None, i)
  else run refer (ti_node i); do n <- node_next_r (ti_node i); ret (Some (ti_node i), TIter n (ti_anchor i)).
(** [k] calls of [next]. *)
Fixpoint titer_take_r (k : nat) (i : titer) : M tstate (list (option (K * V)) * titer) :=
  match k with
  | O => ret ([], i)
  | S k' =>
    do r <- titer_next_r i;
    do e <- (match fst r with None => ret None | Some p => do e <- get_pair nsz p; ret (Some e) end);
    do r' <- titer_take_r k' (snd r);
    ret (e :: fst r', snd r')
  end.
(** Iterating to the end (src/internal/rb_tree/iter.rs:21-47). *)
Fixpoint titer_loop_r (fuel : nat) (i : titer) : M tstate (list (K * V)) :=
  do r <- titer_next_r i;
  match fst r with
  | None => ret []
  | Some p =>
    match fuel with
    | O => ub
    | S f => do e <- get_pair nsz p; do l <- titer_loop_r f (snd r); ret (e :: l)
    end
  end.
Definition t_iter_all_r : M tstate (list (K * V)) :=
  do i <- t_iter; do m <- gets t_mem; titer_loop_r (size (m_word m)) i.
Fixpoint titer_mut_loop_r (fuel : nat) (g : V -> V) (i : titer) : M tstate (list (K * V)) :=
  do r <- titer_next_r i;
  match fst r with
  | None => ret []
  | Some p =>
    match fuel with
    | O => ub
    | S f =>
      do e <- get_pair nsz p;
      run put_pair nsz p (fst e, g (snd e));
      do l <- titer_mut_loop_r f g (snd r); ret (e :: l)
    end
  end.
Definition t_iter_mut_all_r (g : V -> V) : M tstate (list (K * V)) :=
  do i <- t_iter; do m <- gets t_mem; titer_mut_loop_r (size (m_word m)) g i.

(** src/internal/rb_tree/mod.rs:213-226, [find_in_tree], with [parent] (274-276), [left] and [right] (src/internal/rb_tree/node.rs:143-145, 178-180),
    which make the references. *)
Fixpoint find_loop_r (fuel : nat) (key : K) (p : Z) : M tstate (option Z * nat) :=
  if (p =? 0) then ret (None, O) else
  run refer p;
  match fuel with
  | O => ub
  | S f =>
    do e <- get_pair nsz p;
    if cmp key (fst e) then
      do l <- get_left p;
      do r <- find_loop_r f key l; ret (fst r, S (snd r))
    else if negb (cmp (fst e) key) then ret (Some p, 1%nat)
    else
      do q <- get_right p;
      do r <- find_loop_r f key q; ret (fst r, S (snd r))
  end.
Definition find_in_tree_r (key : K) : M tstate (option Z) :=
  do p <- t_parent;
  do m <- gets t_mem;
  do r <- find_loop_r (size (m_word m)) key p; ret (fst r).
(** src/internal/rb_tree/mod.rs:133-135, [get]; 124-126, [contains_key]; 142-144, [get_mut] and an assignment. *)
Definition t_get_r (key : K) : M tstate (option V) :=
  do o <- find_in_tree_r key;
  match o with None => ret None | Some p => do e <- get_pair nsz p; ret (Some (snd e)) end.
Definition t_contains_key_r (key : K) : M tstate bool :=
  do o <- t_get_r key; ret (match o with Some _ => true | None => false end).
Definition t_assign_r (key : K) (v : V) : M tstate bool :=
  do o <- find_in_tree_r key;
  match o with
  | None => run modify (t_logged [inr v]); ret false
  | Some p =>
    do e <- get_pair nsz p;
    run put_pair nsz p (fst e, v);
    run modify (t_logged [inr (snd e)]);
    ret true
  end.
(** src/internal/rb_tree/mod.rs:233-248, [_find_insertion_position]; 237 and 247 make references.  153-156, [_insert]. *)
Fixpoint insertion_loop_r (fuel : nat) (key : K) (cur prev : Z) : M tstate Z :=
  if (cur =? 0) then ret prev else
  run refer cur;
  match fuel with
  | O => ub
  | S f =>
    do e <- get_pair nsz cur;
    do nx <- (if cmp key (fst e) then get_left cur else get_right cur);
    insertion_loop_r f key nx cur
  end.
Definition find_insertion_position_r (key : K) : M tstate Z :=
  do p <- t_parent;
  do m <- gets t_mem;
  do q <- insertion_loop_r (size (m_word m)) key p 0;
  if (q =? 0) then ret q else run refer q; ret q.
Definition t_insert_r (key : K) (v : V) : M tstate (option V) :=
  on_unwind (t_logged [inr v; inl key]) (
    run find_insertion_position_r key;
    panic).

(** src/map/mod.rs:62-150, the calls. *)
Definition t_call_r (c : tcall K V) : M tstate (tanswer K V) :=
  match c with
  | TGet k => do o <- t_get_r k; ret (TVal o)
  | TGetMut k v => do b <- t_assign_r k v; ret (TBool b)
  | TContains k => do b <- t_contains_key_r k; ret (TBool b)
  | TIterAll => do l <- t_iter_all_r; ret (TList l)
  | TIterMut g => do l <- t_iter_mut_all_r g; ret (TList l)
  | TInsert k v => do o <- t_insert_r k v; ret (TVal o)
  | _ => t_call nsz cmp c
  end.
(** A program, as [t_run] in RBTree.v; [None]: a reference that breaks the rule, or other undefined behaviour. *)
Fixpoint t_run_r (cs : list (tcall K V)) (s : tstate) : option (list (option (tanswer K V)) * tstate) :=
  match cs with
  | [] => Some ([], s)
  | c :: cs' =>
    match t_call_r c s with
    | Ok a s' => match t_run_r cs' s' with Some (l, s'') => Some (Some a :: l, s'') | None => None end
    | Panic s' => match t_run_r cs' s' with Some (l, s'') => Some (None :: l, s'') | None => None end
    | UB => None
    end
  end.

(** src/internal/rb_tree/mod.rs:255-264, [free_tree]; [left] and [right] (src/internal/rb_tree/node.rs:143-145, 178-180) make references, [root] is the argument. *)
Variable aa : AddrAlloc A (K * V).
Variables chk held : bool.
Fixpoint free_tree_r (fuel : nat) (root : Z) : M tstate unit :=
  match fuel with
  | O => ub
  | S f =>
    do l <- get_left root;
    run (if (l =? 0) then ret tt else run refer l; free_tree_r f l);
    do r <- get_right root;
    run (if (r =? 0) then ret tt else run refer r; free_tree_r f r);
    if held then ub else t_in_alloc (deallocate aa chk nsz nal root 1)
  end.
(** src/internal/rb_tree/mod.rs:267-271, [free_nodes]; 114-116, [clear]; 51-55, [Drop]. *)
Definition free_nodes_r : M tstate unit :=
  do p <- t_parent;
  do m <- gets t_mem;
  if (p =? 0) then ret tt else run refer p; free_tree_r (size (m_word m)) p.
Definition t_clear_r : M tstate unit := free_nodes_r.
Definition t_drop_r : M tstate unit := free_nodes_r.
End refs.
