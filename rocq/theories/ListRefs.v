(** The pointers that lists use, checked against two rules of Rust: the calls of LinkedList.v with a
    check before each use of a pointer that was read from memory (src/list/mod.rs, src/list/node.rs,
    src/list/iter.rs).

    [own]: while a function runs that was given a mutable reference to the list, the list object is
    written only through that reference.  The pointers to the sentinel that the sentinel and the nodes
    store were made by earlier calls.  This is a rule of Stacked Borrows and of Tree Borrows.
    [narrow]: a pointer made from a reference reaches no further than the referent.  The stored pointers
    to nodes are made in [insert] from a reference to the [ListNodeBase] of the node, 16 bytes; the
    element comes after.  This is a rule of Stacked Borrows.
    Simplifications: reads of the sentinel, and freeing nodes, are not checked; all nodes are made by
    Rust; [new_in] and [clear] write the sentinel only through [self]. *)
From Verif Require Import Base Alloc AddrMem FixedPool LinkedList.
Local Open Scope Z_scope.

Section refs.
Context {A T : Type}.
Variable aa : AddrAlloc A T.
Variable chk : bool.
(** As in LinkedList.v; [vsz] is [size_of::<T>()]. *)
Variables nsz nal vsz : Z.
Variables own narrow : bool.
Local Notation lstate := (lstate A T).

(** Before a write to the links of the node at [a] through a stored pointer. *)
Definition stored (a : Z) : M lstate unit :=
  if own then (do s <- gets l_node; if (a =? s) then ub else ret tt) else ret tt.
(** Before a reference to [n] bytes at offset [off] of a node is made from a stored pointer to it. *)
Definition reach (off n : Z) : M lstate unit :=
  if narrow && (0 <? n) && (16 <? off + n) then ub else ret tt.
(** A reference to the node, and to the element at its end (the offset is at least 16). *)
Definition to_node : M lstate unit := reach 0 nsz.
Definition to_value : M lstate unit := reach 16 vsz.

(** src/list/node.rs:20-25, [insert]; [fresh]: [next] is not a stored pointer. *)
Definition node_insert_r (fresh : bool) (self next : Z) : M lstate unit :=
  run set_next self next;
  do p <- get_prev next;
  run set_prev self p;
  do p2 <- get_prev next;
  run stored p2;
  run set_next p2 self;
  run (if fresh then ret tt else stored next);
  set_prev next self.

(** src/list/node.rs:29-32, [remove]. *)
Definition node_remove_r (self : Z) : M lstate unit :=
  do n <- get_next self;
  do p <- get_prev self;
  run stored n;
  run set_prev n p;
  do p2 <- get_prev self;
  do n2 <- get_next self;
  run stored p2;
  set_next p2 n2.

(** src/list/mod.rs:206-213, [remove_node]. *)
Definition remove_node_r (p : Z) : M lstate T :=
  run node_remove_r p;
  run to_value;
  do x <- move_val nsz p;
  run on_unwind (logged [x]) (in_alloc (deallocate aa chk 16 8 p nsz));
  do n <- gets l_size;
  do n' <- on_unwind (logged [x]) (u32 chk (n - 1));
  run set_size n';
  ret x.

(** src/list/mod.rs:169-175, [push_back]: [next] is [&mut self.node]. *)
Definition push_back_r (x : T) : M lstate unit :=
  do p <- create_node aa chk nsz nal x;
  do s <- gets l_node;
  run node_insert_r true p s;
  do n <- gets l_size;
  do n' <- u32 chk (n + 1);
  set_size n'.

(** src/list/mod.rs:178-185, [push_front]: [next] is [self.node.next]. *)
Definition push_front_r (x : T) : M lstate unit :=
  do p <- create_node aa chk nsz nal x;
  do s <- gets l_node;
  do f <- get_next s;
  run node_insert_r false p f;
  do n <- gets l_size;
  do n' <- u32 chk (n + 1);
  set_size n'.

(** src/list/mod.rs:146-153, [pop_back]; 159-166, [pop_front]. *)
Definition pop_back_r : M lstate (option T) :=
  do s <- gets l_node;
  do p <- get_prev s;
  if (p =? s) then ret None else
  do x <- remove_node_r p; ret (Some x).
Definition pop_front_r : M lstate (option T) :=
  do s <- gets l_node;
  do p <- get_next s;
  if (p =? s) then ret None else
  do x <- remove_node_r p; ret (Some x).

(** src/list/mod.rs:51-58, 64-71 and 113-120: [back], [back_mut] and [front_mut] refer to the element only;
    100-107: [front] calls [value], which takes a reference to the node (src/list/node.rs:43-45). *)
Definition at_place {R} (c : M lstate unit) (f : option Z -> M lstate R) (o : option Z) : M lstate R :=
  match o with None => f None | Some p => run c; f (Some p) end.

(** src/list/mod.rs:77-86, the loop of [clear]; 74-89, [clear]; 216-220, [Drop]. *)
Fixpoint clear_loop_r (fuel : nat) (next : Z) : M lstate unit :=
  do s <- gets l_node;
  if (next =? s) then ret tt else
  match fuel with
  | O => ub
  | S f =>
    do n <- get_next next;
    run to_value;
    do x <- move_val nsz next;
    run modify (logged [x]);
    run in_alloc (deallocate aa chk 16 8 next nsz);
    clear_loop_r f n
  end.
Definition clear_r : M lstate unit :=
  do s <- gets l_node;
  do f <- get_next s;
  do m <- gets l_mem;
  run clear_loop_r (size (m_word m)) f;
  run init_sentinel_node;
  set_size 0.
Definition list_drop_r : M lstate unit := clear_r.

(** src/list/mod.rs:238-244, [extend]. *)
Fixpoint extend_r (xs : list T) : M lstate unit :=
  match xs with
  | [] => ret tt
  | x :: xs' => run on_unwind (logged xs') (push_back_r x); extend_r xs'
  end.

(** src/list/iter.rs:26-35 and 64-73, [next]: [value] and [value_mut] take a reference to the node. *)
Definition iter_next_r (i : liter) : M lstate (option Z * liter) :=
  do r <- iter_next chk i;
  match fst r with None => ret r | Some _ => run to_node; ret r end.
Fixpoint iter_loop_r (fuel : nat) (i : liter) : M lstate (list T) :=
  do r <- iter_next_r i;
  match fst r with
  | None => ret []
  | Some p =>
    match fuel with
    | O => ub
    | S f => do x <- get_val nsz p; do l <- iter_loop_r f (snd r); ret (x :: l)
    end
  end.
Definition iter_all_r : M lstate (list T) :=
  do i <- iter; do m <- gets l_mem; iter_loop_r (size (m_word m)) i.
Fixpoint iter_mut_loop_r (fuel : nat) (g : T -> T) (i : liter) : M lstate (list T) :=
  do r <- iter_next_r i;
  match fst r with
  | None => ret []
  | Some p =>
    match fuel with
    | O => ub
    | S f => do x <- get_val nsz p; run put_val nsz p (g x); do l <- iter_mut_loop_r f g (snd r); ret (x :: l)
    end
  end.
Definition iter_mut_all_r (g : T -> T) : M lstate (list T) :=
  do i <- iter; do m <- gets l_mem; iter_mut_loop_r (size (m_word m)) g i.

(** ** Programs, as in LinkedList.v *)
Definition l_call_r (c : lcall T) : M lstate (lanswer T) :=
  match c with
  | LPushBack x => run push_back_r x; ret AUnit
  | LPushFront x => run push_front_r x; ret AUnit
  | LPopBack => do o <- pop_back_r; ret (AOpt o)
  | LPopFront => do o <- pop_front_r; ret (AOpt o)
  | LFront => do p <- front_place; do o <- at_place to_node (read_place nsz) p; ret (AOpt o)
  | LBack => do p <- back_place; do o <- at_place to_value (read_place nsz) p; ret (AOpt o)
  | LFrontMut x => do p <- front_place; do b <- at_place to_value (fun o => assign_place nsz o x) p; ret (ABool b)
  | LBackMut x => do p <- back_place; do b <- at_place to_value (fun o => assign_place nsz o x) p; ret (ABool b)
  | LClear => run clear_r; ret AUnit
  | LLen => do n <- len_; ret (ANum n)
  | LSize => do n <- size_; ret (ANum n)
  | LIsEmpty => do b <- is_empty; ret (ABool b)
  | LEmpty => do b <- empty_; ret (ABool b)
  | LExtend xs => run extend_r xs; ret AUnit
  | LIter_ => do l <- iter_all_r; ret (AList l)
  | LIterMut_ g => do l <- iter_mut_all_r g; ret (AList l)
  end.
Fixpoint l_run_r (cs : list (lcall T)) (s : lstate) : option (list (option (lanswer T)) * lstate) :=
  match cs with
  | [] => Some ([], s)
  | c :: cs' =>
    match l_call_r c s with
    | Ok a s' => match l_run_r cs' s' with Some (l, s'') => Some (Some a :: l, s'') | None => None end
    | Panic s' => match l_run_r cs' s' with Some (l, s'') => Some (None :: l, s'') | None => None end
    | UB => None
    end
  end.
End refs.
