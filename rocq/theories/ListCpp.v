(** The C++ side of lists: what EASTL's [list<T>] does to a list object that is shared
    with Rust, on the memory of LinkedList.v.  EASTL is not in the repository; this is
    what its headers (list.h, and the members of [ListNodeBase]) do.  The node and the
    list object are those src/list/node.rs:3-7, 35-39 and src/list/mod.rs:17-24
    mirror.  C++ allocates and frees through the allocator of the list object, with
    the size and alignment of a node.  Simplifications: an iterator is used for one
    call, and is found by walking from [begin()]; constructors and destructors do not
    throw; a null answer of the allocator counts as undefined behaviour, as does fuel
    running out (so the theorems exclude both). *)
From Verif Require Import Base Alloc AddrMem FixedPool LinkedList.
Local Open Scope Z_scope.

(** Calls of a program that runs partly in Rust and partly in C++.  [CInsert i x]
    inserts before the [i]-th element, [CErase i] erases it, [CAssign i x] is
    [*it = x]; [CWalk] and [CWalkBack] read from [begin()] to [end()] and from
    [rbegin()] to [rend()]. *)
Inductive mcall (T : Type) : Type :=
| Rust (c : lcall T)
| CInsert (i : nat) (x : T) | CErase (i : nat) | CAssign (i : nat) (x : T)
| CWalk | CWalkBack | CSize | CReverse.
Arguments Rust {T}. Arguments CInsert {T}. Arguments CErase {T}. Arguments CAssign {T}.
Arguments CWalk {T}. Arguments CWalkBack {T}. Arguments CSize {T}. Arguments CReverse {T}.

Section cpp.
Context {A T : Type}.
Variable aa : AddrAlloc A T.
Variable chk : bool.
Variables nsz nal : Z.
Local Notation lstate := (lstate A T).

(** [begin()] is [mNode.mpNext]; [++it] is [mpNode = mpNode->mpNext].  Moving past
    [end()] is undefined. *)
Fixpoint cpp_walk (i : nat) (p : Z) : M lstate Z :=
  match i with
  | O => ret p
  | S i' =>
    do s <- gets l_node;
    if (p =? s) then ub else
    do n <- get_next p;
    cpp_walk i' n
  end.
Definition cpp_at (i : nat) : M lstate Z :=
  do s <- gets l_node;
  do b <- get_next s;
  cpp_walk i b.

(** [insert]: [DoInsertValue] creates the node, [ListNodeBase::insert] links it. *)
Definition cpp_insert (i : nat) (x : T) : M lstate unit :=
  do q <- cpp_at i;
  do p <- in_alloc (allocate aa chk nsz nal 1);
  if (p =? 0) then ub else
  run put_val nsz p x;
  run set_next p q;
  do v <- get_prev q;
  run set_prev p v;
  run set_next v p;
  run set_prev q p;
  do n <- gets l_size;
  set_size ((n + 1) mod u32_lim).

(** [erase]: [DoErase] unlinks with [ListNodeBase::remove], destroys the value and frees
    the node.  The end iterator may not be given. *)
Definition cpp_erase (i : nat) : M lstate unit :=
  do p <- cpp_at i;
  do s <- gets l_node;
  if (p =? s) then ub else
  do n <- get_next p;
  do v <- get_prev p;
  run set_prev n v;
  run set_next v n;
  do x <- move_val nsz p;
  run modify (logged [x]);
  run in_alloc (deallocate aa chk nsz nal p 1);
  do k <- gets l_size;
  set_size ((k - 1) mod u32_lim).

(** [*it = x]. *)
Definition cpp_assign (i : nat) (x : T) : M lstate unit :=
  do p <- cpp_at i;
  do s <- gets l_node;
  if (p =? s) then ub else
  do old <- move_val nsz p;
  run put_val nsz p x;
  modify (logged [old]).

(** [for (it = begin(); it != end(); ++it)], and with [rbegin()] and [rend()]. *)
Fixpoint cpp_loop (fuel : nat) (fwd : bool) (p : Z) : M lstate (list T) :=
  do s <- gets l_node;
  if (p =? s) then ret [] else
  match fuel with
  | O => ub
  | S f =>
    do x <- get_val nsz p;
    do n <- (if fwd then get_next p else get_prev p);
    do l <- cpp_loop f fwd n;
    ret (x :: l)
  end.
Definition cpp_read (fwd : bool) : M lstate (list T) :=
  do s <- gets l_node;
  do m <- gets l_mem;
  do p <- (if fwd then get_next s else get_prev s);
  cpp_loop (size (m_word m)) fwd p.

(** [ListNodeBase::reverse]: the pointers of every node are swapped, from the sentinel
    round to it. *)
Fixpoint cpp_reverse_loop (fuel : nat) (p : Z) : M lstate unit :=
  do n <- get_next p;
  do v <- get_prev p;
  run set_next p v;
  run set_prev p n;
  do q <- get_prev p;
  do s <- gets l_node;
  if (q =? s) then ret tt else
  match fuel with
  | O => ub
  | S f => cpp_reverse_loop f q
  end.
Definition cpp_reverse : M lstate unit :=
  do s <- gets l_node;
  do m <- gets l_mem;
  cpp_reverse_loop (size (m_word m)) s.

(** ** Programs *)
Definition m_call (c : mcall T) : M lstate (lanswer T) :=
  match c with
  | Rust c => l_call aa chk nsz nal c
  | CInsert i x => run cpp_insert i x; ret AUnit
  | CErase i => run cpp_erase i; ret AUnit
  | CAssign i x => run cpp_assign i x; ret AUnit
  | CWalk => do l <- cpp_read true; ret (AList l)
  | CWalkBack => do l <- cpp_read false; ret (AList l)
  | CSize => do n <- gets l_size; ret (ANum n)
  | CReverse => run cpp_reverse; ret AUnit
  end.
Fixpoint m_run (cs : list (mcall T)) (s : lstate) : option (list (option (lanswer T)) * lstate) :=
  match cs with
  | [] => Some ([], s)
  | c :: cs' =>
    match m_call c s with
    | Ok a s' => match m_run cs' s' with Some (l, s'') => Some (Some a :: l, s'') | None => None end
    | Panic s' => match m_run cs' s' with Some (l, s'') => Some (None :: l, s'') | None => None end
    | UB => None
    end
  end.

End cpp.
