(** The reference that lists make to a node before it holds anything: the calls of LinkedList.v with a
    check in [create_node].  The documentation of [as_mut] asks for a pointer to an initialised value
    (src/list/mod.rs).  [value_mut] takes a reference to the same node (src/list/node.rs). *)
From Verif Require Import Base Alloc AddrMem FixedPool LinkedList.
Local Open Scope Z_scope.

Section fresh.
Context {A T : Type}.
Variable aa : AddrAlloc A T.
Variable chk : bool.
Variables nsz nal : Z.
Local Notation lstate := (lstate A T).

(** src/list/node.rs:3-7 and 35-39: do both links and the element of the node at [p] hold something?
    Simplified: bytes of padding are not looked at. *)
Definition node_init (m : mem T) (p : Z) : bool :=
  match m_word m !! p, m_word m !! (p + 8), m_val m !! p with Some _, Some _, Some _ => true | _, _, _ => false end.

(** src/list/mod.rs:193-197, [create_node]: 194 makes the reference. *)
Definition create_node_i (x : T) : M lstate Z :=
  do p <- on_unwind (logged [x]) (in_alloc (allocate aa chk nsz nal 1));
  if (p =? 0) then on_unwind (logged [x]) panic else
  do m <- gets l_mem;
  if node_init m p then (run put_val nsz p x; ret p) else ub.

(** src/list/mod.rs:169-175, [push_back]. *)
Definition push_back_i (x : T) : M lstate unit :=
  do p <- create_node_i x;
  do s <- gets l_node;
  run node_insert p s;
  do n <- gets l_size;
  do n' <- u32 chk (n + 1);
  set_size n'.

(** src/list/mod.rs:178-185, [push_front]. *)
Definition push_front_i (x : T) : M lstate unit :=
  do p <- create_node_i x;
  do s <- gets l_node;
  do f <- get_next s;
  run node_insert p f;
  do n <- gets l_size;
  do n' <- u32 chk (n + 1);
  set_size n'.

(** src/list/mod.rs:238-244, [extend]. *)
Fixpoint extend_i (xs : list T) : M lstate unit :=
  match xs with
  | [] => ret tt
  | x :: xs' => run on_unwind (logged xs') (push_back_i x); extend_i xs'
  end.

(** ** Programs, as in LinkedList.v; the other calls make no node (src/list/mod.rs:51-166). *)
Definition l_call_i (c : lcall T) : M lstate (lanswer T) :=
  match c with
  | LPushBack x => run push_back_i x; ret AUnit
  | LPushFront x => run push_front_i x; ret AUnit
  | LExtend xs => run extend_i xs; ret AUnit
  | _ => l_call aa chk nsz nal c
  end.
Fixpoint l_run_i (cs : list (lcall T)) (s : lstate) : option (list (option (lanswer T)) * lstate) :=
  match cs with
  | [] => Some ([], s)
  | c :: cs' =>
    match l_call_i c s with
    | Ok a s' => match l_run_i cs' s' with Some (l, s'') => Some (Some a :: l, s'') | None => None end
    | Panic s' => match l_run_i cs' s' with Some (l, s'') => Some (None :: l, s'') | None => None end
    | UB => None
    end
  end.
End fresh.
