(** Lookups in the red-black trees of src/internal/rb_tree with any comparator at all:
    each evaluation of [C::compare] may answer anything, also differently for the same
    keys, or panic.

    The functions that evaluate it are repeated from RBTree.v; the others are lifted.
    The state is the tree object and the number of evaluations so far. *)
From Verif Require Import Base Alloc AddrMem LinkedList RBTree.
Local Open Scope Z_scope.

Section any.
Context {A K V : Type}.
Variable nsz : Z.
(** What the n-th evaluation answers; [None] is a panic. *)
Variable co : nat -> K -> K -> option bool.

Local Notation tstate := (tstate A K V).
Definition tastate : Type := (tstate * nat)%type.

Definition t_lift {R} (m : M tstate R) : M tastate R := fun s =>
  match m (fst s) with
  | Ok a s' => Ok a (s', snd s)
  | Panic s' => Panic (s', snd s)
  | UB => UB
  end.
Definition t_ask (k k' : K) : M tastate bool := fun s =>
  match co (snd s) k k' with
  | Some b => Ok b (fst s, S (snd s))
  | None => Panic (fst s, S (snd s))
  end.
Definition ta_logged (l : list (K + V)) (s : tastate) : tastate := (t_logged l (fst s), snd s).

(** mod.rs:215-224, the loop of [find_in_tree]. *)
Fixpoint a_find_loop (fuel : nat) (key : K) (p : Z) : M tastate (option Z) :=
  if (p =? 0) then ret None else
  match fuel with
  | O => ub
  | S f =>
    do e <- t_lift (get_pair nsz p);
    do less <- t_ask key (fst e);
    if less : bool then do l <- t_lift (get_left p); a_find_loop f key l
    else
      do greater <- t_ask (fst e) key;
      if negb greater then ret (Some p)
      else do q <- t_lift (get_right p); a_find_loop f key q
  end.
(** mod.rs:213-226, [find_in_tree]. *)
Definition a_find_in_tree (key : K) : M tastate (option Z) :=
  do p <- t_lift t_parent;
  do m <- t_lift (gets t_mem);
  a_find_loop (size (m_word m)) key p.

(** mod.rs:133-135, [get]; map/mod.rs:81-83. *)
Definition a_t_get (key : K) : M tastate (option V) :=
  do o <- a_find_in_tree key;
  match o with None => ret None | Some p => do e <- t_lift (get_pair nsz p); ret (Some (snd e)) end.
(** mod.rs:124-126, [contains_key]; map/mod.rs:72-74, set/mod.rs:67-69. *)
Definition a_t_contains_key (key : K) : M tastate bool :=
  do o <- a_t_get key; ret (match o with Some _ => true | None => false end).
(** [*get_mut(key)? = v], mod.rs:142-144, map/mod.rs:90-92; the caller's [v] is dropped
    when [get_mut] panics. *)
Definition a_t_assign (key : K) (v : V) : M tastate bool :=
  do o <- on_unwind (ta_logged [inr v]) (a_find_in_tree key);
  t_lift (
    match o with
    | None => run modify (t_logged [inr v]); ret false
    | Some p =>
      do e <- get_pair nsz p;
      run put_pair nsz p (fst e, v);
      run modify (t_logged [inr (snd e)]);
      ret true
    end).

(** mod.rs:233-248, [_find_insertion_position]. *)
Fixpoint a_insertion_loop (fuel : nat) (key : K) (cur prev : Z) : M tastate Z :=
  if (cur =? 0) then ret prev else
  match fuel with
  | O => ub
  | S f =>
    do e <- t_lift (get_pair nsz cur);
    do less <- t_ask key (fst e);
    do nx <- t_lift (if less : bool then get_left cur else get_right cur);
    a_insertion_loop f key nx cur
  end.
(** mod.rs:153-156, [_insert]: [unimplemented!()]; the arguments are dropped. *)
Definition a_t_insert (key : K) (v : V) : M tastate (option V) :=
  on_unwind (ta_logged [inr v; inl key]) (
    do p <- t_lift t_parent;
    do m <- t_lift (gets t_mem);
    run a_insertion_loop (size (m_word m)) key p 0;
    panic).

(** One call.  Calls that do not compare are those of RBTree.v, whose comparator they
    do not use. *)
Definition ta_call (c : tcall K V) : M tastate (tanswer K V) :=
  match c with
  | TGet k => do o <- a_t_get k; ret (TVal o)
  | TGetMut k v => do b <- a_t_assign k v; ret (TBool b)
  | TContains k => do b <- a_t_contains_key k; ret (TBool b)
  | TInsert k v => do o <- a_t_insert k v; ret (TVal o)
  | c => t_lift (t_call nsz (fun _ _ => false) c)
  end.
Fixpoint ta_run (cs : list (tcall K V)) (s : tastate) : option (list (option (tanswer K V)) * tastate) :=
  match cs with
  | [] => Some ([], s)
  | c :: cs' =>
    match ta_call c s with
    | Ok a s' => match ta_run cs' s' with Some (l, s'') => Some (Some a :: l, s'') | None => None end
    | Panic s' => match ta_run cs' s' with Some (l, s'') => Some (None :: l, s'') | None => None end
    | UB => None
    end
  end.
End any.
Arguments tastate : clear implicits.
