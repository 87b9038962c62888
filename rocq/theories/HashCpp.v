(** The C++ side of hash table iteration: EASTL's [hashtable_iterator_base], whose two
    fields src/internal/hash_table/iter.rs:9-24 mirrors ([node_ptr], [bucket_ptr]), and
    the [begin] and [end] of its hashtable.  EASTL is not in the repository; this is
    what its headers do, on the memory of HashTable.v. *)
From Verif Require Import Base Heap HashTable.

(** The node of a C++ iterator: a pointer, or the all-ones word that ends the bucket
    array (mod.rs:49; written at mod.rs:306). *)
Inductive cnode : Type := CPtr (p : ptr) | COnes.
#[global] Instance cnode_eq_dec : EqDecision cnode.
Proof. solve_decision. Defined.
Record cpp_iter : Type := CppIter { cp_node : cnode; cp_bucket : ptr }.

Section cpp.
Context {K V : Type}.
Local Notation tstate := (tstate K V).

(** [*mpBucket]. *)
Definition read_word (p : ptr) : M tstate cnode :=
  do h <- gets t_h;
  match hload h p with Some (TSlot q) => ret (CPtr q) | Some TOnes => ret COnes | _ => ub end.

(** [while (mpNode == NULL) mpNode = *++mpBucket].  The result is [None] when the fuel
    runs out. *)
Fixpoint seek (f : nat) (p : ptr) : M tstate (option cpp_iter) :=
  match f with
  | O => ret None
  | S f' =>
    do h <- gets t_h;
    do p' <- or_ub (hadd h p 1);
    do w <- read_word p';
    match w with
    | CPtr Null => seek f' p'
    | _ => ret (Some (CppIter w p'))
    end
  end.
Definition seek_fuel (s : tstate) : nat := S (Z.to_nat (t_bc s)).

(** [begin()], [end()], and [++it]. *)
Definition cpp_begin : M tstate (option cpp_iter) :=
  do s <- gets id;
  do w <- read_word (t_arr s);
  match w with
  | CPtr Null => seek (seek_fuel s) (t_arr s)
  | _ => ret (Some (CppIter w (t_arr s)))
  end.
Definition cpp_end : M tstate cpp_iter :=
  do s <- gets id;
  do p <- or_ub (hadd (t_h s) (t_arr s) (Z.to_nat (t_bc s)));
  do w <- read_word p;
  ret (CppIter w p).
Definition cpp_next (it : cpp_iter) : M tstate (option cpp_iter) :=
  match cp_node it with
  | COnes => ub
  | CPtr p =>
    do n <- node_at p;
    let '(k, v, nx) := n in
    do s <- gets id;
    if is_null nx then seek (seek_fuel s) (cp_bucket it) else ret (Some (CppIter (CPtr nx) (cp_bucket it)))
  end.

(** [for (; it != e; ++it)] collecting [*it]; iterators are compared by their nodes. *)
Fixpoint cpp_all (f : nat) (it e : cpp_iter) : M tstate (option (list (K * V))) :=
  match f with
  | O => ret None
  | S f' =>
    if decide (cp_node it = cp_node e) then ret (Some []) else
    match cp_node it with
    | COnes => ub
    | CPtr p =>
      do n <- node_at p;
      let '(k, v, _) := n in
      do o <- cpp_next it;
      match o with
      | None => ret None
      | Some it' => do l <- cpp_all f' it' e; ret (option_map (cons (k, v)) l)
      end
    end
  end.

End cpp.

(** The bytes of the iterators of one language read by the other.  A Rust pointer that
    is all ones is some pointer [ones]. *)
Definition to_cpp (c : compat_iter) : cpp_iter := CppIter (CPtr (ci_node c)) (ci_bucket c).
Definition of_cpp (ones : ptr) (c : cpp_iter) : compat_iter :=
  CompatIter (match cp_node c with CPtr p => p | COnes => ones end) (cp_bucket c).
