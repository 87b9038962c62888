(** Several double-ended queues in one memory, used in turn; two of them can be exchanged
    with [std::mem::swap].  All have the same element type. *)
From Verif Require Import Base Heap Alloc Deque.
Local Open Scope nat_scope.

(** A deque object, src/deque/mod.rs:14-20.  A place without a deque has none. *)
Record dobj : Type := DObj { do_arr : ptr; do_size : Z; do_b : dit; do_e : dit }.
Record dworld (T : Type) : Type := DWorld { dw_objs : list (option dobj); dw_heap : heap (dcell T); dw_drops : list T }.
Arguments DWorld {T}.
Arguments dw_objs {T}.
Arguments dw_heap {T}.
Arguments dw_drops {T}.

(** [QNew i] creates a deque at place [i], [QCall i c] makes a call of the deque there,
    [QDrop i] drops it, and [QSwap i j] is [mem::swap] of the deques at two places,
    which also stands for moving deques around. *)
Inductive dop (T : Type) : Type :=
| QNew (i : nat) | QCall (i : nat) (c : dcall T) | QDrop (i : nat) | QSwap (i j : nat).
Arguments QNew {T}. Arguments QCall {T}. Arguments QDrop {T}. Arguments QSwap {T}.

Section world.
Context {T : Type}.
Variables (sz al : Z) (chk : bool).

Definition the_deque (w : dworld T) (t : dobj) : dstate T :=
  DState (do_arr t) (do_size t) (do_b t) (do_e t) (dw_heap w) (dw_drops w).
Definition back_at (w : dworld T) (i : nat) (s : dstate T) (alive : bool) : dworld T :=
  DWorld (<[i := if alive then Some (DObj (d_arr s) (d_size s) (d_b s) (d_e s)) else None]> (dw_objs w)) (d_h s) (d_drops s).

(** The answer is [None] for a panic.  The result [None] stands for undefined
    behaviour, and for a use of a deque that is not there, which Rust does not allow.
    Simplification: creating a deque does not panic here. *)
Definition dw_step (o : dop T) (w : dworld T) : option (option (danswer T) * dworld T) :=
  match o with
  | QNew i =>
    match dw_objs w !! i with
    | Some None =>
      match deque_new sz al (dw_heap w) (dw_drops w) with
      | Ok _ s => Some (Some DUnit, back_at w i s true)
      | _ => None
      end
    | _ => None
    end
  | QCall i c =>
    match dw_objs w !! i with
    | Some (Some t) =>
      match d_call sz al chk c (the_deque w t) with
      | Ok a s => Some (Some a, back_at w i s true)
      | Panic s => Some (None, back_at w i s true)
      | UB => None
      end
    | _ => None
    end
  | QDrop i =>
    match dw_objs w !! i with
    | Some (Some t) =>
      match deque_drop sz al chk (the_deque w t) with
      | Ok _ s => Some (Some DUnit, back_at w i s false)
      | Panic s => Some (None, back_at w i s false)
      | UB => None
      end
    | _ => None
    end
  | QSwap i j =>
    match dw_objs w !! i, dw_objs w !! j with
    | Some (Some t), Some (Some u) => Some (Some DUnit, DWorld (<[j := Some t]> (<[i := Some u]> (dw_objs w))) (dw_heap w) (dw_drops w))
    | _, _ => None
    end
  end.

Fixpoint dw_run (os : list (dop T)) (w : dworld T) : option (list (option (danswer T)) * dworld T) :=
  match os with
  | [] => Some ([], w)
  | o :: os' =>
    match dw_step o w with
    | Some (a, w') => match dw_run os' w' with Some (l, w'') => Some (a :: l, w'') | None => None end
    | None => None
    end
  end.

(** [n] places without deques. *)
Definition dw_start (n : nat) (h : heap (dcell T)) : dworld T := DWorld (replicate n None) h [].
End world.
