(** Fixed vectors whose base vectors are exchanged with [std::mem::swap], and
    which go out of scope. *)
From Verif Require Import Base Heap Alloc Vector FixedVector.

Section swap.
Context {T : Type}.
Variables sz al : Z.
Variable N : nat.
Variable chk nd : bool.
Variable clone : T -> option T.

(** [XSwap i j] is [mem::swap(&mut **a, &mut **b)] for two fixed vectors, which
    safe code can write because of [DerefMut] (src/fixed_vector/mod.rs:129-135).
    [XDrop i]: object [i] goes out of scope. *)
Inductive xop : Type := XOp (o : fop T) | XSwap (i j : nat) | XDrop (i : nat).

(** The base vector of the fixed vector: the three pointers and the allocator
    (src/vector/mod.rs:22-30, src/fixed_vector/mod.rs:21-24). *)
Definition with_base (f g : fixed) : fixed := Fixed (f_vec g) (f_pool g) (f_buf f) (f_moved f).

Definition x_step (o : xop) (w : fworld T) : option (answer T * fworld T) :=
  let live i := match fw_objs w !! i with Some f => if f_moved f then None else Some f | None => None end in
  match o with
  | XOp o => f_step sz al N chk nd clone o w
  | XSwap i j =>
    match live i, live j with
    | Some f, Some g => Some (AUnit, FWorld (<[j := with_base g f]> (<[i := with_base f g]> (fw_objs w))) (fw_h w) (fw_drops w))
    | _, _ => None
    end
  (** src/vector/mod.rs:329-336, [Drop for Vector], of the base vector; then the
      storage of [buffer] ends.  [f_moved] marks the object as gone. *)
  | XDrop i =>
    match live i with
    | Some f =>
      match clear (FixedAlloc T) sz al chk nd (f_state w f) with
      | Ok _ s' => Some (AUnit, FWorld (<[i := Fixed (st_v s') (st_a s') (f_buf f) true]> (fw_objs w)) (hdel (st_h s') (f_buf f)) (st_drops s'))
      | Panic s' => Some (APanic, FWorld (<[i := Fixed (st_v s') (st_a s') (f_buf f) true]> (fw_objs w)) (hdel (st_h s') (f_buf f)) (st_drops s'))
      | UB => None
      end
    | None => None
    end
  end.

Fixpoint x_run (os : list xop) (w : fworld T) : option (list (answer T) * fworld T) :=
  match os with
  | [] => Some ([], w)
  | o :: os' =>
    match x_step o w with
    | None => None
    | Some (a, w') =>
      match x_run os' w' with
      | None => None
      | Some (l, w'') => Some (a :: l, w'')
      end
    end
  end.
End swap.
Arguments xop : clear implicits.
