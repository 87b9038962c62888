(** Fixed vectors over an overflow allocator that may hand out an address again,
    and whose old storage may be given back after a move. *)
From Verif Require Import Base Heap Alloc Vector FixedVector.

(** src/allocator.rs:101-109, [DefaultAllocator::allocate_raw_aligned], with the
    choice of the address left to [place] (in [Alloc] every address is new). *)
Definition placed_alloc {C} (place : heap C -> nat) (sz bytes align : Z) : M (unit * heap C) ptr := fun s =>
  if (bytes =? 0)%Z then Panic s
  else if layout_ok bytes align
  then let b := place (snd s) in
       Ok (Ptr b 0) (fst s, Heap (Nat.max (h_next (snd s)) (S b))
         (<[b := Block bytes align (replicate (Z.to_nat (bytes / sz)) None)]> (h_blk (snd s))))
  else Panic s.

(** src/fixed_vector/allocator.rs:35-45, as [FixedAlloc], over this allocator. *)
Definition FixedAllocAt (T : Type) (place : heap T -> nat) : AllocImpl ptr T := {|
  ai_alloc := fun sz bytes align s =>
    match placed_alloc place sz bytes align (tt, snd s) with
    | Ok p (_, h) => Ok p (fst s, h)
    | Panic (_, h) => Panic (fst s, h)
    | UB => UB
    end;
  ai_free := ai_free (FixedAlloc T)
|}.

Section reuse.
Context {T : Type}.
Variables sz al : Z.
Variable N : nat.
Variable chk nd : bool.
Variable clone : T -> option T.
Variable place : heap T -> nat.

(** [GEnd i]: the storage of object [i], which was moved away, is given back to
    whoever provided it; other operations as before. *)
Inductive gop : Type := GOp (o : fop T) | GEnd (i : nat).

(** src/fixed_vector/mod.rs:119-135, as [f_call], and the other operations of
    [FixedVector]. *)
Definition g_step (o : gop) (w : fworld T) : option (answer T * fworld T) :=
  match o with
  | GOp (FCall i c) =>
    match fw_objs w !! i with
    | Some f =>
      if f_moved f then None
      else match step (FixedAllocAt T place) sz al chk nd clone c (f_state w f) with
           | Some (a, s') => Some (a, FWorld (<[i := Fixed (st_v s') (st_a s') (f_buf f) (f_moved f)]> (fw_objs w)) (st_h s') (st_drops s'))
           | None => None
           end
    | None => None
    end
  | GOp o => f_step sz al N chk nd clone o w
  | GEnd i =>
    match fw_objs w !! i with
    | Some f => if f_moved f then Some (AUnit, FWorld (fw_objs w) (hdel (fw_h w) (f_buf f)) (fw_drops w)) else None
    | None => None
    end
  end.

Fixpoint g_run (os : list gop) (w : fworld T) : option (list (answer T) * fworld T) :=
  match os with
  | [] => Some ([], w)
  | o :: os' =>
    match g_step o w with
    | None => None
    | Some (a, w') =>
      match g_run os' w' with
      | None => None
      | Some (l, w'') => Some (a :: l, w'')
      end
    end
  end.
End reuse.
Arguments gop : clear implicits.
