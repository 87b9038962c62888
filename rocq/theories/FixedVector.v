(** Model of src/fixed_vector/mod.rs and src/fixed_vector/allocator.rs. *)
From Verif Require Import Base Heap Alloc Vector.

(** src/fixed_vector/allocator.rs:6-11, 18-33 and 35-45: [FixedVectorAllocator] over
    the default allocator (which has no state); the value is [pool_begin].
    Allocation always goes to the overflow allocator; freeing the pool is
    skipped. *)
Definition FixedAlloc (T : Type) : AllocImpl ptr T := {|
  ai_alloc := fun sz bytes align s =>
    match default_alloc sz bytes align (tt, snd s) with
    | Ok p (_, h) => Ok p (fst s, h)
    | Panic (_, h) => Panic (fst s, h)
    | UB => UB
    end;
  ai_free := fun p bytes align s =>
    if decide (p = fst s) then Ok tt s
    else match default_free p bytes align (tt, snd s) with
         | Ok _ (_, h) => Ok tt (fst s, h)
         | Panic (_, h) => Panic (fst s, h)
         | UB => UB
         end
|}.

Section fixed_vector.
Context {T : Type}.
Variables sz al : Z.
(** [NODE_COUNT]. *)
Variable N : nat.
Variable chk nd : bool.
Variable clone : T -> option T.

(** src/fixed_vector/mod.rs:21-24.  [f_buf] is the block that stands for the
    field [buffer]; [f_pool] is [base_vec.allocator.pool_begin].  [f_moved]: the
    object was the source of a move, so safe code cannot name it any more. *)
Record fixed : Type := Fixed { f_vec : vec; f_pool : ptr; f_buf : nat; f_moved : bool }.

(** The storage of [buffer]: [N] uninitialised cells.  The size -1 marks memory
    that does not come from the allocator: freeing it is undefined.  (Its end of
    life is not modelled.) *)
Definition inline_block : block T := Block (-1) al (replicate N None).

(** mod.rs:45-51, [init_base_vec]; [self.buffer[0]] panics when [N = 0]. *)
Definition init_base_vec (f : fixed) : option fixed :=
  if N =? 0 then None
  else Some (Fixed (Vec (Ptr (f_buf f) 0) (Ptr (f_buf f) 0) (Ptr (f_buf f) N)) (Ptr (f_buf f) 0) (f_buf f) (f_moved f)).

(** mod.rs:34-43, [new_in]: [base_vec] is [Vector::new_in], then initialised. *)
Definition f_new (h : heap T) : option fixed * heap T :=
  (init_base_vec (Fixed new_in Null (h_next h) false), halloc h inline_block).

(** mod.rs:100-102, [has_overflowed]; [None] is the panic of [self.buffer[0]]. *)
Definition has_overflowed (f : fixed) : option bool :=
  if N =? 0 then None else Some (negb (bool_decide (v_begin (f_vec f) = Ptr (f_buf f) 0))).

(** Programs with any number of fixed vectors over one heap. *)
Record fworld : Type := FWorld { fw_objs : list fixed; fw_h : heap T; fw_drops : list T }.

Definition f_state (w : fworld) (f : fixed) : vstate ptr T := VState (f_vec f) (f_pool f) (fw_h w) (fw_drops w).

(** Calls through [Deref]/[DerefMut] (mod.rs:119-135) reach [base_vec]. *)
Definition f_call (i : nat) (f : fixed) (c : call T) (w : fworld) : option (answer T * fworld) :=
  match step (FixedAlloc T) sz al chk nd clone c (f_state w f) with
  | Some (a, s') => Some (a, FWorld (<[i := Fixed (st_v s') (st_a s') (f_buf f) (f_moved f)]> (fw_objs w)) (st_h s') (st_drops s'))
  | None => None
  end.

(** mod.rs:67-90, [move_new], into new uninitialised storage whose bytes are
    the arbitrary [g] and [gp] ([assume_init_mut] on it is taken to be fine).
    At the end the source is dropped, as [MoveRef] does. *)
Definition f_move (i : nat) (src : fixed) (g : vec) (gp : ptr) (w : fworld) : option (answer T * fworld) :=
  let h := halloc (fw_h w) inline_block in
  let this := Fixed g (f_pool src) (h_next (fw_h w)) false in
  let finish this' h' :=
    let src' := Fixed (Vec Null (v_end (f_vec src)) (v_cap (f_vec src))) gp (f_buf src) true in
    match clear (FixedAlloc T) sz al chk nd (VState (f_vec src') (f_pool src') h' (fw_drops w)) with
    | Ok _ s' => Some (AUnit, FWorld (<[i := Fixed (st_v s') (st_a s') (f_buf src) true]> (fw_objs w) ++ [this']) (st_h s') (st_drops s'))
    | _ => None
    end in
  match has_overflowed src with
  | None => Some (APanic, w)
  | Some false =>
    match hraw h (Ptr (f_buf this) 0) N, hraw h (Ptr (f_buf src) 0) N with
    | Some a, Some b =>
      match hput h (Ptr (f_buf this) 0) b with
      | Some h1 =>
        match hput h1 (Ptr (f_buf src) 0) a with
        | Some h2 =>
          match init_base_vec this with
          | None => Some (APanic, w)
          | Some this' =>
            match pdiff (v_end (f_vec src)) (v_begin (f_vec src)) with
            | Some n =>
              match hadd h2 (v_begin (f_vec this')) n with
              | Some e => finish (Fixed (Vec (v_begin (f_vec this')) e (v_cap (f_vec this'))) (f_pool this') (f_buf this') false) h2
              | None => None
              end
            | None => None
            end
          end
        | None => None
        end
      | None => None
      end
    | _, _ => None
    end
  | Some true => finish (Fixed (f_vec src) (f_pool this) (f_buf this) false) h
  end.

Inductive fop : Type :=
| FNew | FCall (i : nat) (c : call T) | FMove (i : nat) (g : vec) (gp : ptr) | FOverflowed (i : nat) | FMaxSize (i : nat).

(** [None]: undefined behaviour, or an object that cannot be named. *)
Definition f_step (o : fop) (w : fworld) : option (answer T * fworld) :=
  let with_obj i k := match fw_objs w !! i with
                      | Some f => if f_moved f then None else k f
                      | None => None
                      end in
  match o with
  | FNew =>
    match f_new (fw_h w) with
    | (Some f, h) => Some (AUnit, FWorld (fw_objs w ++ [f]) h (fw_drops w))
    | (None, h) => Some (APanic, FWorld (fw_objs w) h (fw_drops w))
    end
  | FCall i c => with_obj i (fun f => f_call i f c w)
  | FMove i g gp => with_obj i (fun f => f_move i f g gp w)
  | FOverflowed i => with_obj i (fun f => Some (match has_overflowed f with Some b => ABool b | None => APanic end, w))
  (** mod.rs:95-97, [max_size]. *)
  | FMaxSize i => with_obj i (fun f => Some (ANat N, w))
  end.

Fixpoint f_run (os : list fop) (w : fworld) : option (list (answer T) * fworld) :=
  match os with
  | [] => Some ([], w)
  | o :: os' =>
    match f_step o w with
    | None => None
    | Some (a, w') =>
      match f_run os' w' with
      | None => None
      | Some (l, w'') => Some (a :: l, w'')
      end
    end
  end.
End fixed_vector.
Arguments fworld : clear implicits.
Arguments fop : clear implicits.
