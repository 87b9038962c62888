(** Vectors whose allocators are values of their own: several vectors and consuming
    iterators over one heap, each with the allocator it was given.  An allocator may have
    a destructor, so it matters when it is dropped and that memory goes back to the
    allocator that it came from. *)
From Verif Require Import Base Heap Alloc Vector.

(** An allocator value is known by a number.  The blocks of the heap have no field for
    where they came from; the recorded alignment carries it, as a multiple of 2^64. *)
Definition mark : Z := 18446744073709551616.
Definition from_alloc {C} (bk : block C) : Z := (bk_align bk / mark)%Z.

(** An allocator of the caller's that works like the default one (src/allocator.rs:101-116)
    with memory of its own: giving it memory that came from another is undefined. *)
Definition OwnedAlloc (C : Type) (id : nat) : AllocImpl unit C := {|
  ai_alloc := fun sz bytes align s =>
    if (bytes =? 0)%Z then Panic s
    else if layout_ok bytes align
    then Ok (Ptr (h_next (snd s)) 0)
            (fst s, halloc (snd s) (Block bytes (align + mark * Z.of_nat id) (replicate (Z.to_nat (bytes / sz)) None)))
    else Panic s;
  ai_free := fun p bytes align s =>
    if layout_ok bytes align
    then match hfree (snd s) p bytes (align + mark * Z.of_nat id) with
         | Some h => Ok tt (fst s, h)
         | None => UB
         end
    else Panic s
|}.

(** A vector (src/vector/mod.rs:20-30) or a consuming iterator (src/vector/into_iter.rs:8-14);
    the field [allocator] is the number of the value in it. *)
Inductive body : Type := BVec (v : vec) | BIter (it : into_iter).
Record obj : Type := Obj { ob_alloc : nat; ob_body : body }.

(** Objects in order of creation ([None]: dropped, or given to [into_iter]); the heap; the
    elements destroyed; the allocators dropped; the number of allocators made so far. *)
Record oworld (T : Type) : Type := OWorld {
  ow_objs : list (option obj); ow_h : heap T; ow_drops : list T; ow_gone : list nat; ow_made : nat
}.
Arguments OWorld {T}.
Arguments ow_objs {T}.
Arguments ow_h {T}.
Arguments ow_drops {T}.
Arguments ow_gone {T}.
Arguments ow_made {T}.

(** The constructors with an allocator made for them; [OClone i] clones the vector [i] and
    its allocator; [OInto i] turns vector [i] into an iterator; [ODrop i] drops object [i]. *)
Inductive oop (T : Type) : Type :=
| ONew | OFrom (buf : list T) | OCollect (hint : nat) (xs : list T) | OClone (i : nat)
| OCall (i : nat) (c : call T) | OInto (i : nat) | OIter (i : nat) (c : icall) | ODrop (i : nat).
Arguments ONew {T}.
Arguments OFrom {T}.
Arguments OCollect {T}.
Arguments OClone {T}.
Arguments OCall {T}.
Arguments OInto {T}.
Arguments OIter {T}.
Arguments ODrop {T}.

Inductive oanswer (T : Type) : Type := RVec (a : answer T) | RIter (a : @ianswer T).
Arguments RVec {T}.
Arguments RIter {T}.

Section owned.
Context {T : Type}.
Variables sz al : Z.
Variable chk nd : bool.
Variable clone : T -> option T.

Definition v_at (w : oworld T) (v : vec) : vstate unit T := VState v tt (ow_h w) (ow_drops w).

(** A constructor that was given the next allocator.  If it panics, unwinding drops the
    unfinished vector and with it the allocator. *)
Definition o_build (w : oworld T) (r : outcome (vstate unit T) vec) : option (oanswer T * oworld T) :=
  match r with
  | Ok v s => Some (RVec AUnit, OWorld (ow_objs w ++ [Some (Obj (ow_made w) (BVec v))]) (st_h s) (st_drops s) (ow_gone w) (S (ow_made w)))
  | Panic s => Some (RVec APanic, OWorld (ow_objs w) (st_h s) (st_drops s) (ow_gone w ++ [ow_made w]) (S (ow_made w)))
  | UB => None
  end.

(** The end of an object: its [Drop] (src/vector/mod.rs:329-336, src/vector/into_iter.rs:51-63),
    then the drop of its fields, of which only the allocator has a destructor. *)
Definition o_gone (w : oworld T) (i k : nat) (s : vstate unit T) : oworld T :=
  OWorld (<[i := None]> (ow_objs w)) (st_h s) (st_drops s) (ow_gone w ++ [k]) (ow_made w).

(** [None]: undefined behaviour, or an object that is not there. *)
Definition o_step (o : oop T) (w : oworld T) : option (oanswer T * oworld T) :=
  let AI := OwnedAlloc T in
  match o with
  (** src/vector/mod.rs:34-36 and 57-65 *)
  | ONew => o_build w (Ok new_in (v_at w new_in))
  (** src/vector/mod.rs:269-273 and the [From] impls *)
  | OFrom buf => o_build w (from_in (AI (ow_made w)) sz al chk nd clone buf (v_at w new_in))
  (** src/vector/mod.rs:392-402 *)
  | OCollect hint xs => o_build w (from_iter (AI (ow_made w)) sz al chk nd hint xs (v_at w new_in))
  (** src/vector/mod.rs:317-321: the slice is read, [self.allocator.clone()] makes an
      allocator, and the copy is built with it *)
  | OClone i =>
    match ow_objs w !! i with
    | Some (Some (Obj _ (BVec v))) =>
      match as_slice sz (v_at w v) with
      | Ok xs _ => o_build w (from_in (AI (ow_made w)) sz al chk nd clone xs (v_at w new_in))
      | _ => None
      end
    | _ => None
    end
  | OCall i c =>
    match ow_objs w !! i with
    | Some (Some (Obj k (BVec v))) =>
      match step (AI k) sz al chk nd clone c (v_at w v) with
      | Some (a, s) => Some (RVec a, OWorld (<[i := Some (Obj k (BVec (st_v s)))]> (ow_objs w)) (st_h s) (st_drops s) (ow_gone w) (ow_made w))
      | None => None
      end
    | _ => None
    end
  (** src/vector/mod.rs:408-424: [ptr::read] copies the allocator into the iterator and
      [mem::forget] keeps the vector, with its copy, from being dropped *)
  | OInto i =>
    match ow_objs w !! i with
    | Some (Some (Obj k (BVec v))) =>
      let s := vec_into_iter (v_at w v) in
      Some (RVec AUnit, OWorld (<[i := None]> (ow_objs w) ++ [Some (Obj k (BIter (is_it s)))]) (st_h (is_st s)) (st_drops (is_st s)) (ow_gone w) (ow_made w))
    | _ => None
    end
  | OIter i c =>
    match ow_objs w !! i with
    | Some (Some (Obj k (BIter it))) =>
      match iexec sz c (IState it (v_at w new_in)) with
      | Ok a s => Some (RIter a, OWorld (<[i := Some (Obj k (BIter (is_it s)))]> (ow_objs w)) (st_h (is_st s)) (st_drops (is_st s)) (ow_gone w) (ow_made w))
      | _ => None
      end
    | _ => None
    end
  | ODrop i =>
    match ow_objs w !! i with
    | Some (Some (Obj k (BVec v))) =>
      match clear (AI k) sz al chk nd (v_at w v) with
      | Ok _ s => Some (RVec AUnit, o_gone w i k s)
      | _ => None
      end
    | Some (Some (Obj k (BIter it))) =>
      match ii_drop (AI k) sz al chk nd (IState it (v_at w new_in)) with
      | Ok _ s => Some (RVec AUnit, o_gone w i k (is_st s))
      | _ => None
      end
    | _ => None
    end
  end.

Fixpoint o_run (os : list (oop T)) (w : oworld T) : option (list (oanswer T) * oworld T) :=
  match os with
  | [] => Some ([], w)
  | o :: os' =>
    match o_step o w with
    | None => None
    | Some (a, w') =>
      match o_run os' w' with
      | None => None
      | Some (l, w'') => Some (a :: l, w'')
      end
    end
  end.

End owned.
