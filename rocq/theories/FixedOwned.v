(** Fixed vectors whose overflow allocators are values of their own, and the allocators may
    have a destructor.  [FixedVector.v] follows everything else. *)
From Verif Require Import Base Heap Alloc Vector FixedVector.

(** The fixed vectors, and for each the value in [base_vec.allocator.overflow_allocator]
    (src/fixed_vector/mod.rs:20-24, src/fixed_vector/allocator.rs:6-11) by number; [None] is
    memory that was never initialised.  Then the number of allocators made so far. *)
Record xworld (T : Type) : Type := XWorld { xw : fworld T; xw_alloc : list (option nat); xw_made : nat }.
Arguments XWorld {T}.
Arguments xw {T}.
Arguments xw_alloc {T}.
Arguments xw_made {T}.

Section fixed_owned.
Context {T : Type}.
Variables sz al : Z.
Variable N : nat.
Variable chk nd : bool.
Variable clone : T -> option T.
(** The type of the overflow allocator has a destructor. *)
Variable dtor : bool.

(** The drop of the field: a destructor that runs on memory without a value is undefined. *)
Definition drop_alloc (f : option nat) : option unit :=
  if dtor then match f with Some _ => Some tt | None => None end else Some tt.

(** src/fixed_vector/mod.rs:34-43: the allocator is put into the new object; if [with]
    panics, the object stays behind in its storage and is not dropped.
    src/fixed_vector/mod.rs:67-90: [mem::swap] exchanges the source's allocator with what is
    in the target's storage, which is not initialised.  Then [MoveRef] drops the source, and
    with it its fields.  The other calls leave the allocator where it is. *)
Definition x_step (o : fop T) (w : xworld T) : option (answer T * xworld T) :=
  match f_step sz al N chk nd clone o (xw w) with
  | None => None
  | Some (a, w') =>
    match o with
    | FNew =>
      match a with
      | AUnit => Some (a, XWorld w' (xw_alloc w ++ [Some (xw_made w)]) (S (xw_made w)))
      | _ => Some (a, XWorld w' (xw_alloc w) (S (xw_made w)))
      end
    | FMove i _ _ =>
      match xw_alloc w !! i with
      | None => None
      | Some f =>
        let target := f in
        let source := None in
        match drop_alloc source with
        | None => None
        | Some _ => Some (a, XWorld w' (<[i := source]> (xw_alloc w) ++ [target]) (xw_made w))
        end
      end
    | _ => Some (a, XWorld w' (xw_alloc w) (xw_made w))
    end
  end.

Fixpoint x_run (os : list (fop T)) (w : xworld T) : option (list (answer T) * xworld T) :=
  match os with
  | [] => Some ([], w)
  | o :: os' =>
    match x_step o w with
    | None => None
    | Some (a, w') =>
      match x_run os' w' with
      | None => None
      | Some (l, w'') => Some (a :: l, w'')
      end
    end
  end.
End fixed_owned.
