(** Specification: each vector is a list with a capacity, each consuming iterator a list
    that is taken apart from both ends.  Allocators do not occur. *)
From Verif Require Import Base Vector VectorSpec IterSpec Owned.

Inductive sobj (T : Type) : Type := SV (s : svec T) | SI (cap : nat) (xs : list T).
Arguments SV {T}.
Arguments SI {T}.

Section spec.
Context {T : Type}.
Variable fits : nat -> bool.
Variable cl : T -> T.

(** Answer, destroyed elements, and the objects afterwards. *)
Definition spec_oop (o : oop T) (ss : list (option (sobj T))) : option (oanswer T * list T * list (option (sobj T))) :=
  let new r := match spec_build r with (a, d, l) => Some (RVec a, d, ss ++ map (fun s => Some (SV s)) l) end in
  let empty := SVec [] 0 in
  match o with
  | ONew => new (AUnit, [], empty)
  | OFrom buf => new (with_room fits (length buf) empty [] (map cl buf) [])
  | OCollect hint xs => new (if (hint =? 0) || fits hint then spec_pushes fits xs (SVec [] hint) else (APanic, xs, empty))
  | OClone i =>
    match ss !! i with
    | Some (Some (SV s)) => new (with_room fits (length (items s)) empty [] (map cl (items s)) [])
    | _ => None
    end
  | OCall i c =>
    match ss !! i with
    | Some (Some (SV s)) => match spec_call fits cl c s with (a, d, s') => Some (RVec a, d, <[i := Some (SV s')]> ss) end
    | _ => None
    end
  | OInto i =>
    match ss !! i with
    | Some (Some (SV s)) => Some (RVec AUnit, [], <[i := None]> ss ++ [Some (SI (room s) (items s))])
    | _ => None
    end
  | OIter i c =>
    match ss !! i with
    | Some (Some (SI cap xs)) => match ispec_call cap c xs with (a, xs') => Some (RIter a, [], <[i := Some (SI cap xs')]> ss) end
    | _ => None
    end
  | ODrop i =>
    match ss !! i with
    | Some (Some (SV s)) => Some (RVec AUnit, items s, <[i := None]> ss)
    | Some (Some (SI _ xs)) => Some (RVec AUnit, xs, <[i := None]> ss)
    | _ => None
    end
  end.

Fixpoint spec_oops (os : list (oop T)) (ss : list (option (sobj T)))
  : option (list (oanswer T) * list T * list (option (sobj T))) :=
  match os with
  | [] => Some ([], [], ss)
  | o :: os' =>
    match spec_oop o ss with
    | None => None
    | Some (a, d, ss') =>
      match spec_oops os' ss' with
      | None => None
      | Some (l, d', ss'') => Some (a :: l, d ++ d', ss'')
      end
    end
  end.

(** Operations that make an allocator. *)
Definition makes (o : oop T) : bool := match o with ONew | OFrom _ | OCollect _ _ | OClone _ => true | _ => false end.

(** Operations without cloning of elements, and the size of their arguments, as for
    programs with vectors only. *)
Definition o_is_move (o : oop T) : bool :=
  match o with OFrom _ | OClone _ => false | OCall _ c => is_move c | _ => true end.
Definition o_named (o : oop T) : nat :=
  match o with OFrom buf => length buf | OCollect hint _ => Nat.max 1 hint | OCall _ c => named c | _ => 0 end.
Definition o_fine (sz : Z) (o : oop T) : bool := (Z.of_nat (o_named o) * sz <=? isize_max)%Z.

End spec.

(** The allocators that the objects hold. *)
Fixpoint in_use (l : list (option obj)) : list nat :=
  match l with
  | [] => []
  | Some o :: l' => ob_alloc o :: in_use l'
  | None :: l' => in_use l'
  end.
