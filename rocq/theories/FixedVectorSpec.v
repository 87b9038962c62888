(** Independent specification of [FixedVector]: a list, a capacity, and whether
    the elements have left the inline buffer for good. *)
From Verif Require Import Base Vector VectorSpec FixedVector.

Section spec.
Context {T : Type}.
Variable fits : nat -> bool.
Variable cl : T -> T.
Variable N : nat.

Record sfixed : Type := SFixed { sf_vec : svec T; sf_over : bool }.

Definition is_clear (c : call T) : bool := match c with CClear => true | _ => false end.

(** [None] in the list of objects: moved away. *)
Definition spec_fop (o : fop T) (ss : list (option sfixed))
  : option (answer T * list T * list (option sfixed)) :=
  let with_obj i k := match ss !! i with Some (Some f) => Some (k f) | _ => None end in
  match o with
  | FNew => if N =? 0 then Some (APanic, [], ss) else Some (AUnit, [], ss ++ [Some (SFixed (SVec [] N) false)])
  | FCall i c => with_obj i (fun f =>
      match spec_call fits cl c (sf_vec f) with
      | (a, d, v') =>
        (a, d, <[i := Some (SFixed v' (sf_over f || is_clear c || negb (room v' =? room (sf_vec f))))]> ss)
      end)
  | FMove i _ _ => with_obj i (fun f => (AUnit, [], <[i := None]> ss ++ [Some f]))
  | FOverflowed i => with_obj i (fun f => (ABool (sf_over f), [], ss))
  | FMaxSize i => with_obj i (fun f => (ANat N, [], ss))
  end.

Fixpoint spec_fops (os : list (fop T)) (ss : list (option sfixed))
  : option (list (answer T) * list T * list (option sfixed)) :=
  match os with
  | [] => Some ([], [], ss)
  | o :: os' =>
    match spec_fop o ss with
    | None => None
    | Some (a, d, ss') =>
      match spec_fops os' ss' with
      | None => None
      | Some (l, d', ss'') => Some (a :: l, d ++ d', ss'')
      end
    end
  end.

Definition f_is_move (o : fop T) : bool := match o with FCall _ c => is_move c | _ => true end.
(** The call names a number of elements that a vector could hold (see
    [modest]).  Only release builds need this. *)
Definition f_modest (sz : Z) (o : fop T) : bool := match o with FCall _ c => modest sz c | _ => true end.
Definition f_clears (o : fop T) : bool := match o with FCall _ c => is_clear c | _ => false end.
End spec.
Arguments sfixed : clear implicits.

(** What a user of one fixed vector can see of it: its elements, its capacity
    and its overflow flag. *)
Definition shows {T} (sz : Z) (N : nat) (w : fworld T) (f : fixed) (xs : list T) (cap : nat) (over : bool) : Prop :=
  as_slice sz (f_state w f) = Ok xs (f_state w f) /\
  capacity sz (f_state w f) = Ok cap (f_state w f) /\
  has_overflowed N f = Some over.
