(** Specification of consuming iteration over a list, from both ends. *)
From Verif Require Import Base Vector.

Section spec.
Context {T : Type}.
Variable cap : nat.

Definition ispec_call (c : icall) (xs : list T) : ianswer * list T :=
  match c with
  | INext => (IAOpt (head xs), tail xs)
  | INextBack => (IAOpt (last xs), removelast xs)
  | ILen => (IANat (length xs), xs)
  | IIsEmpty => (IABool (length xs =? 0), xs)
  | IAsSlice => (IASlice xs, xs)
  | ICapacity => (IANat cap, xs)
  end.

(** All answers and the elements not handed out. *)
Fixpoint ispec_calls (cs : list icall) (xs : list T) : list ianswer * list T :=
  match cs with
  | [] => ([], xs)
  | c :: cs' =>
    let '(a, xs') := ispec_call c xs in
    let '(l, xs'') := ispec_calls cs' xs' in
    (a :: l, xs'')
  end.

(** What the answers handed out from the front, and from the back. *)
Fixpoint from_front (cs : list icall) (l : list (@ianswer T)) : list T :=
  match cs, l with
  | INext :: cs', IAOpt (Some x) :: l' => x :: from_front cs' l'
  | _ :: cs', _ :: l' => from_front cs' l'
  | _, _ => []
  end.
Fixpoint from_back (cs : list icall) (l : list (@ianswer T)) : list T :=
  match cs, l with
  | INextBack :: cs', IAOpt (Some x) :: l' => x :: from_back cs' l'
  | _ :: cs', _ :: l' => from_back cs' l'
  | _, _ => []
  end.

End spec.
