(** Independent specification of [Vector]: a list with a capacity counter.
    Only the vocabulary of calls and answers is shared with the model. *)
From Verif Require Import Base Vector.

Record svec (T : Type) : Type := SVec { items : list T; room : nat }.
Arguments SVec {T}.
Arguments items {T}.
Arguments room {T}.

Section spec.
Context {T : Type}.
(** Largest capacities that can be allocated at all. *)
Variable fits : nat -> bool.
Variable cl : T -> T.

(** Answer, elements whose destructor ran, new contents and capacity. *)
Definition sresult : Type := answer T * list T * svec T.

(** Continue with capacity [k] if it is the current one or can be allocated,
    otherwise panic, change nothing, and drop the arguments [args]. *)
Definition with_room (k : nat) (s : svec T) (args : list T) (xs : list T) (dropped : list T)
  : sresult :=
  if (k =? room s) || fits k then (AUnit, dropped, SVec xs k)
  else (APanic, args, s).

(** Capacity after making room for one more element: doubling when full. *)
Definition room_for_one (s : svec T) : nat :=
  if length (items s) =? room s
  then (if room s =? 0 then 1 else 2 * room s)
  else room s.

Definition spec_call (c : call T) (s : svec T) : sresult :=
  let xs := items s in
  match c with
  | CPush x => with_room (room_for_one s) s [x] (xs ++ [x]) []
  | CPop => (AOpt (last xs), [], SVec (removelast xs) (room s))
  | CInsert i x =>
    if i <=? length xs
    then with_room (room_for_one s) s [x] (take i xs ++ x :: drop i xs) []
    else (APanic, [x], s)
  | CRemove i => (AOpt (xs !! i), [], SVec (take i xs ++ drop (S i) xs) (room s))
  | CReserve n => with_room (room s + n) s [] xs []
  | CClear => (AUnit, xs, SVec [] 0)
  | CAppend buf => with_room (Nat.max (room s) (length xs + length buf)) s [] (xs ++ map cl buf) []
  | CAssign buf => with_room (Nat.max (room s) (length buf)) s [] (map cl buf) (take (length buf) xs)
  | CSet i x =>
    match xs !! i with
    | Some old => (AUnit, [old], SVec (<[i := x]> xs) (room s))
    | None => (APanic, [x], s)
    end
  | CSwap i j =>
    match xs !! i, xs !! j with
    | Some x, Some y => (AUnit, [], SVec (<[j := x]> (<[i := y]> xs)) (room s))
    | _, _ => (APanic, [], s)
    end
  | CLen => (ANat (length xs), [], s)
  | CCapacity => (ANat (room s), [], s)
  | CIsEmpty => (ABool (length xs =? 0), [], s)
  | CIsFull => (ABool (length xs =? room s), [], s)
  | CAsSlice => (ASlice xs, [], s)
  end.

(** All answers, all dropped elements in order, and the final state. *)
Fixpoint spec_calls (cs : list (call T)) (s : svec T) : list (answer T) * list T * svec T :=
  match cs with
  | [] => ([], [], s)
  | c :: cs' =>
    match spec_call c s with
    | (a, d, s') =>
      match spec_calls cs' s' with
      | (l, d', s'') => (a :: l, d ++ d', s'')
      end
    end
  end.

(** Pushing a list: answer, dropped elements, result.  When growing becomes
    impossible everything pushed and everything still to come is dropped. *)
Fixpoint spec_pushes (xs : list T) (s : svec T) : sresult :=
  match xs with
  | [] => (AUnit, [], s)
  | x :: xs' =>
    let k := room_for_one s in
    if (k =? room s) || fits k then spec_pushes xs' (SVec (items s ++ [x]) k)
    else (APanic, x :: xs' ++ items s, s)
  end.

(** A new vector with its answer and drops; [None]: no vector (panic). *)
Definition spec_build (r : sresult) : answer T * list T * list (svec T) :=
  match r with
  | (APanic, d, _) => (APanic, d, [])
  | (a, d, s) => (a, d, [s])
  end.

(** Several vectors: each is just its own list. *)
Definition spec_wop (o : wop T) (ss : list (svec T)) : option (answer T * list T * list (svec T)) :=
  let new r := match spec_build r with (a, d, l) => Some (a, d, ss ++ l) end in
  let empty := SVec [] 0 in
  match o with
  | WNew => new (AUnit, [], empty)
  | WWithCapacity n => new (with_room n empty [] [] [])
  | WFrom buf => new (with_room (length buf) empty [] (map cl buf) [])
  | WIter hint xs =>
    new (if (hint =? 0) || fits hint then spec_pushes xs (SVec [] hint) else (APanic, xs, empty))
  | WClone i =>
    match ss !! i with
    | Some s => new (with_room (length (items s)) empty [] (map cl (items s)) [])
    | None => None
    end
  | WCall i c =>
    match ss !! i with
    | Some s => match spec_call c s with (a, d, s') => Some (a, d, <[i := s']> ss) end
    | None => None
    end
  end.

Fixpoint spec_wops (os : list (wop T)) (ss : list (svec T))
  : option (list (answer T) * list T * list (svec T)) :=
  match os with
  | [] => Some ([], [], ss)
  | o :: os' =>
    match spec_wop o ss with
    | None => None
    | Some (a, d, ss') =>
      match spec_wops os' ss' with
      | None => None
      | Some (l, d', ss'') => Some (a :: l, d ++ d', ss'')
      end
    end
  end.

(** Calls that only move elements (no cloning). *)
Definition is_move (c : call T) : bool :=
  match c with CAppend _ | CAssign _ => false | _ => true end.

Definition w_is_move (o : wop T) : bool :=
  match o with WFrom _ | WClone _ => false | WCall _ c => is_move c | _ => true end.

(** How many elements a call names, and whether as many elements of [sz]
    bytes are within [isize::MAX] bytes.  No Rust value and no slice is larger
    than that, so only the argument of [reserve] can fail it. *)
Definition named (c : call T) : nat :=
  match c with
  | CPush _ | CInsert _ _ => 1
  | CReserve n => n
  | CAppend buf | CAssign buf => length buf
  | _ => 0
  end.
Definition modest (sz : Z) (c : call T) : bool := (Z.of_nat (named c) * sz <=? isize_max)%Z.

(** The same for programs with several vectors. *)
Definition w_named (o : wop T) : nat :=
  match o with
  | WNew | WClone _ => 0
  | WWithCapacity n => n
  | WFrom buf => length buf
  | WIter hint _ => Nat.max 1 hint
  | WCall _ c => named c
  end.
Definition w_modest (sz : Z) (o : wop T) : bool := (Z.of_nat (w_named o) * sz <=? isize_max)%Z.

(** Elements handed to the vector by a call, and handed back by an answer. *)
Definition given (c : call T) : list T :=
  match c with CPush x | CInsert _ x | CSet _ x => [x] | _ => [] end.
Definition returned (a : answer T) : list T :=
  match a with AOpt (Some x) => [x] | _ => [] end.

(** Capacity after call [c] answered [a], from length [n] and capacity [k]. *)
Definition next_capacity (c : call T) (a : answer T) (n k : nat) : nat :=
  match a with
  | APanic => k
  | _ =>
    match c with
    | CPush _ | CInsert _ _ => if n =? k then (if k =? 0 then 1 else 2 * k) else k
    | CReserve m => k + m
    | CAppend buf => Nat.max k (n + length buf)
    | CAssign buf => Nat.max k (length buf)
    | CClear => 0
    | _ => k
    end
  end.

End spec.
