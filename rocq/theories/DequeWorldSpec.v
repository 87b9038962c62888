(** Independent specification of several double-ended queues used in turn: each place has a
    list or nothing; a call concerns only the list at its place. *)
From Verif Require Import Base Heap Deque DequeSpec DequeWorld.

(** Which places hold a deque; [None] when a program uses one that is not there or creates
    one where there is one. *)
Definition alive_after {T} (o : dop T) (al : list bool) : option (list bool) :=
  match o with
  | QNew i => match al !! i with Some false => Some (<[i := true]> al) | _ => None end
  | QCall i _ => match al !! i with Some true => Some al | _ => None end
  | QDrop i => match al !! i with Some true => Some (<[i := false]> al) | _ => None end
  | QSwap i j => match al !! i, al !! j with Some true, Some true => Some al | _, _ => None end
  end.
Fixpoint proper {T} (os : list (dop T)) (al : list bool) : bool :=
  match os with
  | [] => true
  | o :: os' => match alive_after o al with Some al' => proper os' al' | None => false end
  end.

(** [all_explained big os l d xss xss']: the answers [l] of the program [os] and the elements
    [d] destroyed are those of separate lists going from [xss] to [xss'].  From the
    length [big] on a push may panic, and then only drops its argument. *)
Inductive all_explained {T} (big : Z) : list (dop T) -> list (option (danswer T)) -> list T -> list (option (list T)) -> list (option (list T)) -> Prop :=
| all_nil xss : all_explained big [] [] [] xss xss
| all_new i os l d xss xss' : xss !! i = Some None ->
    all_explained big os l d (<[i := Some []]> xss) xss' ->
    all_explained big (QNew i :: os) (Some DUnit :: l) d xss xss'
| all_answer i c os a l d d' xs xs1 xss xss' : xss !! i = Some (Some xs) -> spec_call c xs = (a, d, xs1) ->
    all_explained big os l d' (<[i := Some xs1]> xss) xss' ->
    all_explained big (QCall i c :: os) (Some a :: l) (d ++ d') xss xss'
| all_refuse i c os x l d xs xss xss' : xss !! i = Some (Some xs) -> pushed c = Some x -> (big <= Z.of_nat (length xs))%Z ->
    all_explained big os l d xss xss' ->
    all_explained big (QCall i c :: os) (None :: l) (x :: d) xss xss'
| all_drop i os l d xs xss xss' : xss !! i = Some (Some xs) ->
    all_explained big os l d (<[i := None]> xss) xss' ->
    all_explained big (QDrop i :: os) (Some DUnit :: l) (xs ++ d) xss xss'
| all_swap i j os l d xs ys xss xss' : xss !! i = Some (Some xs) -> xss !! j = Some (Some ys) ->
    all_explained big os l d (<[j := Some xs]> (<[i := Some ys]> xss)) xss' ->
    all_explained big (QSwap i j :: os) (Some DUnit :: l) d xss xss'.

(** Each list present is what iterating the deque at its place yields, and each empty
    place has no deque. *)
Definition dw_shows {T} (sz : Z) (chk : bool) (w : dworld T) (xss : list (option (list T))) : Prop :=
  length (dw_objs w) = length xss /\
  forall i o, xss !! i = Some o ->
    match o with
    | None => dw_objs w !! i = Some None
    | Some xs => exists t, dw_objs w !! i = Some (Some t) /\ contents sz chk (the_deque w t) xs
    end.

(** How many elements the program pushes. *)
Definition all_pushes {T} (os : list (dop T)) : nat :=
  length (List.filter (fun o => match o with QCall _ c => match pushed c with Some _ => true | None => false end | _ => false end) os).
