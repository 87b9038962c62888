(** Independent specification of several maps used in turn: each place has a map, given
    as its list of entries in no particular order, or nothing; a call concerns only the map
    at its place. *)
From Verif Require Import Base Heap HashTable HashTableSpec HashWorld.

Section spec.
Context {K V : Type}.
Variable eqb : K -> K -> bool.

(** One step: the answer, what is destroyed, and the maps afterwards. *)
Definition one_step (o : hop K V) (ms : list (option (list (K * V)))) : option (option (hanswer K V) * list (K + V) * list (option (list (K * V)))) :=
  match o with
  | TNew i => match ms !! i with Some None => Some (Some HUnit, [], <[i := Some []]> ms) | _ => None end
  | TCall i c =>
    match ms !! i with
    | Some (Some m) => let '(a, d, m') := spec_call eqb c m in Some (a, d, <[i := Some m']> ms)
    | _ => None
    end
  | TDrop i => match ms !! i with Some (Some m) => Some (Some HUnit, parts m, <[i := None]> ms) | _ => None end
  | TSwap i j =>
    match ms !! i, ms !! j with
    | Some (Some m), Some (Some m') => Some (Some HUnit, [], <[j := Some m]> (<[i := Some m']> ms))
    | _, _ => None
    end
  end.

(** A program; [None] when it uses a map that is not there or makes one where there is one. *)
Fixpoint all_steps (os : list (hop K V)) (ms : list (option (list (K * V)))) : option (list (option (hanswer K V)) * list (K + V) * list (option (list (K * V)))) :=
  match os with
  | [] => Some ([], [], ms)
  | o :: os' =>
    match one_step o ms with
    | Some (a, d, ms1) =>
      match all_steps os' ms1 with Some (l, d', ms2) => Some (a :: l, d ++ d', ms2) | None => None end
    | None => None
    end
  end.
End spec.

(** Each map present is what iterating the table at its place shows, up to the order,
    and each empty place has no table. *)
Definition hw_shows {K V} (w : hworld K V) (ms : list (option (list (K * V)))) : Prop :=
  length (hw_tabs w) = length ms /\
  forall i o, ms !! i = Some o ->
    match o with
    | None => hw_tabs w !! i = Some None
    | Some m => exists t es, hw_tabs w !! i = Some (Some t) /\
        (do it <- iter; do f <- gets fuel; iter_all f it) (the_table w t) = Ok es (the_table w t) /\ es ≡ₚ m
    end.
