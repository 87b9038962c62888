(** Which elements references are handed out to, in terms of positions. *)
From Verif Require Import Base SharedRefs.
Local Open Scope nat_scope.

(** Positions handed out by iterators over [lo .. hi - 1], stepped at the front ([true]) or back. *)
Fixpoint handed (sch : list (nat * bool)) (ws : list (nat * nat)) : list nat :=
  match sch with
  | [] => []
  | (j, d) :: sch' =>
    match ws !! j with
    | None => handed sch' ws
    | Some (lo, hi) =>
      if lo <? hi then
        if d : bool then lo :: handed sch' (<[j := (lo + 1, hi)]> ws)
        else (hi - 1) :: handed sch' (<[j := (lo, hi - 1)]> ws)
      else handed sch' ws
    end
  end.

(** The position of a key. *)
Fixpoint key_pos {K V} (eqb : K -> K -> bool) (k : K) (es : list (K * V)) : option nat :=
  match es with
  | [] => None
  | e :: es' => if eqb (fst e) k then Some 0 else S <$> key_pos eqb k es'
  end.

(** Positions handed out by iterators that have got to [ws], with [true], and by [get], with [false]. *)
Fixpoint h_handed {K V} (eqb : K -> K -> bool) (es : list (K * V)) (ops : list (sop K)) (ws : list nat) : list (nat * bool) :=
  match ops with
  | [] => []
  | SNext j :: ops' =>
    match ws !! j with
    | None => h_handed eqb es ops' ws
    | Some i => if i <? length es then (i, true) :: h_handed eqb es ops' (<[j := i + 1]> ws) else h_handed eqb es ops' ws
    end
  | SGet k :: ops' =>
    match key_pos eqb k es with
    | Some i => (i, false) :: h_handed eqb es ops' ws
    | None => h_handed eqb es ops' ws
    end
  end.
