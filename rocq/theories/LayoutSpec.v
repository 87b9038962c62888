(** Independent specification of struct layouts. *)
From Verif Require Import Base Layout.
Local Open Scope Z_scope.

(** A size and alignment that a Rust type can have. *)
Definition valid (l : lay) : Prop :=
  (exists k, 0 <= k < 62 /\ ly_align l = 2 ^ k) /\ 0 <= ly_size l /\ (ly_align l | ly_size l).

(** The least multiple of [a] that is at least [x]. *)
Definition least_multiple (a x y : Z) : Prop := (a | y) /\ x <= y < x + a.

(** Fields in order of declaration, each as low as its alignment allows behind the one
    before; the whole aligned for every field and no larger than needed. *)
Record laid_out (fs : list lay) (os : list Z) (l : lay) : Prop := {
  lo_length : length os = length fs;
  lo_first : match os with [] => True | o :: _ => o = 0 end;
  lo_next : forall i f f' o o', fs !! i = Some f -> fs !! S i = Some f' -> os !! i = Some o -> os !! S i = Some o' ->
    least_multiple (ly_align f') (o + ly_size f) o';
  lo_aligned : forall i f o, fs !! i = Some f -> os !! i = Some o -> (ly_align f | o) /\ (ly_align f | ly_align l);
  lo_end : match last fs, last os with
           | Some f, Some o => least_multiple (ly_align l) (o + ly_size f) (ly_size l)
           | _, _ => ly_size l = 0
           end
}.
