(** Independent specification of several lists used in turn: each place has a list or
    nothing, and a call concerns only the list at its place. *)
From Verif Require Import Base Alloc AddrMem LinkedList LinkedListSpec ListWorld.
Local Open Scope Z_scope.

Section spec.
Context {T : Type}.

(** [w_explains os l d ls ls']: the answers [l] and the destroyed elements [d] are
    those of lists that go from [ls] to [ls'] by the steps [os].  A call that needs
    memory which the allocator does not have panics; it has then added the first [k]
    of its elements and destroys the others. *)
Inductive w_explains : list (wop T) -> list (option (lanswer T)) -> list T -> list (option (list T)) -> list (option (list T)) -> Prop :=
| wx_nil ls : w_explains [] [] [] ls ls
| wx_new i os l d ls ls' :
    ls !! i = Some None -> w_explains os l d (<[i := Some []]> ls) ls' ->
    w_explains (WNew i :: os) (Some AUnit :: l) d ls ls'
| wx_call i c os a l d d' xs xs1 ls ls' :
    ls !! i = Some (Some xs) -> spec_call c xs = (a, d, xs1) -> w_explains os l d' (<[i := Some xs1]> ls) ls' ->
    w_explains (WCall i c :: os) (Some a :: l) (d ++ d') ls ls'
| wx_refuse i c os k l d xs ls ls' :
    ls !! i = Some (Some xs) -> (k < length (pushed c))%nat -> w_explains os l d (<[i := Some (xs ++ take k (pushed c))]> ls) ls' ->
    w_explains (WCall i c :: os) (None :: l) (drop k (pushed c) ++ d) ls ls'
| wx_drop i os l d xs ls ls' :
    ls !! i = Some (Some xs) -> w_explains os l d (<[i := None]> ls) ls' ->
    w_explains (WDrop i :: os) (Some AUnit :: l) (xs ++ d) ls ls'.

(** Lists are created only where there is none and used only where there is one; none
    are swapped. *)
Fixpoint legal (os : list (wop T)) (alive : list bool) : bool :=
  match os with
  | [] => true
  | WNew i :: os' => match alive !! i with Some false => legal os' (<[i := true]> alive) | _ => false end
  | WCall i _ :: os' => match alive !! i with Some true => legal os' alive | _ => false end
  | WDrop i :: os' => match alive !! i with Some true => legal os' (<[i := false]> alive) | _ => false end
  | WSwap _ _ :: _ => false
  end.

(** The number of elements that the calls hand to the lists. *)
Fixpoint added (os : list (wop T)) : nat :=
  match os with
  | [] => 0
  | WCall _ c :: os' => length (pushed c) + added os'
  | _ :: os' => added os'
  end.

End spec.

(** The places of the lists: each is good for a list object, and they are apart. *)
Record WorldSetup {T} (m : mem T) (addrs : list Z) (nsz nal : Z) : Prop := {
  ws_each : forall a, a ∈ addrs -> ListSetup m a 24 nsz nal;
  ws_apart : forall i j a b, i <> j -> addrs !! i = Some a -> addrs !! j = Some b -> a + 24 <= b \/ b + 24 <= a
}.

(** Each list present shows by iteration the elements it has, and each empty place has
    no list. *)
Definition w_shows {T} (chk : bool) (nsz : Z) (w : lworld T) (ls : list (option (list T))) : Prop :=
  length (lw_slots w) = length ls /\
  forall i o, ls !! i = Some o ->
    match o with
    | None => live_at w i = None
    | Some xs => exists a n, live_at w i = Some (a, n) /\ iter_all chk nsz (the_list w a n) = Ok xs (the_list w a n)
    end.

(** For examples: two places, elements of 8 bytes, room for ten nodes. *)
Definition wx_mem : mem Z := Mem [Region 4096 24 8 false; Region 4160 24 8 false] ∅ ∅ 0.
Definition wx_run (os : list (wop Z)) : option (list (option (lanswer Z)) * lworld Z) :=
  w_run lx_pick false true 24 8 os (w_start [4096; 4160] wx_mem).
