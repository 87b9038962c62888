(** Outcomes, the state monad of the models, and machine integers. *)
From Coq Require Export ZArith Lia Bool.
From stdpp Require Export base list gmap fin_maps.
From Coq Require Export ZifyBool ZifyNat.

(** Result of running a modelled method.  [Panic s] keeps the state at the
    panic point, since unwinding drops the containers afterwards and a caller
    may catch the panic.  [UB] is undefined behaviour in the Rust sense. *)
Inductive outcome (S A : Type) : Type :=
| Ok (a : A) (s : S)
| Panic (s : S)
| UB.
Arguments Ok {S A} a s.
Arguments Panic {S A} s.
Arguments UB {S A}.

Definition M (S A : Type) : Type := S -> outcome S A.

Definition ret {S A : Type} (a : A) : M S A := fun s => Ok a s.
Definition bind {S A B : Type} (m : M S A) (f : A -> M S B) : M S B :=
  fun s => match m s with
           | Ok a s' => f a s'
           | Panic s' => Panic s'
           | UB => UB
           end.
Definition panic {S A : Type} : M S A := fun s => Panic s.
Definition ub {S A : Type} : M S A := fun _ => UB.
Definition gets {S A : Type} (f : S -> A) : M S A := fun s => Ok (f s) s.
Definition modify {S : Type} (f : S -> S) : M S unit := fun s => Ok tt (f s).
(** An operation that is undefined when the argument is [None]. *)
Definition or_ub {S A : Type} (o : option A) : M S A :=
  match o with Some a => ret a | None => ub end.
(** What unwinding does when [m] panics (destructors of live locals). *)
Definition on_unwind {S A : Type} (f : S -> S) (m : M S A) : M S A :=
  fun s => match m s with Panic s' => Panic (f s') | r => r end.

Declare Scope m_scope.
Delimit Scope m_scope with m.
Notation "'do' x <- m ; k" := (bind m (fun x => k))
  (at level 200, x name, m at level 100, k at level 200,
   format "'[v' 'do'  x  <-  m ; '/' k ']'") : m_scope.
Notation "'run' m ; k" := (bind m (fun _ => k))
  (at level 200, m at level 100, k at level 200,
   format "'[v' 'run'  m ; '/' k ']'") : m_scope.
Notation "'if!' b 'then' m ; k" := (bind (if b then m else ret tt) (fun _ => k))
  (at level 200, b at level 100, m at level 100, k at level 200) : m_scope.
Open Scope m_scope.

(** 64-bit target: [usize] ranges over 0 .. 2^64-1, [isize::MAX] = 2^63-1. *)
Definition usize_lim : Z := 2 ^ 64.
Definition isize_max : Z := 2 ^ 63 - 1.
Definition u32_lim : Z := 2 ^ 32.

(** The result [r] of an arithmetic operation stored in a [usize]: with
    overflow checks ([chk = true], debug builds) an out-of-range result
    panics, without them (release builds) it wraps. *)
Definition usize {S : Type} (chk : bool) (r : Z) : M S nat :=
  if ((0 <=? r) && (r <? usize_lim))%Z then ret (Z.to_nat r)
  else if chk then panic else ret (Z.to_nat (r mod usize_lim)).

(** Same for a [u32] kept as [Z]. *)
Definition u32 {S : Type} (chk : bool) (r : Z) : M S Z :=
  if ((0 <=? r) && (r <? u32_lim))%Z then ret r
  else if chk then panic else ret (r mod u32_lim)%Z.

(** For examples: the value of a run that returns. *)
Definition val {S A : Type} (o : outcome S A) : option A :=
  match o with Ok a _ => Some a | _ => None end.
(** For examples: the state in which a run returns or panics. *)
Definition after {S A : Type} (o : outcome S A) : option S :=
  match o with Ok _ s | Panic s => Some s | UB => None end.
Definition is_ok {S A : Type} (o : outcome S A) : bool := match o with Ok _ _ => true | _ => false end.
Definition is_panic {S A : Type} (o : outcome S A) : bool := match o with Panic _ => true | _ => false end.
Definition is_ub {S A : Type} (o : outcome S A) : bool := match o with UB => true | _ => false end.
