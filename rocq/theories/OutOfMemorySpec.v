(** Specification for OutOfMemoryProps.v. *)
From Verif Require Import Base.

(** [blocks s] is the number of blocks the allocator has handed out up to [s].
    A run from [s] with outcome [o] took memory. *)
Definition took_memory {S B} (blocks : S -> nat) (s : S) (o : outcome S B) : bool :=
  match o with
  | Ok _ s' | Panic s' => negb (blocks s' =? blocks s)
  | UB => false
  end.

(** [with_] is what a call does while there is memory, [without] what it does once the
    allocator returns null: the same if it needs no memory, undefined behaviour if it
    does. *)
Definition undefined_iff_needed {S B} (blocks : S -> nat) (s : S) (with_ without : outcome S B) : Prop :=
  with_ <> UB -> without = if took_memory blocks s with_ then UB else with_.
