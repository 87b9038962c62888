(** Property theorems.  Each is closed by the lemma of the same content in
    FixedOwnedDerived.v; examples show the hypotheses can be met. *)
From Verif Require Import Base Heap Alloc AllocContract Vector VectorSpec FixedVector FixedVectorSpec FixedOwned.
From Verif Require Import FixedOwnedDerived.

(** Whether a program moves a fixed vector. *)
Definition moves_one {T} (os : list (fop T)) : bool := existsb (fun o => match o with FMove _ _ _ => true | _ => false end) os.

(** If the overflow allocator's type has no destructor, moves do what they should: the
    program answers as if there were no allocators to move, each vector that was not moved
    away has an allocator, no two have the same, and together they have all that were made. *)
Theorem C113_allocators_move_along :
forall (T : Type) (sz al : Z) (N : nat) (chk nd : bool) (clone : T -> option T) (h : heap T) (os : list (fop T)) l w',
  0 < N -> f_run sz al N chk nd clone os (FWorld [] h []) = Some (l, w') ->
  exists w, x_run sz al N chk nd clone false os (XWorld (FWorld [] h []) [] 0) = Some (l, w) /\ xw w = w' /\
    xw_made w = length (List.filter (fun o => match o with FNew => true | _ => false end) os) /\
    (forall i f, fw_objs w' !! i = Some f -> exists u, xw_alloc w !! i = Some u /\ (f_moved f = false <-> is_Some u)) /\
    omap id (xw_alloc w) ≡ₚ seq 0 (xw_made w).
Proof. exact L_C113_allocators_move_along. Qed.
Print Assumptions C113_allocators_move_along.

(** Two vectors, the first moved twice: the allocators are in the second and the fourth. *)
Example C113_case :
  let g := Vec Null Null Null in
  match x_run (T:=nat) 4 4 2 true false Some false [FNew; FNew; FCall 0 (CPush 1); FMove 0 g Null; FCall 2 (CPush 2); FCall 2 (CPush 3); FMove 2 g Null; FCall 3 CPop] (XWorld (FWorld [] (Heap 0 ∅) []) [] 0) with
  | Some (l, w) => (xw_alloc w, last l) = ([None; Some 1; None; Some 0], Some (AOpt (Some 3)))
  | None => False
  end.
Proof. vm_compute. reflexivity. Qed.

(** If the overflow allocator's type has a destructor, any program that moves a fixed vector
    is undefined, and only those: the destructor runs on the uninitialised memory that the
    move exchanged for the source's allocator. *)
Theorem C113_move_refuted :
forall (T : Type) (sz al : Z) (N : nat) (chk nd : bool) (clone : T -> option T) (h : heap T) (os : list (fop T)) l w',
  0 < N -> f_run sz al N chk nd clone os (FWorld [] h []) = Some (l, w') ->
  x_run sz al N chk nd clone true os (XWorld (FWorld [] h []) [] 0) = None <-> moves_one os = true.
Proof. exact L_C113_move_refuted. Qed.
Print Assumptions C113_move_refuted.

Example C113_refuted_case :
  let g := Vec Null Null Null in
  x_run (T:=nat) 4 4 2 true false Some true [FNew; FMove 0 g Null] (XWorld (FWorld [] (Heap 0 ∅) []) [] 0) = None /\
  x_run (T:=nat) 4 4 2 true false Some true [FNew; FNew; FCall 0 (CPush 1)] (XWorld (FWorld [] (Heap 0 ∅) []) [] 0) <> None /\
  x_run (T:=nat) 4 4 2 true false Some false [FNew; FMove 0 g Null] (XWorld (FWorld [] (Heap 0 ∅) []) [] 0) <> None.
Proof. vm_compute. repeat split; discriminate. Qed.
