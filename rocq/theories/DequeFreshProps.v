(** Property theorems.  Each is closed by the lemma of the same content in
    DequeFreshDerived.v; examples show the hypotheses can be met. *)
From Verif Require Import Base Heap Alloc Deque DequeSpec DequeFresh.
From Verif Require Import DequeFreshDerived.

(** Every pointer of the array holds a value. *)
Definition initialised {T} (s : dstate T) : Prop :=
  forall k, (Z.of_nat k < d_size s)%Z -> exists p c, hadd (d_h s) (d_arr s) k = Some p /\ hload (d_h s) p = Some c.
(** Calls until a larger array is taken, then one that moves the pointers of that array. *)
Definition dfx_calls : list (dcall Z) := repeat (DPushBack 1%Z) 33 ++ [DPushFront 2%Z].

(** C127, programs.  Once a deque is created, a program all of whose calls answer keeps the rule exactly as long
    as the array of eight pointers it started with is not replaced. *)
Theorem C127_programs_partial :
forall (T : Type) (sz al : Z) (chk : bool) (h : heap (dcell T)) (d : list T) (cs : list (dcall T)) (l : list (option (danswer T))) (s s' : dstate T),
  (0 < sz)%Z -> (al | sz)%Z ->
  deque_new sz al h d = Ok tt s -> d_run sz al chk cs s = Some (l, s') -> None ∉ l ->
  ((forall k l1 s1, d_run sz al chk (take k cs) s = Some (l1, s1) -> d_size s1 = 8%Z) -> d_run_i sz al chk true true cs s = Some (l, s')) /\
  (forall k l1 s1, d_run sz al chk (take k cs) s = Some (l1, s1) -> d_size s1 <> 8%Z -> d_run_i sz al chk true true cs s = None).
Proof. exact L_C127_programs_partial. Qed.
Print Assumptions C127_programs_partial.

(** C127, creating a deque.  Whenever a deque is created, the array of pointers it has just got is made
    a slice before any pointer is written. *)
Theorem C127_creation_partial :
forall (T : Type) (sz al : Z) (h : heap (dcell T)) (d : list T) (s : dstate T),
  deque_new sz al h d = Ok tt s -> deque_new_i sz al true h d = UB.
Proof. exact L_C127_creation_partial. Qed.
Print Assumptions C127_creation_partial.

(** C127, adding at the back.  A call that keeps the array and does not move the pointers in it makes no
    slice; one that moves them is in order exactly when the whole array is initialised; one that
    takes a larger array never is. *)
Theorem C127_push_back_partial :
forall (T : Type) (sz al : Z) (chk : bool) (x : T) (s s' : dstate T),
  d_arr s <> Null -> (0 < d_size s)%Z -> (2 * d_size s + 2 < u32_lim)%Z ->
  push_back sz al chk x s = Ok tt s' ->
  (d_size s' = d_size s -> di_arr (d_b s') = di_arr (d_b s) \/ initialised s -> push_back_i sz al chk true true x s = Ok tt s') /\
  (d_size s' = d_size s -> di_arr (d_b s') <> di_arr (d_b s) -> ~ initialised s -> push_back_i sz al chk true true x s = UB) /\
  (d_size s' <> d_size s -> push_back_i sz al chk true true x s = UB).
Proof. exact L_C127_push_back_partial. Qed.
Print Assumptions C127_push_back_partial.

(** C127, adding at the front, in the same way. *)
Theorem C127_push_front_partial :
forall (T : Type) (sz al : Z) (chk : bool) (x : T) (s s' : dstate T),
  d_arr s <> Null -> (0 < d_size s)%Z -> (2 * d_size s + 2 < u32_lim)%Z ->
  push_front sz al chk x s = Ok tt s' ->
  (d_size s' = d_size s -> di_arr (d_e s') = di_arr (d_e s) \/ initialised s -> push_front_i sz al chk true true x s = Ok tt s') /\
  (d_size s' = d_size s -> di_arr (d_e s') <> di_arr (d_e s) -> ~ initialised s -> push_front_i sz al chk true true x s = UB) /\
  (d_size s' <> d_size s -> push_front_i sz al chk true true x s = UB).
Proof. exact L_C127_push_front_partial. Qed.
Print Assumptions C127_push_front_partial.

(** C127 is false even if new arrays are let pass: a program whose calls all answer makes a slice of an
    array in use that still has pointers never written. *)
Theorem C127_slices_refuted :
exists (cs : list (dcall Z)) (s : dstate Z),
  deque_new 40 8 dx_heap [] = Ok tt s /\ is_Some (d_run 40 8 true cs s) /\ d_run_i 40 8 true false true cs s = None.
Proof. exact L_C127_slices_refuted. Qed.
Print Assumptions C127_slices_refuted.

(** The hypotheses: adding nine elements of 40 bytes moves no pointers; the twentieth, at the back, moves them in an
    array that is initialised; later the array is replaced. *)
Example C127_example :
  match deque_new 40 8 dx_heap [] with
  | Ok _ s =>
    let grow n := match d_run 40 8 true (repeat (DPushBack 1%Z) n) s with
      | Some (_, s1) => match push_back 40 8 true 7%Z s1 with
        | Ok _ s2 => Some (d_size s1, (d_size s2 =? d_size s1)%Z, bool_decide (di_arr (d_b s2) = di_arr (d_b s1)), is_ok (push_back_i 40 8 true true true 7%Z s1))
        | _ => None end
      | None => None end in
    (grow 8, grow 19, grow 31)
  | _ => (None, None, None)
  end = (Some (8%Z, true, true, true), Some (8%Z, true, false, true), Some (8%Z, false, false, false)).
Proof. vm_compute. reflexivity. Qed.

(** Programs: thirty-one elements of 40 bytes stay in eight arrays of four, with calls of other kinds between; the
    thirty-second needs a larger array of pointers. *)
Example C127_programs_example :
  match deque_new 40 8 dx_heap [] with
  | Ok _ s =>
    let go n := let cs := repeat (DPushBack 1%Z) n ++ [DPopFront; DRemove 4; DPushFront 3%Z; DIter] in
      match d_run 40 8 true cs s with
      | Some (l, s1) => Some (d_size s1, forallb (fun a => match a with Some _ => true | None => false end) l,
                              match d_run_i 40 8 true true true cs s with Some _ => true | None => false end)
      | None => None end in
    (go 31, go 32)
  | _ => (None, None)
  end = (Some (8%Z, true, true), Some (18%Z, true, false)).
Proof. vm_compute. reflexivity. Qed.
