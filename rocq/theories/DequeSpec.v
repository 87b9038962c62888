(** Independent specification of the double-ended queue: a list. *)
From Verif Require Import Base Heap Alloc Deque.

Section spec.
Context {T : Type}.

(** The answer, the elements dropped, the list after. *)
Definition spec_call (c : dcall T) (xs : list T) : danswer T * list T * list T :=
  match c with
  | DPushBack x => (DUnit, [], xs ++ [x])
  | DPushFront x => (DUnit, [], x :: xs)
  | DPopBack => (DOpt (last xs), [], removelast xs)
  | DPopFront => (DOpt (head xs), [], tail xs)
  | DFront => (DOpt (head xs), [], xs)
  | DBack => (DOpt (last xs), [], xs)
  | DFrontMut y =>
    match xs with
    | [] => (DBool false, [y], xs)
    | x :: xs' => (DBool true, [x], y :: xs')
    end
  | DBackMut y =>
    match last xs with
    | None => (DBool false, [y], xs)
    | Some x => (DBool true, [x], removelast xs ++ [y])
    end
  | DLen => (DNat (length xs), [], xs)
  | DIsEmpty => (DBool (match xs with [] => true | _ => false end), [], xs)
  | DRemove i => (DOpt (xs !! i), [], take i xs ++ drop (S i) xs)
  | DIter => (DList xs, [], xs)
  | DIterMut g => (DList xs, [], map g xs)
  end.

Fixpoint spec_run (cs : list (dcall T)) (xs : list T) : list (danswer T) * list T * list T :=
  match cs with
  | [] => ([], [], xs)
  | c :: cs' =>
    let '(a, d, xs1) := spec_call c xs in
    let '(l, d', xs2) := spec_run cs' xs1 in
    (a :: l, d ++ d', xs2)
  end.

(** The element a call hands over, and whether that is to grow the deque. *)
Definition pushed (c : dcall T) : option T :=
  match c with DPushBack x | DPushFront x => Some x | _ => None end.
Definition given (c : dcall T) : list T :=
  match c with DPushBack x | DPushFront x | DFrontMut x | DBackMut x => [x] | _ => [] end.
(** The element a call hands out. *)
Definition taken (c : dcall T) (a : option (danswer T)) : list T :=
  match c, a with
  | (DPopBack | DPopFront | DRemove _), Some (DOpt (Some x)) => [x]
  | _, _ => []
  end.
Fixpoint all_taken (cs : list (dcall T)) (l : list (option (danswer T))) : list T :=
  match cs, l with c :: cs', a :: l' => taken c a ++ all_taken cs' l' | _, _ => [] end.
(** Calls that do not rewrite elements in place through a closure. *)
Definition no_rewrite (c : dcall T) : bool := match c with DIterMut _ => false | _ => true end.

(** How many elements the calls push. *)
Definition pushes (cs : list (dcall T)) : nat :=
  length (List.filter (fun c => match pushed c with Some _ => true | None => false end) cs).

(** Where the [i]-th of [n] elements is after a call and after a program, if it was
    neither taken out nor moved by [remove]. *)
Definition moves_to (c : dcall T) (n i : nat) : option nat :=
  match c with
  | DPushFront _ => Some (S i)
  | DPopFront => match i with O => None | S i' => Some i' end
  | DPopBack => if S i =? n then None else Some i
  | DRemove _ => None
  | _ => Some i
  end.
Definition len_call (c : dcall T) (n : nat) : nat :=
  match c with DPushFront _ | DPushBack _ => S n | DPopFront | DPopBack => n - 1 | _ => n end.
Fixpoint ends_at (cs : list (dcall T)) (n i : nat) : option nat :=
  match cs with
  | [] => Some i
  | c :: cs' => match moves_to c n i with Some j => ends_at cs' (len_call c n) j | None => None end
  end.

(** Lengths from [big] on, a push may panic (the array of pointers cannot grow any
    more); it then drops its argument and changes nothing.  [explains big cs l d xs
    xs'] says that the answers [l] of the calls [cs] and the elements [d] dropped
    are those of a list going from [xs] to [xs'], up to such panics. *)
Inductive explains (big : Z) : list (dcall T) -> list (option (danswer T)) -> list T -> list T -> list T -> Prop :=
| ex_nil xs : explains big [] [] [] xs xs
| ex_answer c cs a l d d' xs xs1 xs2 :
    spec_call c xs = (a, d, xs1) -> explains big cs l d' xs1 xs2 ->
    explains big (c :: cs) (Some a :: l) (d ++ d') xs xs2
| ex_refuse c cs x l d xs xs' :
    pushed c = Some x -> (big <= Z.of_nat (length xs))%Z -> explains big cs l d xs xs' ->
    explains big (c :: cs) (None :: l) (x :: d) xs xs'.

(** The largest length on the way. *)
Fixpoint peak (cs : list (dcall T)) (xs : list T) : nat :=
  match cs with
  | [] => length xs
  | c :: cs' => Nat.max (length xs) (peak cs' (spec_call c xs).2)
  end.

(** Iteration from both ends: what the steps yield and what is left. *)
Fixpoint spec_steps (ds : list bool) (xs : list T) : list (option T) * list T :=
  match ds with
  | [] => ([], xs)
  | true :: ds' => let '(l, r) := spec_steps ds' (tail xs) in (head xs :: l, r)
  | false :: ds' => let '(l, r) := spec_steps ds' (removelast xs) in (last xs :: l, r)
  end.

(** ** A queue *)
Definition qspec_call (c : qcall T) (xs : list T) : danswer T * list T :=
  match c with
  | QPush x => (DUnit, xs ++ [x])
  | QPop => (DOpt (head xs), tail xs)
  | QTop => (DOpt (head xs), xs)
  | QLen => (DNat (length xs), xs)
  | QIsEmpty => (DBool (match xs with [] => true | _ => false end), xs)
  | QIter => (DList xs, xs)
  end.
Fixpoint qspec_run (cs : list (qcall T)) (xs : list T) : list (danswer T) * list T :=
  match cs with
  | [] => ([], xs)
  | c :: cs' => let '(a, xs1) := qspec_call c xs in let '(l, xs2) := qspec_run cs' xs1 in (a :: l, xs2)
  end.
Definition q_pushes (cs : list (qcall T)) : nat :=
  length (List.filter (fun c => match c with QPush _ => true | _ => false end) cs).
(** The elements pushed, and those popped, in order. *)
Definition q_in (cs : list (qcall T)) : list T := flat_map (fun c => match c with QPush x => [x] | _ => [] end) cs.
Fixpoint q_out (cs : list (qcall T)) (l : list (option (danswer T))) : list T :=
  match cs, l with
  | QPop :: cs', Some (DOpt (Some x)) :: l' => x :: q_out cs' l'
  | _ :: cs', _ :: l' => q_out cs' l'
  | _, _ => []
  end.

End spec.

(** The setting of the theorems: an element layout for which the allocator accepts
    one array of elements, and a heap. *)
Record Setup {T} (sz al : Z) (h0 : heap (dcell T)) : Prop := {
  su_size : (0 < sz)%Z;
  su_layout : layout_ok (Z.of_nat (subarray_size sz) * sz) al = true;
  su_heap : heap_wf h0
}.

(** Below this length no push panics. *)
Definition max_len (sz : Z) : Z := (2684354557 * Z.of_nat (subarray_size sz))%Z.

(** A deque built by a program from the empty one. *)
Definition built {T} (sz al : Z) (chk : bool) (h0 : heap (dcell T)) (prog : list (dcall T))
    (l : list (option (danswer T))) (s : dstate T) : Prop :=
  exists s0, deque_new sz al h0 [] = Ok tt s0 /\ d_run sz al chk prog s0 = Some (l, s).

(** What [iter] yields. *)
Definition contents {T} (sz : Z) (chk : bool) (s : dstate T) (xs : list T) : Prop :=
  iter_all sz chk s = Ok xs s.

(** For examples: an empty heap, elements of 8 bytes. *)
Definition dx_heap : heap (dcell Z) := Heap 0 ∅.
Definition dx_run (prog : list (dcall Z)) : option (list (option (danswer Z)) * dstate Z) :=
  match deque_new 8 8 dx_heap [] with
  | Ok _ s => d_run 8 8 true prog s
  | _ => None
  end.
Definition push_many (n : nat) : list (dcall Z) := map (fun i => DPushBack (Z.of_nat i)) (seq 0 n).
