(** Specification for the files Refusal*Props.v. *)
From Verif Require Import Base Heap AllocContract Vector VectorSpec HashTable HashTableSpec Deque DequeSpec.

(** [bears cs l dropped lost xs xs'] says that the answers [l] of the calls [cs] on a list
    that goes from [xs] to [xs'] are the usual ones, except that some pushes panicked and
    left the list as it was.  Their elements are among those [dropped], or, if they were for
    the back, perhaps among those [lost]. *)
Inductive bears {T} : list (dcall T) -> list (option (danswer T)) -> list T -> list T -> list T -> list T -> Prop :=
| be_nil xs : bears [] [] [] [] xs xs
| be_answer c cs a l d d' lost xs xs1 xs2 :
    DequeSpec.spec_call c xs = (a, d, xs1) -> bears cs l d' lost xs1 xs2 ->
    bears (c :: cs) (Some a :: l) (d ++ d') lost xs xs2
| be_dropped c cs x l d lost xs xs' :
    pushed c = Some x -> bears cs l d lost xs xs' -> bears (c :: cs) (None :: l) (x :: d) lost xs xs'
| be_lost cs x l d lost xs xs' :
    bears cs l d lost xs xs' -> bears (DPushBack x :: cs) (None :: l) d (x :: lost) xs xs'.

(** What becomes of the entries [m] of a hash table when the allocator refuses during the call
    [c]: the entry that needed the memory does not come in.  [d] are the keys and values
    dropped and [m'] the entries afterwards. *)
Definition refused {K V} (eqb : K -> K -> bool) (c : hcall K V) (m : list (K * V)) (d : list (K + V)) (m' : list (K * V)) : Prop :=
  match c with
  | HInsert k v | HEntryOr k _ v | HEntryWith k _ v =>
    look eqb k m = None /\ d ≡ₚ [inl k; inr v] /\ m' ≡ₚ m
  | HExtend kvs =>
    exists kvs1 k v kvs2 d1 m1, kvs = kvs1 ++ (k, v) :: kvs2 /\ spec_extend eqb kvs1 m = (true, d1, m1) /\
      look eqb k m1 = None /\ d ≡ₚ d1 ++ [inl k; inr v] ++ parts kvs2 /\ m' ≡ₚ m1
  | _ => False
  end.

(** Calls that may bring new keys in. *)
Definition brings_in {K V} (c : hcall K V) : bool :=
  match c with HInsert _ _ | HEntryOr _ _ _ | HEntryWith _ _ _ | HExtend _ => true | _ => false end.

(** A vector as in VectorSpec.v, where during each call the allocator refuses some sizes in
    bytes besides those no allocator can grant. *)
Definition granted (sz al : Z) (refuse : Z -> bool) (n : nat) : bool :=
  default_fits sz al n && negb (refuse (Z.of_nat n * sz)%Z).
Fixpoint bears_calls {T} (sz al : Z) (cl : T -> T) (cs : list (call T * (Z -> bool))) (s : svec T) : list (answer T) * list T * svec T :=
  match cs with
  | [] => ([], [], s)
  | (c, r) :: cs' =>
    let '(a, d, s1) := VectorSpec.spec_call (granted sz al r) cl c s in
    let '(l, d', s2) := bears_calls sz al cl cs' s1 in
    (a :: l, d ++ d', s2)
  end.

(** [withstands eqb cs l dropped m m'] says that the answers [l] of the calls [cs] on a table
    whose entries go from [m] to [m'] are the usual ones, except that some calls panicked
    because the allocator refused ([c] is called while it refuses what satisfies [r]).  Those
    did what [refused] says. *)
Inductive withstands {K V} (eqb : K -> K -> bool) :
    list (hcall K V * (heap (tcell K V) -> Z -> bool)) -> list (option (hanswer K V)) -> list (K + V) -> list (K * V) -> list (K * V) -> Prop :=
| wi_nil m m' : m ≡ₚ m' -> withstands eqb [] [] [] m m'
| wi_answer c r cs a a' l d d' m m1 m2 :
    HashTableSpec.spec_call eqb c m = (a, d, m1) -> same_answer a' a -> withstands eqb cs l d' m1 m2 ->
    withstands eqb ((c, r) :: cs) (a' :: l) (d ++ d') m m2
| wi_refused c r cs h n l d d' m m1 m2 :
    r h n = true -> refused eqb c m d m1 -> withstands eqb cs l d' m1 m2 ->
    withstands eqb ((c, r) :: cs) (None :: l) (d ++ d') m m2.
