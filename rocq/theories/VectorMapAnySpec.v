(** What the calls of a [VectorMap] may do when comparator and equality answer anything:
    the pairs before and after, and the answer. *)
From Verif Require Import Base Heap Alloc VectorMap VectorMapSpec VectorMapAny.

Section spec.
Context {K V : Type}.
Implicit Types xs : list (K * V).

(** A pair was put in somewhere; the value of one pair was replaced; a pair was taken out. *)
Definition added (k : K) (v : V) xs xs' : Prop :=
  exists l1 l2, xs = l1 ++ l2 /\ xs' = l1 ++ (k, v) :: l2.
Definition replaced (v old : V) xs xs' : Prop :=
  exists l1 k0 l2, xs = l1 ++ (k0, old) :: l2 /\ xs' = l1 ++ (k0, v) :: l2.
Definition taken (p : K * V) xs xs' : Prop :=
  exists l1 l2, xs = l1 ++ p :: l2 /\ xs' = l1 ++ l2.
(** Each pair was put in or replaced a value, one after the other. *)
Inductive all_put : list (K * V) -> list (K * V) -> list (K * V) -> Prop :=
| all_put_nil xs : all_put [] xs xs
| all_put_cons k v kvs xs xs1 xs2 :
    added k v xs xs1 \/ (exists old, replaced v old xs xs1) -> all_put kvs xs1 xs2 -> all_put ((k, v) :: kvs) xs xs2.

Definition edited (c : mcall K V) (a : manswer K V) xs xs' : Prop :=
  match c with
  | MInsert k v =>
    a = MPanic /\ xs' = xs \/ a = MTaken None /\ added k v xs xs' \/
    exists old, a = MTaken (Some old) /\ replaced v old xs xs'
  | MGet _ => xs' = xs /\ (a = MPanic \/ a = MRead None \/ exists k v, In (k, v) xs /\ a = MRead (Some v))
  | MContains _ => xs' = xs /\ (a = MPanic \/ a = MBool false \/ xs <> [] /\ a = MBool true)
  | MGetMutSet _ v =>
    (a = MPanic \/ a = MBool false) /\ xs' = xs \/ a = MBool true /\ exists old, replaced v old xs xs'
  | MRemove _ =>
    (a = MPanic \/ a = MTaken None) /\ xs' = xs \/ exists k v, a = MTaken (Some v) /\ taken (k, v) xs xs'
  | MRemoveEntry _ =>
    (a = MPanic \/ a = MPair None) /\ xs' = xs \/ exists p, a = MPair (Some p) /\ taken p xs xs'
  | MEntryGet k => xs' = xs /\ (a = MPanic \/ a = MEntry (inr k) \/ exists p, In p xs /\ a = MEntry (inl p))
  | MEntrySet k v =>
    a = MPanic /\ xs' = xs \/ a = MSet false v /\ added k v xs xs' \/
    a = MSet true v /\ exists old, replaced v old xs xs'
  | MExtend kvs =>
    a = MUnit /\ all_put kvs xs xs' \/
    a = MPanic /\ exists done p rest, kvs = done ++ p :: rest /\ all_put done xs xs'
  | MWithCapacity _ => xs' = xs /\ (a = MPanic \/ a = MUnit)
  | MLen => xs' = xs /\ a = MNat (length xs)
  | MIsEmpty => xs' = xs /\ a = MBool (match xs with [] => true | _ => false end)
  | MCapacity => xs' = xs /\ exists n, length xs <= n /\ a = MNat n
  | MClear => xs' = [] /\ a = MUnit
  end.
End spec.

(** For examples: the comparator answers yes at every other evaluation, whatever the
    keys; the equality answers yes at every third and panics at every seventh. *)
Definition mx_odd (prog : list (mcall Z Z)) : option (list (manswer Z Z) * mastate unit Z Z) :=
  ma_run (DefaultAllocator (Z * Z)) 16 8 true true (fun n _ _ => Some (n mod 2 =? 0))
    (fun n _ _ => if n mod 7 =? 4 then None else Some (n mod 3 =? 1)) prog (new_map (Heap 0 ∅), 0).
