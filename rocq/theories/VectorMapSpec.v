(** Independent specification of [VectorMap]: an unordered association list
    searched by key equality, and a capacity. *)
From Verif Require Import Base VectorMap VectorSpec.

(** The comparator is a strict weak order whose equivalence is key equality. *)
Record KeyOrder {K} (cmp eqb : K -> K -> bool) : Prop := {
  ko_irr : forall a, cmp a a = false;
  ko_trans : forall a b c, cmp a b = true -> cmp b c = true -> cmp a c = true;
  ko_eq : forall a b, eqb a b = true <-> cmp a b = false /\ cmp b a = false;
  ko_eq_trans : forall a b c, eqb a b = true -> eqb b c = true -> eqb a c = true
}.

Section spec.
Context {K V : Type}.
Variable eqb : K -> K -> bool.
Variable fits : nat -> bool.

Record smap : Type := SMap { entries : list (K * V); mroom : nat }.

Definition has (k : K) (p : K * V) : bool := eqb (fst p) k.
(** The pair with key [k], if any. *)
Definition look (k : K) (m : smap) : option (K * V) := List.find (has k) (entries m).
(** Give key [k] the value [v], keeping the stored key. *)
Definition put (k : K) (v : V) (m : smap) : smap :=
  SMap (map (fun p => if has k p then (fst p, v) else p) (entries m)) (mroom m).
(** Take key [k] out. *)
Definition del (k : K) (m : smap) : smap :=
  SMap (List.filter (fun p => negb (has k p)) (entries m)) (mroom m).

(** Add a pair with a new key, growing as a vector grows. *)
Definition add (p : K * V) (m : smap) : option smap :=
  let n := room_for_one (SVec (entries m) (mroom m)) in
  if (n =? mroom m) || fits n then Some (SMap (p :: entries m) n) else None.

(** Result: the answer, the pairs dropped, the lone keys and values dropped,
    the new map. *)
Notation res := (manswer K V * list (K * V) * list (K + V) * smap)%type.

Fixpoint spec_extend (kvs : list (K * V)) (m : smap) : res :=
  match kvs with
  | [] => (MUnit, [], [], m)
  | (k, v) :: rest =>
    match look k m with
    | Some p =>
      match spec_extend rest (put k v m) with
      | (a, d, e, m') => (a, d, [inl k; inr (snd p)] ++ e, m')
      end
    | None =>
      match add (k, v) m with
      | Some m1 => spec_extend rest m1
      | None => (MPanic, (k, v) :: rest, [], m)
      end
    end
  end.

Definition spec_mcall (c : mcall K V) (m : smap) : res :=
  match c with
  | MInsert k v =>
    match look k m with
    | Some p => (MTaken (Some (snd p)), [], [inl k], put k v m)
    | None => match add (k, v) m with
              | Some m' => (MTaken None, [], [], m')
              | None => (MPanic, [(k, v)], [], m)
              end
    end
  | MGet k => (MRead (option_map snd (look k m)), [], [], m)
  | MGetMutSet k v =>
    match look k m with
    | Some p => (MBool true, [], [inr (snd p)], put k v m)
    | None => (MBool false, [], [inr v], m)
    end
  | MContains k => (MBool (match look k m with Some _ => true | None => false end), [], [], m)
  | MRemove k =>
    match look k m with
    | Some p => (MTaken (Some (snd p)), [], [inl (fst p)], del k m)
    | None => (MTaken None, [], [], m)
    end
  | MRemoveEntry k => (MPair (look k m), [], [], del k m)
  | MEntryGet k =>
    match look k m with
    | Some p => (MEntry (inl p), [], [inl k], m)
    | None => (MEntry (inr k), [], [], m)
    end
  | MEntrySet k v =>
    match look k m with
    | Some p => (MSet true v, [], [inl k; inr (snd p)], put k v m)
    | None => match add (k, v) m with
              | Some m' => (MSet false v, [], [], m')
              | None => (MPanic, [(k, v)], [], m)
              end
    end
  | MExtend kvs => spec_extend kvs m
  | MWithCapacity n =>
    if (n =? 0) || fits (mroom m + n) then (MUnit, [], [], SMap (entries m) (mroom m + n))
    else (MPanic, [], [], m)
  | MLen => (MNat (length (entries m)), [], [], m)
  | MIsEmpty => (MBool (length (entries m) =? 0), [], [], m)
  | MCapacity => (MNat (mroom m), [], [], m)
  | MClear => (MUnit, entries m, [], SMap [] 0)
  end.

Fixpoint spec_mcalls (cs : list (mcall K V)) (m : smap) : list (manswer K V) * list (K * V) * list (K + V) * smap :=
  match cs with
  | [] => ([], [], [], m)
  | c :: cs' =>
    match spec_mcall c m with
    | (a, d, e, m') =>
      match spec_mcalls cs' m' with
      | (l, d', e', m'') => (a :: l, d ++ d', e ++ e', m'')
      end
    end
  end.

(** How many pairs of [sz] bytes a call may ask memory for at once, and whether
    they are within [isize::MAX] bytes.  Only an explicit capacity can fail that. *)
Definition m_named (c : mcall K V) : nat :=
  match c with
  | MInsert _ _ | MEntrySet _ _ | MExtend _ => 1
  | MWithCapacity n => n
  | _ => 0
  end.
Definition m_modest (sz : Z) (c : mcall K V) : bool := (Z.of_nat (m_named c) * sz <=? isize_max)%Z.

(** What a call hands in and what it hands out, as keys and values. *)
Definition parts (kvs : list (K * V)) : list (K + V) := concat (map (fun p => [inl (fst p); inr (snd p)]) kvs).
Definition m_given (c : mcall K V) : list (K + V) :=
  match c with
  | MInsert k v | MEntrySet k v => [inl k; inr v]
  | MGetMutSet _ v => [inr v]
  | MEntryGet k => [inl k]
  | MExtend kvs => parts kvs
  | _ => []
  end.
Definition m_returned (a : manswer K V) : list (K + V) :=
  match a with
  | MTaken (Some v) => [inr v]
  | MPair (Some p) => parts [p]
  | MEntry (inr k) => [inl k]
  | _ => []
  end.
End spec.

(** Strictly increasing keys. *)
Definition sorted_by {K V} (cmp : K -> K -> bool) (kvs : list (K * V)) : Prop :=
  forall i j p q, i < j -> kvs !! i = Some p -> kvs !! j = Some q -> cmp (fst p) (fst q) = true.
