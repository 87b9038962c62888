(** Independent specification of the hash containers: a finite map written as a
    list of entries in no particular order, with a largest size. *)
From Verif Require Import Base Heap Alloc HashTable.

(** Inserting one more new key panics (see C47). *)
Definition max_entries : Z := 2557710464.

Section spec.
Context {K V : Type}.
Variable eqb : K -> K -> bool.

Local Notation fmap := (list (K * V)).

(** The entry of a key. *)
Definition look (k : K) (m : fmap) : option (K * V) := List.find (fun e => eqb (fst e) k) m.
Definition has (k : K) (m : fmap) : bool := existsb (fun e => eqb (fst e) k) m.
(** Changing the value of a key. *)
Definition change (k : K) (f : V -> V) (m : fmap) : fmap :=
  map (fun e => if eqb (fst e) k then (fst e, f (snd e)) else e) m.
Definition without (k : K) (m : fmap) : fmap := List.filter (fun e => negb (eqb (fst e) k)) m.
Definition full (m : fmap) : bool := (Z.of_nat (length m) =? max_entries)%Z.

(** Keys and values of some entries. *)
Definition parts (m : fmap) : list (K + V) := flat_map (fun e => [inl (fst e); inr (snd e)]) m.

(** Inserting entries one after the other: whether it panicked, what was dropped,
    the map. *)
Fixpoint spec_extend (kvs : list (K * V)) (m : fmap) : bool * list (K + V) * fmap :=
  match kvs with
  | [] => (true, [], m)
  | (k, v) :: kvs' =>
    match look k m with
    | Some e => let '(b, d, m') := spec_extend kvs' (change k (fun _ => v) m) in (b, inl k :: inr (snd e) :: d, m')
    | None => if full m then (false, inl k :: inr v :: parts kvs', m) else spec_extend kvs' ((k, v) :: m)
    end
  end.

Definition changes (k : K) (f : option (V -> V)) (m : fmap) : fmap :=
  match f with Some f => change k f m | None => m end.

(** The answer ([None]: panic), the keys and values dropped, the map after. *)
Definition spec_call (c : hcall K V) (m : fmap) : option (hanswer K V) * list (K + V) * fmap :=
  match c with
  | HInsert k v =>
    match look k m with
    | Some e => (Some (HVal (Some (snd e))), [inl k], change k (fun _ => v) m)
    | None => if full m then (None, [inl k; inr v], m) else (Some (HVal None), [], (k, v) :: m)
    end
  | HGet k => (Some (HPair (look k m)), [], m)
  | HContains k => (Some (HBool (has k m)), [], m)
  | HGetMutSet k v =>
    match look k m with
    | Some e => (Some (HBool true), [inr (snd e)], change k (fun _ => v) m)
    | None => (Some (HBool false), [inr v], m)
    end
  | HRemove k =>
    match look k m with
    | Some e => (Some (HVal (Some (snd e))), [inl (fst e)], without k m)
    | None => (Some (HVal None), [], m)
    end
  | HRemoveEntry k => (Some (HPair (look k m)), [], without k m)
  | HEntryOr k f v =>
    match look k (changes k f m) with
    | Some e => (Some (HRef true (snd e)), [inl k; inr v], changes k f m)
    | None => if full m then (None, [inl k; inr v], m) else (Some (HRef true v), [], (k, v) :: m)
    end
  | HEntryWith k f v =>
    match look k (changes k f m) with
    | Some e => (Some (HRef false (snd e)), [inl k], changes k f m)
    | None => if full m then (None, [inl k; inr v], m) else (Some (HRef true v), [], (k, v) :: m)
    end
  | HEntryDrop k f => (Some (HBool (has k m)), [inl k], changes k f m)
  | HExtend kvs => let '(b, d, m') := spec_extend kvs m in (if b then Some HUnit else None, d, m')
  | HLen => (Some (HNat (Z.of_nat (length m))), [], m)
  | HIsEmpty => (Some (HBool (match m with [] => true | _ => false end)), [], m)
  | HClear => (Some HUnit, parts m, [])
  | HIter => (Some (HPairs m), [], m)
  | HIterMut g => (Some (HPairs m), [], map (fun e => (fst e, g (fst e) (snd e))) m)
  end.

Fixpoint spec_run (cs : list (hcall K V)) (m : fmap) : list (option (hanswer K V)) * list (K + V) * fmap :=
  match cs with
  | [] => ([], [], m)
  | c :: cs' =>
    let '(a, d, m1) := spec_call c m in
    let '(l, d', m2) := spec_run cs' m1 in
    (a :: l, d ++ d', m2)
  end.

(** Equal answers; the order of iteration is unspecified. *)
Definition same_answer (a b : option (hanswer K V)) : Prop :=
  match a, b with
  | Some (HPairs l), Some (HPairs l') => l ≡ₚ l'
  | _, _ => a = b
  end.

(** No two entries for the same key. *)
Definition distinct (m : fmap) : Prop :=
  forall i j x y, m !! i = Some x -> m !! j = Some y -> eqb (fst x) (fst y) = true -> i = j.

(** The keys and values a call hands over to the table ... *)
Definition given (c : hcall K V) : list (K + V) :=
  match c with
  | HInsert k v | HEntryOr k _ v => [inl k; inr v]
  | HEntryDrop k _ => [inl k]
  | HGetMutSet k v => [inr v]
  | HExtend kvs => parts kvs
  | _ => []
  end.
(** ... and takes from it, where the closure of [or_insert_with] hands over its
    value only when it runs. *)
Definition with_given (c : hcall K V) (a : option (hanswer K V)) : list (K + V) :=
  match c, a with
  | HEntryWith k _ v, Some (HRef false _) => [inl k]
  | HEntryWith k _ v, _ => [inl k; inr v]
  | _, _ => given c
  end.
Definition taken (c : hcall K V) (a : option (hanswer K V)) : list (K + V) :=
  match c, a with
  | (HInsert _ _ | HRemove _), Some (HVal (Some v)) => [inr v]
  | HRemoveEntry _, Some (HPair (Some e)) => [inl (fst e); inr (snd e)]
  | _, _ => []
  end.
Fixpoint all_given (cs : list (hcall K V)) (l : list (option (hanswer K V))) : list (K + V) :=
  match cs, l with c :: cs', a :: l' => with_given c a ++ all_given cs' l' | _, _ => [] end.
Fixpoint all_taken (cs : list (hcall K V)) (l : list (option (hanswer K V))) : list (K + V) :=
  match cs, l with c :: cs', a :: l' => taken c a ++ all_taken cs' l' | _, _ => [] end.

(** Calls that do not rewrite values in place through a closure. *)
Definition no_rewrite (c : hcall K V) : bool :=
  match c with
  | HEntryOr _ (Some _) _ | HEntryWith _ (Some _) _ | HEntryDrop _ (Some _) | HIterMut _ => false
  | _ => true
  end.

(** How many keys the calls hand over. *)
Definition keys_in (c : hcall K V) : nat :=
  match c with
  | HInsert _ _ | HEntryOr _ _ _ | HEntryWith _ _ _ => 1
  | HExtend kvs => length kvs
  | _ => 0
  end.
Definition keys_given (cs : list (hcall K V)) : nat := sum_list (map keys_in cs).

(** What the containers need of their keys: the equality is an equivalence and
    equal keys hash alike. *)
Record KeyHash (hash : K -> Z) : Prop := {
  kh_refl : forall a, eqb a a = true;
  kh_sym : forall a b, eqb a b = true -> eqb b a = true;
  kh_trans : forall a b c, eqb a b = true -> eqb b c = true -> eqb a c = true;
  kh_hash : forall a b, eqb a b = true -> hash a = hash b
}.
End spec.

(** ** Sets: a list of keys, no two equal, in no particular order. *)
Section set_spec.
Context {K : Type}.
Variable eqb : K -> K -> bool.

Definition sfull (ks : list K) : bool := (Z.of_nat (length ks) =? max_entries)%Z.
Definition sfind (k : K) (ks : list K) : option K := List.find (fun k' => eqb k' k) ks.
Definition smem (k : K) (ks : list K) : bool := existsb (fun k' => eqb k' k) ks.

Fixpoint sset_extend (new ks : list K) : bool * list K :=
  match new with
  | [] => (true, ks)
  | k :: new' => if smem k ks then sset_extend new' ks else if sfull ks then (false, ks) else sset_extend new' (k :: ks)
  end.

(** The answer ([None]: panic) and the set after.  [insert] answers whether the
    key was there before (see C50). *)
Definition sset_call (c : scall K) (ks : list K) : option (sanswer K) * list K :=
  match c with
  | SInsert k =>
    if smem k ks then (Some (SBool true), ks)
    else if sfull ks then (None, ks) else (Some (SBool false), k :: ks)
  | SContains k => (Some (SBool (smem k ks)), ks)
  | SGet k => (Some (SKey (sfind k ks)), ks)
  | SRemove k => (Some (SKey (sfind k ks)), List.filter (fun k' => negb (eqb k' k)) ks)
  | SExtend new => let '(b, ks') := sset_extend new ks in (if b then Some SUnit else None, ks')
  | SLen => (Some (SNat (Z.of_nat (length ks))), ks)
  | SIsEmpty => (Some (SBool (match ks with [] => true | _ => false end)), ks)
  | SClear => (Some SUnit, [])
  | SIter => (Some (SKeys ks), ks)
  end.

Fixpoint sset_run (cs : list (scall K)) (ks : list K) : list (option (sanswer K)) * list K :=
  match cs with
  | [] => ([], ks)
  | c :: cs' => let '(a, ks1) := sset_call c ks in let '(l, ks2) := sset_run cs' ks1 in (a :: l, ks2)
  end.

Definition same_sanswer (a b : option (sanswer K)) : Prop :=
  match a, b with
  | Some (SKeys l), Some (SKeys l') => l ≡ₚ l'
  | _, _ => a = b
  end.
End set_spec.

(** How many calls of a program changed the number of buckets. *)
Fixpoint rehashes {K V} (nsz nal : Z) (eb : nat) (chk : bool) (hash : K -> Z) (eqb : K -> K -> bool)
    (cs : list (hcall K V)) (s : tstate K V) : nat :=
  match cs with
  | [] => 0
  | c :: cs' =>
    match h_call nsz nal eb chk hash eqb c s with
    | UB => 0
    | Ok _ s' | Panic s' =>
      (if (t_bc s' =? t_bc s)%Z then 0 else 1) + rehashes nsz nal eb chk hash eqb cs' s'
    end
  end.

(** The static array in the initial heap: one empty slot and the end mark.  Its
    size entry is never a layout, so it cannot be freed. *)
Definition static_ok {K V} (eb : nat) (h : heap (tcell K V)) : Prop :=
  h_blk h !! eb = Some (Block (-1) 8 [Some (TSlot Null); Some TOnes]).

(** The setting of the theorems: a node layout the allocator accepts, proper keys,
    and a heap holding the static array. *)
Record Setup {K V} (nsz nal : Z) (eb : nat) (hash : K -> Z) (eqb : K -> K -> bool) (h0 : heap (tcell K V)) : Prop := {
  su_size : (0 < nsz)%Z;
  su_layout : layout_ok nsz nal = true;
  su_keys : KeyHash eqb hash;
  su_heap : heap_wf h0;
  su_static : static_ok eb h0
}.

(** A table built by a program from the empty one. *)
Definition built {K V} (nsz nal : Z) (eb : nat) (chk : bool) (hash : K -> Z) (eqb : K -> K -> bool) (h0 : heap (tcell K V))
    (prog : list (hcall K V)) (l : list (option (hanswer K V))) (s : tstate K V) : Prop :=
  h_run nsz nal eb chk hash eqb prog (ht_new eb h0 []) = Some (l, s).

(** The call does not take out the key. *)
Definition keeps {K V} (eqb : K -> K -> bool) (c : hcall K V) (k : K) : bool :=
  match c with HRemove k' | HRemoveEntry k' => negb (eqb k k') | HClear => false | _ => true end.

Definition keys_of {K V} (l : list (K + V)) : list K :=
  flat_map (fun x => match x with inl k => [k] | inr _ => [] end) l.

(** What [get] answers for every key. *)
Definition holds {K V} (hash : K -> Z) (eqb : K -> K -> bool) (s : tstate K V) (m : K -> option (K * V)) : Prop :=
  forall k, get hash eqb k s = Ok (m k) s.

(** For examples and refutations: keys and values are integers; a heap holding only
    the static array; the program inserting the keys 0, 1, .., n-1. *)
Definition hx_hash (k : Z) : Z := (k mod 2 ^ 32)%Z.
Definition hx_heap {V} : heap (tcell Z V) := Heap 1 {[ 0 := Block (-1) 8 [Some (TSlot Null); Some TOnes] ]}.
Definition hx_run (prog : list (hcall Z Z)) : option (list (option (hanswer Z Z)) * tstate Z Z) :=
  h_run 24 8 0 true hx_hash Z.eqb prog (ht_new 0 hx_heap []).
Definition inserts (n : nat) : list (hcall Z Z) := map (fun i => HInsert (Z.of_nat i) (Z.of_nat i)) (seq 0 n).
