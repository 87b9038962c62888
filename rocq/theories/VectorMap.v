(** Model of src/vector_map/mod.rs and src/vector_map/entry.rs. *)
From Verif Require Import Base Heap Alloc Vector.

(** [superslice::Ext::lower_bound_by] (external crate, version in Cargo.toml,
    called from src/vector_map/mod.rs:191), where [less x] says that the closure
    answers [Ordering::Less] for [x].  Its source is not in the repository; this
    is the loop
<<
      let mut size = s.len();  if size == 0 { return 0; }
      let mut base = 0;
      while size > 1 { let half = size / 2; let mid = base + half;
                       if f(s[mid]) == Less { base = mid }  size -= half; }
      base + (f(s[base]) == Less) as usize
>>
    The accesses are unchecked in the crate: [None] is an access out of range
    (or, excluded by theorem, running out of [fuel]).  The second component of
    the result counts the calls of the closure. *)
Fixpoint lb_loop {T} (less : T -> bool) (xs : list T) (fuel base size cnt : nat) : option (nat * nat) :=
  match fuel with
  | O => None
  | S fuel' =>
    if 1 <? size then
      let half := size / 2 in
      let mid := base + half in
      match xs !! mid with
      | None => None
      | Some x => lb_loop less xs fuel' (if less x then mid else base) (size - half) (S cnt)
      end
    else
      match xs !! base with
      | None => None
      | Some x => Some (base + (if less x then 1 else 0), S cnt)
      end
  end.
Definition lower_bound_by {T} (less : T -> bool) (xs : list T) : option (nat * nat) :=
  if length xs =? 0 then Some (0, 0) else lb_loop less xs (length xs) 0 (length xs) 0.

Section vector_map.
Context {A K V : Type}.
Variable AI : AllocImpl A (K * V).
(** [size_of::<(K, V)>()], [align_of::<(K, V)>()]. *)
Variables sz al : Z.
Variable chk : bool.
Variable needs_drop : bool.
(** [C::compare] and [K: PartialEq]; total, pure functions. *)
Variable cmp : K -> K -> bool.
Variable eqb : K -> K -> bool.

(** The map (src/vector_map/mod.rs:18-21, made by 25-30, [new_in]; [_compare] carries no
    data; 56-58, 61-63 and 166-168, [capacity], [clear] and [len], are the vector's) with a
    second log: keys and values dropped on their own, outside a pair. *)
Record mstate : Type := MState { ms_v : vstate A (K * V); ms_lone : list (K + V) }.

Definition base {B} (m : M (vstate A (K * V)) B) : M mstate B := fun s =>
  match m (ms_v s) with
  | Ok b v => Ok b (MState v (ms_lone s))
  | Panic v => Panic (MState v (ms_lone s))
  | UB => UB
  end.
Definition drop_lone (xs : list (K + V)) : M mstate unit :=
  modify (fun s => MState (ms_v s) (ms_lone s ++ (if needs_drop then xs else []))).

(** Lines 190-200, [lower_bound]. *)
Definition lower_bound (key : K) : M mstate nat :=
  do xs <- base (as_slice sz);
  do r <- or_ub (lower_bound_by (fun kv => cmp (fst kv) key) xs);
  ret (fst r).

(** [self.base[i]], through [Deref for Vector]: panics out of range. *)
Definition at_index (i : nat) : M mstate (K * V) :=
  do xs <- base (as_slice sz);
  match xs !! i with Some kv => ret kv | None => panic end.

(** The place [self.base[i].1] through [DerefMut]: writes [v], gives back the
    value that was there. *)
Definition replace_value (i : nat) (v : V) : M (vstate A (K * V)) V :=
  do w <- gets st_v;
  do n <- (if is_null (v_begin w) then ret 0 else len sz);
  if! negb (i <? n) then panic;
  do p <- from_heap (fun h => hadd h (v_begin w) i);
  do kv <- from_heap (fun h => hload h p);
  run on_heap (fun h => hstore h p (fst kv, v));
  ret (snd kv).

(** The test shared by lines 81, 101-104, 123-126, 148 and 182. *)
Definition found (lb : nat) (key : K) : M mstate bool :=
  do n <- base (len sz);
  if lb <? n then do kv <- at_index lb; ret (eqb (fst kv) key) else ret false.

(** Lines 97-112, [get]; also [get_mut] (119-134) without writing. *)
Definition vm_get (key : K) : M mstate (option V) :=
  do lb <- lower_bound key;
  do f <- found lb key;
  if f then do kv <- at_index lb; ret (Some (snd kv)) else ret None.

(** [if let Some(v) = m.get_mut(&key) { *v = value }], lines 119-134; without a
    hit the caller's [value] is dropped. *)
Definition vm_get_mut_set (key : K) (value : V) : M mstate bool :=
  do lb <- lower_bound key;
  do f <- found lb key;
  if f then do old <- base (replace_value lb value); run drop_lone [inr old]; ret true
  else run drop_lone [inr value]; ret false.

(** Lines 70-72, [contains_key]. *)
Definition vm_contains_key (key : K) : M mstate bool :=
  do r <- vm_get key; ret (match r with Some _ => true | None => false end).

(** Lines 143-158, [insert].  (Unwinding out of the search, possible only for
    zero-sized pairs, does not log the arguments.) *)
Definition vm_insert (key : K) (value : V) : M mstate (option V) :=
  do lb <- lower_bound key;
  do f <- found lb key;
  if f then
    do old <- base (replace_value lb value);
    run drop_lone [inl key];
    ret (Some old)
  else
    run base (insert AI sz al chk needs_drop lb (key, value));
    ret None.

(** Lines 178-187, [remove_entry]. *)
Definition vm_remove_entry (key : K) : M mstate (option (K * V)) :=
  do lb <- lower_bound key;
  do f <- found lb key;
  if f then base (remove sz chk lb) else ret None.

(** Lines 172-174, [remove]: the key of the pair is dropped. *)
Definition vm_remove (key : K) : M mstate (option V) :=
  do r <- vm_remove_entry key;
  match r with
  | Some (k, v) => run drop_lone [inl k]; ret (Some v)
  | None => ret None
  end.

(** Lines 76-90, [entry]: [inl i] is the occupied entry borrowing pair [i] (the
    argument key is dropped), [inr i] the vacant entry with its bound. *)
Definition vm_entry (key : K) : M mstate (nat + nat) :=
  do lb <- lower_bound key;
  do f <- found lb key;
  if f then run drop_lone [inl key]; ret (inl lb) else ret (inr lb).

(** [match m.entry(key) { Occupied(e) => (e.key(), e.get()), Vacant(e) => e.into_key() }],
    entry.rs:10-12, 20-22, 34-36. *)
Definition vm_entry_get (key : K) : M mstate (K * V + K) :=
  do e <- vm_entry key;
  match e with
  | inl i => do kv <- at_index i; ret (inl kv)
  | inr _ => ret (inr key)
  end.

(** [match m.entry(key) { Occupied(e) => { *e.get_mut() = value; e.get() }, Vacant(e) => e.insert(value) }],
    entry.rs:15-17, 39-43: was it occupied, and what the reference reads. *)
Definition vm_entry_set (key : K) (value : V) : M mstate (bool * V) :=
  do e <- vm_entry key;
  match e with
  | inl i =>
    do old <- base (replace_value i value);
    run drop_lone [inr old];
    do kv <- at_index i; ret (true, snd kv)
  | inr i =>
    run base (insert AI sz al chk needs_drop i (key, value));
    do kv <- at_index i; ret (false, snd kv)
  end.

(** [for (k, v) in iter { vec.insert(k, v); }]: a returned old value is dropped;
    unwinding drops the pairs not yet inserted. *)
Fixpoint insert_all (kvs : list (K * V)) : M mstate unit :=
  match kvs with
  | [] => ret tt
  | (k, v) :: rest =>
    do old <- on_unwind (fun s => MState (log_drops needs_drop rest (ms_v s)) (ms_lone s)) (vm_insert k v);
    run drop_lone (match old with Some o => [inr o] | None => [] end);
    insert_all rest
  end.

(** The calls a user can make on one map, and what they observe. *)
Inductive mcall : Type :=
| MInsert (k : K) (v : V) | MGet (k : K) | MGetMutSet (k : K) (v : V) | MContains (k : K)
| MRemove (k : K) | MRemoveEntry (k : K) | MEntryGet (k : K) | MEntrySet (k : K) (v : V)
| MExtend (kvs : list (K * V)) | MWithCapacity (n : nat)
| MLen | MIsEmpty | MCapacity | MClear.

Inductive manswer : Type :=
| MUnit | MTaken (o : option V) | MRead (o : option V) | MPair (o : option (K * V))
| MEntry (e : K * V + K) | MSet (occupied : bool) (v : V) | MBool (b : bool) | MNat (n : nat) | MPanic.

(** [MExtend] is the loop of [From] and [FromIterator], mod.rs:242-244, 262-264,
    283-285; [MWithCapacity] on a new map is lines 46-51 (241, 261).  Lines
    56-63 and 161-168 delegate to the vector. *)
Definition m_exec (c : mcall) : M mstate manswer :=
  match c with
  | MInsert k v => do r <- vm_insert k v; ret (MTaken r)
  | MGet k => do r <- vm_get k; ret (MRead r)
  | MGetMutSet k v => do b <- vm_get_mut_set k v; ret (MBool b)
  | MContains k => do b <- vm_contains_key k; ret (MBool b)
  | MRemove k => do r <- vm_remove k; ret (MTaken r)
  | MRemoveEntry k => do r <- vm_remove_entry k; ret (MPair r)
  | MEntryGet k => do r <- vm_entry_get k; ret (MEntry r)
  | MEntrySet k v => do r <- vm_entry_set k v; ret (MSet (fst r) (snd r))
  | MExtend kvs => run insert_all kvs; ret MUnit
  | MWithCapacity n => run base (reserve AI sz al chk n); ret MUnit
  | MLen => do n <- base (len sz); ret (MNat n)
  | MIsEmpty => do b <- base (is_empty sz); ret (MBool b)
  | MCapacity => do n <- base (capacity sz); ret (MNat n)
  | MClear => run base (clear AI sz al chk needs_drop); ret MUnit
  end.

Definition m_step (c : mcall) (s : mstate) : option (manswer * mstate) :=
  match m_exec c s with
  | Ok a s' => Some (a, s')
  | Panic s' => Some (MPanic, s')
  | UB => None
  end.

Fixpoint m_run (cs : list mcall) (s : mstate) : option (list manswer * mstate) :=
  match cs with
  | [] => Some ([], s)
  | c :: cs' =>
    match m_step c s with
    | None => None
    | Some (a, s') =>
      match m_run cs' s' with
      | None => None
      | Some (l, s'') => Some (a :: l, s'')
      end
    end
  end.
End vector_map.

Arguments mcall : clear implicits.
Arguments manswer : clear implicits.
Arguments mstate : clear implicits.
Arguments MState {A K V}.
Arguments ms_v {A K V}.
Arguments ms_lone {A K V}.

(** Lines 25-30 and 37-39 of mod.rs, [new_in], [new] with the default allocator: an
    empty vector; [h] is whatever memory the program already has. *)
Definition new_map {K V} (h : heap (K * V)) : mstate unit K V := MState (VState new_in tt h []) [].
