(** The map of src/vector_map with any [Compare] and [PartialEq] implementation at all:
    each evaluation may answer anything, also differently for the same arguments, or
    panic.

    The functions that evaluate them are repeated from VectorMap.v; the others are
    lifted.  The state is the map and the number of evaluations so far. *)
From Verif Require Import Base Heap Alloc Vector VectorMap.

Section any.
Context {A K V : Type}.
Variable AI : AllocImpl A (K * V).
Variables sz al : Z.
Variable chk : bool.
Variable needs_drop : bool.
(** What the n-th evaluation answers; [None] is a panic. *)
Variable co : nat -> K -> K -> option bool.
Variable eo : nat -> K -> K -> option bool.

Local Notation mstate := (mstate A K V).
Definition mastate : Type := (mstate * nat)%type.

Definition mlift {B} (m : M mstate B) : M mastate B := fun s =>
  match m (fst s) with
  | Ok a s' => Ok a (s', snd s)
  | Panic s' => Panic (s', snd s)
  | UB => UB
  end.
Definition mlogged (l : list (K + V)) (s : mastate) : mastate :=
  (MState (ms_v (fst s)) (ms_lone (fst s) ++ (if needs_drop then l else [])), snd s).

(** [C::compare(k, k')] and [k == k']. *)
Definition ask (o : nat -> K -> K -> option bool) (k k' : K) : M mastate bool := fun s =>
  match o (snd s) k k' with
  | Some b => Ok b (fst s, S (snd s))
  | None => Panic (fst s, S (snd s))
  end.

(** [superslice::Ext::lower_bound_by], as in VectorMap.v. *)
Fixpoint a_lb_loop (xs : list (K * V)) (key : K) (fuel base size : nat) : M mastate nat :=
  match fuel with
  | O => ub
  | S fuel' =>
    if 1 <? size then
      let half := size / 2 in
      let mid := base + half in
      match xs !! mid with
      | None => ub
      | Some kv =>
        do b <- ask co (fst kv) key;
        a_lb_loop xs key fuel' (if b : bool then mid else base) (size - half)
      end
    else
      match xs !! base with
      | None => ub
      | Some kv => do b <- ask co (fst kv) key; ret (base + (if b : bool then 1 else 0))
      end
  end.

(** Lines 190-200, [lower_bound]. *)
Definition a_lower_bound (key : K) : M mastate nat :=
  do xs <- mlift (base (as_slice sz));
  if length xs =? 0 then ret 0 else a_lb_loop xs key (length xs) 0 (length xs).

(** The test shared by lines 81, 101-104, 123-126, 148 and 182. *)
Definition a_found (lb : nat) (key : K) : M mastate bool :=
  do n <- mlift (base (len sz));
  if lb <? n then do kv <- mlift (at_index sz lb); ask eo (fst kv) key else ret false.

(** The search every method begins with. *)
Definition a_search (key : K) : M mastate (nat * bool) :=
  do lb <- a_lower_bound key;
  do f <- a_found lb key;
  ret (lb, f).

(** Lines 97-112, [get]. *)
Definition a_vm_get (key : K) : M mastate (option V) :=
  do r <- a_search key;
  if snd r : bool then do kv <- mlift (at_index sz (fst r)); ret (Some (snd kv)) else ret None.

(** Lines 119-134, [get_mut], and the caller writing [value], which is dropped when
    [get_mut] panics. *)
Definition a_vm_get_mut_set (key : K) (value : V) : M mastate bool :=
  do r <- on_unwind (mlogged [inr value]) (a_search key);
  mlift (
    if snd r : bool then
      do old <- base (replace_value sz (fst r) value); run drop_lone needs_drop [inr old]; ret true
    else run drop_lone needs_drop [inr value]; ret false).

(** Lines 143-158, [insert]; value and key are dropped when the search panics. *)
Definition a_vm_insert (key : K) (value : V) : M mastate (option V) :=
  do r <- on_unwind (mlogged [inr value; inl key]) (a_search key);
  mlift (
    if snd r : bool then
      do old <- base (replace_value sz (fst r) value);
      run drop_lone needs_drop [inl key];
      ret (Some old)
    else
      run base (insert AI sz al chk needs_drop (fst r) (key, value));
      ret None).

(** Lines 178-187, [remove_entry]. *)
Definition a_vm_remove_entry (key : K) : M mastate (option (K * V)) :=
  do r <- a_search key;
  mlift (if snd r : bool then base (remove sz chk (fst r)) else ret None).

(** Lines 172-174, [remove]. *)
Definition a_vm_remove (key : K) : M mastate (option V) :=
  do r <- a_vm_remove_entry key;
  match r with
  | Some (k, v) => run mlift (drop_lone needs_drop [inl k]); ret (Some v)
  | None => ret None
  end.

(** Lines 76-90, [entry]; the key is dropped when the search panics. *)
Definition a_vm_entry (key : K) : M mastate (nat + nat) :=
  do r <- on_unwind (mlogged [inl key]) (a_search key);
  mlift (if snd r : bool then run drop_lone needs_drop [inl key]; ret (inl (fst r)) else ret (inr (fst r))).

(** entry.rs:10-12, 20-22, 34-36. *)
Definition a_vm_entry_get (key : K) : M mastate (K * V + K) :=
  do e <- a_vm_entry key;
  match e with
  | inl i => do kv <- mlift (at_index sz i); ret (inl kv)
  | inr _ => ret (inr key)
  end.

(** entry.rs:15-17, 39-43; the caller's [value] is dropped when [entry] panics. *)
Definition a_vm_entry_set (key : K) (value : V) : M mastate (bool * V) :=
  do e <- on_unwind (mlogged [inr value]) (a_vm_entry key);
  mlift (
    match e with
    | inl i =>
      do old <- base (replace_value sz i value);
      run drop_lone needs_drop [inr old];
      do kv <- at_index sz i; ret (true, snd kv)
    | inr i =>
      run base (insert AI sz al chk needs_drop i (key, value));
      do kv <- at_index sz i; ret (false, snd kv)
    end).

(** mod.rs:242-244, 262-264, 283-285. *)
Fixpoint a_insert_all (kvs : list (K * V)) : M mastate unit :=
  match kvs with
  | [] => ret tt
  | (k, v) :: rest =>
    do old <- on_unwind (fun s => (MState (log_drops needs_drop rest (ms_v (fst s))) (ms_lone (fst s)), snd s)) (a_vm_insert k v);
    run mlift (drop_lone needs_drop (match old with Some o => [inr o] | None => [] end));
    a_insert_all rest
  end.

(** One call.  Calls that evaluate neither function are those of VectorMap.v, whose
    comparator and equality they do not use. *)
Definition ma_exec (c : mcall K V) : M mastate (manswer K V) :=
  match c with
  | MInsert k v => do r <- a_vm_insert k v; ret (MTaken r)
  | MGet k => do r <- a_vm_get k; ret (MRead r)
  | MGetMutSet k v => do b <- a_vm_get_mut_set k v; ret (MBool b)
  | MContains k => do r <- a_vm_get k; ret (MBool (match r with Some _ => true | None => false end))
  | MRemove k => do r <- a_vm_remove k; ret (MTaken r)
  | MRemoveEntry k => do r <- a_vm_remove_entry k; ret (MPair r)
  | MEntryGet k => do r <- a_vm_entry_get k; ret (MEntry r)
  | MEntrySet k v => do r <- a_vm_entry_set k v; ret (MSet (fst r) (snd r))
  | MExtend kvs => run a_insert_all kvs; ret MUnit
  | c => mlift (m_exec AI sz al chk needs_drop (fun _ _ => false) (fun _ _ => false) c)
  end.

Definition ma_step (c : mcall K V) (s : mastate) : option (manswer K V * mastate) :=
  match ma_exec c s with
  | Ok a s' => Some (a, s')
  | Panic s' => Some (MPanic, s')
  | UB => None
  end.
Fixpoint ma_run (cs : list (mcall K V)) (s : mastate) : option (list (manswer K V) * mastate) :=
  match cs with
  | [] => Some ([], s)
  | c :: cs' =>
    match ma_step c s with
    | None => None
    | Some (a, s') => match ma_run cs' s' with None => None | Some (l, s'') => Some (a :: l, s'') end
    end
  end.
End any.
Arguments mastate : clear implicits.
