(** The hash table of src/internal/hash_table with any [Hash] and [Equals]
    implementation at all: each evaluation may answer anything, also differently for
    the same arguments, or panic.

    The functions that evaluate them are repeated from HashTable.v; the others are
    lifted.  The state is the table and the number of evaluations so far. *)
From Verif Require Import Base Heap Alloc RehashPolicy HashTable.

Section any.
Context {K V : Type}.
Variables (nsz nal : Z) (eb : nat) (chk : bool).
(** What the n-th evaluation answers; [None] is a panic. *)
Variable ho : nat -> K -> option Z.
Variable eo : nat -> K -> K -> option bool.

Local Notation tstate := (tstate K V).
Definition astate : Type := (tstate * nat)%type.

Definition lift {A} (m : M tstate A) : M astate A := fun s =>
  match m (fst s) with
  | Ok a s' => Ok a (s', snd s)
  | Panic s' => Panic (s', snd s)
  | UB => UB
  end.
Definition alogged (l : list (K + V)) (s : astate) : astate := (logged l (fst s), snd s).

(** [H::hash(k)] and [E::equals(k, k')]. *)
Definition hash_now (k : K) : M astate Z := fun s =>
  match ho (snd s) k with
  | Some z => Ok z (fst s, S (snd s))
  | None => Panic (fst s, S (snd s))
  end.
Definition equals_now (k k' : K) : M astate bool := fun s =>
  match eo (snd s) k k' with
  | Some b => Ok b (fst s, S (snd s))
  | None => Panic (fst s, S (snd s))
  end.

(** mod.rs:251-254, [bucket_index]. *)
Definition a_bucket_index (bc : Z) (key : K) : M astate nat :=
  do z <- hash_now key;
  if (bc =? 0)%Z then panic else ret (Z.to_nat (z mod bc)).

(** mod.rs:227-229, [bucket_for_key]. *)
Definition a_bucket_for_key (key : K) : M astate ptr :=
  do s <- gets fst;
  do ss <- or_ub (hslice (t_h s) (t_arr s) (Z.to_nat (t_bc s)));
  do i <- a_bucket_index (t_bc s) key;
  if i <? length ss then or_ub (hadd (t_h s) (t_arr s) i) else panic.

(** mod.rs:236-241, [bucket_for_key_mut]. *)
Definition a_bucket_for_key_mut (key : K) : M astate ptr :=
  do s <- gets fst;
  do i <- a_bucket_index (t_bc s) key;
  or_ub (hadd (t_h s) (t_arr s) i).

(** mod.rs:289-315, [find_in_bucket] and [find_in_bucket_mut]. *)
Fixpoint a_find_in_bucket (f : nat) (p : ptr) (key : K) : M astate (option ptr) :=
  match f with
  | O => ub
  | S f' =>
    match p with
    | Null => ret None
    | _ =>
      do n <- lift (node_at p);
      let '(k, v, nx) := n in
      do b <- equals_now k key;
      if b : bool then ret (Some p) else a_find_in_bucket f' nx key
    end
  end.
Definition a_find_from (slot : ptr) (key : K) : M astate (option ptr) :=
  do p <- lift (read_slot slot);
  do f <- gets (fun s => fuel (fst s));
  a_find_in_bucket f p key.

(** mod.rs:100-103, [get]. *)
Definition a_get (key : K) : M astate (option (K * V)) :=
  do slot <- a_bucket_for_key key;
  do o <- a_find_from slot key;
  match o with
  | None => ret None
  | Some p => do n <- lift (node_at p); let '(k, v, nx) := n in ret (Some (k, v))
  end.

(** mod.rs:110-113, [get_mut], followed by the caller writing [v]; [v] is dropped
    when [get_mut] panics. *)
Definition a_get_mut_set (key : K) (v : V) : M astate bool :=
  do o <- on_unwind (alogged [inr v]) (do slot <- a_bucket_for_key_mut key; a_find_from slot key);
  match o with
  | None => run lift (drop_all [inr v]); ret false
  | Some p =>
    do n <- lift (node_at p);
    let '(k, old, nx) := n in
    run lift (store eb p (TNode k v nx));
    run lift (drop_all [inr old]);
    ret true
  end.

(** mod.rs:405-411. *)
Fixpoint a_rehash_bucket (f : nat) (nb : ptr) (bc : Z) (p : ptr) : M astate unit :=
  match f with
  | O => ub
  | S f' =>
    match p with
    | Null => ret tt
    | _ =>
      do n <- lift (node_at p);
      let '(k, v, nx) := n in
      do i <- a_bucket_index bc k;
      do h <- gets (fun s => t_h (fst s));
      if (Z.of_nat i <? bc + 1)%Z then
        do slot <- or_ub (hadd h nb i);
        do q <- lift (read_slot slot);
        run lift (store eb p (TNode k v q));
        run lift (write_slot eb slot p);
        a_rehash_bucket f' nb bc nx
      else panic
    end
  end.

(** mod.rs:388-418, [rehash].  A panic leaks the new array. *)
Definition a_rehash (bc : Z) : M astate unit :=
  do n <- u32 chk (bc + 1);
  do nb <- lift (allocate 8 8 n);
  do h <- gets (fun s => t_h (fst s));
  run lift (for_each (seq 0 (Z.to_nat n)) (fun i => do slot <- or_ub (hadd h nb i); write_slot eb slot Null));
  (if (bc <? n)%Z then
    run lift (do slot <- or_ub (hadd h nb (Z.to_nat bc)); store eb slot TOnes);
    do s <- gets fst;
    run (if is_null (t_arr s) then ret tt else
      for_each (seq 0 (Z.to_nat (t_bc s))) (fun i =>
        do slot <- or_ub (hadd (t_h s) (t_arr s) i);
        do p <- lift (read_slot slot);
        if is_null p then ret tt
        else
          do f <- gets (fun s => fuel (fst s));
          run a_rehash_bucket f nb bc p;
          lift (write_slot eb slot Null)));
    run lift (free_buckets nsz nal eb);
    lift (set_buckets nb bc)
  else panic).

(** mod.rs:357-381, [insert_impl]. *)
Definition a_insert_impl (target : ptr) (k : K) (v : V) : M astate ptr :=
  do tn <- on_unwind (alogged [inr v; inl k]) (
    do o <- lift (rehash_required chk);
    do target <- match o with
                 | Some bc => run a_rehash bc; a_bucket_for_key_mut k
                 | None => ret target
                 end;
    do node <- lift (allocate nsz nal 1);
    ret (target, node));
  let '(target, node) := tn in
  lift (
    do nx <- read_slot target;
    run store eb node (TNode k v nx);
    run write_slot eb target node;
    do s <- gets id;
    do ec <- u32 chk (t_ec s + 1);
    run set_ec ec;
    ret node).

(** mod.rs:122-133, [insert]; key and value are dropped when the search panics. *)
Definition a_insert (k : K) (v : V) : M astate (option V) :=
  do r <- on_unwind (alogged [inr v; inl k]) (
    do target <- a_bucket_for_key_mut k;
    do o <- a_find_from target k;
    ret (target, o));
  match snd r with
  | Some p =>
    lift (
      do n <- node_at p;
      let '(k0, old, nx) := n in
      run store eb p (TNode k0 v nx);
      run drop_all [inl k];
      ret (Some old))
  | None => run a_insert_impl (fst r) k v; ret None
  end.

(** mod.rs:80-93, [entry]. *)
Definition a_entry (k : K) : M astate (ptr + ptr * K) :=
  do r <- on_unwind (alogged [inl k]) (
    do target <- a_bucket_for_key_mut k;
    do o <- a_find_from target k;
    ret (target, o));
  match snd r with
  | Some p => run lift (drop_all [inl k]); ret (inl p)
  | None => ret (inr (fst r, k))
  end.
Definition a_entry_mod (k : K) (f : option (V -> V)) : M astate (ptr + ptr * K) :=
  do e <- a_entry k;
  run lift (match f with Some f => and_modify eb e f | None => ret tt end);
  ret e.

(** entry.rs:50-61, [or_insert_with]. *)
Definition a_or_insert_with (e : ptr + ptr * K) (dflt : V) : M astate (bool * V) :=
  match e with
  | inl p => do n <- lift (node_at p); let '(k, v, nx) := n in ret (false, v)
  | inr (target, k) =>
    do p <- a_insert_impl target k dflt;
    do n <- lift (node_at p);
    let '(k, v, nx) := n in ret (true, v)
  end.

(** entry.rs:41-43, [or_insert]. *)
Definition a_or_insert (e : ptr + ptr * K) (dflt : V) : M astate V :=
  do r <- a_or_insert_with e dflt;
  if! negb (fst r) then lift (drop_all [inr dflt]);
  ret (snd r).

(** mod.rs:202-204. *)
Fixpoint a_find_place (f : nat) (a : place) (key : K) : M astate place :=
  match f with
  | O => ub
  | S f' =>
    do p <- lift (read_place a);
    match p with
    | Null => ret a
    | _ =>
      do n <- lift (node_at p);
      let '(k, v, nx) := n in
      do b <- equals_now k key;
      if b : bool then ret a else a_find_place f' (ANext p) key
    end
  end.

(** mod.rs:197-220, [remove_entry]. *)
Definition a_remove_entry (key : K) : M astate (option (K * V)) :=
  do slot <- a_bucket_for_key_mut key;
  do f <- gets (fun s => fuel (fst s));
  do a <- a_find_place f (ASlot slot) key;
  lift (
    do p <- read_place a;
    match p with
    | Null => ret None
    | _ =>
      do n <- node_at p;
      let '(k, v, nx) := n in
      run write_place eb a nx;
      run deallocate p nsz nal 1;
      do s <- gets id;
      do ec <- on_unwind (logged [inr v; inl k]) (u32 chk (t_ec s - 1));
      run set_ec ec;
      ret (Some (k, v))
    end).

(** mod.rs:187-189, [remove]. *)
Definition a_remove (key : K) : M astate (option V) :=
  do o <- a_remove_entry key;
  match o with
  | Some (k, v) => run lift (drop_all [inl k]); ret (Some v)
  | None => ret None
  end.

(** mod.rs:437-449, the loop of [FromIterator]. *)
Fixpoint a_insert_all (kvs : list (K * V)) : M astate unit :=
  match kvs with
  | [] => ret tt
  | (k, v) :: kvs' =>
    do o <- on_unwind (alogged (pair_parts kvs')) (a_insert k v);
    run lift (match o with Some old => drop_all [inr old] | None => ret tt end);
    a_insert_all kvs'
  end.

(** One call; [or_insert]'s default is dropped when [entry] panics.  Calls that
    evaluate neither function are those of HashTable.v, whose hash and equality
    arguments they do not use. *)
Definition a_call (c : hcall K V) : M astate (hanswer K V) :=
  match c with
  | HInsert k v => do o <- a_insert k v; ret (HVal o)
  | HGet k => do o <- a_get k; ret (HPair o)
  | HContains k => do o <- a_get k; ret (HBool (match o with Some _ => true | None => false end))
  | HGetMutSet k v => do b <- a_get_mut_set k v; ret (HBool b)
  | HRemove k => do o <- a_remove k; ret (HVal o)
  | HRemoveEntry k => do o <- a_remove_entry k; ret (HPair o)
  | HEntryOr k f v =>
    do e <- on_unwind (alogged [inr v]) (a_entry_mod k f);
    do v <- a_or_insert e v; ret (HRef true v)
  | HEntryWith k f v => do e <- a_entry_mod k f; do r <- a_or_insert_with e v; ret (HRef (fst r) (snd r))
  | HEntryDrop k f =>
    do e <- a_entry_mod k f; run lift (drop_entry e); ret (HBool (match e with inl _ => true | inr _ => false end))
  | HExtend kvs => run a_insert_all kvs; ret HUnit
  | c => lift (h_call nsz nal eb chk (fun _ => 0%Z) (fun _ _ => false) c)
  end.

(** A program, as [h_run]. *)
Fixpoint a_run (cs : list (hcall K V)) (s : astate) : option (list (option (hanswer K V)) * astate) :=
  match cs with
  | [] => Some ([], s)
  | c :: cs' =>
    match a_call c s with
    | UB => None
    | Ok a s' => match a_run cs' s' with Some (l, s'') => Some (Some a :: l, s'') | None => None end
    | Panic s' => match a_run cs' s' with Some (l, s'') => Some (None :: l, s'') | None => None end
    end
  end.
End any.
Arguments astate : clear implicits.
