(** The slice of buckets that a hash table makes when it grows: the calls of HashTable.v, with a
    check where [from_raw_parts_mut] is called for a new array.  Its documentation asks for
    initialised values (src/internal/hash_table/mod.rs).  The calls that put no key into the table
    are those of HashTable.v.  The same for sets at the end (src/hash_set/mod.rs). *)
From Verif Require Import Base Heap Alloc HashTable.

Section fresh.
Context {K V : Type}.
Variables nsz nal : Z.
Variable eb : nat.
Variable chk : bool.
Variable hash : K -> Z.
Variable eqb : K -> K -> bool.
Local Notation tstate := (tstate K V).

(** [from_raw_parts_mut] for the [n] buckets at [p]. *)
Definition slice_of (p : ptr) (n : nat) : M tstate unit :=
  do h <- gets t_h;
  match hslice h p n with Some _ => ret tt | None => ub end.

(** src/internal/hash_table/mod.rs:388-418, [rehash]: 391-394 make the slice, 396 fills it. *)
Definition rehash_i (bc : Z) : M tstate unit :=
  do n <- u32 chk (bc + 1);
  do nb <- allocate 8 8 n;
  run slice_of nb (Z.to_nat n);
  do h <- gets t_h;
  run for_each (seq 0 (Z.to_nat n)) (fun i => do slot <- or_ub (hadd h nb i); write_slot eb slot Null);
  (if (bc <? n)%Z then
    run (do slot <- or_ub (hadd h nb (Z.to_nat bc)); store eb slot TOnes);
    do s <- gets id;
    run (if is_null (t_arr s) then ret tt else
      for_each (seq 0 (Z.to_nat (t_bc s))) (fun i =>
        do slot <- or_ub (hadd (t_h s) (t_arr s) i);
        do p <- read_slot slot;
        if is_null p then ret tt
        else
          do f <- gets fuel;
          run rehash_bucket eb hash f nb bc p;
          write_slot eb slot Null));
    run free_buckets nsz nal eb;
    set_buckets nb bc
  else panic).

(** src/internal/hash_table/mod.rs:357-381, [insert_impl]. *)
Definition insert_impl_i (target : ptr) (k : K) (v : V) : M tstate ptr :=
  do tn <- on_unwind (logged [inr v; inl k]) (
    do o <- rehash_required chk;
    do target <- match o with
                 | Some bc => run rehash_i bc; bucket_for_key_mut hash k
                 | None => ret target
                 end;
    do node <- allocate nsz nal 1;
    ret (target, node));
  let '(target, node) := tn in
  do nx <- read_slot target;
  run store eb node (TNode k v nx);
  run write_slot eb target node;
  do s <- gets id;
  do ec <- u32 chk (t_ec s + 1);
  run set_ec ec;
  ret node.

(** src/internal/hash_table/mod.rs:122-133, [insert]. *)
Definition insert_i (k : K) (v : V) : M tstate (option V) :=
  do target <- on_unwind (logged [inr v; inl k]) (bucket_for_key_mut hash k);
  do o <- find_from eqb target k;
  match o with
  | Some p =>
    do n <- node_at p;
    let '(k0, old, nx) := n in
    run store eb p (TNode k0 v nx);
    run drop_all [inl k];
    ret (Some old)
  | None => run insert_impl_i target k v; ret None
  end.

(** src/internal/hash_table/entry.rs:50-61, [or_insert_with]. *)
Definition or_insert_with_i (e : ptr + ptr * K) (dflt : V) : M tstate (bool * V) :=
  match e with
  | inl p => do n <- node_at p; let '(k, v, nx) := n in ret (false, v)
  | inr (target, k) =>
    do p <- insert_impl_i target k dflt;
    do n <- node_at p;
    let '(k, v, nx) := n in ret (true, v)
  end.

(** src/internal/hash_table/entry.rs:41-43, [or_insert]. *)
Definition or_insert_i (e : ptr + ptr * K) (dflt : V) : M tstate V :=
  do r <- or_insert_with_i e dflt;
  if! negb (fst r) then drop_all [inr dflt];
  ret (snd r).

(** src/internal/hash_table/mod.rs:437-449, the loop of [FromIterator]. *)
Fixpoint insert_all_i (kvs : list (K * V)) : M tstate unit :=
  match kvs with
  | [] => ret tt
  | (k, v) :: kvs' =>
    do o <- on_unwind (logged (pair_parts kvs')) (insert_i k v);
    run match o with Some old => drop_all [inr old] | None => ret tt end;
    insert_all_i kvs'
  end.

(** One call of a method of [HashMap] (src/hash_map/mod.rs:44-144). *)
Definition h_call_i (c : hcall K V) : M tstate (hanswer K V) :=
  match c with
  | HInsert k v => do o <- insert_i k v; ret (HVal o)
  | HEntryOr k f v =>
    do e <- entry_mod eb hash eqb k f;
    do v <- or_insert_i e v; ret (HRef true v)
  | HEntryWith k f v => do e <- entry_mod eb hash eqb k f; do r <- or_insert_with_i e v; ret (HRef (fst r) (snd r))
  | HExtend kvs => run insert_all_i kvs; ret HUnit
  | _ => h_call nsz nal eb chk hash eqb c
  end.

(** A program (as [h_run] in HashTable.v; src/hash_map/mod.rs:44-144); [None]: a slice of buckets never
    written, or other undefined behaviour. *)
Fixpoint h_run_i (cs : list (hcall K V)) (s : tstate) : option (list (option (hanswer K V)) * tstate) :=
  match cs with
  | [] => Some ([], s)
  | c :: cs' =>
    match h_call_i c s with
    | UB => None
    | Ok a s' => match h_run_i cs' s' with Some (l, s'') => Some (Some a :: l, s'') | None => None end
    | Panic s' => match h_run_i cs' s' with Some (l, s'') => Some (None :: l, s'') | None => None end
    end
  end.
End fresh.

(** ** HashSet *)
Section set_fresh.
Context {K : Type}.
Variables nsz nal : Z.
Variable eb : nat.
Variable chk : bool.
Variable hash : K -> Z.
Variable eqb : K -> K -> bool.
Local Notation tstate := (tstate K unit).

(** src/hash_set/mod.rs:71-73, [insert]. *)
Definition set_insert_i (k : K) : M tstate bool :=
  do o <- insert_i nsz nal eb chk hash eqb k tt;
  ret (match o with Some _ => true | None => false end).

(** src/hash_set/mod.rs:133-143, [from_iter] on an existing table. *)
Definition set_extend_i (ks : list K) : M tstate unit :=
  insert_all_i nsz nal eb chk hash eqb (map (fun k => (k, tt)) ks).

(** One call of a method of [HashSet] (src/hash_set/mod.rs:40-109). *)
Definition set_call_i (c : scall K) : M tstate (sanswer K) :=
  match c with
  | SInsert k => do b <- set_insert_i k; ret (SBool b)
  | SExtend ks => run set_extend_i ks; ret SUnit
  | _ => set_call nsz nal eb chk hash eqb c
  end.

(** A program (as [set_run] in HashTable.v; src/hash_set/mod.rs:40-109). *)
Fixpoint set_run_i (cs : list (scall K)) (s : tstate) : option (list (option (sanswer K)) * tstate) :=
  match cs with
  | [] => Some ([], s)
  | c :: cs' =>
    match set_call_i c s with
    | UB => None
    | Ok a s' => match set_run_i cs' s' with Some (l, s'') => Some (Some a :: l, s'') | None => None end
    | Panic s' => match set_run_i cs' s' with Some (l, s'') => Some (None :: l, s'') | None => None end
    end
  end.
End set_fresh.
