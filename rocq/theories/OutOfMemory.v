(** The containers when the global allocator has no memory left: [alloc::alloc]
    returns null and src/allocator.rs:101-109 hands it on.

    Vector.v and String.v take any allocator.  HashTable.v and Deque.v fix the default
    one, so the functions of theirs that allocate are repeated here with the allocator
    as a parameter. *)
From Verif Require Import Base Heap Alloc Vector HashTable Deque.

(** src/allocator.rs:101-109 when [alloc::alloc] returns null. *)
Definition failed_alloc {C} (sz bytes align : Z) : M (unit * heap C) ptr := fun s =>
  if (bytes =? 0)%Z then Panic s
  else if layout_ok bytes align then Ok Null s
  else Panic s.
Definition OutOfMemory (C : Type) : AllocImpl unit C :=
  {| ai_alloc := failed_alloc; ai_free := default_free |}.

Section hash.
Context {K V : Type}.
Variable AI : AllocImpl unit (tcell K V).
Variables (nsz nal : Z) (eb : nat) (chk : bool).
Variables (hash : K -> Z) (eqb : K -> K -> bool).
Local Notation tstate := (tstate K V).

(** src/allocator.rs:15-21. *)
Definition t_allocate (sz al n : Z) : M tstate ptr := fun s =>
  match ai_alloc AI sz (n * sz) al (tt, t_h s) with
  | Ok p (_, h) => Ok p (TState (t_arr s) (t_bc s) (t_ec s) (t_nr s) h (t_drops s))
  | Panic _ => Panic s
  | UB => UB
  end.

(** src/internal/hash_table/mod.rs:388-418, [rehash]; [from_raw_parts_mut] of null
    is undefined. *)
Definition rehash_in (bc : Z) : M tstate unit :=
  do n <- u32 chk (bc + 1);
  do nb <- t_allocate 8 8 n;
  if is_null nb then ub else
  do h <- gets t_h;
  run for_each (seq 0 (Z.to_nat n)) (fun i => do slot <- or_ub (hadd h nb i); write_slot eb slot Null);
  (if (bc <? n)%Z then
    run (do slot <- or_ub (hadd h nb (Z.to_nat bc)); HashTable.store eb slot TOnes);
    do s <- gets id;
    run (if is_null (t_arr s) then ret tt else
      for_each (seq 0 (Z.to_nat (t_bc s))) (fun i =>
        do slot <- or_ub (hadd (t_h s) (t_arr s) i);
        do p <- read_slot slot;
        if is_null p then ret tt
        else
          do f <- gets HashTable.fuel;
          run rehash_bucket eb hash f nb bc p;
          write_slot eb slot Null));
    run free_buckets nsz nal eb;
    set_buckets nb bc
  else panic).

(** mod.rs:357-381, [insert_impl]. *)
Definition insert_impl_in (target : ptr) (k : K) (v : V) : M tstate ptr :=
  do tn <- on_unwind (HashTable.logged [inr v; inl k]) (
    do o <- rehash_required chk;
    do target <- match o with
                 | Some bc => run rehash_in bc; bucket_for_key_mut hash k
                 | None => ret target
                 end;
    do node <- t_allocate nsz nal 1;
    ret (target, node));
  let '(target, node) := tn in
  do nx <- read_slot target;
  run HashTable.store eb node (TNode k v nx);
  run write_slot eb target node;
  do s <- gets id;
  do ec <- u32 chk (t_ec s + 1);
  run set_ec ec;
  ret node.

(** mod.rs:122-133, [insert]. *)
Definition insert_in (k : K) (v : V) : M tstate (option V) :=
  do target <- on_unwind (HashTable.logged [inr v; inl k]) (bucket_for_key_mut hash k);
  do o <- find_from eqb target k;
  match o with
  | Some p =>
    do n <- node_at p;
    let '(k0, old, nx) := n in
    run HashTable.store eb p (TNode k0 v nx);
    run drop_all [inl k];
    ret (Some old)
  | None => run insert_impl_in target k v; ret None
  end.

(** entry.rs:50-61, [or_insert_with]. *)
Definition or_insert_with_in (e : ptr + ptr * K) (dflt : V) : M tstate (bool * V) :=
  match e with
  | inl p => do n <- node_at p; let '(k, v, nx) := n in ret (false, v)
  | inr (target, k) =>
    do p <- insert_impl_in target k dflt;
    do n <- node_at p;
    let '(k, v, nx) := n in ret (true, v)
  end.

(** entry.rs:41-43, [or_insert]. *)
Definition or_insert_in (e : ptr + ptr * K) (dflt : V) : M tstate V :=
  do r <- or_insert_with_in e dflt;
  if! negb (fst r) then drop_all [inr dflt];
  ret (snd r).

(** mod.rs:437-449, the loop of [FromIterator]. *)
Fixpoint insert_all_in (kvs : list (K * V)) : M tstate unit :=
  match kvs with
  | [] => ret tt
  | (k, v) :: kvs' =>
    do o <- on_unwind (HashTable.logged (pair_parts kvs')) (insert_in k v);
    run match o with Some old => drop_all [inr old] | None => ret tt end;
    insert_all_in kvs'
  end.

(** A call, for the calls that do not allocate as in HashTable.v. *)
Definition h_call_in (c : hcall K V) : M tstate (hanswer K V) :=
  match c with
  | HInsert k v => do o <- insert_in k v; ret (HVal o)
  | HEntryOr k f v => do e <- entry_mod eb hash eqb k f; do v <- or_insert_in e v; ret (HRef true v)
  | HEntryWith k f v =>
    do e <- entry_mod eb hash eqb k f; do r <- or_insert_with_in e v; ret (HRef (fst r) (snd r))
  | HExtend kvs => run insert_all_in kvs; ret HUnit
  | c => h_call nsz nal eb chk hash eqb c
  end.
End hash.

Section deque.
Context {T : Type}.
Variable AI : AllocImpl unit (dcell T).
Variables (sz al : Z) (chk : bool).
Local Notation dstate := (dstate T).

(** src/allocator.rs:15-21. *)
Definition d_allocate (csz cal n : Z) : M dstate ptr := fun s =>
  match ai_alloc AI csz (n * csz) cal (tt, d_h s) with
  | Ok p (_, h) => Ok p (DState (d_arr s) (d_size s) (d_b s) (d_e s) h (d_drops s))
  | Panic _ => Panic s
  | UB => UB
  end.

(** src/deque/mod.rs:262-269, [allocate_ptr_array]; [from_raw_parts_mut] of null is
    undefined. *)
Definition ptr_array_in (n : Z) : M dstate ptr :=
  do p <- d_allocate 8 8 n; if is_null p then ub else ret p.
(** mod.rs:272-274, [allocate_subarray]. *)
Definition subarray_in : M dstate ptr := d_allocate sz al (Z.of_nat (subarray_size sz)).

(** mod.rs:310-331, [init]. *)
Definition init_in : M dstate unit :=
  let n := INITIAL_PTR_ARRAY_SIZE in
  run set_arr Null n;
  do p <- ptr_array_in n;
  do h <- gets d_h;
  do h' <- or_ub (hput h p (replicate (Z.to_nat n) (Some (DPtr Null))));
  run Deque.set_h h';
  do a <- subarray_in;
  do slot <- Deque.add p (Z.to_nat ((n - 1) / 2));
  run Deque.store slot (DPtr a);
  do slot <- Deque.add p 3;
  do s <- gets id;
  do b <- set_subarray sz (d_b s) slot;
  run set_b (DIt (di_begin b) (di_begin b) (di_end b) (di_arr b));
  do e <- set_subarray sz (d_e s) slot;
  run set_e (DIt (di_begin e) (di_begin e) (di_end e) (di_arr e));
  set_arr p n.

(** mod.rs:348-421, [realloc_ptr_array]. *)
Definition realloc_ptr_array_in (additional : nat) (front : bool) : M dstate unit :=
  do s <- gets id;
  do unused_front <- or_ub (pdiff (di_arr (d_b s)) (d_arr s));
  do d <- or_ub (pdiff (di_arr (d_e s)) (di_arr (d_b s)));
  let used := d + 1 in
  do r <- usize chk (d_size s - Z.of_nat unused_front);
  do unused_back <- usize chk (Z.of_nat r - Z.of_nat used);
  let start := unused_front in
  let end_ := start + used in
  let n := if is_null (d_arr s) then 0 else Z.to_nat (d_size s) in
  do new_start <-
    (if negb front && (additional <=? unused_front) then
       let additional := Nat.max additional ((unused_front + 1) / 2) in
       do new_start <- usize chk (Z.of_nat unused_front - Z.of_nat additional);
       run copy_within (d_arr s) n start end_ new_start;
       ret new_start
     else if front && (additional <=? unused_back) then
       let additional := Nat.max additional (unused_back / 2) in
       let new_start := start + additional in
       run copy_within (d_arr s) n start end_ new_start;
       ret new_start
     else
       do new_size <- u32 chk (d_size s + Z.max (d_size s) (Z.of_nat additional mod u32_lim));
       do new_size <- u32 chk (new_size + 2);
       do na <- ptr_array_in new_size;
       let new_start := unused_front + (if front then additional else 0) in
       let new_end := new_start + used in
       if! negb ((Z.of_nat new_end <=? new_size)%Z && (end_ <=? n)) then panic;
       do t <- Deque.add na new_start;
       do src <- Deque.add (d_arr s) start;
       do h <- gets d_h;
       do h' <- or_ub (hcopy h src t used);
       run Deque.set_h h';
       run free_ptr_array;
       run set_arr na new_size;
       ret new_start);
  do s <- gets id;
  do a <- Deque.add (d_arr s) new_start;
  do b <- set_subarray sz (d_b s) a;
  run set_b b;
  do k <- usize chk (Z.of_nat (new_start + used) - 1);
  do a <- Deque.add (d_arr s) k;
  do e <- set_subarray sz (d_e s) a;
  set_e e.

(** mod.rs:171-195, [push_back]. *)
Definition push_back_in (elem : T) : M dstate unit :=
  do s <- gets id;
  let e := d_e s in
  do l <- Deque.sub (di_end e) 1;
  if decide (di_cur e <> l) then
    run Deque.store (di_cur e) (DElem elem);
    do c <- Deque.add (di_cur e) 1;
    set_e (DIt c (di_begin e) (di_end e) (di_arr e))
  else
    run on_unwind (Deque.logged [elem]) (
      do k <- usize chk (d_size s - 1);
      do p <- Deque.add (d_arr s) k;
      if decide (di_arr e = p) then realloc_ptr_array_in 1 false else ret tt);
    do s <- gets id;
    let e := d_e s in
    run Deque.store (di_cur e) (DElem elem);
    do p <- subarray_in;
    do slot <- Deque.add (di_arr e) 1;
    run Deque.store slot (DPtr p);
    do a <- Deque.add (di_arr e) 1;
    do e' <- set_subarray sz e a;
    set_e (DIt (di_begin e') (di_begin e') (di_end e') (di_arr e')).

(** mod.rs:202-226, [push_front]. *)
Definition push_front_in (elem : T) : M dstate unit :=
  do s <- gets id;
  let b := d_b s in
  run on_unwind (Deque.logged [elem]) (
    if decide (di_cur b <> di_begin b) then
      do c <- Deque.sub (di_cur b) 1;
      set_b (DIt c (di_begin b) (di_end b) (di_arr b))
    else
      run (if decide (di_arr b = d_arr s) then realloc_ptr_array_in 1 true else ret tt);
      do s <- gets id;
      let b := d_b s in
      do p <- subarray_in;
      do slot <- Deque.sub (di_arr b) 1;
      run Deque.store slot (DPtr p);
      do a <- Deque.sub (di_arr b) 1;
      do b' <- set_subarray sz b a;
      do c <- Deque.sub (di_end b') 1;
      set_b (DIt c (di_begin b') (di_end b') (di_arr b')));
  do s <- gets id;
  Deque.store (di_cur (d_b s)) (DElem elem).

(** A call, for the calls that do not allocate as in Deque.v. *)
Definition d_call_in (c : dcall T) : M dstate (danswer T) :=
  match c with
  | DPushBack x => run push_back_in x; ret DUnit
  | DPushFront x => run push_front_in x; ret DUnit
  | c => d_call sz al chk c
  end.
End deque.
