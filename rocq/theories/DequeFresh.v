(** The slices of pointers that deques make: creating and growing a deque as in Deque.v, with a
    check where [from_raw_parts_mut] is called.  Its documentation asks for initialised values
    (src/deque/mod.rs).  The calls that make no such slice are those of Deque.v. *)
From Verif Require Import Base Heap Alloc Deque.

Section fresh.
Context {T : Type}.
Variables sz al : Z.
Variable chk : bool.
(** Are new arrays looked at, and arrays in use? *)
Variables young old : bool.
Local Notation dstate := (dstate T).
Local Notation SUB := (subarray_size sz).

(** [from_raw_parts_mut] for the [n] pointers at [p]. *)
Definition slice_of (on : bool) (p : ptr) (n : nat) : M dstate unit :=
  do h <- gets d_h;
  match hslice h p n with Some _ => ret tt | None => if on then ub else ret tt end.

(** src/deque/mod.rs:262-269, [allocate_ptr_array]: 264 makes the slice. *)
Definition allocate_ptr_array_i (n : Z) : M dstate ptr :=
  do p <- allocate_ptr_array n;
  run slice_of young p (Z.to_nat n);
  ret p.

(** src/deque/mod.rs:310-331, [init]. *)
Definition init_i : M dstate unit :=
  let n := INITIAL_PTR_ARRAY_SIZE in
  run set_arr Null n;
  do p <- allocate_ptr_array_i n;
  do h <- gets d_h;
  do h' <- or_ub (hput h p (replicate (Z.to_nat n) (Some (DPtr Null))));
  run set_h h';
  do a <- allocate_subarray sz al;
  do slot <- add p (Z.to_nat ((n - 1) / 2));
  run store slot (DPtr a);
  do slot <- add p 3;
  do s <- gets id;
  do b <- set_subarray sz (d_b s) slot;
  run set_b (DIt (di_begin b) (di_begin b) (di_end b) (di_arr b));
  do e <- set_subarray sz (d_e s) slot;
  run set_e (DIt (di_begin e) (di_begin e) (di_end e) (di_arr e));
  set_arr p n.

(** src/deque/mod.rs:101-111, [new_in]. *)
Definition deque_new_i (h : heap (dcell T)) (d : list T) : outcome dstate unit := init_i (empty_state h d).

(** src/deque/mod.rs:348-421, [realloc_ptr_array]: 361-362 make a slice of the array in use. *)
Definition realloc_ptr_array_i (additional : nat) (front : bool) : M dstate unit :=
  do s <- gets id;
  do unused_front <- or_ub (pdiff (di_arr (d_b s)) (d_arr s));
  do d <- or_ub (pdiff (di_arr (d_e s)) (di_arr (d_b s)));
  let used := d + 1 in
  do r <- usize chk (d_size s - Z.of_nat unused_front);
  do unused_back <- usize chk (Z.of_nat r - Z.of_nat used);
  let start := unused_front in
  let end_ := start + used in
  let n := if is_null (d_arr s) then 0 else Z.to_nat (d_size s) in
  run (if is_null (d_arr s) then ret tt else slice_of old (d_arr s) n);
  do new_start <-
    (if negb front && (additional <=? unused_front) then
       let additional := Nat.max additional ((unused_front + 1) / 2) in
       do new_start <- usize chk (Z.of_nat unused_front - Z.of_nat additional);
       run copy_within (d_arr s) n start end_ new_start;
       ret new_start
     else if front && (additional <=? unused_back) then
       let additional := Nat.max additional (unused_back / 2) in
       let new_start := start + additional in
       run copy_within (d_arr s) n start end_ new_start;
       ret new_start
     else
       do new_size <- u32 chk (d_size s + Z.max (d_size s) (Z.of_nat additional mod u32_lim));
       do new_size <- u32 chk (new_size + 2);
       do na <- allocate_ptr_array_i new_size;
       let new_start := unused_front + (if front then additional else 0) in
       let new_end := new_start + used in
       if! negb ((Z.of_nat new_end <=? new_size)%Z && (end_ <=? n)) then panic;
       do t <- add na new_start;
       do src <- add (d_arr s) start;
       do h <- gets d_h;
       do h' <- or_ub (hcopy h src t used);
       run set_h h';
       run free_ptr_array;
       run set_arr na new_size;
       ret new_start);
  do s <- gets id;
  do a <- add (d_arr s) new_start;
  do b <- set_subarray sz (d_b s) a;
  run set_b b;
  do k <- usize chk (Z.of_nat (new_start + used) - 1);
  do a <- add (d_arr s) k;
  do e <- set_subarray sz (d_e s) a;
  set_e e.

(** src/deque/mod.rs:171-195, [push_back]. *)
Definition push_back_i (elem : T) : M dstate unit :=
  do s <- gets id;
  let e := d_e s in
  do l <- sub (di_end e) 1;
  if decide (di_cur e <> l) then
    run store (di_cur e) (DElem elem);
    do c <- add (di_cur e) 1;
    set_e (DIt c (di_begin e) (di_end e) (di_arr e))
  else
    run on_unwind (logged [elem]) (
      do k <- usize chk (d_size s - 1);
      do p <- add (d_arr s) k;
      if decide (di_arr e = p) then realloc_ptr_array_i 1 false else ret tt);
    do s <- gets id;
    let e := d_e s in
    run store (di_cur e) (DElem elem);
    do p <- allocate_subarray sz al;
    do slot <- add (di_arr e) 1;
    run store slot (DPtr p);
    do a <- add (di_arr e) 1;
    do e' <- set_subarray sz e a;
    set_e (DIt (di_begin e') (di_begin e') (di_end e') (di_arr e')).

(** src/deque/mod.rs:202-226, [push_front]. *)
Definition push_front_i (elem : T) : M dstate unit :=
  do s <- gets id;
  let b := d_b s in
  run on_unwind (logged [elem]) (
    if decide (di_cur b <> di_begin b) then
      do c <- sub (di_cur b) 1;
      set_b (DIt c (di_begin b) (di_end b) (di_arr b))
    else
      run (if decide (di_arr b = d_arr s) then realloc_ptr_array_i 1 true else ret tt);
      do s <- gets id;
      let b := d_b s in
      do p <- allocate_subarray sz al;
      do slot <- sub (di_arr b) 1;
      run store slot (DPtr p);
      do a <- sub (di_arr b) 1;
      do b' <- set_subarray sz b a;
      do c <- sub (di_end b') 1;
      set_b (DIt c (di_begin b') (di_end b') (di_arr b')));
  do s <- gets id;
  store (di_cur (d_b s)) (DElem elem).

(** ** Programs, as in Deque.v *)
Definition d_call_i (c : dcall T) : M dstate (danswer T) :=
  match c with
  | DPushBack x => run push_back_i x; ret DUnit
  | DPushFront x => run push_front_i x; ret DUnit
  | _ => d_call sz al chk c
  end.
Fixpoint d_run_i (cs : list (dcall T)) (s : dstate) : option (list (option (danswer T)) * dstate) :=
  match cs with
  | [] => Some ([], s)
  | c :: cs' =>
    match d_call_i c s with
    | Ok a s' => option_map (fun r => (Some a :: fst r, snd r)) (d_run_i cs' s')
    | Panic s' => option_map (fun r => (None :: fst r, snd r)) (d_run_i cs' s')
    | UB => None
    end
  end.
End fresh.
