(** [clear] and [Drop] of Vector, List and HashTable when destructors may panic.

    Rust's drop glue: when the destructor of one field or slice element panics, the
    other fields and elements are still dropped, and a second panic among them aborts
    the process.  A value whose destructor ran counts as uninitialised, however the
    destructor ended. *)
From Verif Require Import Base Heap Alloc AddrMem Vector LinkedList HashTable.

(** How a run that does not panic ends. *)
Inductive ending : Type := Done | Aborted | NoFuel.

(** After drop glue in which [n] destructors panicked: go on with [k]. *)
Definition after_glue {S} (n : nat) (k : M S ending) : M S ending :=
  match n with 0 => k | 1 => panic | _ => ret Aborted end.

Section vector.
Context {A T : Type}.
Variable AI : AllocImpl A T.
Variables (sz al : Z) (chk : bool).
(** The destructor of the element panics. *)
Variable bad : T -> bool.
Local Notation st := (vstate A T).

(** [ptr::drop_in_place] of a slice of [n] elements that have a destructor: how many
    of them panicked. *)
Fixpoint glue_slice (p : ptr) (n : nat) : M st nat :=
  match n with
  | O => ret 0
  | S n' =>
    do x <- from_heap (fun h => hload h p);
    run modify (log_drop true x);
    run on_heap (fun h => hput h p [None]);
    do q <- from_heap (fun h => hadd h p 1);
    do k <- glue_slice q n';
    ret (if bad x then S k else k)
  end.

(** src/vector/mod.rs:89-104, [Vector::clear]; also [Drop for Vector], 333-335. *)
Definition vec_clear_pd : M st ending :=
  do v <- gets st_v;
  if is_null (v_begin v) then run set_v (Vec Null Null Null); ret Done
  else
    do n <- Vector.len sz;
    do k <- glue_slice (v_begin v) n;
    after_glue k (
      do c <- Vector.capacity sz;
      run Vector.deallocate AI sz al chk (v_begin v) c;
      run set_v (Vec Null Null Null);
      ret Done).
End vector.

Section list.
Context {A T : Type}.
Variable aa : AddrAlloc A T.
Variables (chk : bool) (nsz : Z).
Variable bad : T -> bool.
Local Notation lstate := (lstate A T).

(** src/list/mod.rs:77-86, the loop of [clear]. *)
Fixpoint list_loop_pd (fuel : nat) (next : Z) : M lstate ending :=
  do s <- gets l_node;
  if (next =? s)%Z then ret Done else
  match fuel with
  | O => ret NoFuel
  | S f =>
    do n <- get_next next;
    do x <- move_val nsz next;
    run modify (LinkedList.logged [x]);
    if bad x then panic else
    run in_alloc (AddrMem.deallocate aa chk 16 8 next nsz);
    list_loop_pd f n
  end.
(** src/list/mod.rs:74-89, [clear]; also [Drop], 216-220. *)
Definition list_clear_pd : M lstate ending :=
  do s <- gets l_node;
  do f <- get_next s;
  do m <- gets l_mem;
  do e <- list_loop_pd (size (m_word m)) f;
  match e with
  | Done => run init_sentinel_node; run set_size 0; ret Done
  | e => ret e
  end.
End list.

Section hash.
Context {K V : Type}.
Variables (nsz nal : Z) (eb : nat).
(** The destructor of the key or of the value panics. *)
Variables (badk : K -> bool) (badv : V -> bool).
Local Notation tstate := (tstate K V).

(** The node at [p] is uninitialised from now on. *)
Definition forget (p : ptr) : M tstate unit := fun s =>
  match hput (t_h s) p [None] with
  | Some h => Ok tt (TState (t_arr s) (t_bc s) (t_ec s) (t_nr s) h (t_drops s))
  | None => UB
  end.

(** src/internal/hash_table/mod.rs:322-332, [free_bucket]. *)
Fixpoint free_bucket_pd (f : nat) (p : ptr) : M tstate ending :=
  match f with
  | O => ret NoFuel
  | S f' =>
    do n <- node_at p;
    let '(k, v, nx) := n in
    do e <- if is_null nx then ret Done else free_bucket_pd f' nx;
    match e with
    | Done =>
      run HashTable.drop_all [inl k; inr v];
      run forget p;
      after_glue ((if badk k then 1 else 0) + (if badv v then 1 else 0)) (
        run HashTable.deallocate p nsz nal 1;
        ret Done)
    | e => ret e
    end
  end.

(** The loop over the buckets, mod.rs:342-344, for the bucket array [arr] in [h]. *)
Fixpoint free_all_pd (h : heap (tcell K V)) (arr : ptr) (is_ : list nat) : M tstate ending :=
  match is_ with
  | [] => ret Done
  | i :: is_' =>
    do slot <- or_ub (hadd h arr i);
    do p <- read_slot slot;
    do e <- if is_null p then ret Done else do f <- gets fuel; free_bucket_pd f p;
    match e with Done => free_all_pd h arr is_' | e => ret e end
  end.

(** mod.rs:335-348, [free_buckets]; also [Drop], 431-435. *)
Definition free_buckets_pd : M tstate ending :=
  do s <- gets id;
  if (1 <? t_bc s)%Z then
    let n := Z.to_nat (t_bc s) in
    do e <- free_all_pd (t_h s) (t_arr s) (seq 0 n);
    match e with
    | Done =>
      run for_each (seq 0 n) (fun i =>
        do slot <- or_ub (hadd (t_h s) (t_arr s) i);
        write_slot eb slot Null);
      ret Done
    | e => ret e
    end
  else ret Done.

(** mod.rs:63-66, [clear]. *)
Definition table_clear_pd : M tstate ending :=
  do e <- free_buckets_pd;
  match e with Done => run set_ec 0; ret Done | e => ret e end.
End hash.
