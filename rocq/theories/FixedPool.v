(** Model of src/fixed_pool/mod.rs and src/fixed_pool/with_overflow.rs.

    The three pointers of the pool are fields of a record; the links of the free list
    are words in the pool's memory, where the code overlays them on freed nodes. *)
From Verif Require Import Base Alloc AddrMem.

(** src/fixed_pool/mod.rs:20-27, [FixedPool]. *)
Record pool : Type := Pool { p_head : Z; p_next : Z; p_cap : Z }.

(** src/fixed_pool/mod.rs:116-125, [FixedPool::default]. *)
Definition pool_default : pool := Pool 0 0 0.

(** src/fixed_pool/mod.rs:43-45, [can_allocate]. *)
Definition can_allocate (q : pool) : bool :=
  negb (p_head q =? 0)%Z || negb (p_next q =? p_cap q)%Z.

Section pool.
Context {T : Type}.
Variable chk : bool.
(** [size_of::<Node>()] and [align_of::<Node>()]. *)
Variables sz al : Z.

(** [debug_assert!]. *)
Definition debug_assert {S : Type} (b : bool) : M S unit :=
  if chk && negb b then panic else ret tt.

(** src/fixed_pool/mod.rs:49-78, [init] on the memory of [len] bytes at [base].
    Lines 60-63 raise an alignment of 0, which no Rust type has. *)
Definition pool_init (base len : Z) : M (pool * mem T) unit :=
  run debug_assert (Z.land al (al - 1) =? 0)%Z;
  let al := if (al <? 1)%Z then 1%Z else al in
  do e <- usizeZ chk (base + (al - 1))%Z;
  let next := Z.land e (Z.lnot (al - 1)) in
  do used <- usizeZ chk (next - base)%Z;
  do ms <- usizeZ chk (len - used)%Z;
  run debug_assert (8 <=? sz)%Z;
  if (sz =? 0)%Z then panic else
  let ms := (ms / sz * sz)%Z in
  do cap <- usizeZ chk (next + ms)%Z;
  modify (fun s => (Pool 0 next cap, snd s)).

(** src/fixed_pool/mod.rs:82-102, [allocate_raw_aligned]. *)
Definition pool_alloc (n align : Z) : M (pool * mem T) Z :=
  run debug_assert (n =? sz)%Z;
  run debug_assert (align =? al)%Z;
  do q <- gets fst;
  do m <- gets snd;
  if negb (p_head q =? 0)%Z then
    do nx <- or_ub (load_word m (p_head q));
    run modify (fun s => (Pool nx (p_next q) (p_cap q), snd s));
    ret (p_head q)
  else if negb (p_next q =? p_cap q)%Z then
    (* [self.next.add(size_of::<Node>())] must stay in the memory *)
    if accessible m (p_next q) sz then
      run modify (fun s => (Pool (p_head q) (p_next q + sz)%Z (p_cap q), snd s));
      ret (p_next q)
    else ub
  else ret 0%Z.

(** src/fixed_pool/mod.rs:104-113, [deallocate_raw_aligned]. *)
Definition pool_free (p n align : Z) : M (pool * mem T) unit :=
  run debug_assert (negb (p =? 0)%Z);
  do q <- gets fst;
  do m <- gets snd;
  do m' <- or_ub (store_word m p (p_head q));
  modify (fun _ => (Pool p (p_next q) (p_cap q), m')).

Definition PoolAlloc : AddrAlloc pool T := {| aa_alloc := pool_alloc; aa_free := pool_free |}.

End pool.

(** src/fixed_pool/with_overflow.rs:7-12, [FixedPoolWithOverflow]. *)
Record opool (O : Type) : Type := OPool { o_pool : pool; o_over : O; o_begin : Z }.
Arguments OPool {O}.
Arguments o_pool {O}.
Arguments o_over {O}.
Arguments o_begin {O}.

Section overflow.
Context {T O : Type}.
Variable ov : AddrAlloc O T.
Variable chk : bool.
Variables sz al : Z.

(** Running a method of a field of the allocator. *)
Definition in_pool {R} (f : M (pool * mem T) R) : M (opool O * mem T) R := fun s =>
  let '(q, m) := s in
  match f (o_pool q, m) with
  | Ok r (p, m') => Ok r (OPool p (o_over q) (o_begin q), m')
  | Panic (p, m') => Panic (OPool p (o_over q) (o_begin q), m')
  | UB => UB
  end.
Definition in_over {R} (f : M (O * mem T) R) : M (opool O * mem T) R := fun s =>
  let '(q, m) := s in
  match f (o_over q, m) with
  | Ok r (p, m') => Ok r (OPool (o_pool q) p (o_begin q), m')
  | Panic (p, m') => Panic (OPool (o_pool q) p (o_begin q), m')
  | UB => UB
  end.

(** src/fixed_pool/with_overflow.rs:30-36, [with_allocator]; 99-107, [default].  20-24,
    [new], and 65-67, [new_with_default_allocator], are this and then [init]. *)
Definition opool_with (o : O) : opool O := OPool pool_default o 0.

(** src/fixed_pool/with_overflow.rs:49-54, [init]. *)
Definition opool_init (base len : Z) : M (opool O * mem T) unit :=
  run in_pool (pool_init chk sz al base len);
  modify (fun s => (OPool (o_pool (fst s)) (o_over (fst s)) base, snd s)).

(** src/fixed_pool/with_overflow.rs:73-84, [allocate_raw_aligned]. *)
Definition opool_alloc (n align : Z) : M (opool O * mem T) Z :=
  run debug_assert chk (n =? sz)%Z;
  run debug_assert chk (align =? al)%Z;
  do p <- in_pool (pool_alloc chk sz al n align);
  if negb (p =? 0)%Z then ret p else in_over (aa_alloc ov n align).

(** src/fixed_pool/with_overflow.rs:86-94, [deallocate_raw_aligned]. *)
Definition opool_free (p n align : Z) : M (opool O * mem T) unit :=
  do q <- gets fst;
  if ((o_begin q <=? p) && (p <=? p_cap (o_pool q)))%Z
  then in_pool (pool_free chk p n align)
  else in_over (aa_free ov p n align).

Definition OPoolAlloc : AddrAlloc (opool O) T := {| aa_alloc := opool_alloc; aa_free := opool_free |}.

End overflow.

(** ** Programs that use a pool

    The caller of a pool holds the nodes handed out so far and not given back, newest
    first.  It may free one of them, and write pointers into one of them. *)
Inductive pcall : Type :=
| PAlloc
| PFree (i : nat)          (** give back the [i]-th node held *)
| PWrite (i : nat) (k w : Z) (** write [w] into the [k]-th word of the [i]-th node held *)
| PCan.

Inductive panswer : Type := PGot (p : Z) | PDone | PBool (b : bool).

Section use.
Context {A T : Type}.
Variable aa : AddrAlloc A T.
Variable can : A -> bool.
Variable chk : bool.
Variables sz al : Z.

(** One call; calls naming a node that is not held, or a word outside the node, are
    not made. *)
Definition p_call (c : pcall) (s : (A * mem T) * list Z) : outcome ((A * mem T) * list Z) panswer :=
  let '(st, held) := s in
  match c with
  | PAlloc =>
    match allocate aa chk sz al 1 st with
    | Ok p st' => Ok (PGot p) (st', if (p =? 0)%Z then held else p :: held)
    | Panic st' => Panic (st', held)
    | UB => UB
    end
  | PFree i =>
    match held !! i with
    | Some p =>
      match deallocate aa chk sz al p 1 st with
      | Ok _ st' => Ok PDone (st', delete i held)
      | Panic st' => Panic (st', held)
      | UB => UB
      end
    | None => Ok PDone s
    end
  | PWrite i k w =>
    match held !! i with
    | Some p =>
      if ((0 <=? k) && (8 * (k + 1) <=? sz))%Z then
        match store_word (snd st) (p + 8 * k) w with
        | Some m => Ok PDone ((fst st, m), held)
        | None => UB
        end
      else Ok PDone s
    | None => Ok PDone s
    end
  | PCan => Ok (PBool (can (fst st))) s
  end.

Fixpoint p_run (cs : list pcall) (s : (A * mem T) * list Z) : outcome ((A * mem T) * list Z) (list panswer) :=
  match cs with
  | [] => Ok [] s
  | c :: cs' =>
    match p_call c s with
    | Ok a s' =>
      match p_run cs' s' with
      | Ok l s'' => Ok (a :: l) s''
      | Panic s'' => Panic s''
      | UB => UB
      end
    | Panic s' => Panic s'
    | UB => UB
    end
  end.

End use.
