(** Memory with byte addresses, for the containers whose nodes point back into the
    container object or whose allocator does arithmetic on addresses (pools, linked
    lists, trees).

    Memory is a set of live regions (heap blocks, and objects placed by the caller)
    with the pointer-sized words and the elements stored in them.  An access outside
    all live regions, or to something not initialised, is undefined.  Addresses are
    reused after a free as the allocator likes.

    Simplifications: an element is found under the address of the node that holds
    it, not under that of its field; a pointer is its address (provenance is not
    modelled); pointer-sized words are 8 bytes at multiples of 8. *)
From Verif Require Import Base Alloc.

Record region : Type := Region {
  r_base : Z;
  r_bytes : Z;
  r_align : Z;
  r_heap : bool  (** came from [alloc::alloc], may be passed to [alloc::dealloc] *)
}.

Record mem (T : Type) : Type := Mem {
  m_live : list region;
  m_word : gmap Z Z;
  m_val : gmap Z T;
  m_time : nat  (** counts requests to the global allocator *)
}.
Arguments Mem {T}.
Arguments m_live {T}.
Arguments m_word {T}.
Arguments m_val {T}.
Arguments m_time {T}.

(** The bytes [a .. a+n) lie in the region / meet the region. *)
Definition inside (a n : Z) (r : region) : bool :=
  ((r_base r <=? a) && (a + n <=? r_base r + r_bytes r))%Z.
Definition meets (a n : Z) (r : region) : bool :=
  ((a <? r_base r + r_bytes r) && (r_base r <? a + n))%Z.

Section mem.
Context {T : Type}.

Definition accessible (m : mem T) (a n : Z) : bool := existsb (inside a n) (m_live m).
Definition word_at (m : mem T) (a : Z) : bool := accessible m a 8 && (a mod 8 =? 0)%Z.

(** Reading and writing a pointer field. *)
Definition load_word (m : mem T) (a : Z) : option Z :=
  if word_at m a then m_word m !! a else None.
Definition store_word (m : mem T) (a w : Z) : option (mem T) :=
  if word_at m a then Some (Mem (m_live m) (<[a := w]> (m_word m)) (m_val m) (m_time m)) else None.

(** The element in the node of [n] bytes at [a]: a reference to it, writing it
    ([ptr::write], without dropping what was there), and moving it out ([ptr::read],
    [drop_in_place]), after which it must not be used again. *)
Definition load_val (m : mem T) (a n : Z) : option T :=
  if accessible m a n then m_val m !! a else None.
Definition store_val (m : mem T) (a n : Z) (x : T) : option (mem T) :=
  if accessible m a n then Some (Mem (m_live m) (m_word m) (<[a := x]> (m_val m)) (m_time m)) else None.
Definition take_val (m : mem T) (a n : Z) : option (T * mem T) :=
  match load_val m a n with
  | Some x => Some (x, Mem (m_live m) (m_word m) (delete a (m_val m)) (m_time m))
  | None => None
  end.

(** A new heap block: its contents are uninitialised. *)
Definition mem_alloc (m : mem T) (p bytes align : Z) : mem T :=
  let r := Region p bytes align true in
  Mem (r :: m_live m)
      (filter (fun kv : Z * Z => meets (fst kv) 8 r = false) (m_word m))
      (filter (fun kv : Z * T => meets (fst kv) 1 r = false) (m_val m))
      (S (m_time m)).

(** The request that failed still took place. *)
Definition mem_tick (m : mem T) : mem T := Mem (m_live m) (m_word m) (m_val m) (S (m_time m)).

Fixpoint remove_block (p : Z) (l : list region) : option (region * list region) :=
  match l with
  | [] => None
  | r :: l' =>
    if (r_base r =? p)%Z && r_heap r then Some (r, l')
    else match remove_block p l' with
         | Some (r', l'') => Some (r', r :: l'')
         | None => None
         end
  end.

(** [alloc::dealloc].  Its contract demands the size and alignment of the allocation
    ([strict]); the usual system allocators do not look at the size. *)
Definition mem_free (strict : bool) (m : mem T) (p bytes align : Z) : option (mem T) :=
  match remove_block p (m_live m) with
  | Some (r, l) =>
    if strict && negb ((r_bytes r =? bytes) && (r_align r =? align))%Z then None
    else Some (Mem l (m_word m) (m_val m) (S (m_time m)))
  | None => None
  end.

End mem.

(** The result [r] of an arithmetic operation stored in a [usize], as a [Z]. *)
Definition usizeZ {S : Type} (chk : bool) (r : Z) : M S Z :=
  if ((0 <=? r) && (r <? usize_lim))%Z then ret r
  else if chk then panic else ret (r mod usize_lim)%Z.

(** The required methods of the [Allocator] trait, src/allocator.rs:39 and :85, over
    this memory; [A] is the allocator value. *)
Record AddrAlloc (A T : Type) : Type := {
  aa_alloc : Z -> Z -> M (A * mem T) Z;            (* bytes align *)
  aa_free : Z -> Z -> Z -> M (A * mem T) unit      (* p bytes align *)
}.
Arguments aa_alloc {A T}.
Arguments aa_free {A T}.

(** src/allocator.rs:15-21, the provided method [allocate::<N>(n)], for an [N] of
    [sz] bytes aligned to [al]. *)
Definition allocate {A T} (aa : AddrAlloc A T) (chk : bool) (sz al n : Z) : M (A * mem T) Z :=
  do b <- usizeZ chk (n * sz)%Z; aa_alloc aa b al.

(** src/allocator.rs:47-53, the provided method [deallocate::<N>(p, n)]. *)
Definition deallocate {A T} (aa : AddrAlloc A T) (chk : bool) (sz al p n : Z) : M (A * mem T) unit :=
  do b <- usizeZ chk (n * sz)%Z; aa_free aa p b al.

Section default.
Context {T : Type}.
(** Where the global allocator places a block of so many bytes with that alignment,
    0 for null.  It may depend on the whole memory and on the number of requests so
    far, so that every behaviour of an allocator is covered. *)
Variable pick : mem T -> Z -> Z -> Z.
Variable strict : bool.

(** src/allocator.rs:102-110, [DefaultAllocator::allocate_raw_aligned]. *)
Definition default_alloc_raw (bytes align : Z) : M (unit * mem T) Z := fun s =>
  if (bytes =? 0)%Z then Panic s
  else if layout_ok bytes align
  then let p := pick (snd s) bytes align in
       if (p =? 0)%Z then Ok 0%Z (fst s, mem_tick (snd s))
       else Ok p (fst s, mem_alloc (snd s) p bytes align)
  else Panic s.

(** src/allocator.rs:112-117, [DefaultAllocator::deallocate_raw_aligned]. *)
Definition default_free_raw (p bytes align : Z) : M (unit * mem T) unit := fun s =>
  if layout_ok bytes align
  then match mem_free strict (snd s) p bytes align with
       | Some m => Ok tt (fst s, m)
       | None => UB
       end
  else Panic s.

Definition DefaultAddrAlloc : AddrAlloc unit T :=
  {| aa_alloc := default_alloc_raw; aa_free := default_free_raw |}.

End default.
