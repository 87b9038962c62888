(** Model of the memory layout of the crate's [repr(C)] types.  The layout algorithm is
    that of the Rust reference for [repr(C)] structs (not in /repo); pointers are 8
    bytes (a 64-bit target), as the crate's layout tests assume in terms of [usize]. *)
From Verif Require Import Base.
Local Open Scope Z_scope.

(** [size_of] and [align_of] of a type. *)
Record lay : Type := Lay { ly_size : Z; ly_align : Z }.

(** The next multiple of [al]. *)
Definition align_up (off al : Z) : Z := (off + al - 1) / al * al.

(** [repr(C)]: each field at the next multiple of its alignment, in order of
    declaration; the struct is aligned as its strictest field and padded to that. *)
Fixpoint place (off : Z) (fs : list lay) : list Z * Z :=
  match fs with
  | [] => ([], off)
  | f :: fs' =>
    let o := align_up off (ly_align f) in
    let '(os, e) := place (o + ly_size f) fs' in
    (o :: os, e)
  end.
Fixpoint max_align (fs : list lay) : Z :=
  match fs with [] => 1 | f :: fs' => Z.max (ly_align f) (max_align fs') end.
Definition repr_c (fs : list lay) : list Z * lay :=
  let '(os, e) := place 0 fs in
  (os, Lay (align_up e (max_align fs)) (max_align fs)).
Definition offsets (fs : list lay) : list Z := fst (repr_c fs).
Definition struct (fs : list lay) : lay := snd (repr_c fs).

(** Field types: a pointer to a sized type, whatever that type; [u32] and [f32]; [u8];
    [PhantomData]; [[T; n]], with [MaybeUninit<T>] laid out as [T]. *)
Definition pointer (T : lay) : lay := Lay 8 8.
Definition word4 : lay := Lay 4 4.
Definition byte1 : lay := Lay 1 1.
Definition phantom : lay := Lay 0 1.
Definition array (n : Z) (T : lay) : lay := Lay (n * ly_size T) (ly_align T).

(** src/allocator.rs:89-93, [DefaultAllocator]. *)
Definition default_allocator : lay := struct [byte1].
(** src/compare.rs:12-15 and 34-37, [Greater] and [Less]: not [repr(C)], but one byte
    and a [PhantomData] can only be laid out one way. *)
Definition comparator : lay := Lay 1 1.

(** src/vector/mod.rs:20-30: [begin_ptr], [end_ptr], [capacity_ptr], [allocator]. *)
Definition vector_fields (T A : lay) : list lay := [pointer T; pointer T; pointer T; A; phantom].
(** src/vector_map/mod.rs:17-21: [base], [_compare]. *)
Definition vector_map_fields (KV A C : lay) : list lay := [struct (vector_fields KV A); C].
(** src/fixed_vector/allocator.rs:7-11: [overflow_allocator], [pool_begin]. *)
Definition fixed_vector_allocator_fields (A : lay) : list lay := [A; pointer byte1].
(** src/fixed_vector/mod.rs:20-24: [base_vec], [buffer]. *)
Definition fixed_vector_fields (T A : lay) (n : Z) : list lay :=
  [struct (vector_fields T (struct (fixed_vector_allocator_fields A))); array n T].
(** src/deque/iter.rs:45-52: [current], [begin], [end], [current_array]. *)
Definition deque_iter_fields (T : lay) : list lay := [pointer T; pointer T; pointer T; pointer (pointer T); phantom].
(** src/deque/mod.rs:13-20: [ptr_array], [ptr_array_size], [begin_it], [end_it],
    [allocator]; src/queue.rs:10-13 wraps it. *)
Definition deque_fields (T A : lay) : list lay :=
  [pointer (pointer T); word4; struct (deque_iter_fields T); struct (deque_iter_fields T); A].
(** src/list/node.rs:3-7, [ListNodeBase]: [next], [prev]; 35-39, [ListNode]: [base],
    [value]. *)
Definition list_base_fields : list lay := [pointer byte1; pointer byte1].
Definition list_node_fields (T : lay) : list lay := [struct list_base_fields; T].
(** src/list/mod.rs:17-24: [node], [size], [allocator]. *)
Definition list_fields (A : lay) : list lay := [struct list_base_fields; word4; A; phantom].
(** src/internal/hash_table/node.rs:2-7: [key], [val], [next]. *)
Definition hash_node_fields (K V : lay) : list lay := [K; V; pointer byte1].
(** src/internal/hash_table/rehash_policy.rs:5-10: three 4-byte fields. *)
Definition policy_fields : list lay := [word4; word4; word4].
(** src/internal/hash_table/mod.rs:29-46: [_pad], [bucket_array], [bucket_count],
    [element_count], [rehash_policy], [allocator]; the maps and sets wrap it. *)
Definition hash_table_fields (N A : lay) : list lay :=
  [byte1; pointer (pointer N); word4; word4; struct policy_fields; A; phantom].
(** src/internal/rb_tree/mod.rs:14-27: [compare], [begin], [end], [parent], [size],
    [allocator]; src/map/mod.rs:15-18 wraps it. *)
Definition rb_tree_fields (N A C : lay) : list lay := [C; pointer N; pointer N; pointer N; word4; A].
(** src/internal/rb_tree/node.rs:85-92: [right], [left], [parent], [pair]; the pair is a
    tuple, which is not [repr(C)]: its fields are in either order. *)
Definition tuple (swap : bool) (K V : lay) : lay := struct (if swap then [V; K] else [K; V]).
Definition tuple_key_offset (swap : bool) (K V : lay) : Z :=
  if swap then nth 1 (offsets [V; K]) 0 else 0.
Definition rb_node_fields (swap : bool) (K V : lay) : list lay :=
  [pointer byte1; pointer byte1; struct [Lay 8 8; phantom; phantom]; tuple swap K V].
(** src/fixed_pool/mod.rs:21-27: [head], [next], [capacity];
    src/fixed_pool/with_overflow.rs:7-12: [pool_allocator], [overflow_allocator],
    [pool_begin]. *)
Definition pool_fields : list lay := [pointer byte1; pointer byte1; pointer byte1; phantom].
Definition overflow_pool_fields (A : lay) : list lay := [struct pool_fields; A; pointer byte1].
(** src/fixed_list/mod.rs:20-29: [base_list], [buffer], [_pad];
    src/fixed_list/conformant.rs:16-26: [base_list], [buffer]. *)
Definition fixed_list_fields (N A : lay) (n : Z) : list lay :=
  [struct (list_fields (struct (overflow_pool_fields A))); array n N; N].
Definition conformant_fields (N A : lay) (n : Z) : list lay :=
  [struct (list_fields (struct (overflow_pool_fields A))); array ((n + 1) * ly_size N - 1) byte1].
(** src/fixed_map/mod.rs:24-41: [base_map], [buffer], [_pad]; [P] is the pool. *)
Definition fixed_map_fields (N P C : lay) (n : Z) : list lay :=
  [struct (rb_tree_fields N P C); array n N; N].
