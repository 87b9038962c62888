(** Model of src/fixed_map/mod.rs: a map whose nodes come from a pool over a buffer in
    the map's own object.  The base map is that of RBTree.v; the places of the fields are
    those of Layout.v. *)
From Verif Require Import Base Alloc AddrMem FixedPool RBTree Layout.
Local Open Scope Z_scope.

(** The pools of [FixedMap] and of [FixedMapWithOverflow] over the default allocator,
    src/fixed_map/mod.rs:12-22. *)
Definition plain_pool : lay := struct pool_fields.
Definition overflow_pool : lay := struct (overflow_pool_fields default_allocator).

(** The buffer's place in the object and the size of the object, for [n] nodes and the
    pool type [P], src/fixed_map/mod.rs:24-41. *)
Definition map_fields (P : lay) (nsz nal n : Z) : list lay := fixed_map_fields (Lay nsz nal) P comparator n.
Definition map_buffer_off (P : lay) (nsz nal n : Z) : Z := nth 1 (offsets (map_fields P nsz nal n)) 0.
Definition map_bytes (P : lay) (nsz nal n : Z) : Z := ly_size (struct (map_fields P nsz nal n)).

Section new.
Context {A K V : Type}.

(** src/fixed_map/mod.rs:58-75, [new] at address [obj], for a pool made by [A::default()]
    and initialised by [init]: an empty map, then the pool gets the buffer.  The words of
    the buffer are what memory held before. *)
Definition fixed_map_new_with (P : lay) (dflt : A) (init : Z -> Z -> M (A * mem (K * V)) unit)
    (nsz nal n obj : Z) (m : mem (K * V)) : outcome (tstate A K V) unit :=
  match tree_new obj dflt m with
  | Ok _ s => t_in_alloc (init (obj + map_buffer_off P nsz nal n) (n * nsz)) s
  | Panic s => Panic s
  | UB => UB
  end.
End new.

Section kinds.
Context {K V : Type}.
Variable chk : bool.
Variables nsz nal : Z.

(** src/fixed_map/mod.rs:17-18, [FixedMap]. *)
Definition fixed_map_new (n obj : Z) (m : mem (K * V)) : outcome (tstate pool K V) unit :=
  fixed_map_new_with plain_pool pool_default (pool_init chk nsz nal) nsz nal n obj m.
Definition FixedMapAlloc : AddrAlloc pool (K * V) := PoolAlloc chk nsz nal.

(** src/fixed_map/mod.rs:12-14 and 21-22, [DefaultFixedMapWithOverflow]. *)
Definition overflow_map_new (n obj : Z) (m : mem (K * V)) : outcome (tstate (opool unit) K V) unit :=
  fixed_map_new_with overflow_pool (opool_with tt) (opool_init chk nsz nal) nsz nal n obj m.
Definition OverflowMapAlloc (pick : mem (K * V) -> Z -> Z -> Z) (strict : bool) : AddrAlloc (opool unit) (K * V) :=
  OPoolAlloc (DefaultAddrAlloc pick strict) chk nsz nal.
End kinds.
