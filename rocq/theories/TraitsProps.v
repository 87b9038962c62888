(** Property theorems.  Each is closed by the lemma of the same content in
    TraitsDerived.v; examples show the hypotheses can be met. *)
From Verif Require Import Base Heap Alloc AddrMem FixedPool FixedPoolSpec LinkedList LinkedListSpec RBTree RBTreeSpec Compare CompareSpec.
Local Open Scope Z_scope.
From Verif Require Import TraitsDerived.

(** [allocate::<N>(n)] followed by [deallocate::<N>(p, n)] with the default allocator: if
    the request fits the address space, the block has room for [n] values of the type,
    with its alignment; giving it back with the same count is accepted even by an
    allocator that checks size and alignment, and leaves exactly the memory that was
    live before.  Giving it back with another count is undefined under such an
    allocator. *)
Theorem C73_allocate_then_free :
forall (T : Type) (pick : mem T -> Z -> Z -> Z) (strict chk : bool) (sz al n : Z) (m : mem T),
  honest pick -> 0 < sz -> 0 < n -> n * sz < usize_lim -> layout_ok (n * sz) al = true -> 0 < al ->
  exists p m1, allocate (DefaultAddrAlloc pick strict) chk sz al n (tt, m) = Ok p (tt, m1) /\
    (p = 0 /\ m_live m1 = m_live m \/
     p <> 0 /\ m_live m1 = Region p (n * sz) al true :: m_live m /\ accessible m1 p (n * sz) = true /\ (al | p) /\
     (exists m2, deallocate (DefaultAddrAlloc pick strict) chk sz al p n (tt, m1) = Ok tt (tt, m2) /\ m_live m2 = m_live m) /\
     (forall k, strict = true -> 0 <= k < n -> deallocate (DefaultAddrAlloc pick strict) chk sz al p k (tt, m1) = UB)).
Proof. exact L_C73_allocate_then_free. Qed.
Print Assumptions C73_allocate_then_free.

Example C73_allocate_then_free_example :
  honest (fun (m : mem Z) (_ _ : Z) => 0) /\ layout_ok (3 * 24) 8 = true /\
  match allocate (DefaultAddrAlloc (fun (m : mem Z) (_ _ : Z) => 4096) true) true 24 8 3 (tt, Mem [] ∅ ∅ 0) with
  | Ok p (_, m) => p = 4096 /\ m_live m = [Region 4096 72 8 true] /\
      is_ok (deallocate (DefaultAddrAlloc (fun (m : mem Z) (_ _ : Z) => 4096) true) true 24 8 p 3 (tt, m)) = true /\
      is_ub (deallocate (DefaultAddrAlloc (fun (m : mem Z) (_ _ : Z) => 4096) true) true 24 8 p 2 (tt, m)) = true
  | _ => False
  end.
Proof. split; [|by vm_compute]. intros m b a H. by left. Qed.

(** The same over the heap of blocks used for vectors, tables and deques: the block has
    the size and alignment asked for, and freeing it with them leaves the heap's blocks
    as they were. *)
Theorem C73_blocks_allocate_then_free :
forall (C : Type) (sz bytes al : Z) (h : heap C),
  0 < bytes -> layout_ok bytes al = true -> h_blk h !! h_next h = None ->
  exists b h1 bk h2, ai_alloc (DefaultAllocator C) sz bytes al (tt, h) = Ok (Ptr b 0) (tt, h1) /\
    h_blk h1 !! b = Some bk /\ bk_bytes bk = bytes /\ bk_align bk = al /\ length (bk_cells bk) = Z.to_nat (bytes / sz) /\
    ai_free (DefaultAllocator C) (Ptr b 0) bytes al (tt, h1) = Ok tt (tt, h2) /\ h_blk h2 = h_blk h /\
    (forall n, n <> bytes -> layout_ok n al = true -> ai_free (DefaultAllocator C) (Ptr b 0) n al (tt, h1) = UB).
Proof. exact L_C73_blocks_allocate_then_free. Qed.
Print Assumptions C73_blocks_allocate_then_free.

Example C73_blocks_allocate_then_free_example :
  layout_ok 24 8 = true /\
  match ai_alloc (DefaultAllocator Z) 8 24 8 (tt, Heap 1 ∅) with
  | Ok p (_, h) => is_ok (ai_free (DefaultAllocator Z) p 24 8 (tt, h)) = true /\ is_ub (ai_free (DefaultAllocator Z) p 16 8 (tt, h)) = true
  | _ => False
  end.
Proof. by vm_compute. Qed.

(** A request for zero bytes - no elements, or elements without size - panics before
    anything is allocated, whatever the alignment. *)
Theorem C73_zero_request_refused :
forall (T C : Type) (pick : mem T -> Z -> Z -> Z) (strict chk : bool) (sz al n : Z) (m : mem T) (h : heap C) (s : Z),
  n * sz = 0 ->
  allocate (DefaultAddrAlloc pick strict) chk sz al n (tt, m) = Panic (tt, m) /\
  ai_alloc (DefaultAllocator C) s (n * sz) al (tt, h) = Panic (tt, h).
Proof. exact L_C73_zero_request_refused. Qed.
Print Assumptions C73_zero_request_refused.

Example C73_zero_request_refused_example :
  5 * 0 = 0 /\ is_panic (allocate (DefaultAddrAlloc rx_pick true) true 0 8 5 (tt, Mem [] ∅ ∅ 0)) = true /\
  is_ok (allocate (DefaultAddrAlloc rx_pick true) true 1 8 5 (tt, Mem [] ∅ ∅ 0)) = true.
Proof. by vm_compute. Qed.

(** A build with overflow checks refuses a request whose byte count does not fit, for
    every allocator, before calling it. *)
Theorem C73_overflowing_request_panics :
forall (A T : Type) (aa : AddrAlloc A T) (sz al n : Z) (s : A * mem T),
  usize_lim <= n * sz -> allocate aa true sz al n s = Panic s.
Proof. exact L_C73_overflowing_request_panics. Qed.
Print Assumptions C73_overflowing_request_panics.

Example C73_overflowing_request_panics_example : usize_lim <= 2305843009213693953 * 8.
Proof. unfold usize_lim. lia. Qed.

(** Without overflow checks the byte count wraps: every request beyond the address space
    that wraps to a small size is granted with a block too small for the elements asked
    for. *)
Theorem C73_release_request_wraps_refuted :
forall (T : Type) (pick : mem T -> Z -> Z -> Z) (strict : bool) (sz al n : Z) (m : mem T),
  usize_lim <= n * sz -> 0 < (n * sz) mod usize_lim -> layout_ok ((n * sz) mod usize_lim) al = true -> pick m ((n * sz) mod usize_lim) al <> 0 ->
  exists p m1, allocate (DefaultAddrAlloc pick strict) false sz al n (tt, m) = Ok p (tt, m1) /\ p <> 0 /\
    exists b, m_live m1 = Region p b al true :: m_live m /\ b < n * sz.
Proof. exact L_C73_release_request_wraps_refuted. Qed.
Print Assumptions C73_release_request_wraps_refuted.

Example C73_release_request_wraps_refuted_example :
  usize_lim <= 2305843009213693953 * 8 /\
  match allocate (DefaultAddrAlloc rx_pick true) false 8 8 2305843009213693953 (tt, Mem [] ∅ ∅ 0) with
  | Ok p (_, m) => p = 4096 /\ m_live m = [Region 4096 8 8 true]
  | _ => False
  end.
Proof. split; [unfold usize_lim; lia|by vm_compute]. Qed.

(** For keys with a total order, [Less] and [Greater] are strict weak orders, which is what
    the maps need, and each is the other with its arguments exchanged. *)
Theorem C74_less_and_greater_are_orders :
forall (T : Type) (cmp : T -> T -> option comparison), total_order cmp ->
  strict_weak_order (less_compare cmp) /\ strict_weak_order (greater_compare cmp) /\
  (forall a b, greater_compare cmp a b = less_compare cmp b a) /\
  (forall a b, less_compare cmp a b = true <-> cmp a b = Some Lt) /\
  (forall a b, equivalent (less_compare cmp) a b = true <-> cmp a b = Some Eq).
Proof. exact L_C74_less_and_greater_are_orders. Qed.
Print Assumptions C74_less_and_greater_are_orders.

Example C74_less_and_greater_are_orders_example :
  total_order (fun a b : Z => Some (Z.compare a b)) /\ less_compare (fun a b => Some (Z.compare a b)) 3 5 = true /\
  greater_compare (fun a b => Some (Z.compare a b)) 3 5 = false.
Proof. split; [apply TraitsDerived.z_total|done]. Qed.

(** So every map over [Less] or [Greater] of totally ordered keys, on a tree sorted that
    way, answers lookups as its entries say. *)
Theorem C74_maps_over_total_orders :
forall (A K V : Type) (cmp : K -> K -> option comparison) (greater : bool) (nsz : Z) (s : tstate A K V) (t : tree K V) (k : K),
  total_order cmp -> 24 <= nsz -> holds nsz s t -> sorted (if greater then greater_compare cmp else less_compare cmp) t ->
  exists o, t_get nsz (if greater then greater_compare cmp else less_compare cmp) k s = Ok o s /\
    (forall v, o = Some v <-> exists k', (k', v) ∈ entries t /\ cmp k k' = Some Eq).
Proof. exact L_C74_maps_over_total_orders. Qed.
Print Assumptions C74_maps_over_total_orders.

Example C74_maps_over_total_orders_example :
  sorted (less_compare (fun a b => Some (Z.compare a b))) rx_tree /\
  val (t_get 40 (less_compare (fun a b => Some (Z.compare a b))) 30 (rx_state 2048 2176)) = Some (Some 300).
Proof. split; [|by vm_compute]. unfold sorted. cbn. repeat constructor. Qed.

(** The crate accepts any [PartialOrd] key.  For partially ordered keys, such as floats
    with NaN, [Less] need not be a strict weak order: being neither less nor greater is
    not transitive. *)
Theorem C74_partially_ordered_keys_refuted :
exists (T : Type) (cmp : T -> T -> option comparison),
  partial_order cmp /\ ~ strict_weak_order (less_compare cmp).
Proof. exact L_C74_partially_ordered_keys_refuted. Qed.
Print Assumptions C74_partially_ordered_keys_refuted.

Example C74_partially_ordered_keys_refuted_example :
  equivalent (less_compare float_like) (Some 1) None = true /\ equivalent (less_compare float_like) None (Some 2) = true /\
  equivalent (less_compare float_like) (Some 1) (Some 2) = false.
Proof. done. Qed.
