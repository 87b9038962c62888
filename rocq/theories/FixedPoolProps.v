(** Property theorems.  Each is closed by the lemma of the same content in
    FixedPoolDerived.v; examples show the hypotheses can be met. *)
From Verif Require Import Base Alloc AddrMem FixedPool FixedPoolSpec.
Local Open Scope Z_scope.
From Verif Require Import FixedPoolDerived.



(** Every use of a pool runs without panic or undefined behaviour, and at every point
    the nodes handed out are aligned, inside the given memory, and do not overlap;
    callers may write into their nodes as they like.  (Node types contain pointers:
    the alignment is at least 8.) *)
Theorem C58_nodes_well_placed :
forall (T : Type) (m0 : mem T) (base len sz al : Z) (chk : bool), PoolSetup m0 base len sz al ->
  exists s0, pool_init chk sz al base len (pool_default, m0) = Ok tt s0 /\
  forall cs, exists l s held, p_run (PoolAlloc chk sz al) can_allocate chk sz al cs (s0, []) = Ok l (s, held) /\
    well_placed base len sz al held.
Proof. exact L_C58_nodes_well_placed. Qed.
Print Assumptions C58_nodes_well_placed.

Example C58_nodes_well_placed_case :
  PoolSetup px_mem 1000 110 32 16 /\
  px_run [PAlloc; PAlloc; PWrite 0 0 77; PFree 1; PFree 0; PAlloc; PAlloc; PAlloc; PAlloc; PCan] =
  Some [PGot 1008; PGot 1040; PDone; PDone; PDone; PGot 1040; PGot 1008; PGot 1072; PGot 0; PBool false] /\ 
  well_placed 1000 110 32 16 [1072; 1008; 1040].
Proof.
  split; [exact px_setup|]. split; [by vm_compute|]. split.
  - intros p Hp. rewrite !elem_of_cons in Hp. destruct Hp as [-> |[-> |[-> |Hp]]]; [by split; [exists 67|lia]|by split; [exists 63|lia]|by split; [exists 65|lia]|by apply elem_of_nil in Hp].
  - intros [|[|[|i]]] [|[|[|j]]] p q Hi Hj NE; cbn in Hi, Hj; simplify_eq; lia.
Qed.

(** Memory too short for the alignment padding: a debug build panics, but a release
    build takes the pool to be nearly as large as the address space, and the first
    allocation is outside the memory. *)
Theorem C58_short_memory_refuted :
exists (base len sz al : Z) (m0 : mem Z), node_layout sz al /\ 0 < base /\ 0 <= len /\ accessible m0 base len = true /\
  is_panic (pool_init true sz al base len (pool_default, m0)) = true /\
  exists s, pool_init false sz al base len (pool_default, m0) = Ok tt s /\ can_allocate (fst s) = true /\
    pool_alloc false sz al sz al s = UB.
Proof. exact L_C58_short_memory_refuted. Qed.
Print Assumptions C58_short_memory_refuted.



(** Every memory that ends before the first aligned address in it is such a case: a debug build panics;
    a release build makes a pool that says it can allocate, and its first allocation is
    undefined, or a node behind the end of the memory if something else is live there. *)
Theorem C58_short_memory :
forall (T : Type) (m0 : mem T) (base len sz al : Z) (chk : bool),
  node_layout sz al -> 0 < base -> 0 <= len -> base + (al - 1) < usize_lim -> base + len < pool_first base al ->
  if chk then is_panic (pool_init chk sz al base len (pool_default, m0)) = true
  else exists s, pool_init chk sz al base len (pool_default, m0) = Ok tt s /\ can_allocate (fst s) = true /\
    (pool_alloc chk sz al sz al s = UB \/
     exists p s', pool_alloc chk sz al sz al s = Ok p s' /\ base + len < p).
Proof. exact L_C58_short_memory. Qed.
Print Assumptions C58_short_memory.

(** Memory of four bytes at an odd address, with a node's worth of something else behind it. *)
Example C58_short_memory_case :
  node_layout 32 16 /\ 1001 + 4 < pool_first 1001 16 /\
  is_panic (pool_init true 32 16 1001 4 (pool_default, Mem [Region 1001 4 1 false; Region 1008 64 16 false] ∅ ∅ 0 : mem Z)) = true /\
  option_map fst (match pool_init false 32 16 1001 4 (pool_default, Mem [Region 1001 4 1 false; Region 1008 64 16 false] ∅ ∅ 0 : mem Z) with
    | Ok _ s => match pool_alloc false 32 16 32 16 s with Ok p s' => Some (p, tt) | _ => None end | _ => None end) = Some 1008.
Proof. split; [split; [by exists 4; lia|split; [lia|split; [by exists 2|done]]]|]. repeat split; by vm_compute. Qed.

(** The answers of every program are those of a stack that starts with the slots that
    fit into the memory, in ascending order: allocation pops the stack or returns null
    when it is empty, a freed node is pushed, and [can_allocate] says whether the stack
    is non-empty. *)
Theorem C59_pool_is_a_stack :
forall (T : Type) (m0 : mem T) (base len sz al : Z) (chk : bool), PoolSetup m0 base len sz al ->
  exists s0, pool_init chk sz al base len (pool_default, m0) = Ok tt s0 /\
  forall cs, exists l s held avail, p_run (PoolAlloc chk sz al) can_allocate chk sz al cs (s0, []) = Ok l (s, held) /\
    spec_pool_run cs [] (pool_slots base len sz al) = (l, held, avail).
Proof. exact L_C59_pool_is_a_stack. Qed.
Print Assumptions C59_pool_is_a_stack.

Example C59_pool_is_a_stack_case :
  PoolSetup px_mem 1000 110 32 16 /\ pool_slots 1000 110 32 16 = [1008; 1040] ++ [1072] /\
  (spec_pool_run [PAlloc; PAlloc; PFree 1; PFree 0; PAlloc; PCan] [] (pool_slots 1000 110 32 16)).1.1 =
  [PGot 1008; PGot 1040; PDone; PDone; PGot 1040; PBool true].
Proof. split; [exact px_setup|]. by vm_compute. Qed.

(** At every point an allocation succeeds exactly when fewer nodes are held than fit
    into the memory, [can_allocate] announces it, and a freed node is handed out next. *)
Theorem C59_exact_capacity :
forall (T : Type) (m0 : mem T) (base len sz al : Z) (chk : bool) (cs : list pcall) s0 l s held, PoolSetup m0 base len sz al ->
  pool_init chk sz al base len (pool_default, m0) = Ok tt s0 ->
  p_run (PoolAlloc chk sz al) can_allocate chk sz al cs (s0, []) = Ok l (s, held) ->
  (length held <= pool_count base len sz al)%nat /\
  can_allocate (fst s) = (length held <? pool_count base len sz al)%nat /\
  (exists p s', allocate (PoolAlloc chk sz al) chk sz al 1 s = Ok p s' /\ (p <> 0 <-> (length held < pool_count base len sz al)%nat)) /\
  (forall p, p ∈ held -> exists s1 s2, deallocate (PoolAlloc chk sz al) chk sz al p 1 s = Ok tt s1 /\
    allocate (PoolAlloc chk sz al) chk sz al 1 s1 = Ok p s2).
Proof. exact L_C59_exact_capacity. Qed.
Print Assumptions C59_exact_capacity.

Example C59_exact_capacity_case : PoolSetup px_mem 1000 110 32 16 /\ pool_count 1000 110 32 16 = 3%nat.
Proof. split; [exact px_setup|done]. Qed.

(** A pool that has not been given memory yet has no node to hand out: whatever is asked of
    it, every request is answered with null and the memory is left alone. *)
Theorem C59_before_init :
forall (T : Type) (m0 : mem T) (sz al : Z) (chk : bool) (cs : list pcall), 0 <= sz < usize_lim ->
  p_run (PoolAlloc chk sz al) can_allocate chk sz al cs ((pool_default, m0), []) =
  Ok (map (fun c => match c with PAlloc => PGot 0 | PCan => PBool false | _ => PDone end) cs) ((pool_default, m0), []).
Proof. exact L_C59_before_init. Qed.
Print Assumptions C59_before_init.

Example C59_before_init_case :
  p_run (PoolAlloc true 32 16) can_allocate true 32 16 [PAlloc; PCan; PFree 0; PAlloc] ((pool_default, px_mem), []) =
  Ok [PGot 0; PBool false; PDone; PGot 0] ((pool_default, px_mem), []).
Proof. done. Qed.

(** A pool with overflow that has not been given memory yet does just what its overflow
    allocator does, whichever that is. *)
Theorem C60_before_init :
forall (T O : Type) (ov : AddrAlloc O T) (o : O) (m0 : mem T) (sz al : Z) (chk : bool) (cs : list pcall), 0 <= sz < usize_lim ->
  p_run (OPoolAlloc ov chk sz al) (fun q => can_allocate (o_pool q)) chk sz al cs ((opool_with o, m0), []) =
  match p_run ov (fun _ => false) chk sz al cs ((o, m0), []) with
  | Ok l (o', m, held) => Ok l (OPool (Pool 0 0 0) o' 0, m, held)
  | Panic (o', m, held) => Panic (OPool (Pool 0 0 0) o' 0, m, held)
  | UB => UB
  end.
Proof. exact L_C60_before_init. Qed.
Print Assumptions C60_before_init.

Example C60_before_init_case :
  p_run (OPoolAlloc (DefaultAddrAlloc bump_pick true) true 32 16) (fun q => can_allocate (o_pool q)) true 32 16 [PAlloc; PAlloc; PFree 1; PCan; PAlloc] ((opool_with tt, px_mem), []) =
  match p_run (DefaultAddrAlloc bump_pick true) (fun _ => false) true 32 16 [PAlloc; PAlloc; PFree 1; PCan; PAlloc] ((tt, px_mem), []) with
  | Ok l (o', m, held) => Ok l (OPool (Pool 0 0 0) o' 0, m, held)
  | _ => UB
  end /\
  val (p_run (DefaultAddrAlloc bump_pick true) (fun _ => false) true 32 16 [PAlloc; PAlloc; PFree 1; PCan; PAlloc] ((tt, px_mem), []))
    = Some [PGot 4096; PGot 4128; PDone; PBool false; PGot 4160].
Proof. split; by vm_compute. Qed.

(** A pool with overflow whose memory reaches beyond the end of its last slot (as in
    the fixed list and map, which keep a spare node there), over any allocator that
    keeps blocks apart from live memory: every program runs without panic or undefined
    behaviour, the overflow allocator is used only when no slot is free, every freed
    node goes back to where it came from, and in the end the live blocks are those of
    the start and one per overflow node still held. *)
Theorem C60_blocks_go_home :
forall (T : Type) (pick : mem T -> Z -> Z -> Z) (strict : bool) (m0 : mem T) (base len sz al : Z) (chk : bool),
  PoolSetup m0 base len sz al -> honest pick -> (forall r, r ∈ m_live m0 -> 0 < r_bytes r) ->
  accessible m0 base (pool_end base len sz al + 1 - base) = true ->
  exists s0, opool_init chk sz al base len (opool_with tt, m0) = Ok tt s0 /\
  forall cs, exists l q m held avail over,
    p_run (OPoolAlloc (DefaultAddrAlloc pick strict) chk sz al) (fun q => can_allocate (o_pool q)) chk sz al cs (s0, []) = Ok l ((q, m), held) /\
    osteps cs l ([], pool_slots base len sz al, []) (held, avail, over) /\
    m_live m ≡ₚ m_live m0 ++ map (fun p => Region p sz al true) over.
Proof. exact L_C60_blocks_go_home. Qed.
Print Assumptions C60_blocks_go_home.

Definition ox_mem : mem Z := Mem [Region 1000 76 8 false] ∅ ∅ 0.
Definition ox_run (pick : mem Z -> Z -> Z -> Z) (m0 : mem Z) (base len : Z) (cs : list pcall) : option (list panswer) :=
  match opool_init true 32 16 base len (opool_with tt, m0) with
  | Ok _ s => val (p_run (OPoolAlloc (DefaultAddrAlloc pick true) true 32 16) (fun q => can_allocate (o_pool q)) true 32 16 cs (s, []))
  | _ => None
  end.
Example C60_blocks_go_home_case :
  (PoolSetup ox_mem 1000 72 32 16 /\ honest (@bump_pick Z) /\ (forall r, r ∈ m_live ox_mem -> 0 < r_bytes r) /\
   accessible ox_mem 1000 (pool_end 1000 72 32 16 + 1 - 1000) = true) /\
  ox_run bump_pick ox_mem 1000 72 [PAlloc; PAlloc; PAlloc; PAlloc; PFree 1; PCan; PFree 1; PCan; PAlloc; PAlloc] =
  Some [PGot 1008; PGot 1040; PGot 4096; PGot 4128; PDone; PBool false; PDone; PBool true; PGot 1040; PGot 4160].
Proof.
  split; [|by vm_compute]. split; [|split; [apply FixedPoolProofs.bump_honest|split; [|done]]].
  - split; [|lia|unfold usize_lim; lia|done|done]. split; [by exists 4; lia|]. split; [lia|]. split; [by exists 2|done].
  - intros r Hr. apply elem_of_list_singleton in Hr as ->. done.
Qed.

(** Without the spare byte the claim fails: an allocator may place a block right after
    the memory, at the address the pool takes for its own end.  Freeing that block puts
    it on the free list of the pool: it stays allocated, the pool says it can allocate
    while all its slots are taken, and hands the foreign block out as its own. *)
Theorem C60_boundary_block_refuted :
exists (pick : mem Z -> Z -> Z -> Z) (m0 : mem Z) (base len sz al : Z),
  PoolSetup m0 base len sz al /\ honest pick /\ (forall r, r ∈ m_live m0 -> 0 < r_bytes r) /\
  exists s0, opool_init true sz al base len (opool_with tt, m0) = Ok tt s0 /\
  exists q m held, p_run (OPoolAlloc (DefaultAddrAlloc pick true) true sz al) (fun q => can_allocate (o_pool q)) true sz al
      [PAlloc; PCan; PAlloc; PFree 0; PCan; PAlloc] (s0, []) =
    Ok [PGot base; PBool false; PGot (base + len); PDone; PBool true; PGot (base + len)] ((q, m), held) /\
    m_live m = Region (base + len) sz al true :: m_live m0.
Proof. exact L_C60_boundary_block_refuted. Qed.
Print Assumptions C60_boundary_block_refuted.


