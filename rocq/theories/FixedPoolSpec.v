(** Independent specification of pools: a stack of free slots. *)
From Verif Require Import Base Alloc AddrMem FixedPool.
Local Open Scope Z_scope.

(** [a] rounded up to a multiple of [b]. *)
Definition round_up (a b : Z) : Z := (a + b - 1) / b * b.

(** The slots that fit into the [len] bytes at [base]: the first aligned address and
    as many as there is room for. *)
Definition pool_first (base al : Z) : Z := round_up base al.
Definition pool_count (base len sz al : Z) : nat := Z.to_nat ((base + len - pool_first base al) / sz).
Definition pool_slots (base len sz al : Z) : list Z :=
  map (fun i => pool_first base al + Z.of_nat i * sz) (seq 0 (pool_count base len sz al)).
Definition pool_end (base len sz al : Z) : Z :=
  pool_first base al + Z.of_nat (pool_count base len sz al) * sz.

(** The free slots form a stack, at first in ascending order. *)
Definition spec_pool (c : pcall) (held avail : list Z) : panswer * list Z * list Z :=
  match c with
  | PAlloc =>
    match avail with
    | x :: avail' => (PGot x, x :: held, avail')
    | [] => (PGot 0, held, [])
    end
  | PFree i =>
    match held !! i with
    | Some p => (PDone, delete i held, p :: avail)
    | None => (PDone, held, avail)
    end
  | PWrite _ _ _ => (PDone, held, avail)
  | PCan => (PBool (match avail with [] => false | _ => true end), held, avail)
  end.
Fixpoint spec_pool_run (cs : list pcall) (held avail : list Z) : list panswer * list Z * list Z :=
  match cs with
  | [] => ([], held, avail)
  | c :: cs' =>
    let '(a, held1, avail1) := spec_pool c held avail in
    let '(l, held2, avail2) := spec_pool_run cs' held1 avail1 in
    (a :: l, held2, avail2)
  end.

(** With overflow: [over] are the nodes that came from the other allocator.  It is
    asked only when no slot is free, and gets back exactly its own nodes. *)
Inductive ostep : pcall -> panswer -> list Z * list Z * list Z -> list Z * list Z * list Z -> Prop :=
| os_slot x held avail over :
    ostep PAlloc (PGot x) (held, x :: avail, over) (x :: held, avail, over)
| os_over p held over : p <> 0 ->
    ostep PAlloc (PGot p) (held, [], over) (p :: held, [], p :: over)
| os_null held over :
    ostep PAlloc (PGot 0) (held, [], over) (held, [], over)
| os_free_slot i p held avail over : held !! i = Some p -> p ∉ over ->
    ostep (PFree i) PDone (held, avail, over) (delete i held, p :: avail, over)
| os_free_over i p held avail over over' : held !! i = Some p -> over ≡ₚ p :: over' ->
    ostep (PFree i) PDone (held, avail, over) (delete i held, avail, over')
| os_free_none i held avail over : held !! i = None ->
    ostep (PFree i) PDone (held, avail, over) (held, avail, over)
| os_write i k w held avail over :
    ostep (PWrite i k w) PDone (held, avail, over) (held, avail, over)
| os_can held avail over :
    ostep PCan (PBool (match avail with [] => false | _ => true end)) (held, avail, over) (held, avail, over).
Inductive osteps : list pcall -> list panswer -> list Z * list Z * list Z -> list Z * list Z * list Z -> Prop :=
| oss_nil s : osteps [] [] s s
| oss_cons c cs a l s s1 s2 : ostep c a s s1 -> osteps cs l s1 s2 -> osteps (c :: cs) (a :: l) s s2.

(** ** Settings *)

(** A node layout as Rust guarantees it: the alignment is a power of two that divides
    the size; nodes hold pointers, so it is at least 8. *)
Definition node_layout (sz al : Z) : Prop :=
  (exists k, 3 <= k < 62 /\ al = 2 ^ k) /\ 0 < sz /\ (al | sz) /\ layout_ok sz al = true.

(** The caller's memory: [len] accessible bytes at [base], with room for the padding. *)
Record PoolSetup {T} (m : mem T) (base len sz al : Z) : Prop := {
  ps_node : node_layout sz al;
  ps_base : 0 < base;
  ps_len : 0 <= len /\ base + len < usize_lim;
  ps_room : pool_first base al <= base + len;
  ps_mem : accessible m base len = true
}.

(** A block of [bytes] at [p] is what an allocator may return: aligned, in the
    address space, and apart from everything live. *)
Definition may_place {T} (m : mem T) (p bytes align : Z) : Prop :=
  0 < p /\ p + bytes < usize_lim /\ (align | p) /\ forall r, r ∈ m_live m -> meets p bytes r = false.
Definition honest {T} (pick : mem T -> Z -> Z -> Z) : Prop :=
  forall m bytes align, 0 < bytes -> pick m bytes align = 0 \/ may_place m (pick m bytes align) bytes align.

(** An honest allocator: it places blocks after everything live while there is room. *)
Definition bump_pick {T} (m : mem T) (bytes align : Z) : Z :=
  let top := fold_right (fun r z => Z.max (r_base r + r_bytes r) z) 4096 (m_live m) in
  let p := round_up top align in
  if (0 <? align) && (0 <? p) && (p + bytes <? usize_lim) then p else 0.

(** Every node is aligned, inside the memory, and apart from the others. *)
Definition well_placed (base len sz al : Z) (held : list Z) : Prop :=
  (forall p, p ∈ held -> (al | p) /\ base <= p /\ p + sz <= base + len) /\
  (forall i j p q, held !! i = Some p -> held !! j = Some q -> i <> j -> p + sz <= q \/ q + sz <= p).

(** For examples: 110 bytes at 1000 for nodes of 32 bytes aligned to 16, so 3 slots
    from 1008. *)
Definition px_mem : mem Z := Mem [Region 1000 110 8 false] ∅ ∅ 0.
Definition px_run (cs : list pcall) : option (list panswer) :=
  match pool_init true 32 16 1000 110 (pool_default, px_mem) with
  | Ok _ s => val (p_run (PoolAlloc true 32 16) can_allocate true 32 16 cs (s, []))
  | _ => None
  end.
