(** Property theorems.  Each is closed by the lemma of the same content in
    FixedMapRefsDerived.v; examples show the hypotheses can be met. *)
From Verif Require Import Base Alloc AddrMem FixedPool FixedPoolSpec RBTree RBTreeSpec Layout FixedMap FixedMapSpec TreeRefs TreeRefsSpec.
Local Open Scope Z_scope.
From Verif Require Import FixedMapRefsDerived.

From Verif Require Import FixedMapDerived.

(** Every program of calls on a fixed map, with or without overflow, makes only
    references to whole nodes of live memory, provided that a node needs no more than the alignment of
    a pointer: the buffer behind the map makes up for what the end marker lacks.  If a node needs more,
    going through a map with entries breaks the rule, as the end marker does not have that alignment. *)
Theorem C122_fixed_iterating_partial :
forall (A K V : Type) (P : lay) (nsz nal : Z) (n : nat) (lt : K -> K -> bool) (cs : list (tcall K V)) (s : tstate A K V) (t : tree K V),
  P = plain_pool \/ P = overflow_pool -> tree_layout nsz nal -> strict_weak_order lt ->
  holds nsz s t -> sorted lt t -> (forall a, a ∈ addrs t -> (nal | a)) ->
  (nal | t_obj s) -> accessible (t_mem s) (t_obj s) (map_bytes P nsz nal (Z.of_nat n)) = true ->
  (nal <= 8 -> t_run_r nsz nal lt cs s = t_run nsz lt cs s) /\
  (8 < nal -> existsb goes_through cs = true -> entries t <> [] -> t_run_r nsz nal lt cs s = None).
Proof. exact L_C122_fixed_iterating_partial. Qed.
Print Assumptions C122_fixed_iterating_partial.

(** Dropping and clearing a fixed map, with or without overflow, make references to nodes only while these
    are there, however C++ has filled the map. *)
Theorem C122_fixed_drop :
forall (K V : Type) (pick : mem (K * V) -> Z -> Z -> Z) (strict chk : bool) (nsz nal : Z) (n : nat) (obj : Z) (m : mem (K * V)),
  (forall s0 (s : tstate pool K V) (t : tree K V),
     FixedMapSetup m plain_pool nsz nal n obj -> fixed_map_new chk nsz nal (Z.of_nat n) obj m = Ok tt s0 ->
     filled (FixedMapAlloc chk nsz nal) can_allocate chk nsz nal s0 s t ->
     t_drop_r nsz nal (FixedMapAlloc chk nsz nal) chk false s = t_drop (FixedMapAlloc chk nsz nal) chk nsz nal s /\
     t_clear_r nsz nal (FixedMapAlloc chk nsz nal) chk false s = t_clear (FixedMapAlloc chk nsz nal) chk nsz nal s) /\
  (forall s0 (s : tstate (opool unit) K V) (t : tree K V),
     honest pick -> FixedMapSetup m overflow_pool nsz nal n obj -> overflow_map_new chk nsz nal (Z.of_nat n) obj m = Ok tt s0 ->
     filled (OverflowMapAlloc chk nsz nal pick strict) (fun q => can_allocate (o_pool q)) chk nsz nal s0 s t ->
     t_drop_r nsz nal (OverflowMapAlloc chk nsz nal pick strict) chk false s = t_drop (OverflowMapAlloc chk nsz nal pick strict) chk nsz nal s /\
     t_clear_r nsz nal (OverflowMapAlloc chk nsz nal pick strict) chk false s = t_clear (OverflowMapAlloc chk nsz nal pick strict) chk nsz nal s).
Proof. exact L_C122_fixed_drop. Qed.
Print Assumptions C122_fixed_drop.

(** A fixed map, with or without overflow, gives nodes back to its pool behind a reference in force
    exactly if it has entries when it is dropped or cleared. *)
Theorem C123_fixed_partial :
forall (K V : Type) (pick : mem (K * V) -> Z -> Z -> Z) (strict chk : bool) (nsz nal : Z) (n : nat) (obj : Z) (m : mem (K * V)),
  (forall s0 (s : tstate pool K V) (t : tree K V),
     FixedMapSetup m plain_pool nsz nal n obj -> fixed_map_new chk nsz nal (Z.of_nat n) obj m = Ok tt s0 ->
     filled (FixedMapAlloc chk nsz nal) can_allocate chk nsz nal s0 s t ->
     (entries t = [] ->
        t_drop_r nsz nal (FixedMapAlloc chk nsz nal) chk true s = t_drop (FixedMapAlloc chk nsz nal) chk nsz nal s /\
        t_clear_r nsz nal (FixedMapAlloc chk nsz nal) chk true s = t_clear (FixedMapAlloc chk nsz nal) chk nsz nal s) /\
     (entries t <> [] ->
        t_drop_r nsz nal (FixedMapAlloc chk nsz nal) chk true s = UB /\ t_clear_r nsz nal (FixedMapAlloc chk nsz nal) chk true s = UB)) /\
  (forall s0 (s : tstate (opool unit) K V) (t : tree K V),
     honest pick -> FixedMapSetup m overflow_pool nsz nal n obj -> overflow_map_new chk nsz nal (Z.of_nat n) obj m = Ok tt s0 ->
     filled (OverflowMapAlloc chk nsz nal pick strict) (fun q => can_allocate (o_pool q)) chk nsz nal s0 s t ->
     (entries t = [] ->
        t_drop_r nsz nal (OverflowMapAlloc chk nsz nal pick strict) chk true s = t_drop (OverflowMapAlloc chk nsz nal pick strict) chk nsz nal s /\
        t_clear_r nsz nal (OverflowMapAlloc chk nsz nal pick strict) chk true s = t_clear (OverflowMapAlloc chk nsz nal pick strict) chk nsz nal s) /\
     (entries t <> [] ->
        t_drop_r nsz nal (OverflowMapAlloc chk nsz nal pick strict) chk true s = UB /\ t_clear_r nsz nal (OverflowMapAlloc chk nsz nal pick strict) chk true s = UB)).
Proof. exact L_C123_fixed_partial. Qed.
Print Assumptions C123_fixed_partial.

(** A fixed map of three nodes, two of which are in use: with the reference that drop and clear hold
    they break the rule, without it they keep it, and so does going through the map. *)
Example C123_fixed_ex :
  FixedMapSetup (fx_mem plain_pool) plain_pool 40 8 3 4096 /\
  match fixed_map_new true 40 8 3 4096 (fx_mem plain_pool) with
  | Ok _ s0 =>
    match p_run (FixedMapAlloc true 40 8) can_allocate true 40 8 [PAlloc; PAlloc; PAlloc; PFree 1] ((t_alloc s0, t_mem s0), []) with
    | Ok _ ((q, m), held) =>
      let s := fx_fill s0 q m 4160 4240 4160 2 [(4160, 4240, 0, 4105, (1, 10)); (4240, 0, 0, 4160, (2, 20))] in
      held = [4240; 4160] /\
      option_map fst (t_run_r 40 8 Z.ltb [TIterAll] s) = Some [Some (TList [(1, 10); (2, 20)])] /\
      t_run_r 40 16 Z.ltb [TIterAll] s = None /\
      is_ok (t_drop_r 40 8 (FixedMapAlloc true 40 8) true false s) = true /\
      t_drop_r 40 8 (FixedMapAlloc true 40 8) true true s = UB /\ t_clear_r 40 8 (FixedMapAlloc true 40 8) true true s = UB /\
      is_ok (t_drop_r 40 8 (FixedMapAlloc true 40 8) true true s0) = true
    | _ => False
    end
  | _ => False
  end.
Proof. split; [by apply FixedMapDerived.fx_setup; left|by vm_compute]. Qed.
