(** Specification of fixed maps: which nodes the buffer has, and what filling the map
    from C++ may do. *)
From Verif Require Import Base Alloc AddrMem FixedPool FixedPoolSpec RBTree RBTreeSpec Layout FixedMap.
Local Open Scope Z_scope.

(** The object of a fixed map in memory, at the alignment of its type. *)
Record FixedMapSetup {T} (m : mem T) (P : lay) (nsz nal : Z) (n : nat) (obj : Z) : Prop := {
  fs_layout : tree_layout nsz nal;
  fs_place : 0 < obj /\ (nal | obj) /\ obj + map_bytes P nsz nal (Z.of_nat n) < usize_lim;
  fs_mem : accessible m obj (map_bytes P nsz nal (Z.of_nat n)) = true;
  fs_wf : forall r, r ∈ m_live m -> 0 < r_bytes r
}.

(** The [n] nodes of the buffer, one after the other. *)
Definition buffer_nodes (P : lay) (nsz nal : Z) (n : nat) (obj : Z) : list Z :=
  map (fun i => obj + map_buffer_off P nsz nal (Z.of_nat n) + Z.of_nat i * nsz) (seq 0 n).

(** C++ has filled the new map [s0]: it got nodes from the map's allocator, gave some
    back, wrote into those it holds and into the pointers and the size of the map, and
    now the map [s] is a tree of exactly the nodes it holds. *)
Record filled {A K V} (aa : AddrAlloc A (K * V)) (can : A -> bool) (chk : bool) (nsz nal : Z)
    (s0 s : tstate A K V) (t : tree K V) : Prop := Filled {
  fl_ex : exists cs answers m held,
    p_run aa can chk nsz nal cs ((t_alloc s0, t_mem s0), []) = Ok answers ((t_alloc s, m), held) /\
    held ≡ₚ addrs t /\ m_live (t_mem s) = m_live m /\
    (forall x, m_word (t_mem s) !! x <> m_word m !! x ->
       (t_obj s <= x < t_obj s + 40) \/ exists p, p ∈ held /\ p <= x < p + nsz);
  fl_obj : t_obj s = t_obj s0;
  fl_tree : holds nsz s t
}.

(** Asking the map's allocator for [n] nodes gives [ps]; after [n] nodes, there are no
    more. *)
Definition hands_out {A K V} (aa : AddrAlloc A (K * V)) (can : A -> bool) (chk : bool) (nsz nal : Z) (n : nat)
    (s : tstate A K V) (ps : list Z) : Prop :=
  exists st held, p_run aa can chk nsz nal (replicate n PAlloc) ((t_alloc s, t_mem s), []) = Ok (map PGot ps) (st, held).
Definition is_full {A K V} (aa : AddrAlloc A (K * V)) (can : A -> bool) (chk : bool) (nsz nal : Z) (n : nat)
    (s : tstate A K V) : Prop :=
  exists l st held, p_run aa can chk nsz nal (replicate n PAlloc ++ [PCan; PAlloc]) ((t_alloc s, t_mem s), []) =
    Ok (l ++ [PBool false; PGot 0]) (st, held).

(** For examples: nodes of 40 bytes, an object for 3 of them at 4096; a map filled with
    one and with three entries. *)
Definition fx_mem (P : lay) : mem (Z * Z) := Mem [Region 4096 (map_bytes P 40 8 3) 8 false] ∅ ∅ 0.
Definition fx_fill {A} (s : tstate A Z Z) (a : A) (m : mem (Z * Z)) (b e r sz : Z) (nodes : list (Z * Z * Z * Z * (Z * Z))) : tstate A Z Z :=
  let w := fold_right (fun '(p, rt, lf, up, _) w => <[p := rt]> (<[p + 8 := lf]> (<[p + 16 := up]> w))) (m_word m) nodes in
  let v := fold_right (fun '(p, _, _, _, kv) v => <[p := kv]> v) (m_val m) nodes in
  TState (t_obj s) sz a (Mem (m_live m) (<[t_obj s + 8 := b]> (<[t_obj s + 16 := e]> (<[t_obj s + 24 := r]> w))) v (m_time m)) [].
