(** Property theorems.  Each is closed by the lemma of the same content in
    LayoutNamesDerived.v; examples show the hypotheses can be met. *)
From Verif Require Import Base Alloc Layout LayoutSpec LayoutNames.
Local Open Scope Z_scope.
Local Open Scope string_scope.
From Verif Require Import LayoutNamesDerived.

(** C72 by the names of the fields: for every element type and allocator, the offset
    and the size in bytes of every field that C++ shares.  Vector: three pointers;
    deque: the array of pointers, its size in four bytes, two iterators of four pointers
    each; list: the sentinel's links and the size; hash table: a byte, the bucket array,
    two counters and the policy; tree: the comparator, three links and the size. *)
Theorem C72_named_fields :
forall (T A : lay), valid A ->
  map (field vector_names (vector_fields T A)) ["begin_ptr"; "end_ptr"; "capacity_ptr"] = [Some (0, 8); Some (8, 8); Some (16, 8)] /\
  map (field deque_names (deque_fields T A)) ["ptr_array"; "ptr_array_size"; "begin_it"; "end_it"]
    = [Some (0, 8); Some (8, 4); Some (16, 32); Some (48, 32)] /\
  map (field deque_iter_names (deque_iter_fields T)) ["current"; "begin"; "end"; "current_array"]
    = [Some (0, 8); Some (8, 8); Some (16, 8); Some (24, 8)] /\
  map (field list_base_names list_base_fields) ["next"; "prev"] = [Some (0, 8); Some (8, 8)] /\
  map (field list_names (list_fields A)) ["node"; "size"] = [Some (0, 16); Some (16, 4)] /\
  map (field hash_table_names (hash_table_fields T A)) ["_pad"; "bucket_array"; "bucket_count"; "element_count"; "rehash_policy"]
    = [Some (0, 1); Some (8, 8); Some (16, 4); Some (20, 4); Some (24, 12)] /\
  map (field policy_names policy_fields) ["max_load_factor"; "growth_factor"; "next_resize"] = [Some (0, 4); Some (4, 4); Some (8, 4)] /\
  map (field rb_tree_names (rb_tree_fields T A comparator)) ["compare"; "begin"; "end"; "parent"; "size"]
    = [Some (0, 1); Some (8, 8); Some (16, 8); Some (24, 8); Some (32, 4)] /\
  map (field pool_names pool_fields) ["head"; "next"; "capacity"] = [Some (0, 8); Some (8, 8); Some (16, 8)] /\
  field overflow_pool_names (overflow_pool_fields A) "pool_allocator" = Some (0, 24).
Proof. exact L_C72_named_fields. Qed.
Print Assumptions C72_named_fields.

Example C72_named_fields_case :
  valid default_allocator /\ valid (Lay 32 16) /\
  map (field rb_tree_names (rb_tree_fields (Lay 40 8) default_allocator comparator)) ["size"; "allocator"; "parent"] = [Some (32, 4); Some (36, 1); Some (24, 8)] /\
  field deque_names (deque_fields byte1 (Lay 32 16)) "allocator" = Some (80, 32) /\ field deque_names (deque_fields byte1 default_allocator) "size" = None.
Proof.
  split; [split; [by exists 0|split; [done|by exists 1]]|]. split; [split; [by exists 4|split; [done|by exists 2]]|]. by vm_compute.
Qed.

(** C72, the nodes and the fields that hold a value of a type parameter: for all types
    of elements, keys, values and allocators, each such field has its full size and lies
    at the first place its alignment allows behind the field before it. *)
Theorem C72_named_nodes :
forall (T K V A : lay) (swap : bool), valid T -> valid K -> valid V -> valid A ->
  exists a d l h p q r v n e m,
    (least_multiple (ly_align A) 24 a /\ field vector_names (vector_fields T A) "allocator" = Some (a, ly_size A)) /\
    (least_multiple (ly_align A) 80 d /\ field deque_names (deque_fields T A) "allocator" = Some (d, ly_size A)) /\
    (least_multiple (ly_align A) 20 l /\ field list_names (list_fields A) "allocator" = Some (l, ly_size A)) /\
    (least_multiple (ly_align A) 36 h /\ field hash_table_names (hash_table_fields T A) "allocator" = Some (h, ly_size A) /\
      field rb_tree_names (rb_tree_fields T A comparator) "allocator" = Some (h, ly_size A)) /\
    (field fixed_vector_allocator_names (fixed_vector_allocator_fields A) "overflow_allocator" = Some (0, ly_size A) /\
      least_multiple 8 (ly_size A) p /\ field fixed_vector_allocator_names (fixed_vector_allocator_fields A) "pool_begin" = Some (p, 8)) /\
    (least_multiple (ly_align A) 24 q /\ field overflow_pool_names (overflow_pool_fields A) "overflow_allocator" = Some (q, ly_size A) /\
      least_multiple 8 (q + ly_size A) r /\ field overflow_pool_names (overflow_pool_fields A) "pool_begin" = Some (r, 8)) /\
    (field list_node_names (list_node_fields T) "base" = Some (0, 16) /\
      least_multiple (ly_align T) 16 e /\ field list_node_names (list_node_fields T) "value" = Some (e, ly_size T)) /\
    (field hash_node_names (hash_node_fields K V) "key" = Some (0, ly_size K) /\
      least_multiple (ly_align V) (ly_size K) v /\ field hash_node_names (hash_node_fields K V) "val" = Some (v, ly_size V) /\
      least_multiple 8 (v + ly_size V) n /\ field hash_node_names (hash_node_fields K V) "next" = Some (n, 8)) /\
    (map (field rb_node_names (rb_node_fields swap K V)) ["right"; "left"; "parent"] = [Some (0, 8); Some (8, 8); Some (16, 8)] /\
      least_multiple (ly_align (tuple swap K V)) 24 m /\
      field rb_node_names (rb_node_fields swap K V) "pair" = Some (m, ly_size (tuple swap K V))).
Proof. exact L_C72_named_nodes. Qed.
Print Assumptions C72_named_nodes.

Example C72_named_nodes_case :
  valid (Lay 1 1) /\ valid (Lay 32 32) /\
  field list_node_names (list_node_fields (Lay 32 32)) "value" = Some (32, 32) /\
  map (field hash_node_names (hash_node_fields (Lay 1 1) (Lay 12 4))) ["key"; "val"; "next"] = [Some (0, 1); Some (4, 12); Some (16, 8)] /\
  field overflow_pool_names (overflow_pool_fields (Lay 1 1)) "pool_begin" = Some (32, 8).
Proof. split; [split; [by exists 0|split; [done|by exists 1]]|]. split; [split; [by exists 5|split; [done|by exists 1]]|]. by vm_compute. Qed.
