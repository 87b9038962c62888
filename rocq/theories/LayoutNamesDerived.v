(** Proofs of the properties stated in LayoutNamesProps.v. *)
From Verif Require Import Base Alloc Layout LayoutSpec LayoutNames.
Local Open Scope Z_scope.
Local Open Scope string_scope.

From Verif Require Import LayoutDerived.
Lemma field_place ns fs n : field ns fs n = find_field n ns (fst (place 0 fs)) fs.
Proof. unfold field. by rewrite offsets_place. Qed.

Lemma L_C72_named_fields :
forall (T A : lay), valid A ->
  map (field vector_names (vector_fields T A)) ["begin_ptr"; "end_ptr"; "capacity_ptr"] = [Some (0, 8); Some (8, 8); Some (16, 8)] /\
  map (field deque_names (deque_fields T A)) ["ptr_array"; "ptr_array_size"; "begin_it"; "end_it"]
    = [Some (0, 8); Some (8, 4); Some (16, 32); Some (48, 32)] /\
  map (field deque_iter_names (deque_iter_fields T)) ["current"; "begin"; "end"; "current_array"]
    = [Some (0, 8); Some (8, 8); Some (16, 8); Some (24, 8)] /\
  map (field list_base_names list_base_fields) ["next"; "prev"] = [Some (0, 8); Some (8, 8)] /\
  map (field list_names (list_fields A)) ["node"; "size"] = [Some (0, 16); Some (16, 4)] /\
  map (field hash_table_names (hash_table_fields T A)) ["_pad"; "bucket_array"; "bucket_count"; "element_count"; "rehash_policy"]
    = [Some (0, 1); Some (8, 8); Some (16, 4); Some (20, 4); Some (24, 12)] /\
  map (field policy_names policy_fields) ["max_load_factor"; "growth_factor"; "next_resize"] = [Some (0, 4); Some (4, 4); Some (8, 4)] /\
  map (field rb_tree_names (rb_tree_fields T A comparator)) ["compare"; "begin"; "end"; "parent"; "size"]
    = [Some (0, 1); Some (8, 8); Some (16, 8); Some (24, 8); Some (32, 4)] /\
  map (field pool_names pool_fields) ["head"; "next"; "capacity"] = [Some (0, 8); Some (8, 8); Some (16, 8)] /\
  field overflow_pool_names (overflow_pool_fields A) "pool_allocator" = Some (0, 24).
Proof.
  intros T A VA. pose proof (valid_pos _ VA) as P. cbn [map]. rewrite !field_place.
  unfold vector_fields, deque_fields, list_fields, hash_table_fields, rb_tree_fields, overflow_pool_fields.
  rewrite iter_struct, base_struct, policy_struct, pool_struct.
  split; [step 0; step 8; step 16; done|].
  split; [step 0; step 8; step 16; step 48; done|].
  split; [done|]. split; [done|].
  split; [step 0; step 16; done|].
  split; [step 0; step 8; step 16; step 20; step 24; done|].
  split; [done|].
  split; [step 0; step 8; step 16; step 24; step 32; done|].
  split; [done|]. step 0. done.
Qed.

Lemma L_C72_named_nodes :
forall (T K V A : lay) (swap : bool), valid T -> valid K -> valid V -> valid A ->
  exists a d l h p q r v n e m,
    (least_multiple (ly_align A) 24 a /\ field vector_names (vector_fields T A) "allocator" = Some (a, ly_size A)) /\
    (least_multiple (ly_align A) 80 d /\ field deque_names (deque_fields T A) "allocator" = Some (d, ly_size A)) /\
    (least_multiple (ly_align A) 20 l /\ field list_names (list_fields A) "allocator" = Some (l, ly_size A)) /\
    (least_multiple (ly_align A) 36 h /\ field hash_table_names (hash_table_fields T A) "allocator" = Some (h, ly_size A) /\
      field rb_tree_names (rb_tree_fields T A comparator) "allocator" = Some (h, ly_size A)) /\
    (field fixed_vector_allocator_names (fixed_vector_allocator_fields A) "overflow_allocator" = Some (0, ly_size A) /\
      least_multiple 8 (ly_size A) p /\ field fixed_vector_allocator_names (fixed_vector_allocator_fields A) "pool_begin" = Some (p, 8)) /\
    (least_multiple (ly_align A) 24 q /\ field overflow_pool_names (overflow_pool_fields A) "overflow_allocator" = Some (q, ly_size A) /\
      least_multiple 8 (q + ly_size A) r /\ field overflow_pool_names (overflow_pool_fields A) "pool_begin" = Some (r, 8)) /\
    (field list_node_names (list_node_fields T) "base" = Some (0, 16) /\
      least_multiple (ly_align T) 16 e /\ field list_node_names (list_node_fields T) "value" = Some (e, ly_size T)) /\
    (field hash_node_names (hash_node_fields K V) "key" = Some (0, ly_size K) /\
      least_multiple (ly_align V) (ly_size K) v /\ field hash_node_names (hash_node_fields K V) "val" = Some (v, ly_size V) /\
      least_multiple 8 (v + ly_size V) n /\ field hash_node_names (hash_node_fields K V) "next" = Some (n, 8)) /\
    (map (field rb_node_names (rb_node_fields swap K V)) ["right"; "left"; "parent"] = [Some (0, 8); Some (8, 8); Some (16, 8)] /\
      least_multiple (ly_align (tuple swap K V)) 24 m /\
      field rb_node_names (rb_node_fields swap K V) "pair" = Some (m, ly_size (tuple swap K V))).
Proof.
  intros T K V A swap VT VK VV VA. pose proof (valid_pos _ VA) as PA. pose proof (valid_pos _ VT) as PT. pose proof (valid_pos _ VV) as PV.
  assert (VP : valid (tuple swap K V)).
  { unfold tuple. apply repr_ok. destruct swap; (constructor; [done|]; constructor; [done|constructor]). }
  pose proof (valid_pos _ VP) as PP.
  assert (Z0 : forall l, valid l -> align_up 0 (ly_align l) = 0).
  { intros l VL. apply up_fix; [by apply valid_pos|apply Z.divide_0_r]. }
  exists (align_up 24 (ly_align A)), (align_up 80 (ly_align A)), (align_up 20 (ly_align A)), (align_up 36 (ly_align A)),
    (align_up (ly_size A) 8), (align_up 24 (ly_align A)), (align_up (align_up 24 (ly_align A) + ly_size A) 8),
    (align_up (ly_size K) (ly_align V)), (align_up (align_up (ly_size K) (ly_align V) + ly_size V) 8), (align_up 16 (ly_align T)),
    (align_up 24 (ly_align (tuple swap K V))).
  cbn [map]. rewrite !field_place.
  unfold vector_fields, deque_fields, list_fields, hash_table_fields, rb_tree_fields, overflow_pool_fields, fixed_vector_allocator_fields,
    list_node_fields, hash_node_fields, rb_node_fields.
  rewrite iter_struct, base_struct, policy_struct, pool_struct.
  split; [split; [by apply up_least|]; step 0; step 8; step 16; cbn [place]; done|].
  split; [split; [by apply up_least|]; step 0; step 8; step 16; step 48; done|].
  split; [split; [by apply up_least|]; step 0; step 16; cbn [place]; done|].
  split; [split; [by apply up_least|]; split; [step 0; step 8; step 16; step 20; step 24; done|step 0; step 8; step 16; step 24; step 32; done]|].
  split; [split; [|split; [by apply up_least|]]; cbn [place fst pointer ly_align ly_size]; rewrite (Z0 _ VA); done|].
  split; [split; [by apply up_least|]; split; [|split; [by apply up_least|]]; step 0; done|].
  split; [split; [|split; [by apply up_least|]]; step 0; done|].
  split; [split; [|split; [by apply up_least|split; [|split; [by apply up_least|]]]]; cbn [place fst pointer ly_align ly_size]; rewrite (Z0 _ VK); done|].
  change (struct [Lay 8 8; phantom; phantom]) with (Lay 8 8).
  split; [|split; [by apply up_least|]]; step 0; step 8; step 16; done.
Qed.
