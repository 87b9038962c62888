(** Property theorems.  Each is closed by the lemma of the same content in
    LayoutDerived.v; examples show the hypotheses can be met. *)
From Verif Require Import Base Alloc AddrMem FixedPool FixedPoolSpec LinkedList LinkedListSpec RBTree RBTreeSpec Layout LayoutSpec.
Local Open Scope Z_scope.
From Verif Require Import LayoutDerived.

(** The layout the model gives any [repr(C)] struct with valid field types: fields in the
    order of declaration, each as low as its alignment allows behind the one before and
    so without overlap, the whole aligned for all of them and no larger than needed; and
    it is a valid field type again. *)
Theorem C72_repr_c_layout :
forall (fs : list lay), Forall valid fs -> laid_out fs (offsets fs) (struct fs) /\ valid (struct fs).
Proof. exact L_C72_repr_c_layout. Qed.
Print Assumptions C72_repr_c_layout.

Example C72_repr_c_layout_example :
  Forall valid [Lay 1 1; Lay 8 8; Lay 4 4; Lay 16 16] /\ offsets [Lay 1 1; Lay 8 8; Lay 4 4; Lay 16 16] = [0; 8; 16; 32] /\
  struct [Lay 1 1; Lay 8 8; Lay 4 4; Lay 16 16] = Lay 48 16.
Proof.
  split; [|by vm_compute]. repeat constructor; cbn; try lia; try by exists 1.
  all: first [by exists 0|by exists 3|by exists 2|by exists 4].
Qed.

(** For every element type and every allocator: the fields of the vector, deque, list, hash
    table and tree (with a one-byte comparator) are at fixed offsets, and the allocator
    comes behind all of them, at the next multiple of its alignment. *)
Theorem C72_container_offsets :
forall (T A : lay), valid A ->
  exists v d l h,
    least_multiple (ly_align A) 24 v /\ take 4 (offsets (vector_fields T A)) = [0; 8; 16; v] /\
    least_multiple (ly_align A) 80 d /\ offsets (deque_fields T A) = [0; 8; 16; 48; d] /\
    least_multiple (ly_align A) 20 l /\ take 3 (offsets (list_fields A)) = [0; 16; l] /\
    least_multiple (ly_align A) 36 h /\ take 6 (offsets (hash_table_fields T A)) = [0; 8; 16; 20; 24; h] /\
    offsets (rb_tree_fields T A comparator) = [0; 8; 16; 24; 32; h].
Proof. exact L_C72_container_offsets. Qed.
Print Assumptions C72_container_offsets.

Example C72_container_offsets_example :
  valid default_allocator /\ least_multiple 1 36 36 /\ least_multiple 16 36 48 /\
  offsets (rb_tree_fields (Lay 40 8) default_allocator comparator) = [0; 8; 16; 24; 32; 36] /\
  offsets (rb_tree_fields (Lay 40 8) (Lay 32 16) comparator) = [0; 8; 16; 24; 32; 48] /\
  map ly_size [struct (vector_fields byte1 default_allocator); struct (deque_fields byte1 default_allocator); struct (list_fields default_allocator);
    struct (hash_table_fields byte1 default_allocator); struct (rb_tree_fields byte1 default_allocator comparator)] = [32; 88; 24; 40; 40].
Proof.
  split; [split; [by exists 0|split; [done|by exists 1]]|]. split; [split; [by exists 36|lia]|]. split; [split; [by exists 3|lia]|]. by vm_compute.
Qed.

(** The containers that wrap others: the comparator of a vector map comes behind the
    vector; a fixed-capacity allocator keeps its overflow allocator in front of the
    buffer pointer; the buffer of a fixed vector comes behind the vector, aligned for
    its elements. *)
Theorem C72_wrapper_offsets :
forall (T A C : lay) (n : Z), valid T -> valid A -> valid C -> 0 <= n ->
  exists c p q b,
    least_multiple (ly_align C) (ly_size (struct (vector_fields T A))) c /\ offsets (vector_map_fields T A C) = [0; c] /\
    least_multiple 8 (ly_size A) p /\ offsets (fixed_vector_allocator_fields A) = [0; p] /\
    least_multiple (ly_align A) 24 q /\ take 2 (offsets (overflow_pool_fields A)) = [0; q] /\
    least_multiple (ly_align T) (ly_size (struct (vector_fields T (struct (fixed_vector_allocator_fields A))))) b /\
    offsets (fixed_vector_fields T A n) = [0; b].
Proof. exact L_C72_wrapper_offsets. Qed.
Print Assumptions C72_wrapper_offsets.

Example C72_wrapper_offsets_example :
  valid (Lay 24 8) /\ offsets (vector_map_fields (Lay 24 8) default_allocator comparator) = [0; 32] /\
  offsets (fixed_vector_fields (Lay 32 16) default_allocator 4) = [0; 48].
Proof. split; [split; [by exists 3|split; [done|by exists 3]]|by vm_compute]. Qed.

(** The object sizes and buffer offsets that the theorems about fixed lists assume are
    those of the [repr(C)] structs, for every node type and capacity. *)
Theorem C72_fixed_list_objects :
forall (nsz nal n : Z), node_layout nsz nal -> 0 <= n ->
  ly_size (struct (list_fields (struct (overflow_pool_fields default_allocator)))) = base_list_size /\
  offsets (fixed_list_fields (Lay nsz nal) default_allocator n) = [0; fixed_buffer_off nal; fixed_buffer_off nal + n * nsz] /\
  ly_size (struct (fixed_list_fields (Lay nsz nal) default_allocator n)) = fixed_list_bytes nsz nal n /\
  offsets (conformant_fields (Lay nsz nal) default_allocator n) = [0; base_list_size] /\
  ly_size (struct (conformant_fields (Lay nsz nal) default_allocator n)) = conformant_bytes nsz n.
Proof. exact L_C72_fixed_list_objects. Qed.
Print Assumptions C72_fixed_list_objects.

Example C72_fixed_list_objects_example :
  node_layout 24 8 /\ fixed_list_bytes 24 8 5 = 208 /\ conformant_bytes 24 5 = 208 /\ fixed_buffer_off 32 = 64 /\ fixed_buffer_off 128 = 128.
Proof. split; [split; [by exists 3|split; [lia|split; [by exists 3|done]]]|by vm_compute]. Qed.

(** The nodes of lists and trees have the layout that the theorems about them assume,
    for every element type that leaves room in the address space: two or three words in
    front, the element behind them. *)
Theorem C72_node_layouts :
forall (T K V : lay) (swap : bool), valid T -> valid K -> valid V ->
  ly_size (struct (list_node_fields T)) * 16 <= isize_max - 2 ^ 62 ->
  ly_size (struct (rb_node_fields swap K V)) * 16 <= isize_max - 2 ^ 62 ->
  list_layout (ly_size (struct (list_node_fields T))) (ly_align (struct (list_node_fields T))) /\
  tree_layout (ly_size (struct (rb_node_fields swap K V))) (ly_align (struct (rb_node_fields swap K V))) /\
  (exists o, offsets (list_node_fields T) = [0; o] /\ least_multiple (ly_align T) 16 o) /\
  (exists o, offsets (rb_node_fields swap K V) = [0; 8; 16; o] /\ least_multiple (ly_align (tuple swap K V)) 24 o).
Proof. exact L_C72_node_layouts. Qed.
Print Assumptions C72_node_layouts.

Example C72_node_layouts_example :
  valid (Lay 1 1) /\ valid (Lay 32 32) /\ struct (list_node_fields (Lay 1 1)) = Lay 24 8 /\ struct (list_node_fields (Lay 32 32)) = Lay 64 32 /\
  struct (rb_node_fields false (Lay 8 8) (Lay 8 8)) = Lay 40 8.
Proof. split; [split; [by exists 0|split; [done|by exists 1]]|]. split; [split; [by exists 5|split; [done|by exists 1]]|]. by vm_compute. Qed.

(** EASTL's hash nodes hold a pair (a struct of its own) and then the next pointer; the
    crate's hold key, value and next pointer directly.  The offsets and sizes agree
    whenever keys and values are aligned to at most 8; nodes of sets (no value) agree
    always. *)
Theorem C72_hash_nodes_match_pairs :
forall (K V : lay), valid K -> valid V ->
  (ly_align K <= 8 -> ly_align V <= 8 ->
    nth 1 (offsets (hash_node_fields K V)) 0 = nth 1 (offsets [K; V]) 0 /\
    nth 2 (offsets (hash_node_fields K V)) 0 = nth 1 (offsets [struct [K; V]; pointer byte1]) 0 /\
    struct (hash_node_fields K V) = struct [struct [K; V]; pointer byte1]) /\
  nth 2 (offsets (hash_node_fields K (Lay 0 1))) 0 = nth 1 (offsets [K; pointer byte1]) 0.
Proof. exact L_C72_hash_nodes_match_pairs. Qed.
Print Assumptions C72_hash_nodes_match_pairs.

Example C72_hash_nodes_match_pairs_example :
  valid (Lay 1 1) /\ valid (Lay 12 4) /\ offsets (hash_node_fields (Lay 1 1) (Lay 12 4)) = [0; 4; 16] /\
  offsets [struct [Lay 1 1; Lay 12 4]; pointer byte1] = [0; 16].
Proof. split; [split; [by exists 0|split; [done|by exists 1]]|]. split; [split; [by exists 2|split; [done|by exists 3]]|]. by vm_compute. Qed.

(** With a key aligned to 16 the crate's hash node is not laid out as EASTL's: the next
    pointer sits inside the padding of the C++ pair. *)
Theorem C72_overaligned_hash_nodes_refuted :
exists (K V : lay), valid K /\ valid V /\
  nth 2 (offsets (hash_node_fields K V)) 0 <> nth 1 (offsets [struct [K; V]; pointer byte1]) 0 /\
  ly_size (struct (hash_node_fields K V)) <> ly_size (struct [struct [K; V]; pointer byte1]).
Proof. exact L_C72_overaligned_hash_nodes_refuted. Qed.
Print Assumptions C72_overaligned_hash_nodes_refuted.

Example C72_overaligned_hash_nodes_refuted_example :
  offsets (hash_node_fields (Lay 16 16) (Lay 1 1)) = [0; 16; 24] /\ offsets [struct [Lay 16 16; Lay 1 1]; pointer byte1] = [0; 32] /\
  struct (hash_node_fields (Lay 16 16) (Lay 1 1)) = Lay 32 16 /\ struct [struct [Lay 16 16; Lay 1 1]; pointer byte1] = Lay 48 16.
Proof. by vm_compute. Qed.

(** The entry of a tree node (and of a vector map) is a Rust tuple, whose fields the
    compiler may lay out in either order: for a small key and a large value the key need
    not come first, as it does in the C++ pair. *)
Theorem C72_tree_entry_order_refuted :
exists (K V : lay), valid K /\ valid V /\ exists swap,
  tuple_key_offset swap K V <> 0 /\ tuple swap K V = struct [K; V].
Proof. exact L_C72_tree_entry_order_refuted. Qed.
Print Assumptions C72_tree_entry_order_refuted.

Example C72_tree_entry_order_refuted_example :
  tuple_key_offset true (Lay 4 4) (Lay 8 8) = 8 /\ tuple_key_offset false (Lay 4 4) (Lay 8 8) = 0 /\ tuple true (Lay 4 4) (Lay 8 8) = Lay 16 8.
Proof. by vm_compute. Qed.
