(** The names of the fields whose types Layout.v lists. *)
From Verif Require Import Base Layout.
From Coq Require Strings.String.
Export Coq.Strings.String.StringSyntax.
Local Open Scope Z_scope.
Local Notation string := Coq.Strings.String.string.
Local Open Scope string_scope.

(** src/vector/mod.rs:20-30 *)
Definition vector_names : list string := ["begin_ptr"; "end_ptr"; "capacity_ptr"; "allocator"; "_holds_data"].
(** src/fixed_vector/allocator.rs:7-11 *)
Definition fixed_vector_allocator_names : list string := ["overflow_allocator"; "pool_begin"].
(** src/deque/iter.rs:45-52 *)
Definition deque_iter_names : list string := ["current"; "begin"; "end"; "current_array"; "_marker"].
(** src/deque/mod.rs:13-20 *)
Definition deque_names : list string := ["ptr_array"; "ptr_array_size"; "begin_it"; "end_it"; "allocator"].
(** src/list/node.rs:3-7 *)
Definition list_base_names : list string := ["next"; "prev"].
(** src/list/node.rs:35-39 *)
Definition list_node_names : list string := ["base"; "value"].
(** src/list/mod.rs:17-24 *)
Definition list_names : list string := ["node"; "size"; "allocator"; "_holds_data"].
(** src/internal/hash_table/node.rs:2-7 *)
Definition hash_node_names : list string := ["key"; "val"; "next"].
(** src/internal/hash_table/rehash_policy.rs:5-10 *)
Definition policy_names : list string := ["max_load_factor"; "growth_factor"; "next_resize"].
(** src/internal/hash_table/mod.rs:29-46 *)
Definition hash_table_names : list string :=
  ["_pad"; "bucket_array"; "bucket_count"; "element_count"; "rehash_policy"; "allocator"; "_markers"].
(** src/internal/rb_tree/mod.rs:14-27 *)
Definition rb_tree_names : list string := ["compare"; "begin"; "end"; "parent"; "size"; "allocator"].
(** src/internal/rb_tree/node.rs:85-92 *)
Definition rb_node_names : list string := ["right"; "left"; "parent"; "pair"].
(** src/fixed_pool/mod.rs:21-27 *)
Definition pool_names : list string := ["head"; "next"; "capacity"; "_node"].
(** src/fixed_pool/with_overflow.rs:7-12 *)
Definition overflow_pool_names : list string := ["pool_allocator"; "overflow_allocator"; "pool_begin"].

(** Where the field called [n] of a struct lies: its offset and size. *)
Fixpoint find_field (n : string) (ns : list string) (os : list Z) (fs : list lay) : option (Z * Z) :=
  match ns, os, fs with
  | m :: ns', o :: os', f :: fs' => if Coq.Strings.String.eqb n m then Some (o, ly_size f) else find_field n ns' os' fs'
  | _, _, _ => None
  end.
Definition field (ns : list string) (fs : list lay) (n : string) : option (Z * Z) := find_field n ns (offsets fs) fs.
