(** When a map may be iterated over. *)
From Verif Require Import Base Alloc AddrMem RBTree RBTreeSpec.
Local Open Scope Z_scope.

(** Live memory reaches from the first pointer of the map object as far as a node would, and that
    pointer has the alignment of a node. *)
Definition anchor_like_node {A K V} (nsz nal : Z) (s : tstate A K V) : Prop :=
  (nal | t_obj s + 8) /\
  exists r, r ∈ m_live (t_mem s) /\ r_base r <= t_obj s + 8 /\ t_obj s + 8 + nsz <= r_base r + r_bytes r.

(** A call that goes through the whole map. *)
Definition goes_through {K V} (c : tcall K V) : bool := match c with TIterAll | TIterMut _ => true | _ => false end.
