(** What C114 says of moved maps, apart from RBTreeSpec.v. *)
From Verif Require Import Base Alloc AddrMem FixedPool LinkedList LinkedListSpec RBTree RBTreeSpec.
Local Open Scope Z_scope.

(** Storage for a map at [obj], outside of its nodes. *)
Definition place (rest : list region) (obj : Z) : Prop :=
  0 < obj /\ obj + 32 < usize_lim /\ (8 | obj) /\ exists r, r ∈ rest /\ AddrMem.inside (obj + 8) 24 r = true.
(** The calls other than iteration. *)
Definition no_iteration {K V} (c : tcall K V) : bool := match c with TIterAll | TIterMut _ => false | _ => true end.
(** What is left of the storage when the old object is gone. *)
Definition without (old : Z) (rest : list region) : list region := List.filter (fun r => negb (meets (old + 8) 24 r)) rest.
(** Two places for a map that do not overlap. *)
Definition apart_objects (o o' : Z) : Prop := o' + 24 <= o \/ o + 24 <= o'.
(** Nothing is at the null address. *)
Definition no_null {T} (m : mem T) : Prop := forall r, r ∈ m_live m -> 0 < r_base r.
(** The map that [mem::take] leaves at the old place [o]. *)
Definition left_behind {K V} (o : Z) (s : tstate unit K V) : tstate unit K V := TState o 0 tt (t_mem s) [].

(** ** For the examples: the map of RBTreeSpec.v, with room for it at 8192; an empty map *)
Definition mx_room : region := Region 8192 40 8 false.
Definition mx_state : tstate unit Z Z :=
  let s := rx_state 2048 2176 in
  TState (t_obj s) (t_size s) tt (Mem (mx_room :: m_live (t_mem s)) (m_word (t_mem s)) (m_val (t_mem s)) (m_time (t_mem s))) [].
Definition mx_empty (first : Z) : tstate unit Z Z :=
  TState 1024 0 tt (Mem [mx_room; rx_object] (list_to_map [(1032, first); (1040, first); (1048, 0)]) ∅ 0) [].
