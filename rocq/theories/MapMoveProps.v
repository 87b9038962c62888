(** Property theorems.  Each is closed by the lemma of the same content in
    MapMoveDerived.v; examples show the hypotheses can be met. *)
From Verif Require Import Base Alloc AddrMem FixedPool FixedPoolSpec LinkedList LinkedListSpec RBTree RBTreeSpec MapMove MapMoveSpec.
Local Open Scope Z_scope.
From Verif Require Import MapMoveDerived.

(** * Theorems about maps and sets that were moved

    [holds], [owns], [sorted] and [tspec_run] are in RBTreeSpec.v.  [place rest obj]: a map
    may lie at [obj], in the memory [rest] that the nodes are not in. *)

(** C114: after a move, a program of lookups, changes of values and the other calls but
    iteration gets the answers it should, and dropping the map gives every node back. *)
Theorem C114_moved_map_lookups :
forall (K V : Type) (nsz nal : Z) pick strict chk (cmp : K -> K -> bool) (s : tstate unit K V) t rest obj cs,
  tree_layout nsz nal -> strict_weak_order cmp -> holds nsz s t -> sorted cmp t -> owns nsz nal (t_mem s) t rest ->
  place rest (t_obj s) -> place (without (t_obj s) rest) obj -> forallb no_iteration cs = true ->
  let '(answers, dropped, es) := tspec_run cmp cs (entries t) in
  exists s1 s2 s3, t_move obj s = Ok tt s1 /\
    t_run nsz cmp cs s1 = Some (answers, s2) /\ t_drops s2 = t_drops s ++ dropped /\
    t_drop (DefaultAddrAlloc pick strict) chk nsz nal s2 = Ok tt s3 /\ m_live (t_mem s3) ≡ₚ without (t_obj s) rest.
Proof. exact L_C114_moved_map_lookups. Qed.
Print Assumptions C114_moved_map_lookups.

Example C114_case :
  (holds 40 mx_state rx_tree /\ owns 40 8 (t_mem mx_state) rx_tree [mx_room; rx_object] /\
   place [mx_room; rx_object] 1024 /\ place (without 1024 [mx_room; rx_object]) 8192) /\
  match t_move 8192 mx_state with
  | Ok _ s => m_live (t_mem s) = [mx_room; Region 2112 40 8 true; Region 2048 40 8 true; Region 2176 40 8 true] /\
      option_map fst (t_run 40 Z.ltb [TGet 30; TGetMut 10 111; TGet 10; TLen; TContains 5] s) =
        Some [Some (TVal (Some 300)); Some (TBool true); Some (TVal (Some 111)); Some (TNum 3); Some (TBool false)]
  | _ => False
  end.
Proof.
  split; [|vm_compute; done]. split; [apply MapMoveDerived.mx_holds|]. split; [apply MapMoveDerived.mx_owns|]. split.
  - split; [done|]. split; [done|]. split; [by exists 128|]. exists rx_object. split; [right; left|done].
  - split; [done|]. split; [done|]. split; [by exists 1024|]. exists mx_room. split; [left|done].
Qed.

(** C114, what fails: [iter] and [iter_mut] of a moved map that is not empty.  All entries
    but the last come out; asking for the last one reads the place the map was in before.
    It is so whatever other calls were made in between. *)
Theorem C114_iteration_refuted :
forall (K V : Type) (nsz nal : Z) (cmp : K -> K -> bool) (s : tstate unit K V) t rest obj cs,
  tree_layout nsz nal -> strict_weak_order cmp -> holds nsz s t -> sorted cmp t -> owns nsz nal (t_mem s) t rest ->
  place rest (t_obj s) -> place (without (t_obj s) rest) obj -> forallb no_iteration cs = true -> entries t <> [] ->
  let '(answers, _, es) := tspec_run cmp cs (entries t) in
  exists s1 s2 i, t_move obj s = Ok tt s1 /\ t_run nsz cmp cs s1 = Some (answers, s2) /\
    t_iter s2 = Ok i s2 /\
    (forall k, (k < length es)%nat -> exists i', titer_take nsz k i s2 = Ok (map Some (take k es), i') s2) /\
    (forall k, (length es <= k)%nat -> titer_take nsz k i s2 = UB) /\
    t_iter_all nsz s2 = UB /\ forall g, t_iter_mut_all nsz g s2 = UB.
Proof. exact L_C114_iteration_refuted. Qed.
Print Assumptions C114_iteration_refuted.

Example C114_iteration_case :
  match t_move 8192 mx_state with
  | Ok _ s => match t_iter s with
              | Ok i _ => option_map fst (val (titer_take 40 2 i s)) = Some [Some (10, 100); Some (20, 200)] /\ is_ub (titer_take 40 3 i s) = true
              | _ => False
              end /\ is_ub (t_iter_all 40 s) = true
  | _ => False
  end.
Proof. vm_compute; done. Qed.

(** C114: iterating a moved map that is empty yields nothing if it was made by Rust
    (its first pointer is null), and reads the old place if it was made by C++. *)
Theorem C114_empty_moved_map :
forall (K V : Type) (nsz nal : Z) (s : tstate unit K V) rest obj first,
  tree_layout nsz nal -> holds nsz s Leaf -> owns nsz nal (t_mem s) Leaf rest ->
  place rest (t_obj s) -> place (without (t_obj s) rest) obj -> load_word (t_mem s) (t_obj s + 8) = Some first ->
  exists s1, t_move obj s = Ok tt s1 /\ (first = 0 -> t_iter_all nsz s1 = Ok [] s1) /\ (first <> 0 -> t_iter_all nsz s1 = UB).
Proof. exact L_C114_empty_moved_map. Qed.
Print Assumptions C114_empty_moved_map.

Example C114_empty_case :
  (match t_move 8192 (mx_empty 0) with Ok _ s => val (t_iter_all 40 s) = Some [] | _ => False end) /\
  (match t_move 8192 (mx_empty 1032) with Ok _ s => is_ub (t_iter_all 40 s) = true | _ => False end) /\
  val (t_iter_all 40 (mx_empty 1032)) = Some [].
Proof. vm_compute; done. Qed.

(** C114 for [std::mem::take]: the map that was taken out answers every call but iteration
    as it should and frees its nodes; the map left behind is empty. *)
Theorem C114_taken_map_lookups :
forall (K V : Type) (nsz nal : Z) pick strict chk (cmp : K -> K -> bool) (s : tstate unit K V) t rest obj cs,
  tree_layout nsz nal -> strict_weak_order cmp -> holds nsz s t -> sorted cmp t -> owns nsz nal (t_mem s) t rest ->
  place rest (t_obj s) -> place rest obj -> apart_objects (t_obj s) obj -> no_null (t_mem s) -> forallb no_iteration cs = true ->
  let '(answers, dropped, es) := tspec_run cmp cs (entries t) in
  exists s1 s2 s3, t_take obj s = Ok tt s1 /\ holds nsz (left_behind (t_obj s) s1) (Leaf : tree K V) /\
    t_run nsz cmp cs s1 = Some (answers, s2) /\ t_drops s2 = t_drops s ++ dropped /\
    t_drop (DefaultAddrAlloc pick strict) chk nsz nal s2 = Ok tt s3 /\ m_live (t_mem s3) ≡ₚ rest.
Proof. exact L_C114_taken_map_lookups. Qed.
Print Assumptions C114_taken_map_lookups.

Example C114_take_case :
  (place [mx_room; rx_object] 8192 /\ apart_objects 1024 8192 /\ no_null (t_mem mx_state)) /\
  match t_take 8192 mx_state with
  | Ok _ s => val (t_iter_all 40 (left_behind 1024 s)) = Some [] /\
      option_map fst (t_run 40 Z.ltb [TGet 30; TGetMut 10 111; TGet 10; TLen; TContains 5] s) =
        Some [Some (TVal (Some 300)); Some (TBool true); Some (TVal (Some 111)); Some (TNum 3); Some (TBool false)]
  | _ => False
  end.
Proof.
  split; [|vm_compute; done]. split; [|split; [by right|]].
  - split; [done|]. split; [done|]. split; [by exists 1024|]. exists mx_room. split; [left|done].
  - intros r Hr. cbn in Hr. rewrite !elem_of_cons, elem_of_nil in Hr. destruct Hr as [-> |[-> |[-> |[-> |[-> |[]]]]]]; done.
Qed.

(** C114 for [std::mem::take], what fails: iterating a map that was taken out yields all
    its entries but does not end with them: asking for more takes the map left behind for
    a node and goes through its null pointer. *)
Theorem C114_taken_iteration_refuted :
forall (K V : Type) (nsz nal : Z) (cmp : K -> K -> bool) (s : tstate unit K V) t rest obj cs,
  tree_layout nsz nal -> strict_weak_order cmp -> holds nsz s t -> sorted cmp t -> owns nsz nal (t_mem s) t rest ->
  place rest (t_obj s) -> place rest obj -> apart_objects (t_obj s) obj -> no_null (t_mem s) -> forallb no_iteration cs = true -> entries t <> [] ->
  let '(answers, _, es) := tspec_run cmp cs (entries t) in
  exists s1 s2 i, t_take obj s = Ok tt s1 /\ t_run nsz cmp cs s1 = Some (answers, s2) /\
    t_iter s2 = Ok i s2 /\
    (forall k, (k <= length es)%nat -> exists i', titer_take nsz k i s2 = Ok (map Some (take k es), i') s2) /\
    (forall k, (length es < k)%nat -> titer_take nsz k i s2 = UB) /\
    t_iter_all nsz s2 = UB /\ forall g, t_iter_mut_all nsz g s2 = UB.
Proof. exact L_C114_taken_iteration_refuted. Qed.
Print Assumptions C114_taken_iteration_refuted.

Example C114_taken_iteration_case :
  match t_take 8192 mx_state with
  | Ok _ s => match t_iter s with
              | Ok i _ => option_map fst (val (titer_take 40 3 i s)) = Some [Some (10, 100); Some (20, 200); Some (30, 300)] /\ is_ub (titer_take 40 4 i s) = true
              | _ => False
              end /\ is_ub (t_iter_all 40 s) = true
  | _ => False
  end.
Proof. vm_compute; done. Qed.
