(** What a thread can get at through a value: a specification that does not look at how
    the containers are built or at what the code declares about them. *)
From Coq Require Import List.
From Verif Require Import Threads.

(** [Own]: values that the holder may move out, change or drop.  [Look]: values that it
    reaches through a shared reference. *)
Inductive access : Type := Own | Look.
Definition through (a b : access) : access := match a with Own => b | Look => Look end.

(** [reach t a n]: somewhere in a value of type [t], however deep, are values of the type
    [n] of the caller's, with access [a].  A container gives access to its elements and to
    its allocator and, for the ordered maps, its comparator.  Hash functions, equalities
    and the stock comparators hold no values.  Iterators give access to what they visit,
    entries to the container they belong to and to the key they were asked for. *)
Inductive part : ty -> access -> ty -> Prop :=
| P_pair1 a b : part (Pair a b) Own a | P_pair2 a b : part (Pair a b) Own b
| P_array t : part (Array t) Own t
| P_ref t : part (Ref t) Look t | P_refmut t : part (RefMut t) Own t
| P_vector1 T A : part (Vector T A) Own T | P_vector2 T A : part (Vector T A) Own A
| P_vecinto1 T A : part (VectorIntoIter T A) Own T | P_vecinto2 T A : part (VectorIntoIter T A) Own A
| P_string A : part (String A) Own A
| P_fvector1 T A : part (FixedVector T A) Own T | P_fvector2 T A : part (FixedVector T A) Own A
| P_vmap1 K V A C : part (VectorMap K V A C) Own K | P_vmap2 K V A C : part (VectorMap K V A C) Own V
| P_vmap3 K V A C : part (VectorMap K V A C) Own A | P_vmap4 K V A C : part (VectorMap K V A C) Own C
| P_vmocc1 K V : part (VectorMapOccupied K V) Own K | P_vmocc2 K V : part (VectorMapOccupied K V) Own V
| P_vmvac1 K V A C : part (VectorMapVacant K V A C) Own (VectorMap K V A C) | P_vmvac2 K V A C : part (VectorMapVacant K V A C) Own K
| P_vment1 K V A C : part (VectorMapEntry K V A C) Own (VectorMap K V A C) | P_vment2 K V A C : part (VectorMapEntry K V A C) Own K
| P_deque1 T A : part (Deque T A) Own T | P_deque2 T A : part (Deque T A) Own A
| P_queue1 T A : part (Queue T A) Own T | P_queue2 T A : part (Queue T A) Own A
| P_dqinto1 T A : part (DequeIntoIter T A) Own T | P_dqinto2 T A : part (DequeIntoIter T A) Own A
| P_dqiter T : part (DequeIter T) Look T | P_dqitermut T : part (DequeIterMut T) Own T
| P_dqcompat T : part (DequeCompatIter T) Look T | P_dqcompatmut T : part (DequeCompatIterMut T) Own T
| P_hmap1 K V A H E : part (HashMap K V A H E) Own K | P_hmap2 K V A H E : part (HashMap K V A H E) Own V | P_hmap3 K V A H E : part (HashMap K V A H E) Own A
| P_hset1 K A H E : part (HashSet K A H E) Own K | P_hset2 K A H E : part (HashSet K A H E) Own A
| P_hent1 K V A H E : part (HashMapEntry K V A H E) Own (HashMap K V A H E) | P_hent2 K V A H E : part (HashMapEntry K V A H E) Own K
| P_hiter1 K V : part (HashIter K V) Look K | P_hiter2 K V : part (HashIter K V) Look V
| P_hitermut1 K V : part (HashIterMut K V) Look K | P_hitermut2 K V : part (HashIterMut K V) Own V
| P_hcompat1 K V : part (HashCompatIter K V) Look K | P_hcompat2 K V : part (HashCompatIter K V) Look V
| P_hcompatmut1 K V : part (HashCompatIterMut K V) Look K | P_hcompatmut2 K V : part (HashCompatIterMut K V) Own V
| P_hsiter K : part (HashSetIter K) Look K
| P_list1 T A : part (List T A) Own T | P_list2 T A : part (List T A) Own A
| P_liter T : part (ListIter T) Look T | P_litermut T : part (ListIterMut T) Own T
| P_flist1 T OA : part (FixedList T OA) Own T | P_flist2 T OA : part (FixedList T OA) Own OA
| P_map1 K V A C : part (Map K V A C) Own K | P_map2 K V A C : part (Map K V A C) Own V
| P_map3 K V A C : part (Map K V A C) Own A | P_map4 K V A C : part (Map K V A C) Own C
| P_set1 K A C : part (Set_ K A C) Own K | P_set2 K A C : part (Set_ K A C) Own A | P_set3 K A C : part (Set_ K A C) Own C
| P_fmap1 K V A C : part (FixedMapImpl K V A C) Own K | P_fmap2 K V A C : part (FixedMapImpl K V A C) Own V
| P_fmap3 K V A C : part (FixedMapImpl K V A C) Own A | P_fmap4 K V A C : part (FixedMapImpl K V A C) Own C
| P_titer1 K V : part (TreeIter K V) Look K | P_titer2 K V : part (TreeIter K V) Look V
| P_titermut1 K V : part (TreeIterMut K V) Look K | P_titermut2 K V : part (TreeIterMut K V) Own V
| P_pool1 N OA : part (FixedPoolWithOverflow N OA) Own OA
| P_fva A : part (FixedVectorAllocator A) Own A | P_nta A : part (NullTerminatorAllocator A) Own A.

Inductive reach : ty -> access -> nat -> Prop :=
| R_elem n : reach (Elem n) Own n
| R_part t a u b n : part t a u -> reach u b n -> reach t (through a b) n.

(** What a thread needs for it: values that it may move or change must be [Send] when
    they come to it, and [Sync] when it shares the container with others; values behind
    shared references must be [Sync] either way. *)
Definition needs (tr : trait) (a : access) : trait := match a with Own => tr | Look => Sync end.

(** The comparators that come with the crate. *)
Definition stock (K C : ty) : Prop := C = Less K \/ C = Greater K.

(** Types that hold their elements in the containers that are meant to go from thread
    to thread, and no raw pointers of the caller's. *)
Inductive portable : ty -> Prop :=
| Q_elem n : portable (Elem n) | Q_plain : portable Plain | Q_default : portable DefaultAllocator
| Q_ref t : portable t -> portable (Ref t) | Q_refmut t : portable t -> portable (RefMut t)
| Q_pair a b : portable a -> portable b -> portable (Pair a b)
| Q_array t : portable t -> portable (Array t)
| Q_vector T A : portable T -> portable A -> portable (Vector T A)
| Q_string A : portable A -> portable (String A)
| Q_fvector T A : portable T -> portable A -> portable (FixedVector T A)
| Q_vmap K V A C : portable K -> portable V -> portable A -> portable C -> portable (VectorMap K V A C)
| Q_vmap_stock K V A C : portable K -> portable V -> portable A -> stock K C -> portable (VectorMap K V A C)
| Q_vmocc K V : portable K -> portable V -> portable (VectorMapOccupied K V)
| Q_vmvac K V A C : portable K -> portable V -> portable A -> portable C -> portable (VectorMapVacant K V A C)
| Q_vment K V A C : portable K -> portable V -> portable A -> portable C -> portable (VectorMapEntry K V A C)
| Q_deque T A : portable T -> portable A -> portable (Deque T A)
| Q_dqinto T A : portable T -> portable A -> portable (DequeIntoIter T A)
| Q_queue T A : portable T -> portable A -> portable (Queue T A)
| Q_hmap K V A H E : portable K -> portable V -> portable A -> portable (HashMap K V A H E)
| Q_hset K A H E : portable K -> portable A -> portable (HashSet K A H E)
| Q_map K V A C : portable K -> portable V -> portable A -> portable C -> portable (Map K V A C)
| Q_map_stock K V A C : portable K -> portable V -> portable A -> stock K C -> portable (Map K V A C).

(** Those that a user may expect to go as well. *)
Inductive stranded : ty -> Prop :=
| S_list T A : stranded (List T A) | S_flist T OA : stranded (FixedList T OA)
| S_set K A C : stranded (Set_ K A C) | S_fmap K V A C : stranded (FixedMapImpl K V A C)
| S_vecinto T A : stranded (VectorIntoIter T A) | S_hent K V A H E : stranded (HashMapEntry K V A H E)
| S_dqiter T : stranded (DequeIter T) | S_dqitermut T : stranded (DequeIterMut T)
| S_hiter K V : stranded (HashIter K V) | S_hitermut K V : stranded (HashIterMut K V) | S_hsiter K : stranded (HashSetIter K)
| S_liter T : stranded (ListIter T) | S_litermut T : stranded (ListIterMut T)
| S_titer K V : stranded (TreeIter K V) | S_titermut K V : stranded (TreeIterMut K V).
