(** Which types may be sent to another thread and which may be shared: the fields of the
    structs of the crate, their [unsafe impl]s of [Send] and [Sync], and Rust's rule for
    types without such an impl.  Lifetimes and [NODE_COUNT] are left out; so are the
    bounds of the impls that are about other traits ([PartialEq], [Compare], ...). *)
From Coq Require Import List.
Import ListNotations.

(** Types.  [Elem n] is a type of the caller's; [Plain] stands for [u8], [u32], [usize],
    [f32] and [()]. *)
Inductive ty : Type :=
| Elem (n : nat) | Plain | Raw (t : ty) | Phantom (t : ty) | Ref (t : ty) | RefMut (t : ty)
| Pair (a b : ty) | Array (t : ty) | Uninit (t : ty)
(** src/allocator.rs:88-93, src/string/null_terminator_allocator.rs:3,
    src/fixed_vector/allocator.rs:6-11, src/fixed_pool/mod.rs:15-27 and
    src/fixed_pool/with_overflow.rs:7-12 *)
| DefaultAllocator | NullTerminatorAllocator (A : ty) | FixedVectorAllocator (A : ty)
| FixedPool (N : ty) | FixedPoolWithOverflow (N OA : ty)
(** src/vector/mod.rs:20-30, src/vector/into_iter.rs:8-14, src/string/mod.rs:22-25,
    src/fixed_vector/mod.rs:20-24 *)
| Vector (T A : ty) | VectorIntoIter (T A : ty) | String (A : ty) | FixedVector (T A : ty)
(** src/vector_map/mod.rs:17-21 and src/vector_map/entry.rs:6, 26-30, 52-55 *)
| VectorMap (K V A C : ty) | VectorMapOccupied (K V : ty) | VectorMapVacant (K V A C : ty) | VectorMapEntry (K V A C : ty)
(** src/deque/mod.rs:13-20, src/deque/iter.rs:9-16, 45-52, 101-108, 241-243, 284-286,
    332-334 and src/queue.rs:10-13 *)
| Deque (T A : ty) | DequeCompatIter (T : ty) | DequeCompatIterMut (T : ty) | DequeRawIter (T : ty)
| DequeIter (T : ty) | DequeIterMut (T : ty) | DequeIntoIter (T A : ty) | Queue (T A : ty)
(** src/internal/hash_table/mod.rs:29-46, node.rs:2-7, entry.rs:8-20, iter.rs:8-24, 38-42,
    198-201, 283-286; src/internal/hash_table/rehash_policy.rs:5-10 is [Plain];
    src/hash_map/mod.rs:21-30, entry.rs:7-9, src/hash_set/mod.rs:18-26, iter.rs:12-14 *)
| HashTable (K V A H E : ty) | HashNode (K V : ty) | HashVacant (K V A H E : ty) | HashEntry (K V A H E : ty)
| HashCompatIter (K V : ty) | HashCompatIterMut (K V : ty) | HashRawIter (K V : ty) | HashIter (K V : ty) | HashIterMut (K V : ty)
| HashMap (K V A H E : ty) | HashMapEntry (K V A H E : ty) | HashSet (K A H E : ty) | HashSetIter (K : ty)
(** src/list/mod.rs:17-24, node.rs:3-7, 35-39, iter.rs:5-10, 43-48, src/fixed_list/mod.rs:20-29
    (src/fixed_list/conformant.rs:16-26 has an array of [u8] as buffer) *)
| List (T A : ty) | ListNodeBase | ListNode (T : ty) | ListIter (T : ty) | ListIterMut (T : ty) | FixedList (T OA : ty)
(** src/internal/rb_tree/mod.rs:14-27, node.rs:24-29, 85-92, iter.rs:6-16, src/map/mod.rs:14-18,
    src/set/mod.rs:11-14, src/fixed_map/mod.rs:24-41 *)
| RBTree (K V A C : ty) | TreeNode (K V : ty) | ParentColor (K V : ty) | TreeIter (K V : ty) | TreeIterMut (K V : ty)
| Map (K V A C : ty) | Set_ (K A C : ty) | FixedMapImpl (K V A C : ty)
(** src/compare.rs:12-15, 34-37, src/equals.rs:16-18, src/hash.rs:11-13 *)
| Greater (T : ty) | Less (T : ty) | EqualTo (T : ty) | DefaultHash (T : ty).

(** The types of the fields, at the places cited with [ty].  [None] is for types that are
    not structs; [std::slice::Iter] (src/internal/hash_table/iter.rs:40) is a shared
    reference to its slice.  An enum has the fields of its variants. *)
Definition fields (t : ty) : option (list ty) :=
  match t with
  | Elem _ | Raw _ | Ref _ | RefMut _ => None
  | Plain => Some []
  | Phantom t | Array t | Uninit t => Some [t]
  | Pair a b => Some [a; b]
  | DefaultAllocator => Some [Plain]
  | NullTerminatorAllocator A => Some [A]
  | FixedVectorAllocator A => Some [A; Raw Plain]
  | FixedPool N => Some [Raw Plain; Raw Plain; Raw Plain; Phantom N]
  | FixedPoolWithOverflow N OA => Some [FixedPool N; OA; Raw Plain]
  | Vector T A => Some [Raw T; Raw T; Raw T; A; Phantom T]
  | VectorIntoIter T A => Some [Raw T; Raw T; Raw T; Raw T; A]
  | String A => Some [Vector Plain (NullTerminatorAllocator A)]
  | FixedVector T A => Some [Vector T (FixedVectorAllocator A); Array (Uninit T)]
  | VectorMap K V A C => Some [Vector (Pair K V) A; C]
  | VectorMapOccupied K V => Some [RefMut (Pair K V)]
  | VectorMapVacant K V A C => Some [RefMut (VectorMap K V A C); K; Plain]
  | VectorMapEntry K V A C => Some [VectorMapOccupied K V; VectorMapVacant K V A C]
  | Deque T A => Some [Raw (Raw T); Plain; DequeCompatIterMut T; DequeCompatIterMut T; A]
  | DequeCompatIter T | DequeCompatIterMut T => Some [Raw T; Raw T; Raw T; Raw (Raw T); Phantom (Ref T)]
  | DequeRawIter T => Some [Raw T; Raw (Raw T); Raw T; Raw (Raw T); Plain; Phantom (Ref T)]
  | DequeIter T | DequeIterMut T => Some [DequeRawIter T]
  | DequeIntoIter T A | Queue T A => Some [Deque T A]
  | HashTable K V A H E => Some [Plain; Raw (Raw (HashNode K V)); Plain; Plain; Plain; A; Phantom (Pair (Pair K V) (Pair H E))]
  | HashNode K V => Some [K; V; Raw (HashNode K V)]
  | HashVacant K V A H E => Some [RefMut (HashTable K V A H E); RefMut (Raw (HashNode K V)); K]
  | HashEntry K V A H E => Some [RefMut (HashNode K V); HashVacant K V A H E]
  | HashCompatIter K V | HashCompatIterMut K V => Some [Raw (HashNode K V); Raw (Raw (HashNode K V)); Phantom (Ref (Pair K V))]
  | HashRawIter K V => Some [Ref (Raw (HashNode K V)); Raw (HashNode K V)]
  | HashIter K V | HashIterMut K V => Some [HashRawIter K V]
  | HashMap K V A H E => Some [HashTable K V A H E]
  | HashMapEntry K V A H E => Some [HashEntry K V A H E]
  | HashSet K A H E => Some [HashTable K Plain A H E]
  | HashSetIter K => Some [HashIter K Plain]
  | List T A => Some [ListNodeBase; Plain; A; Phantom T]
  | ListNodeBase => Some [Raw ListNodeBase; Raw ListNodeBase]
  | ListNode T => Some [ListNodeBase; T]
  | ListIter T => Some [Raw ListNodeBase; Raw ListNodeBase; Plain; Phantom (Ref (ListNode T))]
  | ListIterMut T => Some [Raw ListNodeBase; Raw ListNodeBase; Plain; Phantom (RefMut (ListNode T))]
  | FixedList T OA => Some [List T (FixedPoolWithOverflow (ListNode T) OA); Array (Uninit (ListNode T)); Uninit (ListNode T)]
  | RBTree K V A C => Some [C; Raw (TreeNode K V); Raw (TreeNode K V); Raw (TreeNode K V); Plain; A]
  | TreeNode K V => Some [Raw (TreeNode K V); Raw (TreeNode K V); ParentColor K V; Pair K V]
  | ParentColor K V => Some [Plain; Phantom K; Phantom V]
  | TreeIter K V => Some [Raw (TreeNode K V); Raw Plain; Phantom (Ref Plain)]
  | TreeIterMut K V => Some [Raw (TreeNode K V); Raw Plain; Phantom (RefMut Plain)]
  | Map K V A C => Some [RBTree K V A C]
  | Set_ K A C => Some [RBTree K Plain A C]
  | FixedMapImpl K V A C => Some [Map K V A C; Array (Uninit (TreeNode K V)); Uninit (TreeNode K V)]
  | Greater T | Less T => Some [Plain; Phantom T]
  | EqualTo T | DefaultHash T => Some [Phantom T]
  end.

Inductive trait : Type := Send | Sync.

(** The [unsafe impl]s of a trait: the types that must have the trait themselves.
    src/vector/mod.rs:426-427, src/string/mod.rs:266-267, src/fixed_vector/allocator.rs:47-48,
    src/vector_map/mod.rs:290-297, src/deque/mod.rs:22-23, src/queue.rs:15-16,
    src/internal/hash_table/mod.rs:451-458, src/hash_map/mod.rs:183-190,
    src/hash_set/mod.rs:145-152, src/map/mod.rs:164-172.  Other types have none. *)
Definition impls (tr : trait) (t : ty) : option (list ty) :=
  match tr, t with
  | Send, Vector T A => Some [T; A]
  | Sync, Vector T A => Some [T; A]
  | Send, String A => Some [A]
  | Sync, String A => Some [A]
  | Send, FixedVectorAllocator A => Some [A]
  | Sync, FixedVectorAllocator A => Some [A]
  | Send, VectorMap K V A C => Some [K; V; A; C]
  | Sync, VectorMap K V A C => Some [K; V; A; C]
  | Send, Deque T A => Some [T; A]
  | Sync, Deque T A => Some [T; A]
  | Send, Queue T A => Some [T; A]
  | Sync, Queue T A => Some [T; A]
  | Send, HashTable K V A _ _ => Some [K; V; A]
  | Sync, HashTable K V A _ _ => Some [K; V; A]
  | Send, HashMap K V A _ _ => Some [K; V; A]
  | Sync, HashMap K V A _ _ => Some [K; V; A]
  | Send, HashSet K A _ _ => Some [K; A]
  | Sync, HashSet K A _ _ => Some [K; A]
  | Send, Map K V A C => Some [K; V; A; C]
  | Sync, Map K V A C => Some [K; V; A; C]
  | _, _ => None
  end.

(** Rust's rule, given which types of the caller's have the traits: an [unsafe impl]
    decides for its type; other structs have a trait if their fields have it; raw
    pointers never do; [&T] has either trait if [T] is [Sync]; [&mut T] has those of [T].
    The rule of the language is coinductive; the types here contain themselves only
    behind raw pointers, where it makes no difference. *)
Inductive has (given : trait -> nat -> Prop) : trait -> ty -> Prop :=
| has_elem tr n : given tr n -> has given tr (Elem n)
| has_ref tr t : has given Sync t -> has given tr (Ref t)
| has_ref_mut tr t : has given tr t -> has given tr (RefMut t)
| has_impl tr t bs : impls tr t = Some bs -> (forall b, In b bs -> has given tr b) -> has given tr t
| has_fields tr t fs : impls tr t = None -> fields t = Some fs -> (forall f, In f fs -> has given tr f) -> has given tr t.
