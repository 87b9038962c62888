(** Containers as they lie in memory, whoever filled them.  The layouts are those of
    EASTL's classes, which the Rust types share field by field (C88): a Rust
    reference to a container that C++ filled sees exactly this. *)
From Verif Require Import Base Heap Alloc AllocContract AddrMem Vector VectorMapSpec Deque DequeCpp HashTable HashTableSpec RehashPolicy
  FixedPool FixedPoolSpec LinkedList LinkedListSpec.

(** ** Vectors: three pointers; any capacity, not only those Rust's growth reaches. *)
Definition vector_in_memory {T} (sz al : Z) (v : vec) (h : heap T) (xs : list T) (cap : nat) : Prop :=
  (v = Vec Null Null Null /\ xs = [] /\ cap = 0) \/
  (exists b spare, v = Vec (Ptr b 0) (Ptr b (length xs)) (Ptr b cap) /\ 0 < cap /\
     h_blk h !! b = Some (Block (Z.of_nat cap * sz) al (map Some xs ++ spare)) /\
     length xs + length spare = cap /\ layout_ok (Z.of_nat cap * sz) al = true).

(** The block of a vector. *)
Definition vector_blocks (v : vec) : list nat := match v_begin v with Ptr b _ => [b] | Null => [] end.

(** Two heaps agree except on some blocks; the blocks are free. *)
Definition agree_outside {C} (own : list nat) (h h' : heap C) : Prop := forall b, b ∉ own -> h_blk h' !! b = h_blk h !! b.
Definition all_free {C} (own : list nat) (h : heap C) : Prop := forall b, b ∈ own -> h_blk h !! b = None.

(** ** Deques: an array of pointers to arrays of [N] elements (EASTL's block size).
    The pointer array starts with 8 places and grows from [n] to [2 n + 2], in EASTL
    as in Rust.  [own] are the blocks. *)
Definition position (N : nat) (pa start : nat) (subs : list nat) (j : nat) : dit :=
  let b := subs !!! (j / N) in DIt (Ptr b (j mod N)) (Ptr b 0) (Ptr b N) (Ptr pa (start + j / N)).

Record deque_in_memory {T} (sz al : Z) (N : nat) (s : dstate T) (xs : list T) (own : list nat) : Prop := {
  dm_block : eastl_block sz N;
  dm_arrays : exists pa start subs slots first,
    own = pa :: subs /\ NoDup own /\ d_arr s = Ptr pa 0 /\
    h_blk (d_h s) !! pa = Some (Block (d_size s * 8) 8 slots) /\ Z.of_nat (length slots) = d_size s /\
    (forall i b, subs !! i = Some b -> slots !! (start + i) = Some (Some (DPtr (Ptr b 0))) /\
       exists cells, h_blk (d_h s) !! b = Some (Block (Z.of_nat N * sz) al cells) /\ length cells = N) /\
    first < N /\ length subs = S ((first + length xs) / N) /\
    d_b s = position N pa start subs first /\ d_e s = position N pa start subs (first + length xs) /\
    forall i x, xs !! i = Some x -> hload (d_h s) (di_cur (position N pa start subs (first + i))) = Some (DElem x);
  dm_size : exists j, (0 <= j)%Z /\ d_size s = (10 * 2 ^ j - 2)%Z;
  dm_u32 : (d_size s < u32_lim)%Z
}.

(** ** Hash tables.  A chain of nodes with their blocks and entries. *)
Fixpoint nodes_from {K V} (nsz nal : Z) (h : heap (tcell K V)) (p : ptr) (l : list (nat * (K * V))) : Prop :=
  match l with
  | [] => p = Null
  | (b, (k, v)) :: l' => p = Ptr b 0 /\
      exists next, h_blk h !! b = Some (Block nsz nal [Some (TNode k v next)]) /\ nodes_from nsz nal h next l'
  end.

(** The bucket counts and thresholds the growth policy leads to, with [n] entries:
    entries are added one by one, and removed in any number. *)
Inductive grown_by_policy : Z -> Z -> Z -> Prop :=
| grown_empty : grown_by_policy 1 0 0
| grown_removed bc nr n n' : grown_by_policy bc nr n -> (0 <= n' <= n)%Z -> grown_by_policy bc nr n'
| grown_added bc nr n a nr' : grown_by_policy bc nr n -> get_rehash_required true bc n 1 nr = Ok a nr' ->
    grown_by_policy (match a with Some p => p | None => bc end) nr' (n + 1).

(** The buckets are [buckets]; a table of one bucket uses the static array [eb], the
    others have an array of their own.  Both end in an all-ones word. *)
Record table_in_memory {K V} (nsz nal : Z) (eb : nat) (hash : K -> Z) (eqb : K -> K -> bool) (s : tstate K V)
    (buckets : list (list (nat * (K * V)))) (own : list nat) : Prop := {
  tm_array : exists a heads bytes, t_arr s = Ptr a 0 /\ Z.of_nat (length heads) = t_bc s /\
    h_blk (t_h s) !! a = Some (Block bytes 8 (map (fun p => Some (TSlot p)) heads ++ [Some TOnes])) /\
    Forall2 (nodes_from nsz nal (t_h s)) heads buckets /\
    (if (t_bc s =? 1)%Z then a = eb /\ own = map fst (concat buckets)
     else bytes = ((t_bc s + 1) * 8)%Z /\ own = map fst (concat buckets) ++ [a]);
  tm_static : static_ok eb (t_h s) /\ eb ∉ own;
  tm_count : t_ec s = Z.of_nat (length (concat buckets));
  tm_policy : grown_by_policy (t_bc s) (t_nr s) (t_ec s);
  tm_hashed : forall i l e, buckets !! i = Some l -> e ∈ l -> (hash (fst (snd e)) mod t_bc s)%Z = Z.of_nat i;
  tm_own : NoDup own;
  tm_keys : distinct eqb (map snd (concat buckets))
}.

(** ** Linked lists: nodes [ps] in a ring through the object at [obj], each allocated on
    its own beside what is live in the memory [m0]. *)
Record list_in_memory {T} (nsz nal obj : Z) (s : lstate unit T) (m0 : mem T) (ps : list Z) (xs : list T) : Prop := {
  lm_obj : l_node s = obj;
  lm_size : l_size s = Z.of_nat (length xs);
  lm_ring : ring_of nsz obj s ps xs;
  lm_live : m_live (l_mem s) ≡ₚ m_live m0 ++ map (fun p => Region p nsz nal true) ps;
  lm_nodes : forall p, p ∈ ps -> (0 < p)%Z /\ (p + nsz < usize_lim)%Z /\ (nal | p)%Z /\ forall r, r ∈ m_live m0 -> meets p nsz r = false;
  lm_apart : forall p q, p ∈ ps -> q ∈ ps -> p <> q -> (p + nsz <= q \/ q + nsz <= p)%Z
}.
