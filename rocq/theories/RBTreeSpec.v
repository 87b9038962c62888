(** Independent specification of maps over red-black trees: a sorted list of entries,
    and what it means that memory holds a tree. *)
From Coq Require Export Sorting.Sorted.
From Verif Require Import Base Alloc AddrMem FixedPool FixedPoolSpec LinkedList LinkedListSpec RBTree.
Local Open Scope Z_scope.

(** ** Orders *)
Record strict_weak_order {K} (lt : K -> K -> bool) : Prop := {
  swo_irrefl : forall a, lt a a = false;
  swo_trans : forall a b c, lt a b = true -> lt b c = true -> lt a c = true;
  swo_incomp : forall a b c, lt a b = false -> lt b a = false -> lt b c = false -> lt c b = false ->
                 lt a c = false /\ lt c a = false
}.
(** Neither key is less than the other. *)
Definition equivalent {K} (lt : K -> K -> bool) (a b : K) : bool := negb (lt a b) && negb (lt b a).

(** ** Lists of entries *)
Section spec.
Context {K V : Type}.
Variable lt : K -> K -> bool.

Definition spec_get (k : K) (es : list (K * V)) : option V :=
  option_map snd (List.find (fun e => equivalent lt k (fst e)) es).
Fixpoint spec_set (k : K) (v : V) (es : list (K * V)) : list (K * V) :=
  match es with
  | [] => []
  | e :: es' => if equivalent lt k (fst e) then (fst e, v) :: es' else e :: spec_set k v es'
  end.

(** The answer ([None]: the call panics), what is dropped, the entries after. *)
Definition tspec_call (c : tcall K V) (es : list (K * V)) : option (tanswer K V) * list (K + V) * list (K * V) :=
  match c with
  | TGet k => (Some (TVal (spec_get k es)), [], es)
  | TContains k => (Some (TBool (match spec_get k es with Some _ => true | None => false end)), [], es)
  | TGetMut k v =>
    match spec_get k es with
    | None => (Some (TBool false), [inr v], es)
    | Some old => (Some (TBool true), [inr old], spec_set k v es)
    end
  | TLen => (Some (TNum (Z.of_nat (length es))), [], es)
  | TIsEmpty => (Some (TBool (match es with [] => true | _ => false end)), [], es)
  | TIterAll => (Some (TList es), [], es)
  | TIterMut g => (Some (TList es), [], map (fun e => (fst e, g (snd e))) es)
  | TInsert k v => (None, [inr v; inl k], es)
  | TRemove _ | TRemoveEntry _ => (None, [], es)
  end.
Fixpoint tspec_run (cs : list (tcall K V)) (es : list (K * V)) : list (option (tanswer K V)) * list (K + V) * list (K * V) :=
  match cs with
  | [] => ([], [], es)
  | c :: cs' =>
    let '(a, d, es1) := tspec_call c es in
    let '(l, d', es2) := tspec_run cs' es1 in
    (a :: l, d ++ d', es2)
  end.

End spec.

(** ** Trees *)
Inductive tree (K V : Type) : Type :=
| Leaf
| Bin (c : color) (l : tree K V) (a : Z) (k : K) (v : V) (r : tree K V).
Arguments Leaf {K V}.
Arguments Bin {K V}.

Section trees.
Context {K V : Type}.

(** The address of the root, 0 for the empty tree; the entries and the addresses of
    the nodes from left to right. *)
Definition addr (t : tree K V) : Z := match t with Leaf => 0 | Bin _ _ a _ _ _ => a end.
Fixpoint entries (t : tree K V) : list (K * V) :=
  match t with Leaf => [] | Bin _ l _ k v r => entries l ++ (k, v) :: entries r end.
Fixpoint addrs (t : tree K V) : list Z :=
  match t with Leaf => [] | Bin _ l a _ _ r => addrs l ++ a :: addrs r end.
Definition keys (t : tree K V) : list K := map fst (entries t).

(** Sorted by key, without equivalent keys. *)
Definition sorted (lt : K -> K -> bool) (t : tree K V) : Prop := StronglySorted (fun a b => lt a b = true) (keys t).

(** The red-black rules: both subtrees of each node have the same number [n] of black
    nodes on the way to each leaf, and the children of a red node are not red. *)
Definition is_red (t : tree K V) : bool := match t with Bin Red _ _ _ _ _ => true | _ => false end.
Fixpoint black_height (t : tree K V) (n : nat) : Prop :=
  match t with
  | Leaf => n = O
  | Bin Red l _ _ _ r => black_height l n /\ black_height r n
  | Bin Black l _ _ _ r => exists n', n = S n' /\ black_height l n' /\ black_height r n'
  end.
Fixpoint no_red_red (t : tree K V) : Prop :=
  match t with
  | Leaf => True
  | Bin c l _ _ _ r => (c = Red -> is_red l = false /\ is_red r = false) /\ no_red_red l /\ no_red_red r
  end.
Definition red_black (t : tree K V) : Prop :=
  is_red t = false /\ no_red_red t /\ exists n, black_height t n.

(** The nodes of [t] lie in memory; the parent of its root is at [up].  A node holds
    the addresses of its children, that of its parent together with its colour, and
    its entry. *)
Fixpoint placed (nsz : Z) (m : mem (K * V)) (up : Z) (t : tree K V) : Prop :=
  match t with
  | Leaf => True
  | Bin c l a k v r =>
    0 < a < usize_lim /\ (8 | a) /\
    load_word m a = Some (addr r) /\
    load_word m (a + 8) = Some (addr l) /\
    load_word m (a + 16) = Some (up + color_as_usize c) /\
    load_val m a nsz = Some (k, v) /\
    placed nsz m a l /\ placed nsz m a r
  end.

(** What the object's [begin] and [end] hold when the tree is empty: null when Rust
    created it, the address of the anchor when C++ did. *)
Definition empty_end (obj w : Z) : Prop := w = 0 \/ w = anchor obj.
(** The tree object at [obj] with the nodes of [t]; the nodes are distinct, and not at
    the address of the anchor. *)
Record holds {A} (nsz : Z) (s : tstate A K V) (t : tree K V) : Prop := {
  h_obj : 0 < t_obj s /\ t_obj s + 32 < usize_lim /\ (8 | t_obj s);
  h_begin : exists b, load_word (t_mem s) (t_obj s + 8) = Some b /\
              match head (addrs t) with Some a => b = a | None => empty_end (t_obj s) b end;
  h_end : exists e, load_word (t_mem s) (t_obj s + 16) = Some e /\
            match last (addrs t) with Some a => e = a | None => empty_end (t_obj s) e end;
  h_root : load_word (t_mem s) (t_obj s + 24) = Some (addr t);
  h_placed : placed nsz (t_mem s) (anchor (t_obj s)) t;
  h_distinct : NoDup (anchor (t_obj s) :: addrs t);
  h_size : t_size s = Z.of_nat (length (entries t))
}.

(** Each node is a heap block of its own; the other live memory is [rest]. *)
Definition node_block (nsz nal : Z) (a : Z) : region := Region a nsz nal true.
Record owns (nsz nal : Z) (m : mem (K * V)) (t : tree K V) (rest : list region) : Prop := {
  ow_live : m_live m ≡ₚ map (node_block nsz nal) (addrs t) ++ rest;
  ow_apart : forall a r, a ∈ addrs t -> r ∈ rest -> meets a nsz r = false;
  ow_wf : forall r, r ∈ rest -> 0 < r_bytes r
}.

(** The shape of the tree: what the calls leave as it is. *)
Fixpoint skeleton (t : tree K V) : tree K unit :=
  match t with Leaf => Leaf | Bin c l a k v r => Bin c (skeleton l) a k tt (skeleton r) end.

End trees.

(** The size and alignment of [Node<K, V>]: three words, then the entry. *)
Definition tree_layout (nsz nal : Z) : Prop := node_layout nsz nal /\ 24 <= nsz.

(** Iterating to the end from the node [i] yields the entries. *)
Definition yields {A K V} (nsz : Z) (s : tstate A K V) (i : titer) (es : list (K * V)) : Prop :=
  forall k, exists i', titer_take nsz k i s =
    Ok (take k (map Some es) ++ replicate (k - length es) None, i') s.

(** The words of the node at [a] are in memory; its parent word is [w]. *)
Definition has_node {A K V} (s : tstate A K V) (a w : Z) : Prop :=
  (exists r, load_word (t_mem s) a = Some r) /\ (exists l, load_word (t_mem s) (a + 8) = Some l) /\
  load_word (t_mem s) (a + 16) = Some w /\ 0 <= w < usize_lim.
(** Only the words at the places [xs] differ. *)
Definition changes_only {A K V} (s s' : tstate A K V) (xs : list Z) : Prop :=
  t_obj s' = t_obj s /\ t_size s' = t_size s /\ t_alloc s' = t_alloc s /\ t_drops s' = t_drops s /\
  m_live (t_mem s') = m_live (t_mem s) /\ m_val (t_mem s') = m_val (t_mem s) /\
  forall x, x ∉ xs -> load_word (t_mem s') x = load_word (t_mem s) x.

(** The object as above, except that its first pointer, which the iterator reads as the
    right child of the anchor, holds the highest node and the second the lowest, as the
    order of the fields of a node suggests. *)
Record holds_node_order {A K V} (nsz : Z) (s : tstate A K V) (t : tree K V) : Prop := {
  hn_obj : 0 < t_obj s /\ t_obj s + 32 < usize_lim /\ (8 | t_obj s);
  hn_first : load_word (t_mem s) (t_obj s + 8) = last (addrs t);
  hn_second : load_word (t_mem s) (t_obj s + 16) = head (addrs t);
  hn_root : load_word (t_mem s) (t_obj s + 24) = Some (addr t);
  hn_placed : placed nsz (t_mem s) (anchor (t_obj s)) t;
  hn_distinct : NoDup (anchor (t_obj s) :: addrs t);
  hn_size : t_size s = Z.of_nat (length (entries t))
}.

(** ** For the examples: three nodes, 40 bytes each, at 2048, 2112 and 2176; the
    object at 1024 *)
Definition rx_tree : tree Z Z :=
  Bin Black (Bin Red Leaf 2048 10 100 Leaf) 2112 20 200 (Bin Red Leaf 2176 30 300 Leaf).
Definition rx_object : region := Region 1024 40 8 false.
Definition rx_state (first second : Z) : tstate unit Z Z :=
  TState 1024 3 tt
    (Mem [Region 2112 40 8 true; rx_object; Region 2048 40 8 true; Region 2176 40 8 true]
       (list_to_map [(1032, first); (1040, second); (1048, 2112);
                     (2112, 2176); (2120, 2048); (2128, 1033);
                     (2048, 0); (2056, 0); (2064, 2112);
                     (2176, 0); (2184, 0); (2192, 2112)])
       (list_to_map [(2112, (20, 200)); (2048, (10, 100)); (2176, (30, 300))]) 3)
    [].
Definition rx_pick : mem (Z * Z) -> Z -> Z -> Z := fun _ _ _ => 4096.
