(** Block heap: the memory model for containers that hold arrays.

    A pointer is null or a block identifier with an offset counted in cells.
    A block remembers the layout (bytes, alignment) it was requested with and
    its cells; an uninitialised cell is [None].  Identifiers are never reused,
    so any use of a freed block is detected.  Not modelled: addresses.  An
    allocator that returns null is in OutOfMemory.v. *)
From Verif Require Import Base.

Inductive ptr : Type := Null | Ptr (b o : nat).

#[global] Instance ptr_eq_dec : EqDecision ptr.
Proof. solve_decision. Defined.

Record block (C : Type) : Type := Block {
  bk_bytes : Z;
  bk_align : Z;
  bk_cells : list (option C)
}.
Arguments Block {C}.
Arguments bk_bytes {C}.
Arguments bk_align {C}.
Arguments bk_cells {C}.

Record heap (C : Type) : Type := Heap {
  h_next : nat;
  h_blk : gmap nat (block C)
}.
Arguments Heap {C}.
Arguments h_next {C}.
Arguments h_blk {C}.

Definition is_null (p : ptr) : bool := match p with Null => true | _ => false end.

Section heap.
Context {C : Type}.

(** A fresh block. *)
Definition halloc (h : heap C) (bk : block C) : heap C :=
  Heap (S (h_next h)) (<[h_next h := bk]> (h_blk h)).

Definition hset (h : heap C) (b : nat) (bk : block C) : heap C :=
  Heap (h_next h) (<[b := bk]> (h_blk h)).

Definition hdel (h : heap C) (b : nat) : heap C :=
  Heap (h_next h) (delete b (h_blk h)).

Definition cells_of (h : heap C) (b : nat) : option (list (option C)) :=
  bk_cells <$> h_blk h !! b.

(** [alloc::dealloc]: undefined unless [p] is the start of a live block and
    size and alignment are those of the allocation. *)
Definition hfree (h : heap C) (p : ptr) (bytes align : Z) : option (heap C) :=
  match p with
  | Ptr b O =>
    match h_blk h !! b with
    | Some bk =>
      if ((bk_bytes bk =? bytes) && (bk_align bk =? align))%Z
      then Some (hdel h b) else None
    | None => None
    end
  | _ => None
  end.

(** [ptr.add(n)]: undefined when it leaves the block ([null.add(0)] is null). *)
Definition hadd (h : heap C) (p : ptr) (n : nat) : option ptr :=
  match p with
  | Null => if n =? 0 then Some Null else None
  | Ptr b o =>
    match cells_of h b with
    | Some cs => if o + n <=? length cs then Some (Ptr b (o + n)) else None
    | None => None
    end
  end.

(** [ptr.sub(n)]. *)
Definition hsub (h : heap C) (p : ptr) (n : nat) : option ptr :=
  match p with
  | Null => if n =? 0 then Some Null else None
  | Ptr b o =>
    match cells_of h b with
    | Some cs => if n <=? o then Some (Ptr b (o - n)) else None
    | None => None
    end
  end.

(** [p.offset_from(q) as usize]: undefined across blocks; a negative distance
    (which the code would cast to a huge [usize]) is also reported as
    undefined, so theorems exclude it. *)
Definition pdiff (p q : ptr) : option nat :=
  match p, q with
  | Null, Null => Some 0
  | Ptr b o, Ptr b' o' => if (b =? b') && (o' <=? o) then Some (o - o') else None
  | _, _ => None
  end.

(** [p.read()] / a place expression: the cell must be live and initialised. *)
Definition hload (h : heap C) (p : ptr) : option C :=
  match p with
  | Null => None
  | Ptr b o => match cells_of h b with
               | Some cs => mjoin (cs !! o)
               | None => None
               end
  end.

(** Replace the cells [o ..] of block [b] by [vs]; they must exist. *)
Definition hput (h : heap C) (p : ptr) (vs : list (option C)) : option (heap C) :=
  match p with
  | Null => None
  | Ptr b o =>
    match h_blk h !! b with
    | Some bk =>
      if o + length vs <=? length (bk_cells bk)
      then Some (hset h b (Block (bk_bytes bk) (bk_align bk)
                   (take o (bk_cells bk) ++ vs ++ drop (o + length vs) (bk_cells bk))))
      else None
    | None => None
    end
  end.

(** [p.write(c)]. *)
Definition hstore (h : heap C) (p : ptr) (c : C) : option (heap C) :=
  hput h p [Some c].

(** The [n] cells at [p], initialised or not (what a bitwise copy moves). *)
Definition hraw (h : heap C) (p : ptr) (n : nat) : option (list (option C)) :=
  match p with
  | Null => None
  | Ptr b o =>
    match cells_of h b with
    | Some cs => if o + n <=? length cs then Some (take n (drop o cs)) else None
    | None => None
    end
  end.

(** [ptr::copy(src, dst, n)] (memmove: the ranges may overlap). *)
Definition hcopy (h : heap C) (src dst : ptr) (n : nat) : option (heap C) :=
  match hraw h src n with
  | Some vs => hput h dst vs
  | None => None
  end.

(** Reading a slice of initialised cells. *)
Definition hslice (h : heap C) (p : ptr) (n : nat) : option (list C) :=
  match hraw h p n with
  | Some vs => mapM id vs
  | None => None
  end.

End heap.

(** Every block was handed out earlier. *)
Definition heap_wf {C} (h : heap C) : Prop := forall b, is_Some (h_blk h !! b) -> b < h_next h.
