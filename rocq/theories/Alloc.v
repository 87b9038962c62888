(** Allocators over the block heap (src/allocator.rs). *)
From Verif Require Import Base Heap.

(** The required methods of the [Allocator] trait, src/allocator.rs:39 and :85
    ([allocate_raw_aligned], [deallocate_raw_aligned]).  [A] is the allocator
    value; the extra argument [sz] (size of a cell) only tells the block heap
    how many cells a block of that many bytes has. *)
Record AllocImpl (A C : Type) : Type := {
  ai_alloc : Z -> Z -> Z -> M (A * heap C) ptr;   (* sz bytes align *)
  ai_free : ptr -> Z -> Z -> M (A * heap C) unit  (* p bytes align *)
}.
Arguments ai_alloc {A C}.
Arguments ai_free {A C}.

(** [Layout::array::<u8>(n).unwrap().align_to(align).unwrap()]: panics when the
    size rounded up to the alignment exceeds [isize::MAX]. *)
Definition layout_ok (bytes align : Z) : bool := (bytes <=? isize_max + 1 - align)%Z.

(** src/allocator.rs:101-109, [DefaultAllocator::allocate_raw_aligned]. *)
Definition default_alloc {C} (sz bytes align : Z) : M (unit * heap C) ptr := fun s =>
  if (bytes =? 0)%Z then Panic s
  else if layout_ok bytes align
  then Ok (Ptr (h_next (snd s)) 0)
          (fst s, halloc (snd s) (Block bytes align (replicate (Z.to_nat (bytes / sz)) None)))
  else Panic s.

(** src/allocator.rs:112-116, [DefaultAllocator::deallocate_raw_aligned]. *)
Definition default_free {C} (p : ptr) (bytes align : Z) : M (unit * heap C) unit := fun s =>
  if layout_ok bytes align
  then match hfree (snd s) p bytes align with
       | Some h => Ok tt (fst s, h)
       | None => UB
       end
  else Panic s.

Definition DefaultAllocator (C : Type) : AllocImpl unit C :=
  {| ai_alloc := default_alloc; ai_free := default_free |}.
