(** Lists and fixed lists over an allocator of the caller that refuses some requests by
    panicking. *)
From Verif Require Import Base Alloc AddrMem FixedPool LinkedList.

(** An implementation of [Allocator], src/allocator.rs:9-86: [allocate_raw_aligned] panics
    when it refuses, and otherwise is that of the default allocator, as is
    [deallocate_raw_aligned].  Which requests are refused may depend on the memory and on
    the number of requests so far; a refused one counts. *)
Definition RefusingAddr {T} (pick : mem T -> Z -> Z -> Z) (strict : bool) (refuse : mem T -> Z -> bool) : AddrAlloc unit T :=
  {| aa_alloc := fun bytes align s =>
       if refuse (snd s) bytes then Panic (fst s, mem_tick (snd s)) else default_alloc_raw pick bytes align s;
     aa_free := default_free_raw strict |}.


(** src/fixed_list/mod.rs:42-63 and src/fixed_list/conformant.rs:41-59, [new_in] with that
    allocator for the nodes beyond the buffer. *)
Definition RefusingFixed {T} (pick : mem T -> Z -> Z -> Z) (strict chk : bool) (nsz nal : Z) (refuse : mem T -> Z -> bool) : AddrAlloc (opool unit) T :=
  OPoolAlloc (RefusingAddr pick strict refuse) chk nsz nal.
