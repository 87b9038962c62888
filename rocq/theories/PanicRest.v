(** [Drop] of Deque (and so of Queue) and of the vector's [IntoIter] when destructors
    may panic; the drop glue is that of PanicDrop.v. *)
From Verif Require Import Base Heap Alloc Vector Deque PanicDrop.

Section deque.
Context {T : Type}.
Variables (sz al : Z) (chk : bool).
(** The destructor of the element panics. *)
Variable bad : T -> bool.

(** src/deque/mod.rs:439-441, the body of the loop over the elements. *)
Definition drop_elem_pd (p : ptr) : M (dstate T) unit :=
  do x <- read_elem p;
  run modify (Deque.logged [x]);
  if bad x then panic else ret tt.

(** src/deque/mod.rs:437-456, [drop]. *)
Definition deque_drop_pd : M (dstate T) unit :=
  do s <- gets id;
  do it <- Deque.iter;
  run for_iter chk (Deque.fuel sz s) it drop_elem_pd;
  run (if is_null (di_arr (d_b s)) then ret tt
       else
         do n <- or_ub (pdiff (di_arr (d_e s)) (di_arr (d_b s)));
         do h <- gets d_h;
         do ps <- or_ub (hslice h (di_arr (d_b s)) n);
         free_subarrays sz al ps);
  Deque.free_ptr_array.
End deque.

Section into_iter.
Context {A T : Type}.
Variable AI : AllocImpl A T.
Variables (sz al : Z) (chk : bool).
Variable bad : T -> bool.

(** src/vector/into_iter.rs:52-62, [Drop for IntoIter]. *)
Definition ii_drop_pd : M (istate A T) ending :=
  do it <- gets is_it;
  if is_null (ii_begin it) then ret Done
  else
    do n <- (if is_null (ii_front it) then ret 0 else ii_len sz);
    do k <- on_st (glue_slice bad (ii_front it) n);
    after_glue k (
      do c <- ii_capacity sz;
      run on_st (Vector.deallocate AI sz al chk (ii_begin it) c);
      ret Done).
End into_iter.
