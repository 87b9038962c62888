(** The references that vectors and their consuming iterators make from raw pointers.
    Vector.v checks each access to memory; here also making a reference is checked,
    against rules that Rust has for references even if they are never read or written through:
    [as_ref] and [as_mut] of a pointer that is not null need memory for an element there
    (always), an initialised element ([ru_init], in the documentation of these functions
    and of [slice::from_raw_parts]), and a pointer made from a reference to one element may
    be used for that element only ([ru_reach], Stacked Borrows).  Simplification: alignment and
    the aliasing of references are not checked. *)
From Verif Require Import Base Heap Alloc Vector.
Local Open Scope nat_scope.

(** Which rules hold besides the first, for the references made at
    src/vector/mod.rs:67-81 and src/vector/into_iter.rs:18-33. *)
Record rules : Type := Rules { ru_init : bool; ru_reach : bool }.

Section refs.
Context {A T : Type}.
Variable AI : AllocImpl A T.
Variables sz al : Z.
Variable chk : bool.
Variable needs_drop : bool.
Variable clone : T -> option T.
Variable R : rules.

Notation st := (vstate A T).
Notation ist := (istate A T).

(** May there be a reference to the element at [p]?  (src/vector/mod.rs:68 and 76) *)
Definition refers (h : heap T) (p : ptr) : bool :=
  match p with
  | Null => false
  | Ptr b o =>
    match cells_of h b with
    | Some cs =>
      match cs !! o with
      | Some (Some _) => true
      | Some None => negb (ru_init R)
      | None => false
      end
    | None => false
    end
  end.

(** [p.as_ref()] and [p.as_mut()]: is it [Some]?
    (src/vector/mod.rs:68 and 76, src/vector/into_iter.rs:19 and 28) *)
Definition as_ref (p : ptr) : M st bool :=
  if is_null p then ret false
  else do h <- gets st_h; if refers h p then ret true else ub.

(** [slice::from_raw_parts(r, n)] (and [_mut]) where [r] is the reference to the element at
    [p] (src/vector/mod.rs:69 and 77, src/vector/into_iter.rs:20 and 29). *)
Definition slice_at (p : ptr) (n : nat) : M st unit :=
  do h <- gets st_h;
  if ru_reach R && (1 <? n) then ub
  else
    match p with
    | Null => ub
    | Ptr b o => if forallb (fun i => refers h (Ptr b (o + i))) (seq 0 n) then ret tt else ub
    end.

(** src/vector/mod.rs:67-81, [as_slice] and [as_slice_mut]: the references they make. *)
Definition slice_refs : M st unit :=
  do v <- gets st_v;
  do some <- as_ref (v_begin v);
  if some : bool then do n <- len sz; slice_at (v_begin v) n else ret tt.

(** src/vector/mod.rs:280-292, [append], as in Vector.v but with the references
    of [as_slice_mut] (289-290: after the end has moved). *)
Definition r_append (buf : list T) : M st unit :=
  do old_len <- len sz;
  do new_len <- usize chk (Z.of_nat old_len + Z.of_nat (length buf));
  do c <- capacity sz;
  if! c <? new_len then
    (do c <- capacity sz;
     do d <- usize chk (Z.of_nat new_len - Z.of_nat c);
     reserve AI sz al chk d);
  do v <- gets st_v;
  do e <- from_heap (fun h => hadd h (v_end v) (length buf));
  run set_v (Vec (v_begin v) e (v_cap v));
  run slice_refs;
  if is_null (v_begin v) then clone_from_slice needs_drop clone Null buf
  else
    do p <- from_heap (fun h => hadd h (v_begin v) old_len);
    clone_from_slice needs_drop clone p buf.

(** src/vector/mod.rs:299-308, [assign], likewise. *)
Definition r_assign (buf : list T) : M st unit :=
  do c <- capacity sz;
  if! c <? length buf then
    (do c <- capacity sz;
     do d <- usize chk (Z.of_nat (length buf) - Z.of_nat c);
     reserve AI sz al chk d);
  do v <- gets st_v;
  do e <- from_heap (fun h => hadd h (v_begin v) (length buf));
  run set_v (Vec (v_begin v) e (v_cap v));
  run slice_refs;
  clone_from_slice needs_drop clone (v_begin v) buf.

(** The calls that make references: [clear] (and drop) 89-104, [append], [assign], indexing and
    [swap] through [deref_mut] 351-355, [as_slice].  The others use raw pointers only. *)
Definition r_exec (c : call T) : M st (answer T) :=
  match c with
  | CClear | CSet _ _ | CSwap _ _ | CAsSlice => run slice_refs; exec AI sz al chk needs_drop clone c
  | CAppend buf => run r_append buf; ret AUnit
  | CAssign buf => run r_assign buf; ret AUnit
  | _ => exec AI sz al chk needs_drop clone c
  end.

(** One call of src/vector/mod.rs, and a program of calls, as in Vector.v. *)
Definition r_step (c : call T) (s : st) : option (answer T * st) :=
  match r_exec c s with
  | Ok a s' => Some (a, s')
  | Panic s' => Some (APanic, s')
  | UB => None
  end.

Fixpoint r_calls (cs : list (call T)) (s : st) : option (list (answer T) * st) :=
  match cs with
  | [] => Some ([], s)
  | c :: cs' =>
    match r_step c s with
    | None => None
    | Some (a, s') => match r_calls cs' s' with None => None | Some (l, s'') => Some (a :: l, s'') end
    end
  end.

(** src/vector/into_iter.rs:18-33, [as_slice] and [as_slice_mut] of the iterator. *)
Definition ii_slice_refs : M ist unit :=
  do it <- gets is_it;
  do some <- on_st (as_ref (ii_front it));
  if some : bool then do n <- ii_len sz; on_st (slice_at (ii_front it) n) else ret tt.

(** src/vector/into_iter.rs:18-24, [as_slice]: the references, then the elements. *)
Definition r_ii_as_slice : M ist (list T) := run ii_slice_refs; ii_as_slice sz.

(** src/vector/into_iter.rs:52-62, [Drop for IntoIter]: 56 makes the slice. *)
Definition r_ii_drop : M ist unit :=
  do it <- gets is_it;
  if is_null (ii_begin it) then ret tt
  else run ii_slice_refs; ii_drop AI sz al chk needs_drop.
End refs.
