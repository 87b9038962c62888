(** Model of src/string/mod.rs and src/string/null_terminator_allocator.rs.
    A byte is a [Z]; a [char] is its code point, a [Z]. *)
From Verif Require Import Base Heap Alloc Vector Hash.
#[local] Open Scope Z_scope.

(** ** src/string/null_terminator_allocator.rs:5-18 *)
Section null_terminator.
Context {A : Type}.
Variable AI : AllocImpl A Z.
Variable chk : bool.

(** Lines 6-12.  Used for bytes only, so a cell is a byte. *)
Definition nt_alloc (sz n align : Z) : M (A * heap Z) ptr :=
  do b <- usize chk (n + 1);
  do res <- ai_alloc AI sz (Z.of_nat b) align;
  do s <- gets id;
  do p <- or_ub (hadd (snd s) res (Z.to_nat n));
  do h <- or_ub (hstore (snd s) p 0);
  run modify (fun s => (fst s, h));
  ret res.

(** Lines 14-17. *)
Definition nt_free (p : ptr) (n align : Z) : M (A * heap Z) unit :=
  do b <- usize chk (n + 1);
  ai_free AI p (Z.of_nat b) align.

Definition NullTerminatorAllocator : AllocImpl A Z :=
  {| ai_alloc := nt_alloc; ai_free := nt_free |}.
End null_terminator.

(** ** src/string/mod.rs *)
Section string.
Context {A : Type}.
Variable AI0 : AllocImpl A Z.
Variable chk : bool.

Let AI := NullTerminatorAllocator AI0 chk.
Notation st := (vstate A Z).

(** [elem as u8] for a char, lines 143: keeps the low eight bits. *)
Definition char_as_u8 (c : Z) : Z := c mod 256.
(** [elem as char] for a byte, lines 126 and 159. *)
Definition u8_as_char (b : Z) : Z := b.

(** Lines 178-183, [null_terminate]. *)
Definition null_terminate : M st unit :=
  do v <- gets st_v;
  if is_null (v_end v) then ret tt else on_heap (fun h => hstore h (v_end v) 0).

(** Lines 168-171, [reserve]. *)
Definition s_reserve (capacity : nat) : M st unit :=
  do n <- usize chk (Z.of_nat capacity + 1);
  reserve AI 1 1 chk n.

(** Lines 75-83, [assign]; the argument is the UTF-8 bytes of the slice. *)
Definition s_assign (buf : list Z) : M st unit :=
  run s_reserve (length buf);
  run append AI 1 1 chk false Some buf;
  null_terminate.

(** Lines 142-147, [insert]. *)
Definition s_insert (index : nat) (elem : Z) : M st unit :=
  run insert AI 1 1 chk false index (char_as_u8 elem);
  null_terminate.

(** Lines 120-122, [push]. *)
Definition s_push (elem : Z) : M st unit :=
  do n <- len 1; s_insert n elem.

(** Lines 125-132, [pop]. *)
Definition s_pop : M st (option Z) :=
  do elem <- pop 1;
  run null_terminate;
  ret (option_map u8_as_char elem).

(** Lines 154-161, [remove]. *)
Definition s_remove (index : nat) : M st (option Z) :=
  do n <- len 1;
  if (n <=? index)%nat then ret None
  else do elem <- remove 1 chk index; ret (option_map u8_as_char elem).

(** Lines 186-196, 218-224: [as_bytes], [as_str], [Deref], [AsRef]. *)
Definition s_bytes : M st (list Z) := as_slice 1.

(** Lines 38-43 [with_capacity], 54-61 [from_in] and 246-258 [From<&str>],
    [FromStr], 198-204 [clone]. *)
Definition s_with_capacity (n : nat) : M st vec := with_capacity AI 1 1 chk false n.
Definition s_from (buf : list Z) : M st vec := build AI 1 1 chk false (s_assign buf).
Definition s_clone : M st vec := clone_vec AI 1 1 chk false Some.

(** Lines 260-264, [Hash<String>]. *)
Definition s_hash : M st Z := do bs <- s_bytes; ret (fnv1 bs).

Inductive scall : Type :=
| SPush (c : Z) | SPop | SInsert (i : nat) (c : Z) | SRemove (i : nat)
| SReserve (n : nat) | SAssign (buf : list Z) | SDrop
| SLen | SCapacity | SIsEmpty | SIsFull | SBytes | SHash.

Inductive sanswer : Type :=
| SUnit | SChar (o : option Z) | SNat (n : nat) | SBool (b : bool)
| SByteList (bs : list Z) | SHashed (h : Z) | SPanic.

Definition s_exec (c : scall) : M st sanswer :=
  match c with
  | SPush c => run s_push c; ret SUnit
  | SPop => do o <- s_pop; ret (SChar o)
  | SInsert i c => run s_insert i c; ret SUnit
  | SRemove i => do o <- s_remove i; ret (SChar o)
  | SReserve n => run s_reserve n; ret SUnit
  | SAssign buf => run s_assign buf; ret SUnit
  | SDrop => run clear AI 1 1 chk false; ret SUnit
  | SLen => do n <- len 1; ret (SNat n)
  | SCapacity => do n <- capacity 1; ret (SNat n)
  | SIsEmpty => do b <- is_empty 1; ret (SBool b)
  | SIsFull => do b <- is_full 1; ret (SBool b)
  | SBytes => do bs <- s_bytes; ret (SByteList bs)
  | SHash => do h <- s_hash; ret (SHashed h)
  end.

Definition s_step (c : scall) (s : st) : option (sanswer * st) :=
  match s_exec c s with
  | Ok a s' => Some (a, s')
  | Panic s' => Some (SPanic, s')
  | UB => None
  end.

Fixpoint s_run (cs : list scall) (s : st) : option (list sanswer * st) :=
  match cs with
  | [] => Some ([], s)
  | c :: cs' =>
    match s_step c s with
    | None => None
    | Some (a, s') =>
      match s_run cs' s' with
      | None => None
      | Some (l, s'') => Some (a :: l, s'')
      end
    end
  end.

(** Several strings over one heap. *)
Inductive sop : Type :=
| ONew | OWithCapacity (n : nat) | OFrom (buf : list Z) | OClone (i : nat)
| OEq (i j : nat) | OCall (i : nat) (c : scall).

Definition s_build (w : @world A Z) (r : outcome st vec) : option (sanswer * @world A Z) :=
  match r with
  | Ok v s' => Some (SUnit, World (w_vecs w ++ [v]) (st_a s') (st_h s') (st_drops s'))
  | Panic s' => Some (SPanic, World (w_vecs w) (st_a s') (st_h s') (st_drops s'))
  | UB => None
  end.

Definition s_wstep (o : sop) (w : @world A Z) : option (sanswer * @world A Z) :=
  let at_ v := VState v (w_a w) (w_h w) (w_drops w) in
  match o with
  | ONew => s_build w (Ok new_in (at_ new_in))
  | OWithCapacity n => s_build w (s_with_capacity n (at_ new_in))
  | OFrom buf => s_build w (s_from buf (at_ new_in))
  | OClone i => match w_vecs w !! i with
                | Some v => s_build w (s_clone (at_ v))
                | None => None
                end
  (** Lines 238-242, [eq]: compares the byte slices. *)
  | OEq i j => match w_vecs w !! i, w_vecs w !! j with
               | Some v, Some v' =>
                 match s_bytes (at_ v), s_bytes (at_ v') with
                 | Ok xs _, Ok ys _ => Some (SBool (bool_decide (xs = ys)), w)
                 | _, _ => None
                 end
               | _, _ => None
               end
  | OCall i c => match w_vecs w !! i with
                 | Some v => match s_step c (at_ v) with
                             | Some (a, s') => Some (a, World (<[i := st_v s']> (w_vecs w))
                                                 (st_a s') (st_h s') (st_drops s'))
                             | None => None
                             end
                 | None => None
                 end
  end.

Fixpoint s_wrun (os : list sop) (w : @world A Z) : option (list sanswer * @world A Z) :=
  match os with
  | [] => Some ([], w)
  | o :: os' =>
    match s_wstep o w with
    | None => None
    | Some (a, w') =>
      match s_wrun os' w' with
      | None => None
      | Some (l, w'') => Some (a :: l, w'')
      end
    end
  end.

End string.

(** [CStr::from_ptr(p).to_bytes()] as used by src/hash.rs:121-125: the bytes
    from [p] up to the first zero; undefined when the scan leaves initialised
    memory.  [fuel] bounds the scan; running out is reported as undefined. *)
Fixpoint c_str (h : heap Z) (p : ptr) (fuel : nat) : option (list Z) :=
  match fuel with
  | O => None
  | S fuel' =>
    match hload h p with
    | None => None
    | Some b => if b =? 0 then Some []
                else match hadd h p 1 with
                     | Some q => match c_str h q fuel' with
                                 | Some bs => Some (b :: bs)
                                 | None => None
                                 end
                     | None => None
                     end
    end
  end.
