(** Property theorems.  Each is closed by the lemma of the same content in
    FixedVectorDerived.v; examples show the hypotheses can be met. *)
From Verif Require Import Base Heap HeapLemmas Alloc AllocContract Vector VectorSpec.
From Verif Require Import FixedVector FixedVectorSpec.
From Verif Require Import FixedVectorDerived.

From Verif Require Import FixedVectorDerived.

(** Concrete programs over 4-byte elements, [NODE_COUNT] 2, from an empty heap. *)
Definition ex_run (os : list (fop Z)) := f_run 4 4 2 true true idc os (FWorld [] (Heap 0 ∅) []).
(** Moves supply the bytes found in the new storage. *)
Definition ex_move (i : nat) : fop Z := FMove i (Vec Null (Ptr 7 7) Null) (Ptr 9 9).

(** C62.  Any program over any number of fixed vectors that names only vectors
    that exist runs without undefined behaviour (so no double free, no free of
    an inline buffer, no access to freed or foreign memory), gives the answers of
    the lists, drops the same elements, and afterwards each vector shows its
    list.  Memory that was there before is untouched, and each block that is
    left is an inline buffer or the storage of a vector.  [chk] is whether the
    build checks for overflow; in a build that does not, no call may name more
    elements than a vector can hold. *)
Theorem C62_fixed_vector_is_a_list :
  forall (T : Type) (sz al : Z) (N : nat) (chk nd : bool) clone (cl : T -> T) (h : heap T) (os : list (fop T)) l d ss,
  (0 < sz)%Z -> (0 < al)%Z -> 0 < N -> (Z.of_nat N * sz <= isize_max)%Z ->
  (forall x, clone x = Some (cl x)) -> heap_wf h ->
  nd = false \/ forallb f_is_move os = true -> chk = true \/ forallb (f_modest sz) os = true ->
  spec_fops (default_fits sz al) cl N os [] = Some (l, d, ss) ->
  exists w, f_run sz al N chk nd clone os (FWorld [] h []) = Some (l, w) /\
    fw_drops w = (if nd then d else []) /\
    length (fw_objs w) = length ss /\
    (forall i sf, ss !! i = Some (Some sf) -> exists f, fw_objs w !! i = Some f /\
       shows sz N w f (items (sf_vec sf)) (room (sf_vec sf)) (sf_over sf)) /\
    (forall b bk, h_blk h !! b = Some bk -> h_blk (fw_h w) !! b = Some bk) /\
    (forall b, is_Some (h_blk (fw_h w) !! b) -> is_Some (h_blk h !! b) \/
       exists i f, fw_objs w !! i = Some f /\
         (b = f_buf f \/ (f_moved f = false /\ exists k, v_begin (f_vec f) = Ptr b k))).
Proof. exact L_C62_fixed_vector_is_a_list. Qed.
Print Assumptions C62_fixed_vector_is_a_list.

(** Push past the inline buffer, read, move, pop. *)
Example C62_case : option_map fst (ex_run [FNew; FCall 0 (CPush 1%Z); FCall 0 (CPush 2%Z); FOverflowed 0; FCall 0 (CPush 3%Z);
  FOverflowed 0; ex_move 0; FCall 1 CPop; FCall 1 (CRemove 0); FOverflowed 1])
  = Some [AUnit; AUnit; AUnit; ABool false; AUnit; ABool true; AUnit; AOpt (Some 3%Z); AOpt (Some 1%Z); ABool true].
Proof. vm_compute. reflexivity. Qed.

(** The same in a release build. *)
Example C62_release_case : option_map fst (f_run 4 4 2 false true idc [FNew; FCall 0 (CPush 1%Z); FCall 0 (CReserve 3); FOverflowed 0; ex_move 0;
  FCall 1 (CPush 2%Z); FCall 1 CAsSlice] (FWorld [] (Heap 0 ∅) []))
  = Some [AUnit; AUnit; AUnit; ABool true; AUnit; AUnit; ASlice [1; 2]%Z].
Proof. vm_compute. reflexivity. Qed.

(** C62.  Conversely, a program stops (in the model) only because it names a
    vector that does not exist or was moved away: the lists stop there too. *)
Theorem C62_programs_never_undefined :
  forall (T : Type) (sz al : Z) (N : nat) (chk nd : bool) clone (cl : T -> T) (h : heap T) (os : list (fop T)),
  (0 < sz)%Z -> (0 < al)%Z -> 0 < N -> (Z.of_nat N * sz <= isize_max)%Z ->
  (forall x, clone x = Some (cl x)) -> heap_wf h ->
  nd = false \/ forallb f_is_move os = true -> chk = true \/ forallb (f_modest sz) os = true ->
  f_run sz al N chk nd clone os (FWorld [] h []) = None <-> spec_fops (default_fits sz al) cl N os [] = None.
Proof. exact L_C62_programs_never_undefined. Qed.
Print Assumptions C62_programs_never_undefined.

Example C62_undefined_case : ex_run [FNew; ex_move 0; FCall 0 CPop] = None /\ ex_run [FNew; ex_move 0; FCall 1 CPop] <> None.
Proof. vm_compute. split; [reflexivity|discriminate]. Qed.

(** C62.  When a program ends by clearing every vector that was not moved away,
    the heap is what it was at the start plus inline buffers: every overflow
    buffer was freed, however often its vector was moved, and none twice (that
    would have been undefined). *)
Theorem C62_overflow_memory_freed :
  forall (T : Type) (sz al : Z) (N : nat) (chk nd : bool) clone (cl : T -> T) (h : heap T) (os : list (fop T)) l w (js : list nat),
  (0 < sz)%Z -> (0 < al)%Z -> 0 < N -> (Z.of_nat N * sz <= isize_max)%Z ->
  (forall x, clone x = Some (cl x)) -> heap_wf h ->
  nd = false \/ forallb f_is_move os = true -> chk = true \/ forallb (f_modest sz) os = true ->
  f_run sz al N chk nd clone os (FWorld [] h []) = Some (l, w) ->
  (forall i, In i js <-> exists f, fw_objs w !! i = Some f /\ f_moved f = false) ->
  exists l' w', f_run sz al N chk nd clone (map (fun i => FCall i CClear) js) w = Some (l', w') /\
    (forall b, h_blk h !! b = None -> is_Some (h_blk (fw_h w') !! b) -> exists i f, fw_objs w' !! i = Some f /\ b = f_buf f) /\
    (forall b bk, h_blk h !! b = Some bk -> h_blk (fw_h w') !! b = Some bk) /\
    (forall i f, fw_objs w' !! i = Some f -> f_moved f = false -> is_Some (h_blk (fw_h w') !! f_buf f)).
Proof. exact L_C62_overflow_memory_freed. Qed.
Print Assumptions C62_overflow_memory_freed.

Example C62_freed_case :
  match ex_run [FNew; FCall 0 (CPush 1%Z); FCall 0 (CPush 2%Z); FCall 0 (CPush 3%Z); ex_move 0; FCall 1 (CReserve 5)] with
  | Some (_, w) => match f_run 4 4 2 true true idc [FCall 1 CClear] w with
      | Some (_, w') => (map_size (h_blk (fw_h w)), map_size (h_blk (fw_h w'))) = (3, 2)
      | None => False
      end
  | None => False
  end.
Proof. vm_compute. reflexivity. Qed.

(** C62, the remaining instance: [FixedVector<T, 0>] cannot be created. *)
Theorem C62_zero_capacity_panics :
  forall (T : Type) (sz al : Z) chk nd clone (w : fworld T),
  exists h, f_step sz al 0 chk nd clone FNew w = Some (APanic, FWorld (fw_objs w) h (fw_drops w)).
Proof. exact L_C62_zero_capacity_panics. Qed.
Print Assumptions C62_zero_capacity_panics.

Example C62_zero_case : option_map fst (f_run 4 4 0 true true idc [FNew; FNew] (FWorld [] (Heap 0 ∅) [])) = Some [APanic; APanic].
Proof. vm_compute. reflexivity. Qed.

(** C63, for vectors that hold something: after any program, [has_overflowed]
    is false exactly when the elements are the first cells of the inline buffer,
    and true exactly when they are in another block, one that came from the
    allocator (its layout is that of an array of [capacity] elements). *)
Theorem C63_flag_tells_where_elements_are :
  forall (T : Type) (sz al : Z) (N : nat) (chk nd : bool) clone (cl : T -> T) (h : heap T) (os : list (fop T)) l w i f,
  (0 < sz)%Z -> (0 < al)%Z -> 0 < N -> (Z.of_nat N * sz <= isize_max)%Z ->
  (forall x, clone x = Some (cl x)) -> heap_wf h ->
  nd = false \/ forallb f_is_move os = true -> chk = true \/ forallb (f_modest sz) os = true ->
  f_run sz al N chk nd clone os (FWorld [] h []) = Some (l, w) ->
  fw_objs w !! i = Some f -> f_moved f = false ->
  exists xs cap over, shows sz N w f xs cap over /\
    (xs <> [] ->
      (over = false <-> hslice (fw_h w) (Ptr (f_buf f) 0) (length xs) = Some xs /\ v_begin (f_vec f) = Ptr (f_buf f) 0) /\
      (over = true <-> exists b bk, b <> f_buf f /\ hslice (fw_h w) (Ptr b 0) (length xs) = Some xs /\
         v_begin (f_vec f) = Ptr b 0 /\ h_blk (fw_h w) !! b = Some bk /\
         bk_bytes bk = (Z.of_nat cap * sz)%Z /\ bk_align bk = al)).
Proof. exact L_C63_flag_tells_where_elements_are. Qed.
Print Assumptions C63_flag_tells_where_elements_are.

Example C63_case : option_map fst (ex_run [FNew; FCall 0 (CPush 1%Z); FOverflowed 0; FCall 0 (CReserve 1); FOverflowed 0])
  = Some [AUnit; AUnit; ABool false; AUnit; ABool true].
Proof. vm_compute. reflexivity. Qed.

(** C63.  As long as no vector is cleared, [has_overflowed] is the test
    "capacity exceeds [NODE_COUNT]". *)
Theorem C63_flag_without_clear :
  forall (T : Type) (sz al : Z) (N : nat) (chk nd : bool) clone (cl : T -> T) (h : heap T) (os : list (fop T)) l w i f,
  (0 < sz)%Z -> (0 < al)%Z -> 0 < N -> (Z.of_nat N * sz <= isize_max)%Z ->
  (forall x, clone x = Some (cl x)) -> heap_wf h ->
  nd = false \/ forallb f_is_move os = true -> chk = true \/ forallb (f_modest sz) os = true ->
  forallb (fun o => negb (f_clears o)) os = true ->
  f_run sz al N chk nd clone os (FWorld [] h []) = Some (l, w) ->
  fw_objs w !! i = Some f -> f_moved f = false ->
  exists xs cap, shows sz N w f xs cap (N <? cap) /\ N <= cap.
Proof. exact L_C63_flag_without_clear. Qed.
Print Assumptions C63_flag_without_clear.

Example C63_without_clear_case : option_map fst (ex_run [FNew; FCall 0 (CPush 1%Z); FCall 0 (CPush 2%Z); FCall 0 (CPush 3%Z); FOverflowed 0; FCall 0 CCapacity])
  = Some [AUnit; AUnit; AUnit; AUnit; ABool true; ANat 4].
Proof. vm_compute. reflexivity. Qed.

(** C63 as stated fails: for every element type and [NODE_COUNT], a fresh vector
    that is cleared reports that it has overflowed while it stores nothing and
    owns no overflow memory (there is no block but its inline buffer). *)
Theorem C63_flag_refuted :
  forall (T : Type) (sz al : Z) (N : nat) (chk nd : bool) clone (cl : T -> T),
  (0 < sz)%Z -> (0 < al)%Z -> 0 < N -> (Z.of_nat N * sz <= isize_max)%Z ->
  (forall x, clone x = Some (cl x)) ->
  exists (os : list (fop T)) l w f, f_run sz al N chk nd clone os (FWorld [] (Heap 0 ∅) []) = Some (l, w) /\
    fw_objs w = [f] /\ shows sz N w f [] 0 true /\
    (forall b, is_Some (h_blk (fw_h w) !! b) -> b = f_buf f).
Proof. exact L_C63_flag_refuted. Qed.
Print Assumptions C63_flag_refuted.

Example C63_refuted_case : option_map fst (ex_run [FNew; FOverflowed 0; FCall 0 CClear; FOverflowed 0; FCall 0 CLen])
  = Some [AUnit; ABool false; AUnit; ABool true; ANat 0].
Proof. vm_compute. reflexivity. Qed.

(** C64 fails for every element type and [NODE_COUNT]: push, clear, push leaves
    the element in a block that is not the inline buffer, allocated after the
    clear, of capacity 1. *)
Theorem C64_reuse_refuted :
  forall (T : Type) (sz al : Z) (N : nat) (chk nd : bool) clone (cl : T -> T) (x y : T),
  (0 < sz)%Z -> (0 < al)%Z -> (sz <= isize_max + 1 - al)%Z -> 0 < N -> (Z.of_nat N * sz <= isize_max)%Z ->
  (forall x, clone x = Some (cl x)) ->
  exists l w f, f_run sz al N chk nd clone [FNew; FCall 0 (CPush x); FCall 0 CClear; FCall 0 (CPush y)] (FWorld [] (Heap 0 ∅) []) = Some (l, w) /\
    fw_objs w = [f] /\ shows sz N w f [y] 1 true /\
    exists b k, v_begin (f_vec f) = Ptr b k /\ b <> f_buf f /\ is_Some (h_blk (fw_h w) !! b).
Proof. exact L_C64_reuse_refuted. Qed.
Print Assumptions C64_reuse_refuted.

Example C64_refuted_case : option_map fst (ex_run [FNew; FCall 0 (CPush 1%Z); FCall 0 CCapacity; FCall 0 CClear; FCall 0 (CPush 2%Z); FCall 0 CCapacity; FOverflowed 0])
  = Some [AUnit; AUnit; ANat 2; AUnit; AUnit; ANat 1; ABool true].
Proof. vm_compute. reflexivity. Qed.

(** C64, what holds instead: once [has_overflowed] is true (in particular after
    any [clear]) it stays true whatever is done to the vector. *)
Theorem C64_never_inline_again :
  forall (T : Type) (sz al : Z) (N : nat) (chk nd : bool) clone (cl : T -> T) (h : heap T) (os1 os2 : list (fop T)) l1 w1 l2 w2 i f1 f2,
  (0 < sz)%Z -> (0 < al)%Z -> 0 < N -> (Z.of_nat N * sz <= isize_max)%Z ->
  (forall x, clone x = Some (cl x)) -> heap_wf h ->
  nd = false \/ forallb f_is_move (os1 ++ os2) = true -> chk = true \/ forallb (f_modest sz) (os1 ++ os2) = true ->
  f_run sz al N chk nd clone os1 (FWorld [] h []) = Some (l1, w1) ->
  fw_objs w1 !! i = Some f1 -> f_moved f1 = false -> has_overflowed N f1 = Some true ->
  f_run sz al N chk nd clone os2 w1 = Some (l2, w2) ->
  fw_objs w2 !! i = Some f2 -> f_moved f2 = false -> has_overflowed N f2 = Some true.
Proof. exact L_C64_never_inline_again. Qed.
Print Assumptions C64_never_inline_again.

Example C64_never_case : option_map fst (ex_run [FNew; FCall 0 CClear; FCall 0 (CReserve 1); FOverflowed 0; FCall 0 (CReserve 2); FOverflowed 0])
  = Some [AUnit; AUnit; AUnit; ABool true; AUnit; ABool true].
Proof. vm_compute. reflexivity. Qed.

(** C65.  From any state a program can reach, whatever bytes the new storage
    holds, moving a vector gives a new one that shows the same elements,
    capacity and overflow flag; it drops nothing, every other vector shows what
    it showed, and only the new inline buffer was added to the heap.  (That the
    moved memory is owned once is C62: any continuation stays defined.) *)
Theorem C65_move_preserves :
  forall (T : Type) (sz al : Z) (N : nat) (chk nd : bool) clone (cl : T -> T) (h : heap T) (os : list (fop T)) l w i f g gp xs cap over,
  (0 < sz)%Z -> (0 < al)%Z -> 0 < N -> (Z.of_nat N * sz <= isize_max)%Z ->
  (forall x, clone x = Some (cl x)) -> heap_wf h ->
  nd = false \/ forallb f_is_move os = true -> chk = true \/ forallb (f_modest sz) os = true ->
  f_run sz al N chk nd clone os (FWorld [] h []) = Some (l, w) ->
  fw_objs w !! i = Some f -> f_moved f = false -> shows sz N w f xs cap over ->
  exists w' src' new, f_step sz al N chk nd clone (FMove i g gp) w = Some (AUnit, w') /\
    fw_objs w' = <[i := src']> (fw_objs w) ++ [new] /\ f_moved src' = true /\ f_moved new = false /\
    shows sz N w' new xs cap over /\
    fw_drops w' = fw_drops w /\
    (forall j fj xj cj oj, j <> i -> fw_objs w !! j = Some fj -> f_moved fj = false -> shows sz N w fj xj cj oj -> shows sz N w' fj xj cj oj) /\
    (forall b, is_Some (h_blk (fw_h w') !! b) <-> is_Some (h_blk (fw_h w) !! b) \/ b = f_buf new).
Proof. exact L_C65_move_preserves. Qed.
Print Assumptions C65_move_preserves.

Example C65_case :
  match ex_run [FNew; FCall 0 (CPush 1%Z); ex_move 0; FCall 1 (CPush 2%Z); FCall 1 (CPush 3%Z); ex_move 1; FCall 2 CPop; FCall 2 CLen; FOverflowed 2] with
  | Some (l, w) => l = [AUnit; AUnit; AUnit; AUnit; AUnit; AUnit; AOpt (Some 3%Z); ANat 2; ABool true] /\
      match fw_objs w !! 2 with Some f => val (as_slice 4 (f_state w f)) = Some [1; 2]%Z | None => False end
  | None => False
  end.
Proof. vm_compute. split; reflexivity. Qed.
