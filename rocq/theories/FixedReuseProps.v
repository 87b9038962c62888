(** Property theorems.  Each is closed by the lemma of the same content in
    FixedReuseDerived.v; examples show the hypotheses can be met. *)
From Verif Require Import Base Heap HeapLemmas Alloc Vector FixedVector FixedReuse.
From Verif Require Import FixedReuseDerived.

(** C106 fails: for every element type and [NODE_COUNT] there is an allocator
    that only hands out free addresses, for which the following leaks.  A fixed
    vector overflows, is moved, and its old storage is given back.  The vector
    grows once more, and its new memory lies where the old inline buffer was.
    When the vector is dropped that memory stays allocated, and nothing refers
    to it. *)
Theorem C106_moved_overflow_freed_refuted :
  forall (T : Type) (sz al : Z) (N : nat) (chk nd : bool) clone (g : vec) (gp : ptr),
  (0 < sz)%Z -> (0 < al)%Z -> 0 < N -> (Z.of_nat (N + 2) * sz <= isize_max + 1 - al)%Z ->
  exists (place : heap T -> nat), (forall h, h_blk h !! place h = None) /\
  exists l w old f b bk,
    g_run sz al N chk nd clone place
      [GOp FNew; GOp (FCall 0 (CReserve 1)); GOp (FMove 0 g gp); GEnd 0; GOp (FCall 1 (CReserve 1)); GOp (FCall 1 CClear)]
      (FWorld [] (Heap 0 ∅) []) = Some (l, w) /\
    fw_objs w = [old; f] /\ f_moved old = true /\ f_vec f = Vec Null Null Null /\
    h_blk (fw_h w) !! b = Some bk /\ bk_bytes bk = (Z.of_nat (N + 2) * sz)%Z /\ b <> f_buf f.
Proof. exact L_C106_moved_overflow_freed_refuted. Qed.
Print Assumptions C106_moved_overflow_freed_refuted.

Definition ex_place (h : heap Z) : nat := if decide (h_blk h !! 0 = None) then 0 else h_next h.
Definition ex_prog (e : list (gop Z)) : list (gop Z) :=
  [GOp FNew; GOp (FCall 0 (CPush 1%Z)); GOp (FCall 0 (CPush 2%Z)); GOp (FCall 0 (CPush 3%Z)); GOp (FMove 0 (Vec Null Null Null) Null)] ++ e ++
  [GOp (FCall 1 (CReserve 4)); GOp (FCall 1 CClear)].

(** Two inline elements, a third overflows.  Blocks left in the end: the new
    storage, and with the old storage given back also 32 bytes of elements. *)
Example C106_case :
  (option_map (fun r => (map_size (h_blk (fw_h (snd r))), bk_bytes <$> h_blk (fw_h (snd r)) !! 0))
     (g_run 4 4 2 true true Some ex_place (ex_prog [GEnd 0]) (FWorld [] (Heap 0 ∅) []))
   = Some (2, Some 32%Z)) /\
  (option_map (fun r => (map_size (h_blk (fw_h (snd r))), bk_bytes <$> h_blk (fw_h (snd r)) !! 0))
     (g_run 4 4 2 true true Some ex_place (ex_prog []) (FWorld [] (Heap 0 ∅) []))
   = Some (2, Some (-1)%Z)).
Proof. vm_compute. split; reflexivity. Qed.
