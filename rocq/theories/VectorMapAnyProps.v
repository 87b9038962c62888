(** Property theorems.  Each is closed by the lemma of the same content in
    VectorMapAnyDerived.v; examples show the hypotheses can be met. *)
From Verif Require Import Base Heap HeapLemmas Alloc AllocContract Vector VectorSpec.
From Verif Require Import VectorMap VectorMapSpec VectorMapAny VectorMapAnySpec.
From Verif Require Import VectorMapAnyDerived.

(** C92. Whatever the comparator and the equality of a [VectorMap] answer at each
    evaluation - also different answers for the same keys, or a panic - every
    program of calls runs without undefined behaviour, panics included.  Every key
    and value is afterwards held in the slice, was handed out, or was dropped, each
    exactly once. *)
Theorem C92_map_any_comparator :
forall (K V : Type) (sz al : Z) (chk : bool) (co eo : nat -> K -> K -> option bool) (h : heap (K * V)) (cs : list (mcall K V)),
  (0 < sz)%Z -> (0 < al)%Z -> heap_wf h ->
  chk = true \/ (sz <= isize_max)%Z /\ forallb (m_modest sz) cs = true ->
  exists l s, ma_run (DefaultAllocator (K * V)) sz al chk true co eo cs (new_map h, 0) = Some (l, s) /\
  exists xs, as_slice sz (ms_v (fst s)) = Ok xs (ms_v (fst s)) /\
    concat (map m_given cs) ≡ₚ
      parts xs ++ concat (map m_returned l) ++ parts (st_drops (ms_v (fst s))) ++ ms_lone (fst s).
Proof. exact L_C92_map_any_comparator. Qed.
Print Assumptions C92_map_any_comparator.

Example C92_map_any_comparator_case :
  option_map (fun r => (fst r, snd (snd r)))
    (mx_odd [MExtend [(1, 10); (2, 20); (3, 30)]; MInsert 4 40; MRemove 5; MInsert 6 60; MGet 3; MInsert 7 70; MRemove 8; MLen; MClear]%Z) =
  Some ([MUnit; MTaken (Some 20%Z); MPanic; MTaken None; MRead (Some 40%Z); MTaken None; MTaken (Some 70%Z); MNat 4; MUnit], 29).
Proof. vm_compute. reflexivity. Qed.

(** C92, memory.  No program changes other memory, and after [clear] (which is also
    what dropping the map does) the heap is what it was before the map existed. *)
Theorem C92_map_any_memory :
forall (K V : Type) (sz al : Z) (chk nd : bool) (co eo : nat -> K -> K -> option bool) (h : heap (K * V)) (cs : list (mcall K V)) l s,
  (0 < sz)%Z -> (0 < al)%Z -> heap_wf h ->
  chk = true \/ (sz <= isize_max)%Z /\ forallb (m_modest sz) cs = true ->
  ma_run (DefaultAllocator (K * V)) sz al chk nd co eo cs (new_map h, 0) = Some (l, s) ->
  (forall b bk, h_blk h !! b = Some bk -> h_blk (st_h (ms_v (fst s))) !! b = Some bk) /\
  exists s', ma_step (DefaultAllocator (K * V)) sz al chk nd co eo MClear s = Some (MUnit, s') /\
    h_blk (st_h (ms_v (fst s'))) = h_blk h.
Proof. exact L_C92_map_any_memory. Qed.
Print Assumptions C92_map_any_memory.

Example C92_map_any_memory_case :
  match mx_odd [MExtend [(1, 10); (2, 20); (3, 30)]; MInsert 4 40; MRemove 9]%Z with
  | Some (_, s) => size (h_blk (st_h (ms_v (fst s)))) | None => 0 end = 1.
Proof. vm_compute. reflexivity. Qed.

(** C92, effects.  Each call still does one of the things it may do: [insert] puts the
    pair in or replaces one value, [remove] takes one pair out or none, a lookup
    answers with nothing or with a pair that is held, and so on.  A call that panics
    changes no pair, except [extend], which stops after the pairs put in so far. *)
Theorem C92_map_any_effects :
forall (K V : Type) (sz al : Z) (chk nd : bool) (co eo : nat -> K -> K -> option bool) (h : heap (K * V)) (cs : list (mcall K V)) (c : mcall K V) l s,
  (0 < sz)%Z -> (0 < al)%Z -> heap_wf h ->
  chk = true \/ (sz <= isize_max)%Z /\ forallb (m_modest sz) (c :: cs) = true ->
  ma_run (DefaultAllocator (K * V)) sz al chk nd co eo cs (new_map h, 0) = Some (l, s) ->
  exists a s' xs xs', ma_step (DefaultAllocator (K * V)) sz al chk nd co eo c s = Some (a, s') /\
    as_slice sz (ms_v (fst s)) = Ok xs (ms_v (fst s)) /\ as_slice sz (ms_v (fst s')) = Ok xs' (ms_v (fst s')) /\
    edited c a xs xs'.
Proof. exact L_C92_map_any_effects. Qed.
Print Assumptions C92_map_any_effects.

Example C92_map_any_effects_case :
  match mx_odd [MExtend [(1, 10); (2, 20); (3, 30)]; MInsert 4 40; MRemove 9]%Z with
  | Some (_, s) => val (as_slice 16 (ms_v (fst s))) | None => None end = Some [(1, 10); (3, 30); (2, 40)]%Z.
Proof. vm_compute. reflexivity. Qed.

(** C92, link.  With functions that always answer, and the same for the same keys,
    this is the map of the other properties: same answers, same memory, same drops,
    whether or not the comparator is an order. *)
Theorem C92_map_any_extends :
forall (K V : Type) (sz al : Z) (chk nd : bool) (cmp eqb : K -> K -> bool) (h : heap (K * V)) (cs : list (mcall K V)),
  (0 < sz)%Z -> (0 < al)%Z -> heap_wf h ->
  chk = true \/ (sz <= isize_max)%Z /\ forallb (m_modest sz) cs = true ->
  option_map (fun r => (fst r, fst (snd r)))
    (ma_run (DefaultAllocator (K * V)) sz al chk nd (fun _ a b => Some (cmp a b)) (fun _ a b => Some (eqb a b)) cs (new_map h, 0)) =
  m_run (DefaultAllocator (K * V)) sz al chk nd cmp eqb cs (new_map h).
Proof. exact L_C92_map_any_extends. Qed.
Print Assumptions C92_map_any_extends.

Example C92_map_any_extends_case :
  match m_run (DefaultAllocator (Z * Z)) 16 8 true true Z.leb Z.ltb [MExtend [(3, 30); (1, 10); (2, 20)]; MGet 3]%Z (new_map (Heap 0 ∅)) with
  | Some (l, s) => (l, val (as_slice 16 (ms_v s))) | None => ([], None) end = ([MUnit; MRead None], Some [(1, 10); (2, 20); (3, 30)]%Z).
Proof. vm_compute. reflexivity. Qed.
