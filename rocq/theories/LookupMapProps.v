(** Property theorems.  Each is closed by the lemma of the same content in
    LookupMapDerived.v; examples show the hypotheses can be met. *)
From Verif Require Import Base Heap Alloc Vector VectorSpec VectorMap VectorMapSpec VectorMapAny VectorMapAnySpec.
From Verif Require Import LookupMapDerived.



(** * C115, vector maps

    [co] and [eo] say what the n-th evaluation of the comparator or the equality answers;
    the second part of a state is the number of evaluations so far. *)
From Verif Require Import LookupMapSpec.

(** C115: a call that looks up a key in a vector map of [n] pairs evaluates comparator and
    equality at most [log2 n + 2] times, the logarithm rounded up; [extend] does so for
    each pair; the other calls do not evaluate them.  If nothing panics, looking up
    a key in a map that is not empty takes at least one evaluation less than that. *)
Theorem C115_vector_map_lookup :
forall (K V : Type) (sz al : Z) (chk nd : bool) (co eo : nat -> K -> K -> option bool) (h : heap (K * V)) (cs : list (mcall K V)) (c : mcall K V) l s,
  (0 < sz)%Z -> (0 < al)%Z -> heap_wf h ->
  chk = true \/ (sz <= isize_max)%Z /\ forallb (m_modest sz) (c :: cs) = true ->
  ma_run (DefaultAllocator (K * V)) sz al chk nd co eo cs (new_map h, 0) = Some (l, s) ->
  exists a s' xs, ma_step (DefaultAllocator (K * V)) sz al chk nd co eo c s = Some (a, s') /\
    as_slice sz (ms_v (fst s)) = Ok xs (ms_v (fst s)) /\
    snd s <= snd s' <= snd s + looks_up c * (Nat.log2_up (length xs + looks_up c - 1) + 2) /\
    (looks_up c = 1 -> a <> MPanic -> xs <> [] -> snd s + Nat.log2_up (length xs) + 1 <= snd s').
Proof. exact L_C115_vector_map_lookup. Qed.
Print Assumptions C115_vector_map_lookup.

Example C115_vector_map_case :
  match ma_run (DefaultAllocator (Z * Z)) 16 8 true true (fun _ a b => Some (a <? b)%Z) (fun _ a b => Some (a =? b)%Z)
          [MExtend (map (fun n => (Z.of_nat n, 0%Z)) (seq 0 100))] (new_map (Heap 0 ∅), 0) with
  | Some (_, s) => option_map (fun r => (fst r, snd (snd r) - snd s)) (ma_step (DefaultAllocator (Z * Z)) 16 8 true true (fun _ a b => Some (a <? b)%Z) (fun _ a b => Some (a =? b)%Z) (MGet 41%Z) s)
  | None => None
  end = Some (MRead (Some 0%Z), 9) /\ Nat.log2_up 100 + 2 = 9.
Proof. vm_compute. done. Qed.
