(** Property theorems.  Each is closed by the lemma of the same content in
    OwnedDerived.v; examples show the hypotheses can be met. *)
From Verif Require Import Base Heap Alloc AllocContract Vector VectorSpec IterSpec Owned OwnedSpec.
From Verif Require Import OwnedDerived.

(** A program makes vectors, each with an allocator of its own, clones them, turns them
    into consuming iterators, uses both and drops them in any order.  Each allocator that
    was made is, at every moment, either in one object or dropped, and never dropped twice:
    the allocators in use and those dropped are together exactly those made.  All memory on
    the heap that was not there before belongs to the allocator of an object still there, so
    an allocator that is dropped has got all its memory back.  Since giving memory to an
    allocator that did not hand it out is undefined in the model, and the run is defined,
    that never happens.  The lists behave as if there were no allocators. *)
Theorem C112_allocators_are_owned_once :
forall (T : Type) (sz al : Z) (chk nd : bool) (clone : T -> option T) (cl : T -> T) (h : heap T) (os : list (oop T)) l d ss,
  (0 < sz)%Z -> (0 < al)%Z -> (forall x, clone x = Some (cl x)) -> heap_wf h ->
  nd = false \/ forallb o_is_move os = true ->
  chk = true \/ forallb (o_fine sz) os = true ->
  spec_oops (default_fits sz al) cl os [] = Some (l, d, ss) ->
  exists w, o_run sz al chk nd clone os (OWorld [] h [] [] 0) = Some (l, w) /\
    ow_drops w = (if nd then d else []) /\
    ow_made w = length (List.filter makes os) /\
    in_use (ow_objs w) ++ ow_gone w ≡ₚ seq 0 (ow_made w) /\
    (forall b bk, h_blk h !! b = Some bk -> h_blk (ow_h w) !! b = Some bk) /\
    (forall b bk, h_blk (ow_h w) !! b = Some bk -> h_blk h !! b = Some bk \/
       exists k, k ∈ in_use (ow_objs w) /\ from_alloc bk = Z.of_nat k).
Proof. exact L_C112_allocators_are_owned_once. Qed.
Print Assumptions C112_allocators_are_owned_once.

(** Four allocators: one is in the clone, one in an iterator taken apart from both ends,
    two were dropped with their vectors, and the memory left is of the first two. *)
Example C112_case :
  let os := [OFrom [1; 2; 3]; ONew; OClone 0; OCall 1 (CPush 7); OCollect 2 [8; 9; 10]; OInto 0; OIter 4 INext; OIter 4 INextBack; ODrop 1; OCall 2 (CPush 4); ODrop 3] in
  match spec_oops (default_fits 4 4) (fun x => x) os [] with Some (l, d, ss) => Some (l, ss) | None => None end =
    Some ([RVec AUnit; RVec AUnit; RVec AUnit; RVec AUnit; RVec AUnit; RVec AUnit; RIter (IAOpt (Some 1)); RIter (IAOpt (Some 3)); RVec AUnit; RVec AUnit; RVec AUnit],
          [None; None; Some (SV (SVec [1; 2; 3; 4] 6)); None; Some (SI 3 [2])]) /\
  match o_run 4 4 true false Some os (OWorld [] (Heap 0 ∅) [] [] 0) with
  | Some (_, w) => (in_use (ow_objs w), ow_gone w, ow_made w, map (fun p => from_alloc (snd p)) (map_to_list (h_blk (ow_h w)))) = ([2; 0], [1; 3], 4, [0; 2]%Z)
  | None => False
  end.
Proof. split; vm_compute; reflexivity. Qed.

(** With elements so large that only one fits, the second vector cannot be built.  Its
    allocator is dropped. *)
Example C112_refused_case :
  let os := [OFrom [5]; OFrom [1; 2]; OClone 0; ODrop 0] in
  exists w, o_run (2 ^ 62) 1 true false Some os (OWorld [] (Heap 0 ∅) [] [] 0) = Some ([RVec AUnit; RVec APanic; RVec AUnit; RVec AUnit], w) /\
    in_use (ow_objs w) ++ ow_gone w ≡ₚ [0; 1; 2].
Proof.
  destruct (C112_allocators_are_owned_once nat (2 ^ 62) 1 true false Some (fun x => x) (Heap 0 ∅) [OFrom [5]; OFrom [1; 2]; OClone 0; ODrop 0]
    [RVec AUnit; RVec APanic; RVec AUnit; RVec AUnit] [5] [None; Some (SV (SVec [5] 1))]) as (w & E & _ & M & P & _).
  { done. } { done. } { done. } { intros b [? H]. done. } { by left. } { by left. } { vm_compute. reflexivity. }
  exists w. split; [exact E|]. rewrite P, M. done.
Qed.
