(** Property theorems.  Each is closed by the lemma of the same content in
    DequeDerived.v; examples show the hypotheses can be met. *)
From Verif Require Import Base Heap Alloc Deque DequeSpec.
From Verif Require Import DequeDerived.



(** Every program of calls on a new deque runs to its end without undefined behaviour,
    in debug and release builds; its answers, the elements it drops and what iteration
    then yields are those of a list; only a push can panic, only from [max_len]
    elements on, and it then leaves the deque as it was. *)
Theorem C31_deque_refines_list :
forall (T : Type) (sz al : Z) (chk : bool) (h0 : heap (dcell T)) (prog : list (dcall T)), Setup sz al h0 ->
  exists l s xs, built sz al chk h0 prog l s /\ explains (max_len sz) prog l (d_drops s) [] xs /\ contents sz chk s xs.
Proof. exact L_C31_deque_refines_list. Qed.
Print Assumptions C31_deque_refines_list.

Example C31_deque_refines_list_case :
  Setup 8 8 dx_heap /\
  option_map fst (dx_run [DPushBack 1; DPushFront 2; DPushBack 3; DLen; DIter; DRemove 1; DFront; DBack; DPopBack; DPopFront; DPopFront; DIsEmpty]%Z) =
  Some [Some DUnit; Some DUnit; Some DUnit; Some (DNat 3); Some (DList [2; 1; 3]%Z); Some (DOpt (Some 1%Z)); Some (DOpt (Some 2%Z));
    Some (DOpt (Some 3%Z)); Some (DOpt (Some 3%Z)); Some (DOpt (Some 2%Z)); Some (DOpt None); Some (DBool true)].
Proof. split; [split; [lia|done|]; intros b [bk H]; cbn in H; by rewrite lookup_empty in H|vm_compute; done]. Qed.

(** With at most [max_len] pushes nothing panics, and answers and contents are
    computed by the list. *)
Theorem C31_deque_answers :
forall (T : Type) (sz al : Z) (chk : bool) (h0 : heap (dcell T)) (prog : list (dcall T)), Setup sz al h0 ->
  (Z.of_nat (pushes prog) <= max_len sz)%Z ->
  exists s, built sz al chk h0 prog (map Some (spec_run prog []).1.1) s /\ contents sz chk s (spec_run prog []).2 /\
    d_drops s = (spec_run prog []).1.2.
Proof. exact L_C31_deque_answers. Qed.
Print Assumptions C31_deque_answers.

Example C31_deque_answers_case :
  (Z.of_nat (pushes (push_many 200)) <= max_len 8)%Z /\ max_len 8 = 85899345824%Z /\
  match dx_run (push_many 200 ++ [DLen; DFront; DBack]) with
  | Some (l, s) => drop 200 l = [Some (DNat 200); Some (DOpt (Some 0%Z)); Some (DOpt (Some 199%Z))] /\ d_size s = 8%Z
  | None => False
  end.
Proof. split; [vm_compute; done|]. split; [done|]. vm_compute. done. Qed.

(** Collecting a sequence of at most [max_len] elements gives the deque of that sequence. *)
Theorem C31_from_iter :
forall (T : Type) (sz al : Z) (chk : bool) (h0 : heap (dcell T)) (xs : list T), Setup sz al h0 ->
  (Z.of_nat (length xs) <= max_len sz)%Z ->
  exists s, from_iter sz al chk xs h0 [] = Ok tt s /\ contents sz chk s xs /\ d_drops s = [].
Proof. exact L_C31_from_iter. Qed.
Print Assumptions C31_from_iter.

Example C31_from_iter_case :
  match from_iter 40 8 true [5; 7; 9; 11; 13; 15; 17; 19; 21]%Z dx_heap [] with
  | Ok _ s => val ((iter_all 40 true) s) = Some [5; 7; 9; 11; 13; 15; 17; 19; 21]%Z
  | _ => False
  end.
Proof. vm_compute. done. Qed.

(** Any interleaving of next and next_back yields what taking from the two ends of
    the list yields, and never an element twice. *)
Theorem C32_iteration_from_both_ends :
forall (T : Type) (sz al : Z) (chk : bool) (h0 : heap (dcell T)) prog l s xs (ds : list bool), Setup sz al h0 ->
  built sz al chk h0 prog l s -> contents sz chk s xs ->
  exists it it', iter s = Ok it s /\ steps chk ds it s = Ok ((spec_steps ds xs).1, it') s.
Proof. exact L_C32_iteration_from_both_ends. Qed.
Print Assumptions C32_iteration_from_both_ends.

Example C32_iteration_from_both_ends_case :
  match dx_run [DPushBack 1; DPushBack 2; DPushFront 3; DPushBack 4]%Z with
  | Some (_, s) => val ((do it <- iter; do r <- steps true [true; false; true; true; false; true] it; ret (fst r)) s) =
      Some [Some 3; Some 4; Some 1; Some 2; None; None]%Z
  | None => False
  end /\ (spec_steps [true; false; true; true; false; true] [3; 1; 2; 4]%Z).1 = [Some 3; Some 4; Some 1; Some 2; None; None]%Z.
Proof. vm_compute. done. Qed.

(** The references an iterator hands out, in any interleaving, point to pairwise
    different places holding the elements in order. *)
Theorem C32_references_distinct :
forall (T : Type) (sz al : Z) (chk : bool) (h0 : heap (dcell T)) prog l s xs (ds : list bool), Setup sz al h0 ->
  built sz al chk h0 prog l s -> contents sz chk s xs ->
  exists it ps, iter s = Ok it s /\ places sz chk s = Ok ps s /\ step_places chk ds it s = Ok (spec_steps ds ps).1 s /\
    NoDup ps /\ length ps = length xs /\
    forall i p x, ps !! i = Some p -> xs !! i = Some x -> read_elem p s = Ok x s.
Proof. exact L_C32_references_distinct. Qed.
Print Assumptions C32_references_distinct.

Example C32_references_distinct_case :
  match dx_run [DPushBack 1; DPushBack 2; DPushFront 3]%Z with
  | Some (_, s) =>
    val ((places 8 true) s) = Some [Ptr 2 31; Ptr 1 0; Ptr 1 1] /\
    val ((do it <- iter; step_places true [false; true; false; true] it) s) = Some [Some (Ptr 1 1); Some (Ptr 2 31); Some (Ptr 1 0); None]
  | None => False
  end.
Proof. vm_compute. done. Qed.

(** Consuming iteration gives the same sequences, leaves exactly the elements not
    yielded in the deque and drops none. *)
Theorem C32_into_iter :
forall (T : Type) (sz al : Z) (chk : bool) (h0 : heap (dcell T)) prog l s xs (ds : list bool), Setup sz al h0 ->
  built sz al chk h0 prog l s -> contents sz chk s xs ->
  exists s', into_steps sz al ds s = Ok (spec_steps ds xs).1 s' /\ contents sz chk s' (spec_steps ds xs).2 /\ d_drops s' = d_drops s.
Proof. exact L_C32_into_iter. Qed.
Print Assumptions C32_into_iter.

Example C32_into_iter_case :
  match dx_run [DPushBack 1; DPushBack 2; DPushFront 3; DPushBack 4]%Z with
  | Some (_, s) => val ((into_steps 8 8 [true; false]) s) = Some [Some 3; Some 4]%Z /\
      val ((run into_steps 8 8 [true; false]; iter_all 8 true) s) = Some [1; 2]%Z
  | None => False
  end.
Proof. vm_compute. done. Qed.

(** A loop over iter_mut meets every element once, in order, and what it writes is
    what the deque then holds. *)
Theorem C32_iter_mut :
forall (T : Type) (sz al : Z) (chk : bool) (h0 : heap (dcell T)) prog l s xs (g : T -> T), Setup sz al h0 ->
  built sz al chk h0 prog l s -> contents sz chk s xs ->
  exists s', iter_mut_all sz chk g s = Ok xs s' /\ contents sz chk s' (map g xs).
Proof. exact L_C32_iter_mut. Qed.
Print Assumptions C32_iter_mut.

Example C32_iter_mut_case :
  match dx_run [DPushBack 1; DPushFront 3; DIterMut (fun x => x * 10)%Z; DIter]%Z with
  | Some (l, _) => l = [Some DUnit; Some DUnit; Some (DList [3; 1]%Z); Some (DList [30; 10]%Z)]
  | None => False
  end.
Proof. vm_compute. done. Qed.

(** [remove i] returns the element at [i], keeps the others in order, and past the
    end returns none and changes nothing. *)
Theorem C33_remove :
forall (T : Type) (sz al : Z) (chk : bool) (h0 : heap (dcell T)) prog l s xs i, Setup sz al h0 ->
  built sz al chk h0 prog l s -> contents sz chk s xs ->
  exists s', remove sz al chk i s = Ok (xs !! i) s' /\ contents sz chk s' (take i xs ++ drop (S i) xs) /\ d_drops s' = d_drops s /\
    (length xs <= i -> s' = s).
Proof. exact L_C33_remove. Qed.
Print Assumptions C33_remove.

Example C33_remove_case :
  match dx_run (push_many 70) with
  | Some (_, s) => val ((remove 8 8 true 40) s) = Some (Some 40%Z) /\
      val ((run remove 8 8 true 3; do l <- iter_all 8 true; ret (take 5 l, length l)) s) = Some ([0; 1; 2; 4; 5]%Z, 69) /\
      val ((remove 8 8 true 70) s) = Some None
  | None => False
  end.
Proof. vm_compute. done. Qed.

(** No program followed by any consuming iteration and by dropping the deque meets
    undefined behaviour, and memory the deque does not own is left alone. *)
Theorem C34_no_undefined_behaviour :
forall (T : Type) (sz al : Z) (chk : bool) (h0 : heap (dcell T)) (prog : list (dcall T)) (ds : list bool), Setup sz al h0 ->
  exists s0 l s1 o s2 s3, deque_new sz al h0 [] = Ok tt s0 /\ d_run sz al chk prog s0 = Some (l, s1) /\
    into_steps sz al ds s1 = Ok o s2 /\ deque_drop sz al chk s2 = Ok tt s3 /\
    forall b, is_Some (h_blk h0 !! b) ->
      h_blk (d_h s1) !! b = h_blk h0 !! b /\ h_blk (d_h s2) !! b = h_blk h0 !! b /\ h_blk (d_h s3) !! b = h_blk h0 !! b.
Proof. exact L_C34_no_undefined_behaviour. Qed.
Print Assumptions C34_no_undefined_behaviour.

Example C34_no_undefined_behaviour_case :
  match dx_run (push_many 300 ++ [DRemove 100; DPopFront; DPushFront 5%Z]) with
  | Some (_, s) => d_size s = 18%Z /\ is_ok (deque_drop 8 8 true s) = true
  | None => False
  end.
Proof. vm_compute. done. Qed.

(** A push at the back leaves every element at its address. *)
Theorem C34_push_back_keeps_places :
forall (T : Type) (sz al : Z) (chk : bool) (h0 : heap (dcell T)) prog l s ps (x : T) s', Setup sz al h0 ->
  built sz al chk h0 prog l s -> places sz chk s = Ok ps s -> push_back sz al chk x s = Ok tt s' ->
  exists p, places sz chk s' = Ok (ps ++ [p]) s'.
Proof. exact L_C34_push_back_keeps_places. Qed.
Print Assumptions C34_push_back_keeps_places.

Example C34_push_back_keeps_places_case :
  match dx_run (push_many 159) with
  | Some (_, s) => d_size s = 8%Z /\ match push_back 8 8 true 7%Z s with
     | Ok _ s' => val ((places 8 true) s') = option_map (fun ps => ps ++ [Ptr 5 31]) (val ((places 8 true) s))
     | _ => False
     end
  | None => False
  end.
Proof. vm_compute. done. Qed.

(** A push at the front leaves every element at its address. *)
Theorem C34_push_front_keeps_places :
forall (T : Type) (sz al : Z) (chk : bool) (h0 : heap (dcell T)) prog l s ps (x : T) s', Setup sz al h0 ->
  built sz al chk h0 prog l s -> places sz chk s = Ok ps s -> push_front sz al chk x s = Ok tt s' ->
  exists p, places sz chk s' = Ok (p :: ps) s'.
Proof. exact L_C34_push_front_keeps_places. Qed.
Print Assumptions C34_push_front_keeps_places.

Example C34_push_front_keeps_places_case :
  match dx_run (map (fun i => DPushFront (Z.of_nat i)) (seq 0 96)) with
  | Some (_, s) => match push_front 8 8 true 7%Z s with
     | Ok _ s' => match val ((places 8 true) s') with Some (_ :: ps) => val ((places 8 true) s) = Some ps | _ => False end /\ d_size s' = 8%Z
     | _ => False
     end
  | None => False
  end.
Proof. vm_compute. done. Qed.

(** A pop at either end leaves every remaining element at its address. *)
Theorem C34_pops_keep_places :
forall (T : Type) (sz al : Z) (chk : bool) (h0 : heap (dcell T)) prog l s ps, Setup sz al h0 ->
  built sz al chk h0 prog l s -> places sz chk s = Ok ps s ->
  (exists o s', pop_front sz al s = Ok o s' /\ places sz chk s' = Ok (tail ps) s') /\
  (exists o s', pop_back sz al s = Ok o s' /\ places sz chk s' = Ok (removelast ps) s').
Proof. exact L_C34_pops_keep_places. Qed.
Print Assumptions C34_pops_keep_places.

Example C34_pops_keep_places_case :
  match dx_run (push_many 33) with
  | Some (_, s) =>
    match pop_back 8 8 s with
    | Ok _ s' => val ((do l <- places 8 true; ret (length l)) s') = Some 32 /\ h_blk (d_h s') !! 2 <> None
    | _ => False
    end
  | None => False
  end.
Proof. vm_compute. done. Qed.

(** Every element handed to the deque is handed back or dropped exactly once, over
    the whole life of the deque up to its drop. *)
Theorem C35_each_element_once :
forall (T : Type) (sz al : Z) (chk : bool) (h0 : heap (dcell T)) prog l s, Setup sz al h0 ->
  built sz al chk h0 prog l s -> forallb no_rewrite prog = true ->
  exists s', deque_drop sz al chk s = Ok tt s' /\ flat_map given prog ≡ₚ all_taken prog l ++ d_drops s'.
Proof. exact L_C35_each_element_once. Qed.
Print Assumptions C35_each_element_once.

Example C35_each_element_once_case :
  forallb no_rewrite [DPushBack 1; DPushFront 2; DPushBack 3; DFrontMut 9; DPopBack; DBackMut 8]%Z = true /\
  match dx_run [DPushBack 1; DPushFront 2; DPushBack 3; DFrontMut 9; DPopBack; DBackMut 8]%Z with
  | Some (_, s) => match deque_drop 8 8 true s with Ok _ s' => d_drops s' = [2; 1; 9; 8]%Z | _ => False end
  | None => False
  end.
Proof. vm_compute. done. Qed.

(** Dropping the deque drops what it holds from front to back. *)
Theorem C35_drop_order :
forall (T : Type) (sz al : Z) (chk : bool) (h0 : heap (dcell T)) prog l s xs, Setup sz al h0 ->
  built sz al chk h0 prog l s -> contents sz chk s xs ->
  exists s', deque_drop sz al chk s = Ok tt s' /\ d_drops s' = d_drops s ++ xs.
Proof. exact L_C35_drop_order. Qed.
Print Assumptions C35_drop_order.

Example C35_drop_order_case :
  match dx_run (push_many 40) with
  | Some (_, s) => match deque_drop 8 8 true s with Ok _ s' => take 3 (d_drops s') = [0; 1; 2]%Z /\ length (d_drops s') = 40 | _ => False end
  | None => False
  end.
Proof. vm_compute. done. Qed.

(** What dropping a deque really does to memory: as long as no push was refused (in
    release builds, a refused push loses a block of its own) it gives back every block
    but one, an array of elements. *)
Theorem C36_drop_leaks_one_array :
forall (T : Type) (sz al : Z) (chk : bool) (h0 : heap (dcell T)) prog l s, Setup sz al h0 ->
  built sz al chk h0 prog l s -> chk = true \/ None ∉ l ->
  exists s' b cs, deque_drop sz al chk s = Ok tt s' /\ h_blk h0 !! b = None /\
    h_blk (d_h s') !! b = Some (Block (Z.of_nat (subarray_size sz) * sz) al cs) /\
    forall b', b' <> b -> h_blk (d_h s') !! b' = h_blk h0 !! b'.
Proof. exact L_C36_drop_leaks_one_array. Qed.
Print Assumptions C36_drop_leaks_one_array.

Example C36_drop_leaks_one_array_case :
  match dx_run (push_many 100) with
  | Some (_, s) => map fst (map_to_list (h_blk (d_h s))) = [0; 1; 3; 2; 4] /\
     match deque_drop 8 8 true s with Ok _ s' => map fst (map_to_list (h_blk (d_h s'))) = [4] | _ => False end
  | None => False
  end.
Proof. vm_compute. done. Qed.

(** Dropping a deque does not return all its memory, not even for a deque never used. *)
Theorem C36_all_memory_returned_refuted :
exists (sz al : Z) (h0 : heap (dcell Z)) s s' b, Setup sz al h0 /\ built sz al true h0 [] [] s /\
  deque_drop sz al true s = Ok tt s' /\ h_blk h0 !! b = None /\ is_Some (h_blk (d_h s') !! b).
Proof. exact L_C36_all_memory_returned_refuted. Qed.
Print Assumptions C36_all_memory_returned_refuted.

(** At every point of an iteration the iterator can be turned into the C++ pair and
    back without change, and a fresh iterator becomes the begin and end the deque
    itself stores. *)
Theorem C37_compat_round_trip :
forall (T : Type) (sz al : Z) (chk : bool) (h0 : heap (dcell T)) prog l s (ds : list bool), Setup sz al h0 ->
  built sz al chk h0 prog l s ->
  exists it o it' b e, iter s = Ok it s /\ into_compat it s = Ok (d_b s, d_e s) s /\
    steps chk ds it s = Ok (o, it') s /\ into_compat it' s = Ok (b, e) s /\ from_compat b e s = Ok it' s.
Proof. exact L_C37_compat_round_trip. Qed.
Print Assumptions C37_compat_round_trip.

Example C37_compat_round_trip_case :
  match dx_run (push_many 40) with
  | Some (_, s) => val ((do it <- iter; do r <- steps true [true; false; true] it; do be <- into_compat (snd r);
        do it2 <- from_compat (fst be) (snd be); do r2 <- steps true [true; false] it2; ret (fst r2, di_cur (fst be), di_cur (snd be))) s) =
      Some ([Some 2; Some 38]%Z, Ptr 1 2, Ptr 2 7)
  | None => False
  end.
Proof. vm_compute. done. Qed.

(** A queue answers like a list that is pushed at the back and popped at the front. *)
Theorem C38_queue_answers :
forall (T : Type) (sz al : Z) (chk : bool) (h0 : heap (dcell T)) (prog : list (qcall T)), Setup sz al h0 ->
  (Z.of_nat (q_pushes prog) <= max_len sz)%Z ->
  exists s0 s, deque_new sz al h0 [] = Ok tt s0 /\ q_run sz al chk prog s0 = Some (map Some (qspec_run prog []).1, s) /\
    contents sz chk s (qspec_run prog []).2 /\ d_drops s = [].
Proof. exact L_C38_queue_answers. Qed.
Print Assumptions C38_queue_answers.

Example C38_queue_answers_case :
  match deque_new 8 8 dx_heap [] with
  | Ok _ s => option_map fst (q_run 8 8 true [QPush 4; QPush 5; QTop; QPop; QPush 6; QLen; QIter; QPop; QPop; QPop; QIsEmpty]%Z s) =
      Some [Some DUnit; Some DUnit; Some (DOpt (Some 4%Z)); Some (DOpt (Some 4%Z)); Some DUnit; Some (DNat 2); Some (DList [5; 6]%Z);
        Some (DOpt (Some 5%Z)); Some (DOpt (Some 6%Z)); Some (DOpt None); Some (DBool true)]
  | _ => False
  end.
Proof. vm_compute. done. Qed.

(** The elements pushed are, in order, those popped so far followed by those a queue
    still yields. *)
Theorem C38_first_in_first_out :
forall (T : Type) (sz al : Z) (chk : bool) (h0 : heap (dcell T)) (prog : list (qcall T)) s0 l s xs, Setup sz al h0 ->
  (Z.of_nat (q_pushes prog) <= max_len sz)%Z ->
  deque_new sz al h0 [] = Ok tt s0 -> q_run sz al chk prog s0 = Some (l, s) -> contents sz chk s xs ->
  q_in prog = q_out prog l ++ xs.
Proof. exact L_C38_first_in_first_out. Qed.
Print Assumptions C38_first_in_first_out.

Example C38_first_in_first_out_case :
  match deque_new 8 8 dx_heap [] with
  | Ok _ s => match q_run 8 8 true [QPush 4; QPush 5; QPop; QPush 6; QPop]%Z s with
      | Some (l, s') => q_out [QPush 4; QPush 5; QPop; QPush 6; QPop]%Z l = [4; 5]%Z /\ val ((iter_all 8 true) s') = Some [6]%Z
      | None => False
      end
  | _ => False
  end.
Proof. vm_compute. done. Qed.

(** However long a deque is used, its array of pointers has at most eight slots, or
    four more than twice the number of element arrays its largest content fills. *)
Theorem C79_pointer_array_bounded :
forall (T : Type) (sz al : Z) (chk : bool) (h0 : heap (dcell T)) (prog : list (dcall T)) l s, Setup sz al h0 ->
  (Z.of_nat (pushes prog) <= max_len sz)%Z -> built sz al chk h0 prog l s ->
  (d_size s <= Z.max 8 (2 * Z.of_nat (peak prog [] / subarray_size sz) + 4))%Z.
Proof. exact L_C79_pointer_array_bounded. Qed.
Print Assumptions C79_pointer_array_bounded.

Example C79_pointer_array_bounded_case :
  peak (push_many 300) [] = 300 /\ subarray_size 8 = 32 /\
  match dx_run (push_many 300 ++ concat (replicate 5 [DPopFront; DPushBack 1%Z])) with Some (_, s) => d_size s = 18%Z | None => False end.
Proof. vm_compute. done. Qed.

(** In particular a deque that never holds as many elements as three of its arrays keeps
    its eight pointers, whatever passes through it. *)
Theorem C79_queue_use_stays_small :
forall (T : Type) (sz al : Z) (chk : bool) (h0 : heap (dcell T)) (prog : list (dcall T)) l s, Setup sz al h0 ->
  (Z.of_nat (pushes prog) <= max_len sz)%Z -> built sz al chk h0 prog l s ->
  peak prog [] < 3 * subarray_size sz -> (d_size s <= 8)%Z.
Proof. exact L_C79_queue_use_stays_small. Qed.
Print Assumptions C79_queue_use_stays_small.

Example C79_queue_use_stays_small_case :
  let prog := concat (replicate 400 [DPushBack 1; DPushBack 2; DPopFront; DPopFront]%Z) in
  peak prog [] = 2 /\ match dx_run prog with Some (_, s) => d_size s = 8%Z | None => False end.
Proof. vm_compute. done. Qed.

(** The signature of [iter] lets an iterator outlive changes to the deque; using one
    after such changes is undefined behaviour. *)
Theorem C80_iterator_kept_across_changes_refuted :
exists prog l s it cs l' s', Setup 8 8 dx_heap /\ built 8 8 true dx_heap prog l s /\ iter s = Ok it s /\
  d_run 8 8 true cs s = Some (l', s') /\ steps true [true] it s' = UB.
Proof. exact L_C80_iterator_kept_across_changes_refuted. Qed.
Print Assumptions C80_iterator_kept_across_changes_refuted.
