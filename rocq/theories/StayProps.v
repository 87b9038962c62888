(** Property theorems.  Each is closed by the lemma of the same content in
    StayDerived.v; examples show the hypotheses can be met. *)
From Verif Require Import Base Heap HeapLemmas Alloc AllocContract AddrMem Vector VectorSpec Deque DequeSpec DequeCpp
  HashTable HashTableSpec FixedPool FixedPoolSpec LinkedList LinkedListSpec HandoverSpec.
From Verif Require Import StayDerived.

(** C98, vectors.  As long as no call changes the capacity and none is [clear], the
    elements stay in the same buffer: the element at index [i] afterwards lies where the
    element at index [i] lay before. *)
Theorem C98_vector_stays :
forall (T : Type) (sz al : Z) (chk nd : bool) (clone : T -> option T) (cl : T -> T) (h : heap T) v xs cap (cs : list (call T)) l d ys,
  (0 < sz)%Z -> (0 < al)%Z -> (forall x, clone x = Some (cl x)) -> heap_wf h -> vector_in_memory sz al v h xs cap ->
  nd = false \/ forallb is_move cs = true -> CClear ∉ cs ->
  spec_calls (default_fits sz al) cl cs (SVec xs cap) = (l, d, SVec ys cap) -> chk = true \/ forallb (modest sz) cs = true ->
  exists s, run_calls (DefaultAllocator T) sz al chk nd clone cs (VState v tt h []) = Some (l, s) /\
    as_slice sz s = Ok ys s /\ v_begin (st_v s) = v_begin v /\ vector_in_memory sz al (st_v s) (st_h s) ys cap.
Proof. exact L_C98_vector_stays. Qed.
Print Assumptions C98_vector_stays.

Example C98_vector_stays_case :
  let h := Heap 3 {[ 2 := Block 56 8 [Some 4; Some 5; None; None; None; None; None]; 1 := Block 8 8 [Some 9] ]} in
  let v := Vec (Ptr 2 0) (Ptr 2 2) (Ptr 2 7) in
  let cs := [CPush 6; CInsert 0 3; CPop; CRemove 1; CSet 0 8; CSwap 0 1; CReserve 0; CPush 1; CInsert 9 2] in
  vector_in_memory 8 8 v h [4; 5] 7 /\
  (spec_calls (default_fits 8 8) id cs (SVec [4; 5] 7)).2 = SVec [5; 8; 1] 7 /\
  match run_calls (DefaultAllocator nat) 8 8 true true Some cs (VState v tt h []) with
  | Some (_, s) => st_v s = Vec (Ptr 2 0) (Ptr 2 3) (Ptr 2 7)
  | None => False
  end /\
  match run_calls (DefaultAllocator nat) 8 8 true true Some [CReserve 1] (VState v tt h []) with
  | Some (_, s) => v_begin (st_v s) = Ptr 3 0
  | None => False
  end.
Proof.
  split; [right; exists 2, [None; None; None; None; None]; repeat (split; [done||lia|]); done|]. by vm_compute.
Qed.

(** C98, deques.  Pushes and pops at either end, reads and writes leave every element
    that is not popped where it is: the references that iterating hands out before and after
    agree on the elements that were there throughout.  Only [remove] moves elements. *)
Theorem C98_deque_stays :
forall (T : Type) (sz al : Z) (chk : bool) (N : nat) (s : dstate T) xs own (prog : list (dcall T)),
  (0 < sz)%Z -> layout_ok (Z.of_nat N * sz) al = true -> heap_wf (d_h s) -> deque_in_memory sz al N s xs own ->
  (Z.of_nat (length xs + DequeSpec.pushes prog) <= max_len sz)%Z ->
  let '(answers, _, ys) := DequeSpec.spec_run prog xs in
  exists s' before after, d_run sz al chk prog s = Some (map Some answers, s') /\
    (exists it, Deque.iter s = Ok it s /\ step_places chk (repeat true (length xs)) it s = Ok (map Some before) s) /\
    (exists it, Deque.iter s' = Ok it s' /\ step_places chk (repeat true (length ys)) it s' = Ok (map Some after) s') /\
    (forall i x, xs !! i = Some x -> exists p, before !! i = Some p /\ hload (d_h s) p = Some (DElem x)) /\
    (forall j y, ys !! j = Some y -> exists p, after !! j = Some p /\ hload (d_h s') p = Some (DElem y)) /\
    forall i j, i < length xs -> DequeSpec.ends_at prog (length xs) i = Some j -> j < length ys /\ after !! j = before !! i.
Proof. exact L_C98_deque_stays. Qed.
Print Assumptions C98_deque_stays.

(** 7, 8, 9 beginning at place 30 of the first array; 8 stays at block 6, place 31, while
    the others go and 40 new ones arrive in front. *)
Definition sx_deque : dstate Z :=
  let cells := replicate 30 None ++ [Some (DElem 7%Z); Some (DElem 8%Z)] in
  let cells' := Some (DElem 9%Z) :: replicate 31 None in
  DState (Ptr 4 0) 8 (position 32 4 2 [6; 5] 30) (position 32 4 2 [6; 5] 33)
    (Heap 9 {[ 4 := Block 64 8 [None; None; Some (DPtr (Ptr 6 0)); Some (DPtr (Ptr 5 0)); None; None; None; None];
               6 := Block 256 8 cells; 5 := Block 256 8 cells'; 8 := Block 8 8 [None] ]}) [].
Example C98_deque_stays_case :
  let prog := [DPopFront; DPopBack] ++ map DPushFront (replicate 40 5%Z) ++ [DPushBack 3%Z; DBackMut 2%Z] in
  DequeSpec.ends_at prog 3 1 = Some 40 /\
  match d_run 8 8 true prog sx_deque with
  | Some (_, s') => match bind Deque.iter (step_places true (repeat true 41)) s' with
                    | Ok l _ => last l = Some (Some (Ptr 6 31)) | _ => False end
  | None => False
  end.
Proof. by vm_compute. Qed.

(** C98, lists.  No call moves a node: the node of every element that is not popped or
    cleared is the same before and after. *)
Theorem C98_list_stays :
forall (T : Type) (pick : mem T -> Z -> Z -> Z) (chk : bool) (nsz nal obj : Z) (m0 : mem T) (s : lstate unit T) ps xs (prog : list (lcall T)),
  ListSetup m0 obj 24 nsz nal -> honest pick -> list_in_memory nsz nal obj s m0 ps xs ->
  room pick (m_live m0) nsz nal (LinkedListSpec.peak prog (length xs)) -> (Z.of_nat (LinkedListSpec.peak prog (length xs)) < u32_lim)%Z ->
  let '(answers, _, ys) := LinkedListSpec.spec_run prog xs in
  exists s' ps', l_run (DefaultAddrAlloc pick false) chk nsz nal prog s = Some (map Some answers, s') /\
    list_in_memory nsz nal obj s' m0 ps' ys /\
    forall i j p, LinkedListSpec.ends_at prog (length xs) i = Some j -> ps !! i = Some p -> ps' !! j = Some p.
Proof. exact L_C98_list_stays. Qed.
Print Assumptions C98_list_stays.

(** The node of 9 stays at 66000 while 8 before it is popped and two are pushed. *)
Definition sx_list : lstate unit Z :=
  LState 4096 2 tt (Mem (m_live (lx_mem 24) ++ [Region 70000 24 8 true; Region 66000 24 8 true])
    (list_to_map [(4096, 70000); (4104, 66000); (70000, 66000); (70008, 4096); (66000, 4096); (66008, 70000)]%Z)
    (list_to_map [(70000, 8); (66000, 9)]%Z) 0) [].
Example C98_list_stays_case :
  let prog := [LPushFront 7%Z; LPushBack 10%Z; LPopFront; LPopFront] in
  LinkedListSpec.ends_at prog 2 1 = Some 0 /\ (LinkedListSpec.spec_run prog [8; 9]%Z).2 = [9; 10]%Z /\
  match l_run (DefaultAddrAlloc lx_pick false) true 24 8 prog sx_list with
  | Some (_, s') => load_word (l_mem s') 4096 = Some 66000%Z /\ load_val (l_mem s') 66000 24 = Some 9%Z
  | None => False
  end.
Proof. by vm_compute. Qed.

(** C98, hash maps and sets.  Inserting, growing and rehashing never move an entry: as
    long as no call removes the key or clears the table, its entry stays in the same node,
    with its key; only its value may be overwritten. *)
Theorem C98_hash_map_stays :
forall (K V : Type) nsz nal eb chk hash eqb (s : tstate K V) buckets own (prog : list (hcall K V)),
  (0 < nsz)%Z -> layout_ok nsz nal = true -> KeyHash eqb hash -> heap_wf (t_h s) ->
  table_in_memory nsz nal eb hash eqb s buckets own ->
  exists l s' buckets' own', h_run nsz nal eb chk hash eqb prog s = Some (l, s') /\
    table_in_memory nsz nal eb hash eqb s' buckets' own' /\
    forall b k v, (b, (k, v)) ∈ concat buckets -> (forall c, c ∈ prog -> HashTableSpec.keeps eqb c k = true) ->
      exists v' next, (b, (k, v')) ∈ concat buckets' /\ h_blk (t_h s') !! b = Some (Block nsz nal [Some (TNode k v' next)]).
Proof. exact L_C98_hash_map_stays. Qed.
Print Assumptions C98_hash_map_stays.

(** The entries of 3 and 5 stay in blocks 4 and 7 through 40 insertions. *)
Definition sx_table : tstate Z Z :=
  TState (Ptr 9 0) 2 2 2 (Heap 10 {[ 0 := Block (-1) 8 [Some (TSlot Null); Some TOnes];
    9 := Block 24 8 [Some (TSlot Null); Some (TSlot (Ptr 4 0)); Some TOnes];
    4 := Block 24 8 [Some (TNode 3%Z 30%Z (Ptr 7 0))]; 7 := Block 24 8 [Some (TNode 5%Z 50%Z Null)]; 2 := Block 8 8 [Some TOnes] ]}) [].
Example C98_hash_map_stays_case :
  let prog := map (fun i => HInsert (Z.of_nat i) 0%Z) (seq 10 40) ++ [HInsert 3 31; HRemove 12; HLen]%Z in
  forallb (fun c => HashTableSpec.keeps Z.eqb c 3%Z) prog = true /\
  match h_run 24 8 0 true (fun k => k mod 18446744073709551616)%Z Z.eqb prog sx_table with
  | Some (l, s') => last l = Some (Some (HNat 41)) /\ (t_bc s' = 47)%Z /\
      match h_blk (t_h s') !! 4 with Some (Block _ _ [Some (TNode k v _)]) => k = 3%Z /\ v = 31%Z | _ => False end /\
      match h_blk (t_h s') !! 7 with Some (Block _ _ [Some (TNode k v _)]) => k = 5%Z /\ v = 50%Z | _ => False end
  | None => False
  end.
Proof. by vm_compute. Qed.
