(** Property theorems.  Each is closed by the lemma of the same content in
    StringDerived.v; examples show the hypotheses can be met. *)
From Verif Require Import Base Heap HeapLemmas Alloc AllocContract Vector VectorSpec Hash String StringSpec.
From Verif Require Import StringDerived.

(** The empty world over the heap [h], default allocator. *)
Notation start h := (World [] tt h []).
Notation s_wrun' := (s_wrun (DefaultAllocator Z)).
Notation s_wstep' := (s_wstep (DefaultAllocator Z)).

(** What a user can see of string [i]: its bytes, its capacity, and the byte
    its end pointer points at. *)
Definition seen (w : @world unit Z) (i : nat) : option sstr :=
  match w_vecs w !! i with
  | Some v =>
    let s := VState v (w_a w) (w_h w) (w_drops w) in
    match s_bytes s, capacity 1 s with
    | Ok bs _, Ok k _ => Some (SStr bs k (hload (w_h w) (v_end v)))
    | _, _ => None
    end
  | None => None
  end.

(** The calls meant to leave string [i] terminated. *)
Definition writes (w : @world unit Z) (o : sop) (i : nat) : Prop :=
  match o with
  | OFrom _ => i = length (w_vecs w)
  | OClone j => i = length (w_vecs w) /\ exists t, seen w j = Some t /\ sp_bytes t <> []
  | OCall j (SPush _) | OCall j (SInsert _ _) | OCall j (SAssign _) => i = j
  | OCall j SPop => i = j /\ exists t, seen w j = Some t /\ 0 < sp_room t
  | _ => False
  end.

(** Strings a call names. *)
Definition names (o : sop) : list nat :=
  match o with OClone i => [i] | OEq i j => [i; j] | OCall i _ => [i] | _ => [] end.

(** Calls that leave the byte behind the contents alone or terminated. *)
Definition keeps_nul (o : sop) : bool :=
  match o with
  | OWithCapacity _ | OCall _ (SRemove _) | OCall _ (SReserve _) => false
  | _ => true
  end.

Definition boundary (bs : list Z) (i : nat) : Prop := utf8 (take i bs) /\ utf8 (drop i bs).

(** Calls whose arguments respect UTF-8; of a char the code keeps the lowest byte. *)
Definition utf8_call (c : scall) (bs : list Z) : Prop :=
  match c with
  | SPush c => (c mod 256 < 128)%Z
  | SInsert i c => (c mod 256 < 128)%Z /\ ((i <= length bs)%nat -> boundary bs i)
  | SPop => forall b, last bs = Some b -> (b < 128)%Z
  | SRemove i => forall b, bs !! i = Some b -> (b < 128)%Z
  | SAssign buf => utf8 buf
  | _ => True
  end.
Definition utf8_op (w : @world unit Z) (o : sop) : Prop :=
  match o with
  | OFrom buf => utf8 buf
  | OCall i c => forall t, seen w i = Some t -> utf8_call c (sp_bytes t)
  | _ => True
  end.

(** C14. From an empty world over any heap, every sequence of string calls
    answers exactly what the byte-list specification answers, and afterwards
    each string shows exactly the specified bytes, capacity and end byte. *)
Theorem C14_string_is_a_byte_list :
forall (chk : bool) (h : heap Z) (os : list sop) l ts,
  heap_wf h -> spec_sops string_fits os [] = Some (l, ts) -> chk = true \/ forallb o_modest os = true ->
  exists w, s_wrun' chk os (start h) = Some (l, w) /\ length (w_vecs w) = length ts /\
    forall i, seen w i = ts !! i.
Proof. exact L_C14_string_is_a_byte_list. Qed.
Print Assumptions C14_string_is_a_byte_list.

Example C14_example :
  option_map fst (s_wrun' true
    [OFrom [104; 101; 121]%Z; OCall 0 (SPush 33); OCall 0 (SInsert 0 62); OCall 0 (SRemove 2); OCall 0 SBytes;
     OClone 0; OCall 1 SPop; OCall 1 (SPush 8364); OEq 0 1; OCall 1 SBytes; OCall 0 (SInsert 9 65); OCall 0 (SRemove 9)]
    (start (Heap 0 ∅))) =
  Some [SUnit; SUnit; SUnit; SChar (Some 101%Z); SByteList [62; 104; 121; 33]%Z; SUnit; SChar (Some 33%Z); SUnit;
        SBool false; SByteList [62; 104; 121; 172]%Z; SPanic; SChar None].
Proof. vm_compute. reflexivity. Qed.

(** C15. In every reachable world, a successful [from], [assign], [push],
    [insert], [pop] on an allocated string or [clone] of a non-empty string
    leaves a zero byte behind the contents, and touches no other string. *)
Theorem C15_writers_terminate :
forall (chk : bool) (h : heap Z) (os : list sop) l w o a w' i,
  heap_wf h -> chk = true \/ forallb o_modest (o :: os) = true -> s_wrun' chk os (start h) = Some (l, w) ->
  writes w o i -> s_wstep' chk o w = Some (a, w') -> a <> SPanic ->
  (exists t, seen w' i = Some t /\ sp_mark t = Some 0%Z) /\
  (forall j, j <> i -> seen w' j = seen w j).
Proof. exact L_C15_writers_terminate. Qed.
Print Assumptions C15_writers_terminate.

Example C15_example :
  match s_wrun' true [OFrom [104; 105]%Z; OWithCapacity 3; OCall 0 (SRemove 0); OCall 0 (SReserve 2)] (start (Heap 0 ∅)) with
  | Some (_, w) =>
    option_map sp_mark (seen w 0) = Some None /\
    match s_wstep' true (OCall 0 (SPush 33)) w with
    | Some (a, w') => a = SUnit /\ seen w' 0 = Some (SStr [105; 33]%Z 6 (Some 0%Z)) /\ seen w' 1 = seen w 1
    | None => False
    end
  | None => False
  end.
Proof. vm_compute. repeat split. Qed.

(** C16, the part that holds: as long as [remove], [reserve] and
    [with_capacity] are not used, every string that owns a buffer is
    terminated.  (Full claim: the same with every call; refuted below.) *)
Theorem C16_terminated_without_remove_and_reserve_partial :
forall (chk : bool) (h : heap Z) (os : list sop) l w i t,
  heap_wf h -> chk = true \/ forallb o_modest os = true -> s_wrun' chk os (start h) = Some (l, w) ->
  forallb keeps_nul os = true -> seen w i = Some t -> 0 < sp_room t -> sp_mark t = Some 0%Z.
Proof. exact L_C16_terminated_without_remove_and_reserve_partial. Qed.
Print Assumptions C16_terminated_without_remove_and_reserve_partial.

(** C16 refuted.  In every reachable world: removing a character in range
    leaves the old last byte where the terminator should be, and a successful
    [reserve] or [with_capacity] leaves that byte uninitialised. *)
Theorem C16_remove_and_reserve_unterminate_refuted :
(forall (chk : bool) (h : heap Z) (os : list sop) l w i t,
  heap_wf h -> chk = true \/ forallb o_modest os = true -> s_wrun' chk os (start h) = Some (l, w) -> seen w i = Some t ->
  (forall k b w', sp_bytes t !! k = Some b -> s_wstep' chk (OCall i (SRemove k)) w = Some (SChar (Some b), w') ->
     option_map sp_mark (seen w' i) = Some (last (sp_bytes t))) /\
  (forall n w', chk = true \/ s_modest (SReserve n) = true -> s_wstep' chk (OCall i (SReserve n)) w = Some (SUnit, w') ->
     option_map sp_mark (seen w' i) = Some None) /\
  (forall n w', chk = true \/ o_modest (OWithCapacity n) = true -> s_wstep' chk (OWithCapacity n) w = Some (SUnit, w') ->
     option_map sp_mark (seen w' (length (w_vecs w))) = Some None)) /\
(exists (os : list sop) l w t, s_wrun' true os (start (Heap 0 ∅)) = Some (l, w) /\ seen w 0 = Some t /\
   sp_mark t <> Some 0%Z).
Proof. exact L_C16_remove_and_reserve_unterminate_refuted. Qed.
Print Assumptions C16_remove_and_reserve_unterminate_refuted.

(** C17. No sequence of string calls is undefined behaviour (only naming a
    string that does not exist stops the model); every buffer is one byte
    larger than the capacity; dropping all strings restores the heap. *)
Theorem C17_terminator_stays_inside :
forall (chk : bool) (h : heap Z) (os : list sop) l w, heap_wf h -> chk = true \/ forallb o_modest os = true -> s_wrun' chk os (start h) = Some (l, w) ->
  (forall o, (forall i, i ∈ names o -> i < length (w_vecs w)) -> chk = true \/ o_modest o = true -> s_wstep' chk o w <> None) /\
  (forall i v t, w_vecs w !! i = Some v -> seen w i = Some t -> 0 < sp_room t ->
     exists b bk, v_begin v = Ptr b 0 /\ h_blk (w_h w) !! b = Some bk /\ h_blk h !! b = None /\
       v_end v = Ptr b (length (sp_bytes t)) /\ length (sp_bytes t) <= sp_room t /\
       bk_bytes bk = (Z.of_nat (sp_room t) + 1)%Z /\ length (bk_cells bk) = sp_room t + 1) /\
  (exists l' w', s_wrun' chk (os ++ map (fun i => OCall i SDrop) (seq 0 (length (w_vecs w)))) (start h) = Some (l', w') /\
     h_blk (w_h w') = h_blk h).
Proof. exact L_C17_terminator_stays_inside. Qed.
Print Assumptions C17_terminator_stays_inside.

Example C17_example :
  match s_wrun' true [OFrom [104; 105]%Z; OWithCapacity 3; OCall 1 (SPush 104); OClone 0; OCall 2 (SPush 33)] (start (Heap 0 ∅)) with
  | Some (_, w) => map (fun p => (p.1, bk_bytes p.2, bk_cells p.2)) (map_to_list (h_blk (w_h w))) =
      [(0%nat, 4, [Some 104; Some 105; Some 0; Some 0]); (1%nat, 4, [Some 104; Some 0; None; Some 0]); (3%nat, 5, [Some 104; Some 105; Some 33; Some 0; Some 0])]%Z
  | None => False
  end.
Proof. vm_compute. repeat split. Qed.

(** C18 refuted: a successful [assign] keeps the old bytes in front, so on any
    non-empty string the contents afterwards are not the assigned text. *)
Theorem C18_assign_appends_refuted :
(forall (chk : bool) (h : heap Z) (os : list sop) l w i t buf w',
  heap_wf h -> chk = true \/ forallb o_modest (OCall i (SAssign buf) :: os) = true -> s_wrun' chk os (start h) = Some (l, w) -> seen w i = Some t ->
  s_wstep' chk (OCall i (SAssign buf)) w = Some (SUnit, w') ->
  option_map sp_bytes (seen w' i) = Some (sp_bytes t ++ buf) /\
  (sp_bytes t <> [] -> option_map sp_bytes (seen w' i) <> Some buf)) /\
(exists (os : list sop) l w t, s_wrun' true (os ++ [OCall 0 (SAssign [98]%Z)]) (start (Heap 0 ∅)) = Some (l, w) /\
   ~ In SPanic l /\ seen w 0 = Some t /\ sp_bytes t <> [98]%Z).
Proof. exact L_C18_assign_appends_refuted. Qed.
Print Assumptions C18_assign_appends_refuted.

(** C18, the part that holds: assigning to an empty string.  (Full claim: to
    any string; refuted above.) *)
Theorem C18_assign_to_empty_partial :
forall (chk : bool) (h : heap Z) (os : list sop) l w i t buf w',
  heap_wf h -> chk = true \/ forallb o_modest (OCall i (SAssign buf) :: os) = true -> s_wrun' chk os (start h) = Some (l, w) -> seen w i = Some t -> sp_bytes t = [] ->
  s_wstep' chk (OCall i (SAssign buf)) w = Some (SUnit, w') ->
  option_map sp_bytes (seen w' i) = Some buf.
Proof. exact L_C18_assign_to_empty_partial. Qed.
Print Assumptions C18_assign_to_empty_partial.

(** C19, the part that holds: pushing a char and popping gives back its low
    byte and the old contents, so for chars below 256 the same char.  (Full
    claim: for every char; refuted below.) *)
Theorem C19_push_pop_partial :
forall (chk : bool) (h : heap Z) (os : list sop) l w i t c w1 a w2,
  heap_wf h -> chk = true \/ forallb o_modest os = true -> s_wrun' chk os (start h) = Some (l, w) -> seen w i = Some t ->
  s_wstep' chk (OCall i (SPush c)) w = Some (SUnit, w1) ->
  s_wstep' chk (OCall i SPop) w1 = Some (a, w2) ->
  a = SChar (Some (c mod 256)%Z) /\ ((0 <= c < 256)%Z -> a = SChar (Some c)) /\
  option_map sp_bytes (seen w2 i) = Some (sp_bytes t) /\
  (forall j, j <> i -> seen w2 j = seen w j).
Proof. exact L_C19_push_pop_partial. Qed.
Print Assumptions C19_push_pop_partial.

(** C19 refuted: no char of 256 or above comes back. *)
Theorem C19_push_pop_refuted :
(forall (chk : bool) (h : heap Z) (os : list sop) l w i t c w1 a w2,
  heap_wf h -> chk = true \/ forallb o_modest os = true -> s_wrun' chk os (start h) = Some (l, w) -> seen w i = Some t ->
  s_wstep' chk (OCall i (SPush c)) w = Some (SUnit, w1) ->
  s_wstep' chk (OCall i SPop) w1 = Some (a, w2) -> (256 <= c)%Z -> a <> SChar (Some c)) /\
scalar 8364 /\
option_map fst (s_wrun' true [ONew; OCall 0 (SPush 8364); OCall 0 SPop] (start (Heap 0 ∅))) =
  Some [SUnit; SUnit; SChar (Some 172%Z)].
Proof. exact L_C19_push_pop_refuted. Qed.
Print Assumptions C19_push_pop_refuted.

(** C20, exactly the part that holds.  Let all strings be valid UTF-8.  They all are
    after a call if the call adds only bytes below 128 at character boundaries or
    valid text, and takes out only bytes below 128; and if the call does not panic,
    only then.  (Full claim: for every call; refuted below.) *)
Theorem C20_ascii_calls_keep_utf8_partial :
forall (chk : bool) (h : heap Z) (os : list sop) l w o a w',
  heap_wf h -> chk = true \/ forallb o_modest (o :: os) = true -> s_wrun' chk os (start h) = Some (l, w) ->
  (forall i t, seen w i = Some t -> utf8 (sp_bytes t)) ->
  s_wstep' chk o w = Some (a, w') ->
  (utf8_op w o -> forall i t, seen w' i = Some t -> utf8 (sp_bytes t)) /\
  (a <> SPanic -> (forall i t, seen w' i = Some t -> utf8 (sp_bytes t)) -> utf8_op w o).
Proof. exact L_C20_ascii_calls_keep_utf8_partial. Qed.
Print Assumptions C20_ascii_calls_keep_utf8_partial.

Example C20_example :
  match s_wrun' true [OFrom [195; 169; 97]%Z] (start (Heap 0 ∅)) with
  | Some (_, w) => option_map sp_bytes (seen w 0) = Some [195; 169; 97]%Z
  | None => False
  end /\ utf8 [195; 169; 97]%Z /\ boundary [195; 169; 97]%Z 2 /\ utf8_call (SRemove 2) [195; 169; 97]%Z.
Proof.
  split; [by vm_compute|]. assert (S : scalar 233 /\ scalar 97) by (unfold scalar; lia). destruct S.
  split; [|split].
  - exists [233; 97]%Z. by repeat constructor.
  - split; [exists [233]%Z | exists [97]%Z]; by repeat constructor.
  - cbn. intros b [= <-]. lia.
Qed.

(** C20 refuted: pushing a non-ASCII Latin-1 char, or removing one byte of a
    longer character, exposes invalid UTF-8 as [str]. *)
Theorem C20_utf8_refuted :
exists (os1 os2 : list sop) l1 w1 t1 l2 w2 t2,
  s_wrun' true (ONew :: os1) (start (Heap 0 ∅)) = Some (l1, w1) /\ os1 = [OCall 0 (SPush 233)] /\
  seen w1 0 = Some t1 /\ ~ utf8 (sp_bytes t1) /\
  s_wrun' true (OFrom (utf8_encode 233) :: os2) (start (Heap 0 ∅)) = Some (l2, w2) /\ os2 = [OCall 0 (SRemove 0)] /\
  seen w2 0 = Some t2 /\ ~ utf8 (sp_bytes t2) /\ scalar 233.
Proof. exact L_C20_utf8_refuted. Qed.
Print Assumptions C20_utf8_refuted.

(** C21. In every reachable world [==] compares the bytes, the hash is the
    FNV-1 hash of the bytes, and so equal strings hash equally. *)
Theorem C21_equality_and_hash :
forall (chk : bool) (h : heap Z) (os : list sop) l w i j t u,
  heap_wf h -> chk = true \/ forallb o_modest os = true -> s_wrun' chk os (start h) = Some (l, w) -> seen w i = Some t -> seen w j = Some u ->
  exists e hi hj,
    s_wstep' chk (OEq i j) w = Some (SBool e, w) /\ (e = true <-> sp_bytes t = sp_bytes u) /\
    option_map fst (s_wstep' chk (OCall i SHash) w) = Some (SHashed hi) /\
    option_map fst (s_wstep' chk (OCall j SHash) w) = Some (SHashed hj) /\
    hi = fnv1 (sp_bytes t) /\ hj = fnv1 (sp_bytes u) /\ (e = true -> hi = hj).
Proof. exact L_C21_equality_and_hash. Qed.
Print Assumptions C21_equality_and_hash.

Example C21_example :
  option_map fst (s_wrun' true [OFrom [97; 98]%Z; OWithCapacity 9; OCall 1 (SPush 97); OCall 1 (SPush 98); OEq 0 1; OCall 0 SHash; OCall 1 SHash]
    (start (Heap 0 ∅))) =
  Some [SUnit; SUnit; SUnit; SUnit; SBool true; SHashed 1886858552; SHashed 1886858552]%Z.
Proof. vm_compute. reflexivity. Qed.

(** C76. In every reachable world, a terminated string without zero bytes read
    through its begin pointer as a C string gives exactly its bytes. *)
Theorem C76_c_string_view :
forall (chk : bool) (h : heap Z) (os : list sop) l w i v t,
  heap_wf h -> chk = true \/ forallb o_modest os = true -> s_wrun' chk os (start h) = Some (l, w) -> w_vecs w !! i = Some v -> seen w i = Some t ->
  sp_mark t = Some 0%Z -> ~ In 0%Z (sp_bytes t) ->
  c_str (w_h w) (v_begin v) (S (length (sp_bytes t))) = Some (sp_bytes t).
Proof. exact L_C76_c_string_view. Qed.
Print Assumptions C76_c_string_view.

Example C76_example :
  match s_wrun' true [OFrom [104; 105]%Z; OCall 0 SPop; OCall 0 (SPush 33)] (start (Heap 0 ∅)) with
  | Some (_, w) => match w_vecs w !! 0 with
                   | Some v => seen w 0 = Some (SStr [104; 33]%Z 3 (Some 0%Z)) /\ c_str (w_h w) (v_begin v) 3 = Some [104; 33]%Z
                   | None => False
                   end
  | None => False
  end.
Proof. vm_compute. repeat split. Qed.
