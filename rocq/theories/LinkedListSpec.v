(** Independent specification of the doubly linked list: a list. *)
From Verif Require Import Base Alloc AddrMem FixedPool FixedPoolSpec LinkedList.
Local Open Scope Z_scope.

Section spec.
Context {T : Type}.

(** The answer, the elements dropped, the list after. *)
Definition spec_call (c : lcall T) (xs : list T) : lanswer T * list T * list T :=
  match c with
  | LPushBack x => (AUnit, [], xs ++ [x])
  | LPushFront x => (AUnit, [], x :: xs)
  | LPopBack => (AOpt (last xs), [], removelast xs)
  | LPopFront => (AOpt (head xs), [], tail xs)
  | LFront => (AOpt (head xs), [], xs)
  | LBack => (AOpt (last xs), [], xs)
  | LFrontMut y =>
    match xs with
    | [] => (ABool false, [y], xs)
    | x :: xs' => (ABool true, [x], y :: xs')
    end
  | LBackMut y =>
    match last xs with
    | None => (ABool false, [y], xs)
    | Some x => (ABool true, [x], removelast xs ++ [y])
    end
  | LClear => (AUnit, xs, [])
  | LLen | LSize => (ANum (Z.of_nat (length xs)), [], xs)
  | LIsEmpty | LEmpty => (ABool (match xs with [] => true | _ => false end), [], xs)
  | LExtend ys => (AUnit, [], xs ++ ys)
  | LIter_ => (AList xs, [], xs)
  | LIterMut_ g => (AList xs, [], map g xs)
  end.

Fixpoint spec_run (cs : list (lcall T)) (xs : list T) : list (lanswer T) * list T * list T :=
  match cs with
  | [] => ([], [], xs)
  | c :: cs' =>
    let '(a, d, xs1) := spec_call c xs in
    let '(l, d', xs2) := spec_run cs' xs1 in
    (a :: l, d ++ d', xs2)
  end.

(** The elements a call hands over; those it is to add to the list. *)
Definition given (c : lcall T) : list T :=
  match c with LPushBack x | LPushFront x | LFrontMut x | LBackMut x => [x] | LExtend xs => xs | _ => [] end.
Definition pushed (c : lcall T) : list T :=
  match c with LPushBack x | LPushFront x => [x] | LExtend xs => xs | _ => [] end.
(** The element a call hands out. *)
Definition taken (c : lcall T) (a : option (lanswer T)) : list T :=
  match c, a with
  | (LPopBack | LPopFront), Some (AOpt (Some x)) => [x]
  | _, _ => []
  end.
Fixpoint all_taken (cs : list (lcall T)) (l : list (option (lanswer T))) : list T :=
  match cs, l with c :: cs', a :: l' => taken c a ++ all_taken cs' l' | _, _ => [] end.
(** Calls that do not rewrite elements in place through a closure. *)
Definition no_rewrite (c : lcall T) : bool := match c with LIterMut_ _ => false | _ => true end.

(** Calls that may give memory back. *)
Definition frees (c : lcall T) : bool :=
  match c with LPopBack | LPopFront | LClear => true | _ => false end.

(** When the allocator returns null, a push panics: the call has then added only the
    first [k] of its elements, and drops the others.  [explains cs l d xs xs'] says
    that the answers [l] of the calls [cs] and the elements [d] dropped are those of a
    list going from [xs] to [xs'], up to such panics. *)
Inductive explains : list (lcall T) -> list (option (lanswer T)) -> list T -> list T -> list T -> Prop :=
| ex_nil xs : explains [] [] [] xs xs
| ex_answer c cs a l d d' xs xs1 xs2 :
    spec_call c xs = (a, d, xs1) -> explains cs l d' xs1 xs2 ->
    explains (c :: cs) (Some a :: l) (d ++ d') xs xs2
| ex_refuse c cs k l d xs xs' :
    (k < length (pushed c))%nat -> explains cs l d (xs ++ take k (pushed c)) xs' ->
    explains (c :: cs) (None :: l) (drop k (pushed c) ++ d) xs xs'.

(** The largest length on the way from length [n], when no push fails. *)
Definition len_call (c : lcall T) (n : nat) : nat :=
  match c with
  | LPopBack | LPopFront => n - 1
  | LClear => 0
  | _ => n + length (pushed c)
  end.
Fixpoint peak (cs : list (lcall T)) (n : nat) : nat :=
  match cs with
  | [] => n
  | c :: cs' => Nat.max n (peak cs' (len_call c n))
  end.
(** Where the [i]-th of [n] elements is after a call and after a program, if it was
    not taken out. *)
Definition moves_to (c : lcall T) (n i : nat) : option nat :=
  match c with
  | LPushFront _ => Some (S i)
  | LPopFront => match i with O => None | S i' => Some i' end
  | LPopBack => if (S i =? n)%nat then None else Some i
  | LClear => None
  | _ => Some i
  end.
Fixpoint ends_at (cs : list (lcall T)) (n i : nat) : option nat :=
  match cs with
  | [] => Some i
  | c :: cs' => match moves_to c n i with Some j => ends_at cs' (len_call c n) j | None => None end
  end.
(** The length fits its field. *)
Definition short (cs : list (lcall T)) : Prop := Z.of_nat (peak cs 0) < u32_lim.

End spec.

(** Following the next pointers from [x] visits the nodes [ps] and comes to [e];
    following the prev pointers from [e] visits them in reverse and comes to [x]. *)
Fixpoint follow_next {T} (m : mem T) (x : Z) (ps : list Z) (e : Z) : Prop :=
  match ps with
  | [] => load_word m x = Some e
  | p :: ps' => load_word m x = Some p /\ follow_next m p ps' e
  end.
Fixpoint follow_prev {T} (m : mem T) (x : Z) (ps : list Z) (e : Z) : Prop :=
  match ps with
  | [] => load_word m (x + 8) = Some e
  | p :: ps' => load_word m (x + 8) = Some p /\ follow_prev m p ps' e
  end.

(** ** Settings *)

(** A node layout; 16 times the node size still is a valid request (this excludes
    elements of 2^59 bytes and more). *)
Definition list_layout (nsz nal : Z) : Prop :=
  node_layout nsz nal /\ 16 <= nsz /\ layout_ok (nsz * 16) 8 = true.

(** The memory before the list is created: the object of [bytes] at [obj] is
    accessible, aligned, and not null; regions are not empty. *)
Record ListSetup {T} (m : mem T) (obj bytes nsz nal : Z) : Prop := {
  ls_node : list_layout nsz nal;
  ls_obj : 0 < obj /\ obj + bytes < usize_lim;
  ls_align : (8 | obj);
  ls_mem : accessible m obj bytes = true;
  ls_wf : forall r, r ∈ m_live m -> 0 < r_bytes r
}.

(** The allocator finds room for a node when, besides what was live at the start,
    fewer than [k] nodes are live. *)
Definition room {T} (pick : mem T -> Z -> Z -> Z) (live0 : list region) (sz al : Z) (k : nat) : Prop :=
  forall m L, (length L < k)%nat -> m_live m ≡ₚ live0 ++ map (fun p => Region p sz al true) L -> pick m sz al <> 0.

(** An honest allocator that finds room: it takes the first of [n] places, [stride]
    bytes apart from [start] on, that is free. *)
Definition fits {T} (m : mem T) (bytes align p : Z) : bool :=
  (0 <? p) && (p + bytes <? usize_lim) && (p mod align =? 0) && forallb (fun r => negb (meets p bytes r)) (m_live m).
Definition fit_pick {T} (start stride : Z) (n : nat) (m : mem T) (bytes align : Z) : Z :=
  if (0 <? align) then
    match List.find (fits m bytes align) (map (fun i => start + Z.of_nat i * stride) (seq 0 n)) with Some p => p | None => 0 end
  else 0.

(** A list over the default allocator, built by a program. *)
Definition built {T} (pick : mem T -> Z -> Z -> Z) (strict chk : bool) (nsz nal obj : Z) (m0 : mem T)
    (prog : list (lcall T)) (l : list (option (lanswer T))) (s : lstate unit T) : Prop :=
  exists s0, list_new obj tt m0 = Ok tt s0 /\ l_run (DefaultAddrAlloc pick strict) chk nsz nal prog s0 = Some (l, s).

(** A fixed list for [n] nodes at address [obj], and a conformant one, built by a
    program. *)
Definition fixed_built {T} (pick : mem T -> Z -> Z -> Z) (strict chk : bool) (nsz nal : Z) (n : nat) (obj : Z) (m0 : mem T)
    (prog : list (lcall T)) (l : list (option (lanswer T))) (s : lstate (opool unit) T) : Prop :=
  exists s0, fixed_list_new chk nsz nal (Z.of_nat n) obj m0 = Ok tt s0 /\
    l_run (FixedListAlloc pick strict chk nsz nal) chk nsz nal prog s0 = Some (l, s).
Definition conformant_built {T} (pick : mem T -> Z -> Z -> Z) (strict chk : bool) (nsz nal : Z) (n : nat) (obj : Z) (m0 : mem T)
    (prog : list (lcall T)) (l : list (option (lanswer T))) (s : lstate (opool unit) T) : Prop :=
  exists s0, conformant_new chk nsz nal (Z.of_nat n) obj m0 = Ok tt s0 /\
    l_run (FixedListAlloc pick strict chk nsz nal) chk nsz nal prog s0 = Some (l, s).

(** The object of a fixed list in memory, at the alignment of its type. *)
Definition FixedSetup {T} (m : mem T) (obj nsz nal : Z) (n : nat) : Prop :=
  ListSetup m obj (fixed_list_bytes nsz nal (Z.of_nat n)) nsz nal /\ (nal | obj).
Definition ConformantSetup {T} (m : mem T) (obj nsz nal : Z) (n : nat) : Prop :=
  ListSetup m obj (conformant_bytes nsz (Z.of_nat n)) nsz nal.

(** What a list answers, drops and contains after a program, starting empty. *)
Definition as_a_list {A T} (chk : bool) (nsz : Z) (prog : list (lcall T)) (l : list (option (lanswer T))) (s : lstate A T) : Prop :=
  exists answers xs, spec_run prog [] = (answers, l_drops s, xs) /\ l = map Some answers /\ iter_all chk nsz s = Ok xs s.

(** What iteration yields. *)
Definition contents {A T} (chk : bool) (nsz : Z) (s : lstate A T) (xs : list T) : Prop :=
  iter_all chk nsz s = Ok xs s.

(** The nodes of a list with elements [xs]: next leads through them in order and back
    to the sentinel, prev in reverse, they are distinct, and whoever follows a next
    pointer comes back by the prev pointer. *)
Definition ring_of {A T} (nsz obj : Z) (s : lstate A T) (ps : list Z) (xs : list T) : Prop :=
  follow_next (l_mem s) obj ps obj /\ follow_prev (l_mem s) obj (rev ps) obj /\ NoDup (obj :: ps) /\
  Forall2 (fun p x => load_val (l_mem s) p nsz = Some x) ps xs /\
  forall a, a ∈ obj :: ps -> exists b, b ∈ obj :: ps /\ load_word (l_mem s) a = Some b /\ load_word (l_mem s) (b + 8) = Some a.

(** [k] calls of [next] on a fresh iterator yield the first elements, then nothing;
    the size hint before and after is the number of elements left. *)
Definition iterates {A T} (chk : bool) (nsz : Z) (s : lstate A T) (xs : list T) : Prop :=
  forall k, exists i i',
    iter s = Ok i s /\ size_hint i = (Z.of_nat (length xs), Some (Z.of_nat (length xs))) /\
    iter_take chk nsz k i s = Ok (map Some (take k xs) ++ replicate (k - length xs) None, i') s /\
    size_hint i' = (Z.of_nat (length xs - k), Some (Z.of_nat (length xs - k))).

(** The nodes among [ps] within [len] bytes from [base]. *)
Definition inside (base len : Z) (ps : list Z) : list Z := List.filter (fun p => (base <=? p) && (p <? base + len)) ps.

(** For examples: elements of 8 bytes, so nodes of 24; an object at 4096; room for ten
    nodes at 65536. *)
Definition lx_mem (bytes : Z) : mem Z := Mem [Region 4096 bytes 8 false] ∅ ∅ 0.
Definition lx_pick : mem Z -> Z -> Z -> Z := fit_pick 65536 64 10.
Definition lx_state (strict : bool) (prog : list (lcall Z)) : option (list (option (lanswer Z)) * lstate unit Z) :=
  match list_new 4096 tt (lx_mem 24) with
  | Ok _ s0 => l_run (DefaultAddrAlloc lx_pick strict) true 24 8 prog s0
  | _ => None
  end.
Definition lx_fixed (strict : bool) (pick : mem Z -> Z -> Z -> Z) (n : nat) (prog : list (lcall Z)) : option (list (option (lanswer Z)) * lstate (opool unit) Z) :=
  match fixed_list_new true 24 8 (Z.of_nat n) 4096 (lx_mem (fixed_list_bytes 24 8 (Z.of_nat n))) with
  | Ok _ s0 => l_run (FixedListAlloc pick strict true 24 8) true 24 8 prog s0
  | _ => None
  end.
