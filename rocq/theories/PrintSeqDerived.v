(** Proofs of the properties stated in PrintSeqProps.v. *)
From Verif Require Import Base Heap Alloc AllocContract Vector VectorSpec Print PrintSpec.
From Verif Require Deque DequeSpec AddrMem FixedPoolSpec LinkedList LinkedListSpec.
Local Open Scope nat_scope.

From Verif Require Import PrintProofs.
From Verif Require VectorDerived DequeDerived LinkedListDerived.

Lemma L_C102_vector :
forall (T : Type) (sz al : Z) (chk nd : bool) (clone : T -> option T) (cl : T -> T) (h : heap T)
  (cs : list (call T)) l d xs cap (dbg : T -> text),
  (0 < sz)%Z -> (0 < al)%Z -> (forall x, clone x = Some (cl x)) -> heap_wf h ->
  nd = false \/ forallb is_move cs = true ->
  spec_calls (default_fits sz al) cl cs (SVec [] 0) = (l, d, SVec xs cap) ->
  chk = true \/ forallb (modest sz) cs = true -> no_commas dbg ->
  exists s t, run_calls (DefaultAllocator T) sz al chk nd clone cs (VState new_in tt h []) = Some (l, s) /\
    vector_fmt sz dbg s = Ok t s /\
    option_map spaced_items (between (lit "[") (lit "]") t) = Some (map dbg xs).
Proof.
  intros T sz al chk nd clone cl h cs l d xs cap dbg H1 H2 H3 H4 H5 H6 H7 N.
  destruct (VectorDerived.L_C01_vector_is_a_list T sz al chk nd clone cl h cs l d xs cap H1 H2 H3 H4 H5 H6 H7) as (s & E & S & _).
  exists s. eexists. split; [done|]. unfold vector_fmt, bind. rewrite S. split; [done|]. by apply list_reads.
Qed.

Lemma L_C102_deque :
forall (T : Type) (sz al : Z) (chk : bool) (h0 : heap (Deque.dcell T)) prog l s xs (dbg : T -> text),
  DequeSpec.Setup sz al h0 -> DequeSpec.built sz al chk h0 prog l s -> DequeSpec.contents sz chk s xs -> no_commas dbg ->
  exists t, deque_fmt sz chk dbg s = Ok t s /\
    option_map spaced_items (between (lit "[ ") (lit " ]") t) = Some (map dbg xs).
Proof.
  intros T sz al chk h0 prog l s xs dbg _ _ C N. eexists. unfold deque_fmt, bind. rewrite C. split; [done|].
  rewrite between_ok. cbn [option_map]. by rewrite spaced_ok.
Qed.

Lemma L_C102_list :
forall (T : Type) (pick : AddrMem.mem T -> Z -> Z -> Z) (chk : bool) (nsz nal obj : Z) (n : nat) (m0 : AddrMem.mem T)
  (prog : list (LinkedList.lcall T)) (dbg : T -> text),
  FixedPoolSpec.honest pick -> LinkedListSpec.short prog -> no_commas dbg ->
  (LinkedListSpec.ListSetup m0 obj 24 nsz nal -> exists l s xs t,
     LinkedListSpec.built pick false chk nsz nal obj m0 prog l s /\ LinkedListSpec.explains prog l (LinkedList.l_drops s) [] xs /\
     list_fmt chk nsz dbg s = Ok t s /\ option_map spaced_items (between (lit "[") (lit "]") t) = Some (map dbg xs)) /\
  (forall l s xs,
     (LinkedListSpec.FixedSetup m0 obj nsz nal n /\ LinkedListSpec.fixed_built pick false chk nsz nal n obj m0 prog l s) \/
     (LinkedListSpec.ConformantSetup m0 obj nsz nal n /\ LinkedListSpec.conformant_built pick false chk nsz nal n obj m0 prog l s) ->
     LinkedListSpec.contents chk nsz s xs -> exists t,
     list_fmt chk nsz dbg s = Ok t s /\ option_map spaced_items (between (lit "[") (lit "]") t) = Some (map dbg xs)).
Proof.
  intros T pick chk nsz nal obj n m0 prog dbg H1 H2 N. split.
  - intros H3. destruct (LinkedListDerived.L_C53_list_after_refusals T pick chk nsz nal obj m0 prog H3 H1 H2) as (l & s & xs & B & X & C).
    exists l, s, xs. eexists. split; [done|]. split; [done|]. unfold list_fmt, bind. rewrite C. split; [done|]. by apply list_reads.
  - intros l s xs _ C. eexists. unfold list_fmt, bind. rewrite C. split; [done|]. by apply list_reads.
Qed.

Lemma L_C102_no_two_print_alike :
forall (T : Type) (dbg : T -> text) (xs ys : list T), no_commas dbg ->
  debug_list dbg xs = debug_list dbg ys -> map dbg xs = map dbg ys.
Proof.
  intros T dbg xs ys N E. pose proof (list_reads dbg xs N) as A. pose proof (list_reads dbg ys N) as B. rewrite E, B in A. by injection A.
Qed.

Lemma L_C102_vectors_of_strings_refuted :
forall (sz al : Z) (chk : bool) (h : heap (list Z)) (a b : list Z),
  (0 < sz)%Z -> (0 < al)%Z -> heap_wf h -> default_fits sz al 2 = true ->
  exists s1 s2 t,
    run_calls (DefaultAllocator (list Z)) sz al chk true Some [CPush a; CPush b] (VState new_in tt h []) = Some ([AUnit; AUnit], s1) /\
    run_calls (DefaultAllocator (list Z)) sz al chk true Some [CPush (a ++ lit """, """ ++ b)] (VState new_in tt h []) = Some ([AUnit], s2) /\
    vector_fmt sz quoted s1 = Ok t s1 /\ vector_fmt sz quoted s2 = Ok t s2 /\
    as_slice sz s1 = Ok [a; b] s1 /\ as_slice sz s2 = Ok [a ++ lit """, """ ++ b] s2.
Proof.
  intros sz al chk h a b H1 H2 H3 F.
  assert (F1 : default_fits sz al 1 = true).
  { clear -F H1. unfold default_fits in *. lia. }
  destruct (VectorDerived.L_C01_vector_is_a_list (list Z) sz al chk true Some id h [CPush a; CPush b] [AUnit; AUnit] [] [a; b] 2 H1 H2 ltac:(done) H3 ltac:(by right)) as (s1 & E1 & S1 & _).
  { unfold spec_calls, spec_call, with_room, room_for_one. cbn [items room length app Nat.eqb]. rewrite F1. cbn -[default_fits]. by rewrite F. }
  { right. unfold modest. cbn [forallb named]. unfold default_fits in F1. lia. }
  destruct (VectorDerived.L_C01_vector_is_a_list (list Z) sz al chk true Some id h [CPush (a ++ lit """, """ ++ b)] [AUnit] [] [a ++ lit """, """ ++ b] 1 H1 H2 ltac:(done) H3 ltac:(by right)) as (s2 & E2 & S2 & _).
  { unfold spec_calls, spec_call, with_room, room_for_one. cbn -[default_fits lit]. by rewrite F1. }
  { right. unfold modest. cbn [forallb named]. unfold default_fits in F1. lia. }
  exists s1, s2. eexists. split; [done|]. split; [done|]. unfold vector_fmt, bind. rewrite S1, S2. split; [done|]. split; [|done].
  unfold ret. f_equal. unfold debug_list, quoted, join. cbn [map flat_map]. rewrite !app_nil_r, <- !app_assoc. done.
Qed.
