(** Property theorems.  Each is closed by the lemma of the same content in
    ThreadsDerived.v; examples show the hypotheses can be met. *)
From Verif Require Import Base Threads ThreadsSpec.
From Verif Require Import ThreadsDerived.

(** If a type may be sent to another thread ([Send]) or shared between threads ([Sync]),
    then so may every type of the caller's in it, at every depth: what the thread owns or
    may change must be [Send] when sent, everything must be [Sync] when shared, and what
    lies behind a shared reference must be [Sync] in both cases.  For any choice of which
    of the caller's types are [Send] and [Sync]. *)
Theorem C110_only_what_may_be_sent :
forall (given : trait -> nat -> Prop) (tr : trait) (t : ty) (a : access) (n : nat),
  has given tr t -> reach t a n -> given (needs tr a) n.
Proof. exact L_C110_only_what_may_be_sent. Qed.
Print Assumptions C110_only_what_may_be_sent.

(** A hash map from strings to vectors of type 0, with an allocator of type 1, is [Send]
    where both are, and holds values of both. *)
Example send_hash_map : let t := HashMap (String DefaultAllocator) (Vector (Elem 0) DefaultAllocator) (Elem 1) (DefaultHash Plain) (EqualTo Plain) in
  has (fun tr n => tr = Send) Send t /\ reach t Own 0 /\ reach t Own 1.
Proof.
  intros t. split; [|split].
  - apply has_impl with (bs := [String DefaultAllocator; Vector (Elem 0) DefaultAllocator; Elem 1]); [done|].
    assert (D : has (fun tr n => tr = Send) Send DefaultAllocator).
    { eapply has_fields; [done|done|]. intros f [<-|[]]. by eapply has_fields. }
    intros b [<-|[<-|[<-|[]]]].
    + eapply has_impl; [done|]. by intros b [<-|[]].
    + eapply has_impl; [done|]. intros b [<-|[<-|[]]]; [by constructor|done].
    + by constructor.
  - apply (R_part t Own (Vector (Elem 0) DefaultAllocator) Own 0); [constructor|]. apply (R_part _ Own (Elem 0) Own 0); constructor.
  - apply (R_part t Own (Elem 1) Own 1); constructor.
Qed.
(** Vectors of references: sending one needs the type behind the references to be [Sync]. *)
Example send_references : reach (Vector (Ref (Elem 0)) DefaultAllocator) Look 0 /\ ~ has (fun tr n => tr = Send) Send (Vector (Ref (Elem 0)) DefaultAllocator).
Proof.
  assert (R : reach (Vector (Ref (Elem 0)) DefaultAllocator) Look 0).
  { apply (R_part _ Own (Ref (Elem 0)) Look 0); [constructor|]. apply (R_part _ Look (Elem 0) Own 0); constructor. }
  split; [done|]. intros H. by pose proof (L_C110_only_what_may_be_sent _ _ _ _ _ H R).
Qed.

(** For vectors, strings, fixed vectors, vector maps and their entries, deques and their
    consuming iterators, queues, hash maps, hash sets and maps, in any nesting, this is
    also enough: no more is asked than that. *)
Theorem C110_exactly_what_may_be_sent :
forall (given : trait -> nat -> Prop) (tr : trait) (t : ty),
  portable t -> (has given tr t <-> forall a n, reach t a n -> given (needs tr a) n).
Proof. exact L_C110_exactly_what_may_be_sent. Qed.
Print Assumptions C110_exactly_what_may_be_sent.

(** A map of deques is [Sync] in every setting where its key and element types are. *)
Example sync_map : forall given : trait -> nat -> Prop, given Sync 0 -> given Sync 1 ->
  has given Sync (Map (Elem 0) (Deque (Elem 1) DefaultAllocator) DefaultAllocator (Less (Elem 0))).
Proof.
  intros given G0 G1. apply L_C110_exactly_what_may_be_sent.
  - apply Q_map_stock; repeat constructor.
  - intros a n R. assert (n = 0 \/ n = 1) as [-> | ->].
    + inversion R as [|? ? ? ? ? P R1]; subst. inversion P; subst.
      * inversion R1 as [|? ? ? ? ? P2 ?]; subst; [by left|inversion P2].
      * inversion R1 as [|? ? ? ? ? P2 R2]; subst. inversion P2; subst; inversion R2 as [|? ? ? ? ? P3 ?]; subst; try inversion P3. by right.
      * inversion R1 as [|? ? ? ? ? P2 ?]; subst; inversion P2.
      * inversion R1 as [|? ? ? ? ? P2 ?]; subst; inversion P2.
    + by destruct a.
    + by destruct a.
Qed.

(** Lists, fixed lists, sets, fixed maps, the consuming iterator of vectors, the entries of
    hash maps and the iterators of deques, lists, hash and ordered maps are never [Send] or
    [Sync], whatever they hold; so there are types all of whose parts may be sent and
    shared, but which may not. *)
Theorem C111_stranded_refuted :
(forall (given : trait -> nat -> Prop) (tr : trait) (t : ty), stranded t -> ~ has given tr t) /\
(exists (given : trait -> nat -> Prop) (t : ty), stranded t /\ (forall tr a n, reach t a n -> given (needs tr a) n) /\ forall tr, ~ has given tr t).
Proof. exact L_C111_stranded_refuted. Qed.
Print Assumptions C111_stranded_refuted.

(** [List<u32>] with the default allocator is not [Send], although both are. *)
Example list_of_plain : ~ has (fun _ _ => True) Send (List Plain DefaultAllocator) /\ has (fun _ _ => True) Send Plain /\ has (fun _ _ => True) Send DefaultAllocator.
Proof.
  split; [apply L_C111_stranded_refuted; constructor|]. split; [by eapply has_fields|].
  eapply has_fields; [done|done|]. intros f [<-|[]]. by eapply has_fields.
Qed.
