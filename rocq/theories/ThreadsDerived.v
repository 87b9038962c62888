(** Proofs of the properties stated in ThreadsProps.v. *)
From Verif Require Import Base Threads ThreadsSpec.

Section rules.
Variable given : trait -> nat -> Prop.
Notation has := (has given).

Lemma raw_no tr t : ~ has tr (Raw t).
Proof. intros H. inversion H; subst; [destruct tr; discriminate|discriminate]. Qed.
Lemma by_impl tr t bs : impls tr t = Some bs -> has tr t -> forall b, In b bs -> has tr b.
Proof. intros E H. destruct H; try (destruct tr; discriminate); simplify_eq; done. Qed.
Lemma by_fields tr t fs : impls tr t = None -> fields t = Some fs -> has tr t -> forall f, In f fs -> has tr f.
Proof. intros E F H. destruct H; try discriminate; simplify_eq; done. Qed.
Lemma by_ref tr t : has tr (Ref t) -> has Sync t.
Proof. intros H. inversion H; subst; try done; destruct tr; discriminate. Qed.
Lemma by_refmut tr t : has tr (RefMut t) -> has tr t.
Proof. intros H. inversion H; subst; try done; destruct tr; discriminate. Qed.
Lemma by_elem tr n : has tr (Elem n) -> given tr n.
Proof. intros H. inversion H; subst; try done; destruct tr; discriminate. Qed.

(** Follow every field of every type that is known to have a trait. *)
Ltac each H L :=
  lazymatch type of L with
  | forall b, In b (?x :: ?l) -> _ =>
      let N := fresh "H" in let M := fresh "L" in
      pose proof (L x (or_introl eq_refl)) as N; assert (M : forall b, In b l -> has _ b) by (intros ? ?; apply L; by right); each H M; clear M
  | _ => idtac
  end.
Ltac dig_one :=
  match goal with
  | H : has _ (Raw _) |- _ => by destruct (raw_no _ _ H)
  | H : has _ (Ref _) |- _ => apply by_ref in H
  | H : has _ (RefMut _) |- _ => apply by_refmut in H
  | H : has _ Plain |- _ => clear H
  | H : has ?tr ?t |- _ =>
      let i := eval cbn in (impls tr t) in
      lazymatch i with
      | Some ?bs => let L := fresh "L" in pose proof (by_impl tr t bs eq_refl H) as L; each H L; clear L H
      | None => let f := eval cbn in (fields t) in
                lazymatch f with Some ?fs => let L := fresh "L" in pose proof (by_fields tr t fs eq_refl eq_refl H) as L; each H L; clear L H end
      end
  end.
Ltac dig := repeat (try assumption; dig_one).

Lemma part_ok tr t a u : has tr t -> part t a u -> has (needs tr a) u.
Proof. intros H P. destruct P; cbn [needs]; destruct tr; dig. Qed.

Ltac build :=
  repeat first
  [ assumption
  | apply has_ref | apply has_ref_mut
  | eapply has_impl; [reflexivity|intros ? HIn; cbn in HIn; repeat destruct HIn as [<-|HIn]; try done]
  | eapply has_fields; [reflexivity|reflexivity|intros ? HIn; cbn in HIn; repeat destruct HIn as [<-|HIn]; try done] ].

Lemma stock_ok tr K C : stock K C -> has tr K -> has tr C.
Proof. intros [-> | ->] H; destruct tr; build. Qed.

Lemma portable_ok t : portable t -> forall tr, (forall a n, reach t a n -> given (needs tr a) n) -> has tr t.
Proof.
  intros P.
  assert (SB : forall t u tr, (forall a n, reach t a n -> given (needs tr a) n) -> part t Own u -> forall a n, reach u a n -> given (needs tr a) n).
  { intros ? ? ? HR HP a n R. apply (HR a n). exact (R_part _ Own _ _ _ HP R). }
  induction P; intros tr HR;
    try (match goal with |- has _ (Ref _) => apply has_ref; apply IHP; intros a n R; pose proof (HR _ _ (R_part _ Look _ _ _ (P_ref _) R)) as G; destruct a; exact G end);
    try (match goal with |- has _ (Elem ?n) => apply has_elem; exact (HR _ _ (R_elem n)) end);
    repeat match goal with
    | IH : forall tr, (forall a n, reach ?u a n -> _) -> has tr ?u |- _ =>
        first [specialize (IH tr (SB _ u tr HR ltac:(constructor)))
              |match type of HR with
               | forall a n, reach (VectorMapVacant ?K ?V ?A ?C) a n -> _ => specialize (IH tr (SB _ u tr (SB _ (VectorMap K V A C) tr HR ltac:(constructor)) ltac:(constructor)))
               | forall a n, reach (VectorMapEntry ?K ?V ?A ?C) a n -> _ => specialize (IH tr (SB _ u tr (SB _ (VectorMap K V A C) tr HR ltac:(constructor)) ltac:(constructor)))
               end]
    end;
    try match goal with HS : stock ?K ?C, HK : has _ ?K |- _ => pose proof (stock_ok tr K C HS HK) end;
    clear SB; destruct tr; build.
Qed.

Lemma stranded_no t : stranded t -> forall tr, ~ has tr t.
Proof. intros ST tr H. destruct ST, tr; dig. Qed.
End rules.

Lemma L_C110_only_what_may_be_sent :
forall (given : trait -> nat -> Prop) (tr : trait) (t : ty) (a : access) (n : nat),
  has given tr t -> reach t a n -> given (needs tr a) n.
Proof.
  intros given tr t a n H R. revert tr H. induction R as [n|t a u b n P R IH]; intros tr H; [by apply by_elem|].
  pose proof (IH _ (part_ok _ _ _ _ _ H P)) as G. by destruct a, b, tr.
Qed.

Lemma L_C110_exactly_what_may_be_sent :
forall (given : trait -> nat -> Prop) (tr : trait) (t : ty),
  portable t -> (has given tr t <-> forall a n, reach t a n -> given (needs tr a) n).
Proof.
  intros given tr t P. split; [intros H a n R; by eapply L_C110_only_what_may_be_sent|]. by apply portable_ok.
Qed.

Lemma L_C111_stranded_refuted :
(forall (given : trait -> nat -> Prop) (tr : trait) (t : ty), stranded t -> ~ has given tr t) /\
(exists (given : trait -> nat -> Prop) (t : ty), stranded t /\ (forall tr a n, reach t a n -> given (needs tr a) n) /\ forall tr, ~ has given tr t).
Proof.
  split; [intros given tr t ST; by apply stranded_no|].
  exists (fun _ _ => True), (List (Elem 0) DefaultAllocator). split; [constructor|]. split; [done|]. intros tr. apply stranded_no. constructor.
Qed.
