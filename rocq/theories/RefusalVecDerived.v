(** Proofs of the properties stated in RefusalVecProps.v. *)
From Verif Require Import Base Heap Alloc AllocContract Vector VectorSpec Refusal RefusalSpec.
Local Open Scope nat_scope.

From Verif Require Import HeapLemmas VectorProofs VectorMore.

Definition RefusingSpec {C} (sz al : Z) (Hsz : (0 < sz)%Z) (Hal : (0 < al)%Z) (r : Z -> bool) :
  AllocSpec (Refusing (C := C) (fun _ => r)) sz al.
Proof.
  refine {|
    as_fits := granted sz al r;
    as_pool := fun _ => None;
    as_layout := fun n bk =>
      bk_bytes bk = (Z.of_nat n * sz)%Z /\ bk_align bk = al /\ default_fits sz al n = true /\
      length (bk_cells bk) = n
  |}.
  - intros n E. unfold granted, default_fits in E. apply andb_prop in E as [E _]. lia.
  - intros a h n Hn F. unfold granted, default_fits in F. apply andb_prop in F as [F F2]. apply negb_true_iff in F2.
    exists (Block (Z.of_nat n * sz) al (replicate n None)), [].
    cbn. rewrite F2. unfold default_alloc, layout_ok.
    destruct (Z.eqb_spec (Z.of_nat n * sz) 0); [nia|]. rewrite F.
    cbn. rewrite Z.div_mul by lia. rewrite Nat2Z.id, app_nil_r.
    unfold default_fits. repeat split; [done|]. apply replicate_length.
  - intros a h n Hn F B. unfold granted, default_fits in F. cbn. destruct (r _); [done|]. cbn in F. rewrite andb_true_r in F.
    unfold default_alloc, layout_ok. destruct (Z.eqb_spec (Z.of_nat n * sz) 0); [nia|]. by rewrite F.
  - intros a h b n bk _ E (EB & EA & F & _). cbn. unfold default_free, layout_ok.
    unfold default_fits in F. rewrite F. cbn. rewrite E, EB, EA, !Z.eqb_refl. done.
  - done.
  - intros n bk cs (? & ? & ? & <-) L. done.
Defined.

Section vec.
Context {T : Type}.
Variables (sz al : Z) (chk nd : bool) (clone : T -> option T) (cl : T -> T).
Hypothesis Hsz : (0 < sz)%Z.
Hypothesis Hal : (0 < al)%Z.
Hypothesis Hclone : forall x, clone x = Some (cl x).
Local Notation AS := (DefaultSpec (C := T) sz al Hsz Hal).
Lemma Rep_r r s xs cap : Rep _ sz al (RefusingSpec sz al Hsz Hal r) s xs cap <-> Rep _ sz al AS s xs cap.
Proof using. done. Qed.
Lemma v_run_in_ok cs : forall s xs cap l d xs' cap', Rep _ sz al AS s xs cap -> nd = false \/ forallb (fun c => is_move (fst c)) cs = true ->
  chk = true \/ forallb (fun c => modest sz (fst c)) cs = true ->
  bears_calls sz al cl cs (SVec xs cap) = (l, d, SVec xs' cap') ->
  exists s', v_run_in sz al chk nd clone cs s = Some (l, s') /\ Post _ sz al nd AS s s' xs' cap' d.
Proof using Hclone.
  induction cs as [|[c r] cs IH]; intros s xs cap l d xs' cap' R M K E; cbn [bears_calls v_run_in forallb fst] in *.
  - simplify_eq. exists s. split; [done|]. by apply Post_refl.
  - destruct (VectorSpec.spec_call _ _ _ _) as [[a d1] [xs1 cap1]] eqn:E1. destruct (bears_calls _ _ _ _ _) as [[l2 d2] [xs2 cap2]] eqn:E2. simplify_eq.
    destruct (step_modest _ sz al chk nd Hsz (RefusingSpec sz al Hsz Hal r) clone cl Hclone c s xs cap a d1 xs1 cap1 (proj2 (Rep_r r _ _ _) R)) as (s1 & Es & P1); [|exact E1| |].
    { destruct M as [->|M]; [by left|right]. by apply andb_prop in M as [? _]. }
    { destruct K as [->|K]; [by left|right]. by apply andb_prop in K as [? _]. }
    destruct (IH s1 xs1 cap1 l2 d2 xs' cap' (proj1 (Rep_r r _ _ _) (proj1 P1))) as (s2 & Er & P2); [| |exact E2|].
    { destruct M as [->|M]; [by left|right]. by apply andb_prop in M as [_ ?]. }
    { destruct K as [->|K]; [by left|right]. by apply andb_prop in K as [_ ?]. }
    exists s2. rewrite Es, Er. split; [done|]. exact (Post_trans _ sz al nd AS _ _ _ _ _ _ _ _ _ P1 P2).
Qed.
End vec.

Lemma L_C104_vector :
forall (T : Type) (sz al : Z) (chk nd : bool) (clone : T -> option T) (cl : T -> T) (h : heap T)
  (cs : list (call T * (Z -> bool))) l d xs cap,
  (0 < sz)%Z -> (0 < al)%Z -> (forall x, clone x = Some (cl x)) -> heap_wf h ->
  nd = false \/ forallb (fun c => is_move (fst c)) cs = true ->
  chk = true \/ forallb (fun c => modest sz (fst c)) cs = true ->
  bears_calls sz al cl cs (SVec [] 0) = (l, d, SVec xs cap) ->
  exists s s', v_run_in sz al chk nd clone cs (VState Vector.new_in tt h []) = Some (l, s) /\
    as_slice sz s = Ok xs s /\ capacity sz s = Ok cap s /\ st_drops s = (if nd then d else []) /\
    clear (DefaultAllocator T) sz al chk nd s = Ok tt s' /\ st_drops s' = (if nd then d ++ xs else []) /\ h_blk (st_h s') = h_blk h.
Proof.
  intros T sz al chk nd clone cl h cs l d xs cap Hsz Hal Hcl HW M K E.
  destruct (v_run_in_ok sz al chk nd clone cl Hsz Hal Hcl cs (VState Vector.new_in tt h []) [] 0 l d xs cap) as (s & RN & R & F & A & D); [by apply Rep_new|done|done|done|].
  destruct (clear_ok _ sz al chk nd Hsz (DefaultSpec sz al Hsz Hal) s xs cap R) as (s' & C & R' & F' & A' & D').
  exists s, s'. split; [done|]. split; [by eapply as_slice_ok|]. split; [by eapply capacity_ok|]. split; [done|]. split; [done|].
  split; [rewrite D', D; by destruct nd|].
  destruct R' as (_ & _ & [(V & _)|(b & bk & j & _ & L & _)]); [|lia].
  rewrite F in F'. unfold frame, own_block in F'. rewrite V in F'. exact F'.
Qed.
