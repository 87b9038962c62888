(** The representation invariant of the deque and the effect of each function. *)
From Verif Require Import Base Heap Alloc HeapLemmas Deque DequeSpec.

Section proofs.
Context {T : Type}.
Variables sz al : Z.
Variable chk : bool.
Hypothesis Hsz : (0 < sz)%Z.
Notation n := (subarray_size sz).
Hypothesis Hlay : layout_ok (Z.of_nat n * sz) al = true.

Notation dstate := (dstate T).
Notation dhp := (heap (dcell T)).

Definition with_h (s : dstate) (h : dhp) : dstate := DState (d_arr s) (d_size s) (d_b s) (d_e s) h (d_drops s).

Lemma n_pos : 0 < n.
Proof. unfold subarray_size. repeat case_match; lia. Qed.
Lemma n_ne : n <> 0.
Proof. pose proof n_pos. lia. Qed.
Lemma n_range : 4 <= n <= 64.
Proof. unfold subarray_size. repeat case_match; lia. Qed.

(** ** Memory *)
Lemma hload_hset (h : dhp) b bk b' o :
  hload (hset h b bk) (Ptr b' o) = if decide (b' = b) then mjoin (bk_cells bk !! o) else hload h (Ptr b' o).
Proof.
  unfold hload, cells_of. cbn. case_decide as E.
  - subst. by rewrite lookup_insert.
  - by rewrite lookup_insert_ne by done.
Qed.

Lemma hload_same (h h' : dhp) b o : h_blk h' !! b = h_blk h !! b -> hload h' (Ptr b o) = hload h (Ptr b o).
Proof. intros E. unfold hload, cells_of. by rewrite E. Qed.

Lemma store_ok (s : dstate) b o c bk : h_blk (d_h s) !! b = Some bk -> o < length (bk_cells bk) ->
  store (Ptr b o) c s = Ok tt (with_h s (hset (d_h s) b (Block (bk_bytes bk) (bk_align bk) (<[o := Some c]> (bk_cells bk))))).
Proof.
  intros E L. unfold store, bind, gets, hstore. rewrite (hput_ok _ _ _ _ _ E) by (cbn; lia).
  cbn [or_ub length app]. unfold ret. cbv beta iota.
  replace (o + 1) with (S o) by lia. rewrite <- insert_take_drop by done. reflexivity.
Qed.

Lemma read_ptr_ok (s : dstate) p q : hload (d_h s) p = Some (DPtr q) -> read_ptr p s = Ok q s.
Proof. intros E. unfold read_ptr, bind, gets. by rewrite E. Qed.
Lemma read_elem_ok (s : dstate) p x : hload (d_h s) p = Some (DElem x) -> read_elem p s = Ok x s.
Proof. intros E. unfold read_elem, bind, gets. by rewrite E. Qed.
Lemma add_ok (s : dstate) b o k bk : h_blk (d_h s) !! b = Some bk -> o + k <= length (bk_cells bk) ->
  add (Ptr b o) k s = Ok (Ptr b (o + k)) s.
Proof. intros E L. unfold add, bind, gets. by rewrite (hadd_ok _ _ _ _ _ E L). Qed.
Lemma sub_ok (s : dstate) b o k bk : h_blk (d_h s) !! b = Some bk -> k <= o ->
  sub (Ptr b o) k s = Ok (Ptr b (o - k)) s.
Proof. intros E L. unfold sub, bind, gets. by rewrite (hsub_ok _ _ _ _ _ E L). Qed.
Lemma usize_ok {S} (r : Z) (s : S) : (0 <= r < usize_lim)%Z -> usize chk r s = Ok (Z.to_nat r) s.
Proof. intros R. unfold usize. rewrite (proj2 (andb_true_iff _ _)) by lia. done. Qed.

(** Quotient and remainder by the size of an array. *)
Definition dv (j : nat) : nat := j / n.
Definition md (j : nat) : nat := j mod n.
Lemma dv_md j : j = n * dv j + md j.
Proof. apply Nat.div_mod, n_ne. Qed.
Lemma md_lt j : md j < n.
Proof. apply Nat.mod_upper_bound, n_ne. Qed.
Lemma dv_lt j k : j < n * k -> dv j < k.
Proof. intros H. apply Nat.div_lt_upper_bound; [exact n_ne|done]. Qed.
Lemma dv_gt j : j < n * S (dv j).
Proof. exact (Nat.mul_succ_div_gt j n n_ne). Qed.
Lemma dvmd_unique j q r : r < n -> j = n * q + r -> dv j = q /\ md j = r.
Proof. intros L E. split; symmetry; [by eapply Nat.div_unique|by eapply Nat.mod_unique]. Qed.

(** ** The arrays *)
Definition loc (subs : list nat) (j : nat) : ptr := Ptr (subs !!! (dv j)) (md j).

Definition subblk (h : dhp) (b : nat) : Prop :=
  exists cs, h_blk h !! b = Some (Block (Z.of_nat n * sz) al cs) /\ length cs = n.

(** Blocks of the deque: the pointer array [pa], the arrays of elements [subs] in the
    slots from [start] on, and blocks [leak] it lost. *)
Record Shape (h0 h : dhp) (size : Z) (pa start : nat) (subs leak : list nat) : Prop := {
  sh_start_wf : heap_wf h0;
  sh_wf : heap_wf h;
  sh_nodup : NoDup (pa :: subs ++ leak);
  sh_own : forall b, b ∈ pa :: subs ++ leak -> h_blk h0 !! b = None /\ is_Some (h_blk h !! b);
  sh_next : h_next h0 <= h_next h;
  sh_frame : forall b, b ∉ pa :: subs ++ leak -> h_blk h !! b = h_blk h0 !! b;
  sh_size : exists j, (0 <= j)%Z /\ size = (10 * 2 ^ j - 2)%Z;
  sh_u32 : (size < u32_lim)%Z;
  sh_pa : exists cs, h_blk h !! pa = Some (Block (size * 8) 8 cs) /\ length cs = Z.to_nat size;
  sh_start : start + length subs <= Z.to_nat size;
  sh_slots : forall i b, subs !! i = Some b -> hload h (Ptr pa (start + i)) = Some (DPtr (Ptr b 0));
  sh_subs : forall b, b ∈ subs -> subblk h b;
}.

Definition dit_at (pa start : nat) (subs : list nat) (j : nat) : dit :=
  DIt (loc subs j) (Ptr (subs !!! (dv j)) 0) (Ptr (subs !!! (dv j)) n) (Ptr pa (start + dv j)).

Record DRep (h0 : dhp) (s : dstate) (pa start : nat) (subs leak : list nat) (bo : nat) (xs : list T) : Prop := {
  dr_shape : Shape h0 (d_h s) (d_size s) pa start subs leak;
  dr_arr : d_arr s = Ptr pa 0;
  dr_bo : bo < n;
  dr_len : S (dv (bo + length xs)) = length subs;
  dr_b : d_b s = dit_at pa start subs bo;
  dr_e : d_e s = dit_at pa start subs (bo + length xs);
  dr_elems : forall i x, xs !! i = Some x -> hload (d_h s) (loc subs (bo + i)) = Some (DElem x)
}.

Lemma size_big size : (exists j, (0 <= j)%Z /\ size = (10 * 2 ^ j - 2)%Z) -> (8 <= size)%Z.
Proof.
  intros (j & Hj & ->). pose proof (Z.pow_le_mono_r 2 0 j ltac:(lia) Hj). lia.
Qed.

Lemma sub_lookup (subs : list nat) i : i < length subs -> subs !! i = Some (subs !!! i).
Proof. intros L. by apply list_lookup_lookup_total_lt. Qed.


Section shape.
Context {h0 h : dhp} {size : Z} {pa start : nat} {subs leak : list nat}.
Hypothesis SH : Shape h0 h size pa start subs leak.

Lemma sh_sub_in i : i < length subs -> subs !!! i ∈ subs.
Proof. intros L. eapply elem_of_list_lookup_2. by apply sub_lookup. Qed.

Lemma sh_loc j : j < n * length subs -> exists cs, h_blk h !! (subs !!! (dv j)) = Some (Block (Z.of_nat n * sz) al cs) /\ length cs = n.
Proof. intros L. apply (sh_subs _ _ _ _ _ _ _ SH), sh_sub_in, dv_lt, L. Qed.

Lemma sh_pa_nin : pa ∉ subs.
Proof. pose proof (sh_nodup _ _ _ _ _ _ _ SH) as ND. apply NoDup_cons in ND as [N _]. rewrite elem_of_app in N. tauto. Qed.

Lemma sh_subs_nodup : NoDup subs.
Proof. pose proof (sh_nodup _ _ _ _ _ _ _ SH) as ND. apply NoDup_cons in ND as [_ N]. by apply NoDup_app in N as [? _]. Qed.

Lemma loc_inj i j : i < n * length subs -> j < n * length subs -> loc subs i = loc subs j -> i = j.
Proof.
  intros Li Lj [= E M]. pose proof (dv_lt _ _ Li). pose proof (dv_lt _ _ Lj).
  assert (dv i = dv j) as D.
  { eapply NoDup_lookup; [exact sh_subs_nodup|by apply sub_lookup|]. rewrite E. by apply sub_lookup. }
  rewrite (dv_md i), (dv_md j). congruence.
Qed.

Lemma k_bound : length subs <= Z.to_nat size.
Proof. pose proof (sh_start _ _ _ _ _ _ _ SH). lia. Qed.

(** Slots. *)
Lemma slot_read i : i < length subs -> hload h (Ptr pa (start + i)) = Some (DPtr (Ptr (subs !!! i) 0)).
Proof. intros L. apply (sh_slots _ _ _ _ _ _ _ SH). by apply sub_lookup. Qed.

Lemma next_bound : length subs <= h_next h.
Proof.
  assert (forall l m, NoDup l -> (forall b, b ∈ l -> b < m) -> length l <= m) as B.
  { clear. intros l m ND B. rewrite <- (seq_length m 0). apply NoDup_incl_length.
    - by apply NoDup_ListNoDup.
    - intros b Hb. apply in_seq. apply elem_of_list_In in Hb. specialize (B b Hb). lia. }
  apply B; [exact sh_subs_nodup|]. intros b Hb. apply (sh_wf _ _ _ _ _ _ _ SH).
  destruct (sh_subs _ _ _ _ _ _ _ SH b Hb) as (cs & E & _). eauto.
Qed.

(** Writing an element. *)
Lemma store_elem (s : dstate) j x : d_h s = h -> j < n * length subs ->
  exists h', store (loc subs j) (DElem x) s = Ok tt (with_h s h') /\ Shape h0 h' size pa start subs leak /\
    hload h' (loc subs j) = Some (DElem x) /\
    forall i, i < n * length subs -> i <> j -> hload h' (loc subs i) = hload h (loc subs i).
Proof.
  intros EH L. destruct (sh_loc j L) as (cs & E & Lc).
  pose proof (md_lt j) as M.
  pose proof (sh_sub_in _ (dv_lt _ _ L)) as IN.
  set (b := subs !!! (dv j)) in *.
  set (bk' := Block (Z.of_nat n * sz) al (<[md j := Some (DElem x)]> cs)).
  exists (hset h b bk'). split; [|split; [|split]].
  - unfold loc. fold b. rewrite <- EH in E. rewrite (store_ok s _ _ _ _ E) by (cbn; lia). by rewrite EH.
  - assert (forall b', is_Some (h_blk (hset h b bk') !! b') <-> is_Some (h_blk h !! b')) as LV.
    { intros b'. cbn. destruct (decide (b' = b)) as [->|N].
      - rewrite lookup_insert, E. split; eauto.
      - by rewrite lookup_insert_ne by done. }
    assert (pa <> b) as NP by (intros Q; apply sh_pa_nin; by rewrite Q).
    destruct SH. split; try done.
    + apply wf_hset; eauto.
    + intros b' Hb. rewrite LV. auto.
    + intros b' Hb. cbn. rewrite lookup_insert_ne; [auto|]. intros ->. apply Hb. right. apply elem_of_app. by left.
    + cbn. rewrite lookup_insert_ne by done. done.
    + intros i b' Hi. rewrite hload_hset. rewrite decide_False by done. auto.
    + intros b' Hb. unfold subblk. cbn. destruct (decide (b' = b)) as [->|N].
      * rewrite lookup_insert. eexists. split; [done|]. by rewrite insert_length.
      * rewrite lookup_insert_ne by done. by apply sh_subs0.
  - unfold loc. rewrite hload_hset, decide_True by done. cbn. rewrite list_lookup_insert by lia. done.
  - intros i Li N. unfold loc. rewrite hload_hset. case_decide as Q; [|done].
    cbn. rewrite list_lookup_insert_ne.
    + unfold hload. rewrite Q, (cells_of_some _ _ _ E). done.
    + intros M'. apply N, loc_inj; [done|done|]. unfold loc. fold b. congruence.
Qed.
End shape.

(** ** Consequences of the representation *)
Section rep.
Context {h0 : dhp} {s : dstate} {pa start : nat} {subs leak : list nat} {bo : nat} {xs : list T}.
Hypothesis R : DRep h0 s pa start subs leak bo xs.

Lemma R_bound : bo + length xs < n * length subs.
Proof.
  rewrite <- (dr_len _ _ _ _ _ _ _ _ R). apply dv_gt.
Qed.
Lemma R_k : 0 < length subs.
Proof. rewrite <- (dr_len _ _ _ _ _ _ _ _ R). apply Nat.lt_0_succ. Qed.
Lemma R_pos i : i <= length xs -> bo + i < n * length subs.
Proof. pose proof R_bound. lia. Qed.

Lemma R_read i x : xs !! i = Some x -> read_elem (loc subs (bo + i)) s = Ok x s.
Proof. intros H. apply read_elem_ok. by apply (dr_elems _ _ _ _ _ _ _ _ R). Qed.
End rep.

(** ** Changes of the arrays *)
Notation subspec := (Z.of_nat n * sz)%Z.

Lemma sub_bytes : Z.to_nat (subspec / sz) = n.
Proof. rewrite Z.div_mul by lia. lia. Qed.

Definition freshblk : block (dcell T) := Block subspec al (replicate n None).

Lemma allocate_subarray_ok (s : dstate) :
  allocate_subarray sz al s = Ok (Ptr (h_next (d_h s)) 0) (with_h s (halloc (d_h s) freshblk)).
Proof.
  unfold allocate_subarray, allocate, default_alloc. pose proof n_pos.
  assert (subspec =? 0 = false)%Z as -> by nia. rewrite Hlay. cbn [fst snd].
  unfold with_h, freshblk. by rewrite sub_bytes.
Qed.

Lemma free_subarray_ok (s : dstate) b : subblk (d_h s) b ->
  free_subarray sz al (Ptr b 0) s = Ok tt (with_h s (hdel (d_h s) b)).
Proof.
  intros (cs & E & _). unfold free_subarray, deallocate, default_free. rewrite Hlay. cbn [snd hfree]. rewrite E.
  cbn [bk_bytes bk_align]. by rewrite !Z.eqb_refl.
Qed.

Lemma wf_above (h h' : dhp) : heap_wf h -> h_next h <= h_next h' -> h_blk h !! h_next h' = None.
Proof. intros W L. destruct (h_blk h !! h_next h') eqn:Q; [|done]. pose proof (W _ (ex_intro _ _ Q)). lia. Qed.

Lemma shape_fresh h0 h size pa start subs leak b : Shape h0 h size pa start subs leak -> b ∈ pa :: subs ++ leak -> b <> h_next h.
Proof.
  intros SH Hb ->. destruct (sh_own _ _ _ _ _ _ _ SH _ Hb) as [_ L]. apply (sh_wf _ _ _ _ _ _ _ SH) in L. lia.
Qed.

Lemma halloc_other (h : dhp) bk b : b <> h_next h -> h_blk (halloc h bk) !! b = h_blk h !! b.
Proof. intros N. cbn. by rewrite lookup_insert_ne. Qed.
Lemma hset_other (h : dhp) b' bk b : b <> b' -> h_blk (hset h b' bk) !! b = h_blk h !! b.
Proof. intros N. cbn. by rewrite lookup_insert_ne. Qed.
Lemma hdel_other (h : dhp) b' b : b <> b' -> h_blk (hdel h b') !! b = h_blk h !! b.
Proof. intros N. cbn. by rewrite lookup_delete_ne. Qed.

(** A new array of elements in the slot [slot]. *)
Lemma shape_add h0 h size pa start subs leak subs' start' slot : Shape h0 h size pa start subs leak ->
  subs' ≡ₚ h_next h :: subs -> slot < Z.to_nat size -> start' + length subs' <= Z.to_nat size ->
  (forall i b, subs' !! i = Some b -> (b = h_next h /\ start' + i = slot) \/
     (start' + i <> slot /\ exists i', subs !! i' = Some b /\ start' + i = start + i')) ->
  forall s : dstate, d_h s = halloc h freshblk ->
  exists h', store (Ptr pa slot) (DPtr (Ptr (h_next h) 0)) s = Ok tt (with_h s h') /\
    Shape h0 h' size pa start' subs' leak /\
    forall b o, b ∈ subs -> hload h' (Ptr b o) = hload h (Ptr b o).
Proof.
  intros SH P Ls Lst SL s EH.
  assert (forall b, b ∈ pa :: subs ++ leak -> b <> h_next h) as NF by (intros b; by eapply shape_fresh).
  assert (pa <> h_next h) as NP by (apply NF; left).
  assert (forall b, b ∈ subs -> b <> pa) as NPS by (intros b Hb ->; by apply (sh_pa_nin SH)).
  destruct (sh_pa _ _ _ _ _ _ _ SH) as (cs & EP & LP).
  assert (h_blk (d_h s) !! pa = Some (Block (size * 8) 8 cs)) as EP' by (rewrite EH, halloc_other by done; done).
  set (h' := hset (halloc h freshblk) pa (Block (size * 8) 8 (<[slot := Some (DPtr (Ptr (h_next h) 0))]> cs))).
  exists h'.
  assert (forall b, b <> pa -> b <> h_next h -> h_blk h' !! b = h_blk h !! b) as OT.
  { intros b N1 N2. unfold h'. rewrite hset_other, halloc_other; done. }
  assert (h_blk h' !! h_next h = Some freshblk) as EN.
  { unfold h'. rewrite hset_other by done. cbn. by rewrite lookup_insert. }
  assert (h_blk h' !! pa = Some (Block (size * 8) 8 (<[slot := Some (DPtr (Ptr (h_next h) 0))]> cs))) as EPA.
  { unfold h'. cbn. by rewrite lookup_insert. }
  assert (pa :: subs' ++ leak ≡ₚ h_next h :: pa :: subs ++ leak) as PM.
  { rewrite P. cbn. by rewrite Permutation_swap. }
  split; [|split].
  - rewrite (store_ok s _ _ _ _ EP') by (cbn; lia). by rewrite EH.
  - destruct SH. split.
    + done.
    + unfold h'. apply wf_hset; [by apply wf_halloc|]. rewrite halloc_other by done. eauto.
    + rewrite PM. apply NoDup_cons. split; [|done]. intros Hb. by apply (NF _ Hb).
    + intros b Hb. rewrite PM in Hb. apply elem_of_cons in Hb as [->|Hb]; [split; [by eapply wf_above|eauto]|].
      destruct (sh_own0 b Hb) as [L1 L2]. split; [done|]. destruct (decide (b = pa)) as [->|N]; [eauto|].
      rewrite OT; [done|done|]. by apply NF.
    + cbn. lia.
    + intros b Hb. rewrite PM, not_elem_of_cons in Hb. destruct Hb as [N Hb]. rewrite OT; [auto| |done].
      intros ->. apply Hb. left.
    + done.
    + done.
    + rewrite EPA. eexists. split; [done|]. by rewrite insert_length.
    + done.
    + intros i b Hi. unfold hload. rewrite (cells_of_some _ _ _ EPA). cbn [bk_cells].
      destruct (SL i b Hi) as [[-> ->]|[N (i' & Hi' & EQ)]].
      * rewrite list_lookup_insert by lia. done.
      * rewrite EQ. rewrite list_lookup_insert_ne by lia. specialize (sh_slots0 i' b Hi'). unfold hload in sh_slots0.
        by rewrite (cells_of_some _ _ _ EP) in sh_slots0.
    + intros b Hb. unfold subblk. rewrite P in Hb. apply elem_of_cons in Hb as [->|Hb].
      * rewrite EN. eexists. split; [done|]. by rewrite replicate_length.
      * rewrite OT; [by apply sh_subs0|by apply NPS|]. apply NF. right. apply elem_of_app. by left.
  - intros b o Hb. apply hload_same. apply OT; [by apply NPS|]. apply NF. right. apply elem_of_app. by left.
Qed.

(** An array of elements is freed. *)
Lemma shape_del h0 h size pa start subs leak subs' start' b0 : Shape h0 h size pa start subs leak ->
  subs ≡ₚ b0 :: subs' -> start' + length subs' <= Z.to_nat size ->
  (forall i b, subs' !! i = Some b -> exists i', subs !! i' = Some b /\ start' + i = start + i') ->
  Shape h0 (hdel h b0) size pa start' subs' leak /\
    forall b o, b ∈ subs' -> hload (hdel h b0) (Ptr b o) = hload h (Ptr b o).
Proof.
  intros SH P Lst SL.
  assert (pa :: subs ++ leak ≡ₚ b0 :: pa :: subs' ++ leak) as PM.
  { rewrite P. cbn. by rewrite Permutation_swap. }
  pose proof (sh_nodup _ _ _ _ _ _ _ SH) as ND. rewrite PM in ND. apply NoDup_cons in ND as [N0 ND].
  assert (forall b, b ∈ pa :: subs' ++ leak -> b <> b0) as NE by (intros b Hb ->; done).
  assert (forall b, b ∈ subs' -> b <> b0) as NE' by (intros b Hb; apply NE; right; apply elem_of_app; by left).
  assert (pa <> b0) as NP by (apply NE; left).
  assert (h_blk h0 !! b0 = None) as FR by (apply (sh_own _ _ _ _ _ _ _ SH); rewrite PM; left).
  split.
  - destruct SH. split.
    + done.
    + by apply wf_hdel.
    + done.
    + intros b Hb. rewrite hdel_other by (by apply NE). apply sh_own0. rewrite PM. by right.
    + done.
    + intros b Hb. destruct (decide (b = b0)) as [->|N].
      * cbn. rewrite lookup_delete. by symmetry.
      * rewrite hdel_other by done. apply sh_frame0. rewrite PM. apply not_elem_of_cons. done.
    + done.
    + done.
    + rewrite hdel_other by done. done.
    + done.
    + intros i b Hi. rewrite (hload_same h) by (by apply hdel_other). destruct (SL i b Hi) as (i' & Hi' & ->). auto.
    + intros b Hb. unfold subblk. rewrite hdel_other by auto. apply sh_subs0. rewrite P. by right.
  - intros b o Hb. apply hload_same. apply hdel_other. auto.
Qed.

(** The pointer array changes. *)
Lemma shape_ptrs h0 h size pa start subs leak start' cs' : Shape h0 h size pa start subs leak ->
  length cs' = Z.to_nat size -> start' + length subs <= Z.to_nat size ->
  (forall i b, subs !! i = Some b -> cs' !! (start' + i) = Some (Some (DPtr (Ptr b 0)))) ->
  Shape h0 (hset h pa (Block (size * 8) 8 cs')) size pa start' subs leak /\
    forall b o, b ∈ subs -> hload (hset h pa (Block (size * 8) 8 cs')) (Ptr b o) = hload h (Ptr b o).
Proof.
  intros SH L Lst SL. destruct (sh_pa _ _ _ _ _ _ _ SH) as (cs & EP & LP).
  assert (forall b, b ∈ subs -> b <> pa) as NPS by (intros b Hb ->; by apply (sh_pa_nin SH)).
  split.
  - destruct SH. split; try done.
    + apply wf_hset; eauto.
    + intros b Hb. destruct (sh_own0 b Hb) as [L1 L2]. split; [done|]. destruct (decide (b = pa)) as [->|N].
      * cbn. rewrite lookup_insert. eauto.
      * by rewrite hset_other by done.
    + intros b Hb. rewrite hset_other; [auto|]. intros ->. apply Hb. left.
    + cbn. rewrite lookup_insert. eauto.
    + intros i b Hi. rewrite hload_hset, decide_True by done. cbn. by rewrite (SL i b Hi).
    + intros b Hb. unfold subblk. rewrite hset_other by auto. by apply sh_subs0.
  - intros b o Hb. apply hload_same, hset_other. auto.
Qed.

(** A larger pointer array replaces the old one. *)
Lemma shape_grow h0 h size pa start subs leak size' start' cs' : Shape h0 h size pa start subs leak ->
  (exists j, (0 <= j)%Z /\ size' = (10 * 2 ^ j - 2)%Z) -> (size' < u32_lim)%Z ->
  length cs' = Z.to_nat size' -> start' + length subs <= Z.to_nat size' ->
  (forall i b, subs !! i = Some b -> cs' !! (start' + i) = Some (Some (DPtr (Ptr b 0)))) ->
  let h' := hdel (hset (halloc h (Block (size' * 8) 8 (replicate (Z.to_nat size') None))) (h_next h) (Block (size' * 8) 8 cs')) pa in
  Shape h0 h' size' (h_next h) start' subs leak /\
    forall b o, b ∈ subs -> hload h' (Ptr b o) = hload h (Ptr b o).
Proof.
  intros SH SZ U L Lst SL h'.
  assert (forall b, b ∈ pa :: subs ++ leak -> b <> h_next h) as NF by (intros b; by eapply shape_fresh).
  assert (pa <> h_next h) as NP by (apply NF; left).
  pose proof (sh_nodup _ _ _ _ _ _ _ SH) as ND. apply NoDup_cons in ND as [NI ND].
  assert (forall b, b ∈ subs ++ leak -> b <> pa) as NPS by (intros b Hb ->; done).
  assert (forall b, b <> pa -> b <> h_next h -> h_blk h' !! b = h_blk h !! b) as OT.
  { intros b N1 N2. unfold h'. rewrite hdel_other, hset_other, halloc_other; done. }
  assert (h_blk h' !! h_next h = Some (Block (size' * 8) 8 cs')) as EN.
  { unfold h'. rewrite hdel_other by done. cbn. by rewrite lookup_insert. }
  assert (h_blk h0 !! pa = None) as FR by (apply (sh_own _ _ _ _ _ _ _ SH); left).
  assert (forall b, b ∈ subs -> b ∈ subs ++ leak) as IA by (intros b Hb; apply elem_of_app; by left).
  assert (forall b, b ∈ subs ++ leak -> h_blk h' !! b = h_blk h !! b) as OS.
  { intros b Hb. apply OT; [by apply NPS|]. apply NF. by right. }
  split.
  - destruct SH. split; try done.
    + unfold h'. apply wf_hdel, wf_hset; [by apply wf_halloc|]. cbn. rewrite lookup_insert. eauto.
    + apply NoDup_cons. split; [|done]. intros Hb. apply (NF (h_next h)); [by right|done].
    + intros b Hb. apply elem_of_cons in Hb as [->|Hb]; [split; [by eapply wf_above|eauto]|].
      rewrite OS by done. apply sh_own0. by right.
    + cbn. lia.
    + intros b Hb. apply not_elem_of_cons in Hb as [N Hb]. destruct (decide (b = pa)) as [->|N'].
      * unfold h'. cbn. rewrite lookup_delete. by symmetry.
      * rewrite OT by done. apply sh_frame0. apply not_elem_of_cons. done.
    + rewrite EN. eauto.
    + intros i b Hi. unfold hload. rewrite (cells_of_some _ _ _ EN). cbn. by rewrite (SL i b Hi).
    + intros b Hb. unfold subblk. rewrite OS by auto. by apply sh_subs0.
  - intros b o Hb. apply hload_same, OS. auto.
Qed.

(** A block is lost. *)
Lemma shape_leak h0 h size pa start subs leak bk : Shape h0 h size pa start subs leak ->
  Shape h0 (halloc h bk) size pa start subs (h_next h :: leak) /\
    forall b o, b ∈ subs -> hload (halloc h bk) (Ptr b o) = hload h (Ptr b o).
Proof.
  intros SH.
  assert (forall b, b ∈ pa :: subs ++ leak -> b <> h_next h) as NF by (intros b; by eapply shape_fresh).
  assert (pa <> h_next h) as NP by (apply NF; left).
  assert (forall b, b ∈ subs -> b <> h_next h) as NS by (intros b Hb; apply NF; right; apply elem_of_app; by left).
  assert (pa :: subs ++ h_next h :: leak ≡ₚ h_next h :: pa :: subs ++ leak) as PM.
  { rewrite <- Permutation_middle. by rewrite Permutation_swap. }
  split.
  - destruct SH. split; try done.
    + by apply wf_halloc.
    + rewrite PM. apply NoDup_cons. split; [|done]. intros Hb. by apply (NF _ Hb).
    + intros b Hb. rewrite PM in Hb. apply elem_of_cons in Hb as [->|Hb].
      * split; [by apply wf_above|]. cbn. rewrite lookup_insert. eauto.
      * rewrite halloc_other by auto. auto.
    + cbn. lia.
    + intros b Hb. rewrite PM, not_elem_of_cons in Hb. destruct Hb as [N Hb]. rewrite halloc_other by done. auto.
    + rewrite halloc_other by done. done.
    + intros i b Hi. rewrite (hload_same h) by (by apply halloc_other). auto.
    + intros b Hb. unfold subblk. rewrite halloc_other by auto. by apply sh_subs0.
  - intros b o Hb. apply hload_same, halloc_other. auto.
Qed.

(** ** Positions *)
Lemma step_div j : md j <> n - 1 -> dv (j + 1) = dv j /\ md (j + 1) = md j + 1.
Proof. intros N. pose proof (md_lt j). pose proof (dv_md j). apply dvmd_unique; lia. Qed.
Lemma step_wrap j : md j = n - 1 -> dv (j + 1) = dv j + 1 /\ md (j + 1) = 0.
Proof. intros N. pose proof n_pos. pose proof (dv_md j). apply dvmd_unique; lia. Qed.
Lemma dv_small j : j < n -> dv j = 0 /\ md j = j.
Proof. intros L. apply dvmd_unique; lia. Qed.

(** ** Iterators *)
Definition iter_at (pa start : nat) (subs : list nat) (i j : nat) : raw_iter :=
  RawIter (loc subs i) (Ptr pa (start + dv i)) (loc subs j) (Ptr pa (start + dv j)) n.

Section iters.
Context {h0 : dhp} {size : Z} {pa start : nat} {subs leak : list nat}.
Variable s : dstate.
Hypothesis SH : Shape h0 (d_h s) size pa start subs leak.
Let HPA := sh_pa _ _ _ _ _ _ _ SH.
Let HST := sh_start _ _ _ _ _ _ _ SH.

Lemma raw_next_end i : raw_next chk (iter_at pa start subs i i) s = Ok (None, iter_at pa start subs i i) s.
Proof. unfold raw_next. cbn [ri_cur ri_last iter_at]. rewrite decide_True by done. done. Qed.
Lemma raw_next_back_end i : raw_next_back chk (iter_at pa start subs i i) s = Ok (None, iter_at pa start subs i i) s.
Proof. unfold raw_next_back. cbn [ri_cur ri_last iter_at]. rewrite decide_True by done. done. Qed.

Lemma n_usize : usize chk (Z.of_nat n - 1) s = Ok (n - 1) s.
Proof. pose proof n_range. rewrite usize_ok by (unfold usize_lim; lia). f_equal. lia. Qed.

Lemma raw_next_ok i j : i < j -> j < n * length subs ->
  raw_next chk (iter_at pa start subs i j) s = Ok (Some (loc subs i), iter_at pa start subs (i + 1) j) s.
Proof.
  intros L Lj. assert (i < n * length subs) as Li by lia.
  pose proof (dv_lt _ _ Li) as Ki. pose proof n_pos.
  destruct HPA as (pcs & EP & LP). destruct (sh_loc SH i Li) as (cs & E & Lc).
  unfold raw_next. cbn [ri_cur ri_last ri_arr ri_n ri_last_arr iter_at].
  rewrite decide_False by (intros Q; apply (loc_inj SH) in Q; lia).
  unfold bind at 1. rewrite (read_ptr_ok _ _ _ (slot_read SH _ Ki)).
  unfold bind at 1. rewrite n_usize. unfold bind at 1.
  rewrite (add_ok _ _ _ _ _ E) by (cbn; lia).
  case_decide as Q.
  - assert (md i = n - 1) as Q' by (unfold loc in Q; injection Q as Q; lia).
    destruct (step_wrap i Q') as [D M].
    assert (dv i + 1 < length subs) as K1.
    { rewrite <- D. apply dv_lt. lia. }
    unfold bind at 1. rewrite (add_ok _ _ _ _ _ EP) by (cbn; lia).
    unfold bind at 1. rewrite <- Nat.add_assoc, (read_ptr_ok _ _ _ (slot_read SH _ K1)).
    unfold ret, iter_at, loc. rewrite D, M. done.
  - assert (md i <> n - 1) as Q' by (intros Q'; apply Q; unfold loc; f_equal; lia).
    destruct (step_div i Q') as [D M].
    pose proof (md_lt i).
    unfold bind at 1. unfold loc at 1. rewrite (add_ok _ _ _ _ _ E) by (cbn; lia).
    unfold ret, iter_at, loc. rewrite D, M. done.
Qed.

Lemma raw_next_back_ok i j : i < j -> j < n * length subs ->
  raw_next_back chk (iter_at pa start subs i j) s = Ok (Some (loc subs (j - 1)), iter_at pa start subs i (j - 1)) s.
Proof.
  intros L Lj. pose proof (dv_lt _ _ Lj) as Kj. pose proof n_pos.
  destruct HPA as (pcs & EP & LP). destruct (sh_loc SH j Lj) as (cs & E & Lc).
  assert (j - 1 < n * length subs) as Lj1 by lia.
  destruct (sh_loc SH (j - 1) Lj1) as (cs1 & E1 & Lc1).
  pose proof (dv_lt _ _ Lj1) as K1.
  unfold raw_next_back. cbn [ri_cur ri_last ri_arr ri_n ri_last_arr iter_at].
  rewrite decide_False by (intros Q; apply (loc_inj SH) in Q; lia).
  unfold bind at 1. rewrite (read_ptr_ok _ _ _ (slot_read SH _ Kj)).
  case_decide as Q.
  - assert (md j = 0) as M by (unfold loc in Q; by injection Q).
    assert (md (j - 1) = n - 1) as M1.
    { destruct (decide (md (j - 1) = n - 1)) as [|N]; [done|].
      destruct (step_div _ N) as [_ M1]. replace (j - 1 + 1) with j in M1 by lia. lia. }
    destruct (step_wrap _ M1) as [D _]. replace (j - 1 + 1) with j in D by lia.
    unfold bind at 1. rewrite D. rewrite (sub_ok _ _ _ _ _ EP) by (clear; lia).
    replace (start + (dv (j - 1) + 1) - 1) with (start + dv (j - 1)) by (clear; lia).
    unfold bind at 1. rewrite (read_ptr_ok _ _ _ (slot_read SH _ K1)).
    unfold bind at 1. rewrite n_usize. unfold bind at 1. rewrite (add_ok _ _ _ _ _ E1) by (cbn; lia).
    unfold ret, iter_at, loc. rewrite M1. done.
  - assert (md j <> 0) as M by (intros M; apply Q; unfold loc; by rewrite M).
    assert (md (j - 1) <> n - 1) as M1.
    { intros N. destruct (step_wrap _ N) as [_ M1]. replace (j - 1 + 1) with j in M1 by lia. lia. }
    destruct (step_div _ M1) as [D M']. replace (j - 1 + 1) with j in D, M' by lia.
    unfold bind at 1. unfold loc at 1. rewrite (sub_ok _ _ _ _ _ E) by lia.
    unfold ret, iter_at, loc. rewrite <- D. replace (md j - 1) with (md (j - 1)) by lia. done.
Qed.

Lemma skip_next k : forall i j, i + k <= j -> j < n * length subs ->
  skip (raw_next chk) k (iter_at pa start subs i j) s = Ok (iter_at pa start subs (i + k) j) s.
Proof.
  induction k as [|k IH]; intros i j L Lj; cbn [skip].
  - rewrite Nat.add_0_r. done.
  - unfold bind at 1. rewrite raw_next_ok by lia. cbn [fst snd]. rewrite IH by lia. do 2 f_equal. lia.
Qed.
(** One more than there are: the iterator stays at the end. *)
Lemma skip_next_back k : forall i j, i + k <= j -> j < n * length subs ->
  skip (raw_next_back chk) k (iter_at pa start subs i j) s = Ok (iter_at pa start subs i (j - k)) s.
Proof.
  induction k as [|k IH]; intros i j L Lj; cbn [skip].
  - rewrite Nat.sub_0_r. done.
  - unfold bind at 1. rewrite raw_next_back_ok by lia. cbn [fst snd]. rewrite IH by lia. do 2 f_equal. lia.
Qed.
End iters.

Section ops.
Variable h0 : dhp.
Notation DR := (DRep h0).

Lemma iter_ok s pa start subs leak bo xs : DR s pa start subs leak bo xs ->
  iter s = Ok (iter_at pa start subs bo (bo + length xs)) s.
Proof.
  intros R. unfold iter, bind, gets, from_compat. cbn [id]. rewrite (dr_b _ _ _ _ _ _ _ _ R), (dr_e _ _ _ _ _ _ _ _ R).
  cbn [dit_at di_end di_begin di_cur di_arr]. unfold bind. rewrite pdiff_ok by lia. cbn [or_ub]. unfold ret. cbv beta iota.
  rewrite Nat.sub_0_r. done.
Qed.

Lemma is_empty_ok s pa start subs leak bo xs : DR s pa start subs leak bo xs ->
  is_empty s = Ok (match xs with [] => true | _ => false end) s.
Proof.
  intros R. unfold is_empty, bind, gets, ret. cbn [id]. rewrite (dr_b _ _ _ _ _ _ _ _ R), (dr_e _ _ _ _ _ _ _ _ R).
  cbn [dit_at di_cur]. f_equal. pose proof (R_bound R).
  destruct xs as [|x xs].
  - apply bool_decide_eq_true. f_equal. cbn. lia.
  - apply bool_decide_eq_false. intros Q. apply (loc_inj (dr_shape _ _ _ _ _ _ _ _ R)) in Q; cbn in *; lia.
Qed.

Lemma len_ok s pa start subs leak bo xs : DR s pa start subs leak bo xs -> len sz s = Ok (length xs) s.
Proof.
  intros R. unfold len, bind at 1, gets. cbn [id]. rewrite (dr_b _ _ _ _ _ _ _ _ R), (dr_e _ _ _ _ _ _ _ _ R).
  cbn [dit_at di_cur di_arr di_begin di_end]. pose proof (R_bound R) as LB. pose proof (dr_bo _ _ _ _ _ _ _ _ R) as Lbo.
  pose proof n_range. pose proof (dr_len _ _ _ _ _ _ _ _ R) as LK.
  set (j := bo + length xs) in *. destruct (dv_small bo Lbo) as [D0 M0].
  pose proof (dv_md j) as DM. pose proof (md_lt j) as MU.
  rewrite D0. case_decide as Q.
  - injection Q as Q. assert (dv j = 0) as Dj by lia. unfold loc. rewrite D0, Dj, M0.
    rewrite Dj in DM. rewrite pdiff_ok by lia. cbn. unfold ret. f_equal. lia.
  - unfold bind at 1. rewrite pdiff_ok by lia. cbn [or_ub]. unfold ret at 1.
    unfold bind at 1, loc. rewrite D0, M0. rewrite pdiff_ok by lia. cbn [or_ub]. unfold ret at 1.
    unfold bind at 1. rewrite pdiff_ok by lia. cbn [or_ub]. unfold ret. f_equal.
    pose proof (k_bound (dr_shape _ _ _ _ _ _ _ _ R)) as KB. pose proof (sh_u32 _ _ _ _ _ _ _ (dr_shape _ _ _ _ _ _ _ _ R)) as U.
    unfold u32_lim in U.
    assert (Z.of_nat (length subs) < 2 ^ 32)%Z by lia.
    rewrite Z.mod_small; [nia|]. split; [nia|]. unfold usize_lim.
    assert (n * length subs <= 64 * length subs) by nia. nia.
Qed.

Lemma R_head s pa start subs leak bo xs : DR s pa start subs leak bo xs ->
  exists r, raw_next chk (iter_at pa start subs bo (bo + length xs)) s = Ok r s /\
    fst r = match xs with [] => None | _ => Some (loc subs bo) end.
Proof.
  intros R. pose proof (R_bound R). destruct xs as [|x xs].
  - cbn [length]. rewrite Nat.add_0_r. eexists. split; [apply raw_next_end|done].
  - eexists. split; [apply (raw_next_ok _ (dr_shape _ _ _ _ _ _ _ _ R)); cbn in *; lia|done].
Qed.
Lemma R_last s pa start subs leak bo xs : DR s pa start subs leak bo xs ->
  exists r, raw_next_back chk (iter_at pa start subs bo (bo + length xs)) s = Ok r s /\
    fst r = match xs with [] => None | _ => Some (loc subs (bo + (length xs - 1))) end.
Proof.
  intros R. pose proof (R_bound R). destruct xs as [|x xs].
  - cbn [length]. rewrite Nat.add_0_r. eexists. split; [apply raw_next_back_end|done].
  - eexists. split; [apply (raw_next_back_ok _ (dr_shape _ _ _ _ _ _ _ _ R)); cbn in *; lia|].
    cbn [fst length]. do 2 f_equal. lia.
Qed.

Lemma last_lookup' (xs : list T) : last xs = xs !! (length xs - 1).
Proof. rewrite last_lookup. f_equal. lia. Qed.

Lemma front_ok s pa start subs leak bo xs : DR s pa start subs leak bo xs -> front chk s = Ok (head xs) s.
Proof.
  intros R. unfold front, bind at 1. rewrite (iter_ok _ _ _ _ _ _ _ R). destruct (R_head _ _ _ _ _ _ _ R) as (r & E & F).
  unfold bind at 1. rewrite E, F. destruct xs as [|x xs]; [done|]. cbn [read_opt]. unfold bind.
  rewrite <- (Nat.add_0_r bo), (R_read R 0 x) by done. done.
Qed.
Lemma back_ok s pa start subs leak bo xs : DR s pa start subs leak bo xs -> back chk s = Ok (last xs) s.
Proof.
  intros R. unfold back, bind at 1. rewrite (iter_ok _ _ _ _ _ _ _ R). destruct (R_last _ _ _ _ _ _ _ R) as (r & E & F).
  unfold bind at 1. rewrite E, F. rewrite last_lookup'. destruct xs as [|x xs]; [done|]. cbn [read_opt]. unfold bind.
  destruct (lookup_lt_is_Some_2 (x :: xs) (length (x :: xs) - 1)) as [y Hy]; [cbn; lia|].
  by rewrite (R_read R _ _ Hy), Hy.
Qed.

(** Replacing an element. *)
Lemma set_elem s pa start subs leak bo xs i y : DR s pa start subs leak bo xs -> i < length xs ->
  exists s', store (loc subs (bo + i)) (DElem y) s = Ok tt s' /\ DR s' pa start subs leak bo (<[i := y]> xs) /\
    d_drops s' = d_drops s /\ d_size s' = d_size s.
Proof.
  intros R L. destruct (store_elem (dr_shape _ _ _ _ _ _ _ _ R) s (bo + i) y eq_refl) as (h' & E & SH & G & O).
  { apply (R_pos R). lia. }
  exists (with_h s h'). split; [done|]. split; [|done].
  pose proof (R_bound R) as LB. destruct R. split; unfold with_h; cbn [d_h d_size d_arr d_b d_e]; rewrite ?insert_length; try done.
  intros i' x Hx. apply list_lookup_insert_Some in Hx as [(-> & -> & _)|(N & Hx)]; [done|].
  rewrite O; [auto| |lia]. apply lookup_lt_Some in Hx. lia.
Qed.

Lemma log_rep s pa start subs leak bo xs l : DR s pa start subs leak bo xs -> DR (logged l s) pa start subs leak bo xs.
Proof. intros R. destruct R. split; try done. Qed.

Lemma assign_some s pa start subs leak bo xs i x y : DR s pa start subs leak bo xs -> xs !! i = Some x ->
  exists s', assign_opt (Some (loc subs (bo + i))) y s = Ok true s' /\ DR s' pa start subs leak bo (<[i := y]> xs) /\
    d_drops s' = d_drops s ++ [x] /\ d_size s' = d_size s.
Proof.
  intros R Hx. cbn [assign_opt]. unfold bind at 1. rewrite (R_read R _ _ Hx). unfold bind at 1, modify.
  destruct (set_elem _ _ _ _ _ _ _ i y (log_rep _ _ _ _ _ _ _ [x] R)) as (s' & E & R' & D).
  { by eapply lookup_lt_Some. }
  unfold bind at 1. rewrite E. exists s'. done.
Qed.

Lemma front_mut_ok s pa start subs leak bo xs y : DR s pa start subs leak bo xs ->
  exists s', front_mut_set chk y s = Ok (match xs with [] => false | _ => true end) s' /\
    DR s' pa start subs leak bo (match xs with [] => [] | _ :: xs' => y :: xs' end) /\
    d_drops s' = d_drops s ++ match xs with [] => [y] | x :: _ => [x] end /\ d_size s' = d_size s.
Proof.
  intros R. unfold front_mut_set, bind at 1. rewrite (iter_ok _ _ _ _ _ _ _ R). destruct (R_head _ _ _ _ _ _ _ R) as (r & E & F).
  unfold bind at 1. rewrite E, F. destruct xs as [|x xs].
  - eexists. split; [done|]. split; [by apply log_rep|done].
  - destruct (assign_some _ _ _ _ _ _ _ 0 x y R eq_refl) as (s' & E' & R' & D). rewrite Nat.add_0_r in E'.
    exists s'. done.
Qed.

Lemma insert_last (xs : list T) y : xs <> [] -> <[length xs - 1 := y]> xs = removelast xs ++ [y].
Proof.
  induction xs as [|z xs _] using rev_ind; intros N; [done|].
  rewrite app_length. cbn. replace (length xs + 1 - 1) with (length xs) by lia.
  rewrite removelast_last. rewrite insert_app_r_alt by lia. by rewrite Nat.sub_diag.
Qed.

Lemma back_mut_ok s pa start subs leak bo xs y : DR s pa start subs leak bo xs ->
  exists s', back_mut_set chk y s = Ok (match last xs with None => false | _ => true end) s' /\
    DR s' pa start subs leak bo (match last xs with None => xs | Some _ => removelast xs ++ [y] end) /\
    d_drops s' = d_drops s ++ match last xs with None => [y] | Some x => [x] end /\ d_size s' = d_size s.
Proof.
  intros R. unfold back_mut_set, bind at 1. rewrite (iter_ok _ _ _ _ _ _ _ R). destruct (R_last _ _ _ _ _ _ _ R) as (r & E & F).
  unfold bind at 1. rewrite E, F. rewrite last_lookup'. destruct xs as [|x xs].
  - eexists. split; [done|]. split; [by apply log_rep|done].
  - destruct (lookup_lt_is_Some_2 (x :: xs) (length (x :: xs) - 1)) as [z Hz]; [cbn; lia|].
    destruct (assign_some _ _ _ _ _ _ _ _ z y R Hz) as (s' & E' & R' & D). rewrite Hz.
    rewrite insert_last in R' by done. exists s'. done.
Qed.

(** ** Loops over the elements *)
Lemma R_fuel s pa start subs leak bo xs : DR s pa start subs leak bo xs -> length xs < fuel sz s.
Proof.
  intros R. pose proof (R_bound R). pose proof (next_bound (dr_shape _ _ _ _ _ _ _ _ R)). unfold fuel. nia.
Qed.

Lemma for_iter_ok {A} (body : ptr -> M dstate A) (f : nat -> A) (I : nat -> dstate -> Prop) pa start subs leak size bo len :
  bo + len < n * length subs ->
  (forall i s, I i s -> Shape h0 (d_h s) size pa start subs leak) ->
  (forall i s, i < len -> I i s -> exists s', body (loc subs (bo + i)) s = Ok (f i) s' /\ I (S i) s') ->
  forall k i s fu, i + k = len -> k < fu -> I i s ->
  exists s', for_iter chk fu (iter_at pa start subs (bo + i) (bo + len)) body s = Ok (map f (seq i k)) s' /\ I len s'.
Proof.
  intros LB IS BD. induction k as [|k IH]; intros i s fu L Lf HI; (destruct fu as [|fu]; [lia|]); cbn [for_iter].
  - replace i with len by lia. unfold bind at 1. rewrite raw_next_end. cbn [fst]. replace len with i at 2 by lia.
    eexists. split; [done|]. by replace len with i by lia.
  - unfold bind at 1. rewrite (raw_next_ok _ (IS _ _ HI)) by lia. cbn [fst snd].
    destruct (BD i s ltac:(lia) HI) as (s1 & E1 & I1). unfold bind at 1. rewrite E1.
    destruct (IH (S i) s1 fu ltac:(lia) ltac:(lia) I1) as (s2 & E2 & I2).
    replace (bo + i + 1) with (bo + S i) by lia. unfold bind at 1. rewrite E2. exists s2. done.
Qed.

Lemma map_seq_lookup {B} (d : B) (l : list B) : map (fun i => nth i l d) (seq 0 (length l)) = l.
Proof.
  induction l as [|x l IH]; [done|]. cbn [length seq map nth]. f_equal.
  rewrite <- seq_shift, map_map. exact IH.
Qed.

Lemma nth_lookup' {B} (d : B) (l : list B) i : i < length l -> l !! i = Some (nth i l d).
Proof. intros L. rewrite nth_lookup. by destruct (lookup_lt_is_Some_2 l i L) as [y ->]. Qed.

Lemma iter_loop {A} (body : ptr -> M dstate A) (f : T -> A) s pa start subs leak bo xs : DR s pa start subs leak bo xs ->
  (forall i x, xs !! i = Some x -> body (loc subs (bo + i)) s = Ok (f x) s) ->
  for_iter chk (fuel sz s) (iter_at pa start subs bo (bo + length xs)) body s = Ok (map f xs) s.
Proof.
  intros R BD. destruct xs as [|x0 xs'] eqn:EX.
  - cbn [length]. rewrite Nat.add_0_r. unfold fuel. cbn [for_iter]. unfold bind. rewrite raw_next_end. done.
  - rewrite <- EX in *.
    destruct (for_iter_ok body (fun i => f (nth i xs x0)) (fun _ s' => s' = s) pa start subs leak (d_size s) bo (length xs))
      with (k := length xs) (i := 0) (s := s) (fu := fuel sz s) as (s' & E & ->).
    + apply (R_bound R).
    + intros i s' ->. apply (dr_shape _ _ _ _ _ _ _ _ R).
    + intros i s' L ->. eexists. split; [|done]. apply BD. by apply nth_lookup'.
    + done.
    + by eapply R_fuel.
    + done.
    + rewrite Nat.add_0_r in E. rewrite E. f_equal. rewrite <- (map_map (fun i => nth i xs x0) f).
      by rewrite map_seq_lookup.
Qed.

Lemma iter_all_ok s pa start subs leak bo xs : DR s pa start subs leak bo xs -> iter_all sz chk s = Ok xs s.
Proof.
  intros R. unfold iter_all, bind at 1, gets. unfold bind at 1. rewrite (iter_ok _ _ _ _ _ _ _ R). cbn [id].
  rewrite (iter_loop read_elem id _ _ _ _ _ _ _ R); [by rewrite map_id|].
  intros i x Hx. apply (R_read R _ _ Hx).
Qed.

Lemma places_ok s pa start subs leak bo xs : DR s pa start subs leak bo xs ->
  places sz chk s = Ok (map (fun i => loc subs (bo + i)) (seq 0 (length xs))) s.
Proof.
  intros R. unfold places, bind at 1, gets. unfold bind at 1. rewrite (iter_ok _ _ _ _ _ _ _ R). cbn [id].
  destruct (for_iter_ok ret (fun i => loc subs (bo + i)) (fun _ s' => s' = s) pa start subs leak (d_size s) bo (length xs))
      with (k := length xs) (i := 0) (s := s) (fu := fuel sz s) as (s' & E & ->).
  + apply (R_bound R).
  + intros i s' ->. apply (dr_shape _ _ _ _ _ _ _ _ R).
  + intros i s' L ->. eexists. split; done.
  + done.
  + by eapply R_fuel.
  + done.
  + rewrite Nat.add_0_r in E. by rewrite E.
Qed.

Lemma iter_mut_all_ok g s pa start subs leak bo xs : DR s pa start subs leak bo xs ->
  exists s', iter_mut_all sz chk g s = Ok xs s' /\ DR s' pa start subs leak bo (map g xs) /\ d_drops s' = d_drops s /\ d_size s' = d_size s.
Proof.
  intros R. unfold iter_mut_all, bind at 1, gets. unfold bind at 1. rewrite (iter_ok _ _ _ _ _ _ _ R). cbn [id].
  destruct xs as [|x0 xs'] eqn:EX.
  { cbn [length]. rewrite Nat.add_0_r. unfold fuel. cbn [for_iter]. unfold bind. rewrite raw_next_end. eauto. }
  rewrite <- EX in *.
  destruct (for_iter_ok (fun p => do x <- read_elem p; run store p (DElem (g x)); ret x) (fun i => nth i xs x0)
     (fun i s' => DR s' pa start subs leak bo (map g (take i xs) ++ drop i xs) /\ d_drops s' = d_drops s /\ d_size s' = d_size s)
     pa start subs leak (d_size s) bo (length xs))
    with (k := length xs) (i := 0) (s := s) (fu := fuel sz s) as (s' & E & R' & D & DZ).
  - apply (R_bound R).
  - intros i s' (R' & _ & <-). apply (dr_shape _ _ _ _ _ _ _ _ R').
  - intros i s' L (R' & D & Sz). pose proof (nth_lookup' x0 xs i L) as Hx.
    assert (length (map g (take i xs)) = i) as LT by (rewrite map_length, take_length; lia).
    assert ((map g (take i xs) ++ drop i xs) !! i = Some (nth i xs x0)) as Hx'.
    { rewrite lookup_app_r by lia. rewrite LT, Nat.sub_diag, lookup_drop, Nat.add_0_r. done. }
    unfold bind at 1. rewrite (R_read R' _ _ Hx').
    destruct (set_elem _ _ _ _ _ _ _ i (g (nth i xs x0)) R') as (s2 & E2 & R2 & D2 & _); [by eapply lookup_lt_Some|].
    assert (d_size s2 = d_size s') as Sz2.
    { revert E2. unfold store, bind, gets. destruct (hstore _ _ _); cbn; [|done]. intros [= <-]. done. }
    unfold bind at 1. rewrite E2. eexists. split; [done|]. split; [|split; [congruence|congruence]].
    rewrite insert_app_r_alt in R2 by lia. rewrite LT, Nat.sub_diag in R2.
    rewrite (drop_S _ _ _ Hx) in R2. cbn in R2. rewrite (take_S_r _ _ _ Hx), map_app, <- app_assoc. exact R2.
  - done.
  - by eapply R_fuel.
  - done.
  - rewrite Nat.add_0_r in E. rewrite E, map_seq_lookup. exists s'. split; [done|]. split; [|done].
    by rewrite take_ge, drop_ge, app_nil_r in R' by done.
Qed.

(** ** Pops *)
Lemma loc_app subs l j : j < n * length subs -> loc (subs ++ l) j = loc subs j.
Proof.
  intros L. unfold loc. f_equal. rewrite lookup_total_app_l; [done|]. by apply dv_lt.
Qed.
Lemma dv_add j : dv (n + j) = S (dv j) /\ md (n + j) = md j.
Proof. apply dvmd_unique; [apply md_lt|]. pose proof (dv_md j). lia. Qed.
Lemma loc_cons b subs j : loc (b :: subs) (n + j) = loc subs j.
Proof. unfold loc. destruct (dv_add j) as [-> ->]. done. Qed.
Lemma loc_in (subs : list nat) j : j < n * length subs -> subs !!! dv j ∈ subs.
Proof. intros L. eapply elem_of_list_lookup_2. apply sub_lookup. by apply dv_lt. Qed.
Lemma dit_app pa start subs l j : j < n * length subs -> dit_at pa start (subs ++ l) j = dit_at pa start subs j.
Proof. intros L. unfold dit_at. rewrite loc_app by done. by rewrite lookup_total_app_l by (by apply dv_lt). Qed.
Lemma dit_cons pa start b subs j : dit_at pa start (b :: subs) (n + j) = dit_at pa (start + 1) subs j.
Proof.
  unfold dit_at. rewrite loc_cons. destruct (dv_add j) as [-> _]. cbn. f_equal. f_equal. lia.
Qed.

Lemma set_subarray_ok (s : dstate) size pa start subs leak i q : Shape h0 (d_h s) size pa start subs leak -> q < length subs ->
  set_subarray sz i (Ptr pa (start + q)) s = Ok (DIt (di_cur i) (Ptr (subs !!! q) 0) (Ptr (subs !!! q) n) (Ptr pa (start + q))) s.
Proof.
  intros SH L. unfold set_subarray, bind at 1. rewrite (read_ptr_ok _ _ _ (slot_read SH _ L)).
  destruct (sh_subs _ _ _ _ _ _ _ SH _ (sh_sub_in _ L)) as (cs & E & Lc).
  unfold bind. rewrite (add_ok _ _ _ _ _ E) by (cbn; lia). done.
Qed.

Lemma pop_front_ok s pa start subs leak bo xs : DR s pa start subs leak bo xs ->
  exists s' start' subs' bo', pop_front sz al s = Ok (head xs) s' /\ DR s' pa start' subs' leak bo' (tail xs) /\
    d_drops s' = d_drops s /\ d_size s' = d_size s /\
    (forall i, i < length (tail xs) -> loc subs' (bo' + i) = loc subs (bo + S i)) /\
    (exists h1, subs = h1 ++ subs').
Proof.
  intros R. unfold pop_front, bind at 1. rewrite (is_empty_ok _ _ _ _ _ _ _ R). destruct xs as [|x xs].
  { exists s, start, subs, bo. split; [done|]. split; [exact R|]. split; [done|]. split; [done|]. split; [intros i Hi; cbn in Hi; lia|]. by exists []. }
  pose proof (dr_shape _ _ _ _ _ _ _ _ R) as SH. pose proof (R_bound R) as LB. pose proof (R_k R) as K.
  pose proof (dr_bo _ _ _ _ _ _ _ _ R) as Lbo. destruct (dv_small bo Lbo) as [D0 M0].
  destruct (sh_loc SH bo ltac:(lia)) as (cs & E & Lc). pose proof n_pos as NP.
  pose proof (dr_len _ _ _ _ _ _ _ _ R) as LK.
  unfold bind at 1, gets. cbn [id]. rewrite (dr_b _ _ _ _ _ _ _ _ R). cbn [dit_at di_cur di_end di_begin di_arr].
  unfold bind at 1. rewrite (sub_ok _ _ _ _ _ E) by lia.
  pose proof (R_read R 0 x eq_refl) as RX. rewrite Nat.add_0_r in RX.
  case_decide as Q.
  - assert (bo <> n - 1) as Q' by (intros Q'; apply Q; unfold loc; f_equal; lia).
    unfold bind at 1. rewrite RX. unfold bind at 1. unfold loc at 1. rewrite (add_ok _ _ _ _ _ E) by (cbn; lia).
    unfold bind at 1, set_b, modify, ret.
    destruct (step_div bo ltac:(lia)) as [D1 M1].
    eexists _, start, subs, (bo + 1). split; [done|]. split; [|cbn [d_drops d_size tail]].
    + destruct R. split; cbn [d_h d_size d_arr d_b d_e tail]; try done.
      * lia.
      * cbn [length] in *. replace (bo + 1 + length xs) with (bo + S (length xs)) by lia. done.
      * unfold dit_at, loc. rewrite D1, M1. done.
      * rewrite dr_e0. f_equal. cbn. lia.
      * intros i y Hy. replace (bo + 1 + i) with (bo + S i) by lia. auto.
    + split; [done|]. split; [done|]. split; [intros; f_equal; lia|]. by exists [].
  - assert (bo = n - 1) as Q'.
    { unfold loc in Q. injection Q as Q. lia. }
    destruct subs as [|b0 subs']; [cbn in K; lia|].
    assert (0 < length subs') as K1.
    { cbn [length] in *. destruct (dv_add (length xs)) as [DA _].
      replace (bo + S (length xs)) with (n + length xs) in LK by lia. lia. }
    destruct (shape_del h0 _ _ _ _ _ _ subs' (start + 1) b0 SH) as [SH' LD].
    { done. }
    { pose proof (sh_start _ _ _ _ _ _ _ SH). cbn [length] in *. lia. }
    { intros i b Hi. exists (S i). split; [done|lia]. }
    unfold bind at 1. rewrite RX. unfold bind at 1.
    assert (dv bo = 0) as Z0 by done. rewrite Z0 in *. cbn [lookup_total list_lookup_total] in *.
    rewrite free_subarray_ok by (apply (sh_subs _ _ _ _ _ _ _ SH); left).
    destruct (sh_pa _ _ _ _ _ _ _ SH') as (pcs & EP & LP).
    unfold bind at 1. rewrite (add_ok (with_h s (hdel (d_h s) b0)) _ _ _ _ EP).
    2:{ cbn [bk_cells]. pose proof (sh_start _ _ _ _ _ _ _ SH'). lia. }
    unfold bind at 1. replace (start + 0 + 1) with (start + 1 + 0) by lia.
    rewrite (set_subarray_ok (with_h s (hdel (d_h s) b0)) _ _ _ _ _ _ 0 SH' K1).
    unfold bind at 1, set_b, modify, ret. cbn [with_h di_begin di_end di_arr d_arr d_size d_b d_e d_h d_drops].
    eexists _, (start + 1), subs', 0. split; [done|]. split; [|cbn [d_drops d_size tail]].
    + destruct R. split; cbn [d_h d_size d_arr d_b d_e tail]; try done.
      * cbn [length] in *. destruct (dv_add (length xs)) as [DA _].
        replace (bo + S (length xs)) with (n + length xs) in LK by lia. cbn. lia.
      * unfold dit_at, loc. destruct (dv_small 0 NP) as [-> ->]. done.
      * rewrite dr_e0. cbn [length]. replace (bo + S (length xs)) with (n + length xs) by lia. apply dit_cons.
      * intros i y Hy. unfold loc. rewrite LD.
        -- specialize (dr_elems0 (S i) y Hy). replace (bo + S i) with (n + i) in dr_elems0 by lia.
           rewrite loc_cons in dr_elems0. done.
        -- apply loc_in. apply lookup_lt_Some in Hy. cbn [length] in *. cbn. lia.
    + split; [done|]. split; [done|]. split; [|by exists [b0]]. intros i Li.
      replace (bo + S i) with (n + i) by lia. by rewrite loc_cons.
Qed.

Lemma pop_back_ok s pa start subs leak bo xs : DR s pa start subs leak bo xs ->
  exists s' subs', pop_back sz al s = Ok (last xs) s' /\ DR s' pa start subs' leak bo (removelast xs) /\
    d_drops s' = d_drops s /\ d_size s' = d_size s /\
    (forall i, i < length (removelast xs) -> loc subs' (bo + i) = loc subs (bo + i)) /\
    (exists h1, subs = subs' ++ h1).
Proof.
  intros R. unfold pop_back, bind at 1. rewrite (is_empty_ok _ _ _ _ _ _ _ R).
  destruct (decide (xs = [])) as [->|NE].
  { exists s, subs. split; [done|]. split; [exact R|]. split; [done|]. split; [done|]. split; [intros i Hi; cbn in Hi; lia|]. exists []. by rewrite app_nil_r. }
  assert (match xs with [] => true | _ :: _ => false end = false) as -> by (by destruct xs).
  pose proof (dr_shape _ _ _ _ _ _ _ _ R) as SH. pose proof (R_bound R) as LB. pose proof (R_k R) as K.
  assert (0 < length xs) as LX by (destruct xs; cbn; [done|lia]).
  destruct (exists_last NE) as (xs' & x & EX).
  assert (removelast xs = xs') as ERL by (rewrite EX; apply removelast_last).
  assert (last xs = Some x) as EL by (rewrite EX; apply last_snoc).
  assert (length xs = S (length xs')) as ELN by (rewrite EX, app_length; cbn; lia).
  rewrite ERL, EL.
  pose proof (R_read R (length xs') x) as RX.
  assert (xs !! length xs' = Some x) as HX by (rewrite EX; rewrite lookup_app_r, Nat.sub_diag by lia; done).
  assert (forall i y, xs' !! i = Some y -> xs !! i = Some y) as PRE.
  { intros i y Hy. rewrite EX. rewrite lookup_app_l by (by eapply lookup_lt_Some). done. }
  pose proof (dr_bo _ _ _ _ _ _ _ _ R) as Lbo.
  set (j := bo + length xs) in *. destruct (sh_loc SH j LB) as (cs & E & Lc). pose proof n_pos as NP.
  pose proof (dr_len _ _ _ _ _ _ _ _ R) as LK. fold j in LK.
  unfold bind at 1, gets. cbn [id]. rewrite (dr_e _ _ _ _ _ _ _ _ R). fold j. cbn [dit_at di_cur di_end di_begin di_arr].
  assert (bo + length xs' = j - 1) as EJ by lia.
  case_decide as Q.
  - assert (md j <> 0) as Q' by (intros Q'; apply Q; unfold loc; by rewrite Q').
    assert (md (j - 1) <> n - 1) as M1.
    { intros N. destruct (step_wrap _ N) as [_ M1]. replace (j - 1 + 1) with j in M1 by lia. lia. }
    destruct (step_div _ M1) as [D M']. replace (j - 1 + 1) with j in D, M' by lia.
    unfold bind at 1. unfold loc at 1. rewrite (sub_ok _ _ _ _ _ E) by lia.
    unfold bind at 1, set_e, modify. replace (md j - 1) with (md (j - 1)) by lia.
    unfold bind at 1. rewrite D. fold (loc subs (j - 1)).
    rewrite (read_elem_ok _ _ x). 2:{ cbn [d_h]. rewrite <- EJ. by apply (dr_elems _ _ _ _ _ _ _ _ R). }
    unfold ret. eexists _, subs. split; [done|]. split; [|cbn [d_drops d_size]].
    + destruct R. split; cbn [d_h d_size d_arr d_b d_e]; try done.
      * rewrite EJ. congruence.
      * rewrite EJ. unfold dit_at. done.
      * auto.
    + split; [done|]. split; [done|]. split; [done|]. exists []. by rewrite app_nil_r.
  - assert (md j = 0) as Q'.
    { unfold loc in Q. by injection Q as Q. }
    assert (md (j - 1) = n - 1) as M1.
    { destruct (decide (md (j - 1) = n - 1)) as [|N]; [done|].
      destruct (step_div _ N) as [_ M1]. replace (j - 1 + 1) with j in M1 by lia. lia. }
    destruct (step_wrap _ M1) as [D _]. replace (j - 1 + 1) with j in D by lia.
    destruct (exists_last (l := subs)) as (subs' & b0 & ES). { intros ->. cbn in K. lia. }
    assert (length subs = S (length subs')) as ELS by (rewrite ES, app_length; cbn; lia).
    assert (subs !!! dv j = b0) as EB.
    { apply list_lookup_total_correct. rewrite ES. replace (dv j) with (length subs') by lia.
      rewrite lookup_app_r, Nat.sub_diag by lia. done. }
    assert (j - 1 < n * length subs') as LJ1.
    { pose proof (dv_gt (j - 1)). replace (S (dv (j - 1))) with (length subs') in * by lia. done. }
    destruct (shape_del h0 _ _ _ _ _ _ subs' start b0 SH) as [SH' LD].
    { rewrite ES. apply Permutation_app_comm. }
    { pose proof (sh_start _ _ _ _ _ _ _ SH). lia. }
    { intros i b Hi. exists i. split; [|done]. rewrite ES. rewrite lookup_app_l by (by eapply lookup_lt_Some). done. }
    unfold bind at 1. rewrite EB.
    rewrite free_subarray_ok by (apply (sh_subs _ _ _ _ _ _ _ SH); rewrite ES; apply elem_of_app; right; left).
    destruct (sh_pa _ _ _ _ _ _ _ SH') as (pcs & EP & LP).
    unfold bind at 1. rewrite D.
    rewrite (sub_ok (with_h s (hdel (d_h s) b0)) _ _ _ _ EP) by lia.
    replace (start + (dv (j - 1) + 1) - 1) with (start + dv (j - 1)) by lia.
    unfold bind at 1.
    rewrite (set_subarray_ok (with_h s (hdel (d_h s) b0)) _ _ _ _ _ _ (dv (j - 1)) SH') by lia.
    destruct (sh_loc SH' (j - 1) LJ1) as (cs1 & E1 & Lc1).
    cbn [di_end di_begin di_arr]. unfold bind at 1. rewrite (sub_ok (with_h s (hdel (d_h s) b0)) _ _ _ _ E1) by lia.
    rewrite <- M1. fold (loc subs' (j - 1)).
    assert (loc subs' (j - 1) = loc subs (j - 1)) as LOC by (rewrite ES; symmetry; by apply loc_app).
    unfold bind at 1, set_e, modify. unfold bind at 1.
    rewrite (read_elem_ok _ _ x).
    2:{ cbn [d_h with_h]. unfold loc. rewrite LD by (by apply loc_in). fold (loc subs' (j - 1)). rewrite LOC, <- EJ.
        by apply (dr_elems _ _ _ _ _ _ _ _ R). }
    unfold ret. cbn [with_h d_arr d_size d_b d_e d_h d_drops].
    eexists _, subs'. split; [done|]. split; [|cbn [d_drops d_size]].
    + destruct R. split; cbn [d_h d_size d_arr d_b d_e]; try done.
      * rewrite EJ. lia.
      * rewrite dr_b0, ES. apply dit_app. lia.
      * rewrite EJ. done.
      * intros i y Hy. pose proof (lookup_lt_Some _ _ _ Hy). unfold loc. rewrite LD by (apply loc_in; lia).
        fold (loc subs' (bo + i)). rewrite <- (loc_app subs' [b0]), <- ES by lia. auto.
    + split; [done|]. split; [done|]. split; [|by exists [b0]]. intros i Li. rewrite ES. symmetry. apply loc_app. lia.
Qed.

(** ** Making room in the pointer array *)
Lemma copy_cells {C} (cs : list C) src dst k : src + k <= length cs -> dst + k <= length cs ->
  length (take dst cs ++ take k (drop src cs) ++ drop (dst + k) cs) = length cs /\
  forall i, i < k -> (take dst cs ++ take k (drop src cs) ++ drop (dst + k) cs) !! (dst + i) = cs !! (src + i).
Proof.
  intros L1 L2. split.
  - rewrite !app_length, !take_length, !drop_length. lia.
  - intros i Li. rewrite lookup_app_r by (rewrite take_length; lia). rewrite take_length.
    rewrite lookup_app_l by (rewrite take_length, drop_length; lia).
    rewrite lookup_take by lia. rewrite lookup_drop. f_equal. lia.
Qed.

Lemma slot_cell h size pa start subs leak cs : Shape h0 h size pa start subs leak ->
  h_blk h !! pa = Some (Block (size * 8) 8 cs) ->
  forall i b, subs !! i = Some b -> cs !! (start + i) = Some (Some (DPtr (Ptr b 0))).
Proof.
  intros SH E i b Hi. pose proof (sh_slots _ _ _ _ _ _ _ SH i b Hi) as H. unfold hload in H.
  rewrite (cells_of_some _ _ _ E) in H. cbn in H. destruct (cs !! (start + i)) as [c|]; [|done]. cbn in H. congruence.
Qed.

Lemma copy_within_ok (s : dstate) size pa start subs leak dst : Shape h0 (d_h s) size pa start subs leak ->
  dst + length subs <= Z.to_nat size ->
  exists h', copy_within (Ptr pa 0) (Z.to_nat size) start (start + length subs) dst s = Ok tt (with_h s h') /\
    Shape h0 h' size pa dst subs leak /\ forall b o, b ∈ subs -> hload h' (Ptr b o) = hload (d_h s) (Ptr b o).
Proof.
  intros SH L. pose proof (sh_start _ _ _ _ _ _ _ SH) as L0. destruct (sh_pa _ _ _ _ _ _ _ SH) as (cs & E & LC).
  unfold copy_within. replace (start + length subs - start) with (length subs) by lia.
  rewrite (proj2 (andb_true_iff _ _)); [|rewrite andb_true_iff, !Nat.leb_le; lia].
  unfold bind at 1. rewrite (add_ok _ _ _ _ _ E) by (cbn; lia). unfold bind at 1. rewrite (add_ok _ _ _ _ _ E) by (cbn; lia).
  unfold bind at 1, gets. unfold bind at 1, hcopy. rewrite !Nat.add_0_l.
  rewrite (hraw_ok _ _ _ _ _ E) by (cbn; lia). cbn [bk_cells].
  assert (length (take (length subs) (drop start cs)) = length subs) as LT by (rewrite take_length, drop_length; lia).
  rewrite (hput_ok _ _ _ _ _ E) by (cbn [bk_cells]; lia). rewrite LT. cbn [bk_cells bk_bytes bk_align or_ub]. unfold ret, set_h, modify.
  destruct (copy_cells cs start dst (length subs)) as [LL CC]; [lia..|].
  eexists. split; [done|]. apply shape_ptrs with (start := start); [done|lia|done|].
  intros i b Hi. rewrite CC by (by eapply lookup_lt_Some). by eapply slot_cell.
Qed.

(** A representation is kept when the arrays of elements are. *)
Lemma rep_move s pa start subs leak bo xs h' size' pa' start' leak' : DR s pa start subs leak bo xs ->
  Shape h0 h' size' pa' start' subs leak' -> (forall b o, b ∈ subs -> hload h' (Ptr b o) = hload (d_h s) (Ptr b o)) ->
  DR (DState (Ptr pa' 0) size' (dit_at pa' start' subs bo) (dit_at pa' start' subs (bo + length xs)) h' (d_drops s))
     pa' start' subs leak' bo xs.
Proof.
  intros R SH LD. pose proof (R_bound R) as LB. destruct R. split; cbn [d_h d_size d_arr d_b d_e]; try done.
  intros i x Hx. unfold loc. rewrite LD; [by apply dr_elems0|]. apply loc_in. apply lookup_lt_Some in Hx. lia.
Qed.

Definition max_arrays : Z := 2684354558.

Lemma size_step size : (exists j, (0 <= j)%Z /\ size = (10 * 2 ^ j - 2)%Z) -> (size < u32_lim)%Z ->
  ((2 * size + 2 < u32_lim)%Z /\ (exists j, (0 <= j)%Z /\ (2 * size + 2)%Z = (10 * 2 ^ j - 2)%Z)) \/
  ((u32_lim <= 2 * size + 2)%Z /\ size = max_arrays).
Proof.
  intros (j & Hj & ->) U. unfold max_arrays. unfold u32_lim in *.
  assert (10 * 2 ^ (j + 1) - 2 = 2 * (10 * 2 ^ j - 2) + 2)%Z as E by (rewrite Z.pow_add_r by lia; lia).
  destruct (Z.lt_ge_cases j 28) as [L|G].
  - left. assert (2 ^ j <= 2 ^ 27)%Z by (apply Z.pow_le_mono_r; lia). split; [lia|]. exists (j + 1)%Z. split; [lia|]. lia.
  - right. assert (j = 28)%Z as ->; [|lia].
    destruct (Z.lt_ge_cases 28 j) as [L|]; [|lia].
    assert (2 ^ 29 <= 2 ^ j)%Z by (apply Z.pow_le_mono_r; lia). lia.
Qed.

Lemma u32_ok {S} (r : Z) (s : S) : (0 <= r < u32_lim)%Z -> u32 chk r s = Ok r s.
Proof. intros R. unfold u32. rewrite (proj2 (andb_true_iff _ _)) by lia. done. Qed.

(** The last part: both iterators follow the arrays. *)
Lemma refresh s pa start subs leak bo xs pa' start' h' size' leak' (s1 : dstate) : DR s pa start subs leak bo xs ->
  Shape h0 h' size' pa' start' subs leak' -> (forall b o, b ∈ subs -> hload h' (Ptr b o) = hload (d_h s) (Ptr b o)) ->
  s1 = DState (Ptr pa' 0) size' (d_b s) (d_e s) h' (d_drops s) ->
  exists s', (do s <- gets id;
    do a <- add (d_arr s) start';
    do b <- set_subarray sz (d_b s) a;
    run set_b b;
    do k <- usize chk (Z.of_nat (start' + length subs) - 1);
    do a <- add (d_arr s) k;
    do e <- set_subarray sz (d_e s) a;
    set_e e) s1 = Ok tt s' /\ DR s' pa' start' subs leak' bo xs /\ d_drops s' = d_drops s /\ d_size s' = size'.
Proof.
  intros R SH LD ->. pose proof (R_k R) as K. pose proof (sh_start _ _ _ _ _ _ _ SH) as LS.
  pose proof (sh_u32 _ _ _ _ _ _ _ SH) as U. unfold u32_lim in U.
  pose proof (dr_len _ _ _ _ _ _ _ _ R) as LK.
  destruct (sh_pa _ _ _ _ _ _ _ SH) as (cs & E & LC).
  destruct (dv_small bo (dr_bo _ _ _ _ _ _ _ _ R)) as [D0 M0].
  unfold bind at 1, gets. cbn [id d_arr d_b d_e].
  unfold bind at 1. rewrite (add_ok (DState _ _ _ _ h' _) _ _ _ _ E) by (cbn; lia).
  unfold bind at 1. rewrite Nat.add_0_l, <- (Nat.add_0_r start').
  rewrite (set_subarray_ok (DState _ _ _ _ h' _) _ _ _ _ _ _ 0 SH K).
  unfold bind at 1, set_b, modify. cbn [d_arr d_size d_b d_e d_h d_drops].
  unfold bind at 1. rewrite usize_ok by (unfold usize_lim; lia).
  unfold bind at 1. rewrite (add_ok (DState _ _ _ _ h' _) _ _ _ _ E) by (cbn; lia).
  replace (0 + Z.to_nat (Z.of_nat (start' + 0 + length subs) - 1)) with (start' + dv (bo + length xs)) by lia.
  unfold bind at 1. rewrite (set_subarray_ok (DState _ _ _ _ h' _) _ _ _ _ _ _ (dv (bo + length xs)) SH) by lia.
  unfold set_e, modify. cbn [d_arr d_size d_b d_e d_h d_drops].
  eexists. split; [done|]. split; [|done].
  pose proof (rep_move _ _ _ _ _ _ _ _ _ _ _ _ R SH LD) as R'.
  rewrite (dr_b _ _ _ _ _ _ _ _ R), (dr_e _ _ _ _ _ _ _ _ R). cbn [di_cur dit_at].
  unfold dit_at in R'. rewrite D0 in R'. rewrite !Nat.add_0_r in R' |- *. exact R'.
Qed.

Lemma realloc_ok (front : bool) (s : dstate) pa start subs leak bo xs : DR s pa start subs leak bo xs ->
  (if front then start = 0 else start + length subs = Z.to_nat (d_size s)) ->
  (exists (s' : dstate) (pa' start' : nat), realloc_ptr_array sz chk 1 front s = Ok tt s' /\ DR s' pa' start' subs leak bo xs /\
    (if front then 0 < start' else start' + length subs < Z.to_nat (d_size s')) /\ d_drops s' = d_drops s /\
    (d_size s' = d_size s \/ d_size s' = (2 * Z.of_nat (length subs) + 2)%Z) /\
    (front = false -> start' = start - Nat.max 1 ((start + 1) / 2) /\ (0 < start -> d_size s' = d_size s) /\ (start = 0 -> d_size s' = (2 * d_size s + 2)%Z))) \/
  (exists (s' : dstate) (leak' : list nat), realloc_ptr_array sz chk 1 front s = Panic s' /\ DR s' pa start subs leak' bo xs /\
    d_drops s' = d_drops s /\ d_size s' = d_size s /\ Z.of_nat (length subs) = max_arrays /\ (chk = true -> leak' = leak)).
Proof.
  intros R FR. pose proof (dr_shape _ _ _ _ _ _ _ _ R) as SH. pose proof (R_k R) as K.
  pose proof (sh_start _ _ _ _ _ _ _ SH) as LS. pose proof (sh_u32 _ _ _ _ _ _ _ SH) as U.
  pose proof (size_big _ (sh_size _ _ _ _ _ _ _ SH)) as SB. pose proof (dr_len _ _ _ _ _ _ _ _ R) as LK.
  destruct (dv_small bo (dr_bo _ _ _ _ _ _ _ _ R)) as [D0 M0].
  unfold u32_lim in U.
  remember (realloc_ptr_array sz chk 1 front s) as r eqn:Er. revert Er.
  unfold realloc_ptr_array. unfold bind at 1, gets at 1. cbn [id].
  rewrite (dr_b _ _ _ _ _ _ _ _ R), (dr_e _ _ _ _ _ _ _ _ R), (dr_arr _ _ _ _ _ _ _ _ R). cbn [dit_at di_arr].
  rewrite D0. unfold bind at 1. rewrite pdiff_ok by lia. cbn [or_ub]. unfold ret at 1.
  unfold bind at 1. rewrite pdiff_ok by lia. cbn [or_ub]. unfold ret at 1.
  replace (start + 0 - 0) with start by lia.
  replace (start + dv (bo + length xs) - (start + 0) + 1) with (length subs) by lia.
  unfold bind at 1. rewrite usize_ok by (unfold usize_lim; lia).
  unfold bind at 1. rewrite usize_ok by (unfold usize_lim; lia).
  set (ub_ := Z.to_nat (Z.of_nat (Z.to_nat (d_size s - Z.of_nat start)) - Z.of_nat (length subs))).
  assert (ub_ = Z.to_nat (d_size s) - start - length subs) as EUB by lia. cbn [is_null].
  destruct (negb front && (1 <=? start)) eqn:C1.
  - (* use the room at the front *)
    apply andb_true_iff in C1 as [C1 C2]. apply negb_true_iff in C1. subst front. apply Nat.leb_le in C2.
    set (ad := Nat.max 1 ((start + 1) / 2)).
    assert (1 <= ad <= start) as AD.
    { subst ad. assert ((start + 1) / 2 <= start); [|lia]. apply Nat.div_le_upper_bound; lia. }
    clearbody ad.
    unfold bind at 1. unfold bind at 1. rewrite usize_ok by (unfold usize_lim; lia).
    replace (Z.to_nat (Z.of_nat start - Z.of_nat ad)) with (start - ad) by lia.
    destruct (copy_within_ok s _ _ _ _ _ (start - ad) SH) as (h' & E & SH' & LD); [lia|].
    unfold bind at 1. rewrite E. unfold ret at 1.
    destruct (refresh _ _ _ _ _ _ _ _ _ _ _ _ (with_h s h') R SH' LD) as (s' & E' & R' & DD & DS).
    { unfold with_h. by rewrite (dr_arr _ _ _ _ _ _ _ _ R). }
    rewrite E'. intros ->. left. exists s', pa, (start - ad). split; [done|]. split; [done|]. split; [lia|]. split; [done|]. split; [by left|]. intros _. split; [done|]. split; [done|lia].
  - destruct (front && (1 <=? ub_)) eqn:C3.
    + (* use the room at the back *)
      apply andb_true_iff in C3 as [-> C2]. apply Nat.leb_le in C2. subst start.
      set (ad := Nat.max 1 (ub_ / 2)).
      assert (1 <= ad <= ub_) as AD.
      { subst ad. assert (ub_ / 2 <= ub_); [|lia]. apply Nat.div_le_upper_bound; lia. }
      clearbody ad.
      unfold bind at 1. rewrite !Nat.add_0_l.
      destruct (copy_within_ok s _ _ _ _ _ ad SH) as (h' & E & SH' & LD); [lia|].
      rewrite Nat.add_0_l in E.
      unfold bind at 1. rewrite E. unfold ret at 1.
      destruct (refresh _ _ _ _ _ _ _ _ _ _ _ _ (with_h s h') R SH' LD) as (s' & E' & R' & DD & DS).
      { unfold with_h. by rewrite (dr_arr _ _ _ _ _ _ _ _ R). }
      rewrite E'. intros ->. left. exists s', pa, ad. split; [done|]. split; [done|]. split; [lia|]. split; [done|]. split; [by left|done].
    + (* grow *)
      assert (start = 0 /\ length subs = Z.to_nat (d_size s)) as [E0 EK].
      { destruct front; cbn [negb andb] in C1, C3.
        - apply Nat.leb_gt in C3. lia.
        - apply Nat.leb_gt in C1. lia. }
      subst start.
      assert (Z.of_nat 1 mod u32_lim = 1)%Z as -> by done.
      replace (Z.max (d_size s) 1) with (d_size s) by lia.
      destruct (size_step _ (sh_size _ _ _ _ _ _ _ SH)) as [[L SZ]|[G EM]]; [unfold u32_lim; lia| |].
      * unfold u32_lim in L.
        replace (d_size s + d_size s)%Z with (2 * d_size s)%Z by lia.
        set (ns := (2 * d_size s + 2)%Z) in *.
        set (st := 0 + (if front then 1 else 0)).
        assert (st <= 1) as ST by (subst st; destruct front; lia).
        unfold bind at 1. unfold bind at 1. rewrite u32_ok by (unfold u32_lim; lia).
        unfold bind at 1. rewrite u32_ok by (fold ns; unfold u32_lim; lia). fold ns.
        unfold bind at 1. unfold allocate_ptr_array, allocate, default_alloc.
        assert (ns * 8 =? 0 = false)%Z as -> by lia.
        assert (layout_ok (ns * 8) 8 = true) as -> by (unfold layout_ok, isize_max; lia).
        cbn [fst snd]. rewrite Z.div_mul by lia.
        set (na := h_next (d_h s)). set (h1 := halloc (d_h s) _).
        unfold bind at 1. rewrite (proj2 (andb_true_iff _ _)).
        2:{ split; [apply Z.leb_le; lia|apply Nat.leb_le; lia]. }
        cbn [negb]. unfold ret at 1.
        assert (h_blk h1 !! na = Some (Block (ns * 8) 8 (replicate (Z.to_nat ns) None))) as EN.
        { unfold h1. cbn. by rewrite lookup_insert. }
        destruct (sh_pa _ _ _ _ _ _ _ SH) as (cs & EP & LC).
        assert (pa <> na) as NP by (eapply shape_fresh; [exact SH|left]).
        assert (h_blk h1 !! pa = Some (Block (d_size s * 8) 8 cs)) as EP1.
        { unfold h1. rewrite halloc_other by done. done. }
        unfold bind at 1. rewrite (add_ok (DState _ _ _ _ h1 _) _ _ _ _ EN) by (cbn; rewrite replicate_length; lia).
        unfold bind at 1. rewrite (add_ok (DState _ _ _ _ h1 _) _ _ _ _ EP1) by (cbn; lia).
        unfold bind at 1, gets. cbn [d_h]. unfold bind at 1, hcopy.
        rewrite (hraw_ok _ _ _ _ _ EP1) by (cbn; lia). cbn [bk_cells].
        assert (take (length subs) (drop (0 + 0) cs) = cs) as -> by (rewrite drop_0, take_ge by lia; done).
        rewrite (hput_ok _ _ _ _ _ EN) by (cbn [bk_cells]; rewrite replicate_length; lia).
        cbn [bk_cells bk_bytes bk_align or_ub]. unfold ret at 1. rewrite Nat.add_0_l.
        set (cs' := take st _ ++ _).
        assert (length cs' = Z.to_nat ns) as LC'.
        { subst cs'. rewrite !app_length, take_length, drop_length, replicate_length. lia. }
        assert (forall i b, subs !! i = Some b -> cs' !! (st + i) = Some (Some (DPtr (Ptr b 0)))) as SL.
        { intros i b Hi. pose proof (lookup_lt_Some _ _ _ Hi). subst cs'.
          rewrite lookup_app_r by (rewrite take_length; lia). rewrite take_length, replicate_length.
          replace (st + i - Nat.min st (Z.to_nat ns)) with i by lia.
          rewrite lookup_app_l by lia. exact (slot_cell _ _ _ _ _ _ _ SH EP i b Hi). }
        clearbody cs'.
        unfold bind at 1, set_h, modify. cbn [d_arr d_size d_b d_e d_h d_drops].
        set (h2 := hset h1 na _).
        assert (h_blk h2 !! pa = Some (Block (d_size s * 8) 8 cs)) as EP2 by (unfold h2; rewrite hset_other by done; done).
        unfold bind at 1, free_ptr_array. unfold bind at 1, gets. cbn [id d_arr d_size].
        unfold deallocate, default_free.
        assert (layout_ok (d_size s * 8) 8 = true) as -> by (unfold layout_ok, isize_max; lia).
        cbn [fst snd d_h]. rewrite (dr_arr _ _ _ _ _ _ _ _ R).
        assert (hfree h2 (Ptr pa 0) (d_size s * 8) 8 = Some (hdel h2 pa)) as EF by (unfold hfree; rewrite EP2; cbn [bk_bytes bk_align]; by rewrite !Z.eqb_refl).
        rewrite EF. cbn [fst snd]. unfold with_h. cbn [d_arr d_size d_b d_e d_h d_drops].
        unfold bind at 1, set_arr, modify. cbn [d_arr d_size d_b d_e d_h d_drops]. unfold ret at 1.
        destruct (shape_grow _ _ _ _ _ _ _ ns st cs' SH SZ L LC') as [SH' LD]; [lia|exact SL|].
        fold na h1 in SH', LD.
        destruct (refresh _ _ _ _ _ _ _ _ _ _ _ _ (DState (Ptr na 0) ns (d_b s) (d_e s) (hdel h2 pa) (d_drops s)) R SH' LD) as (s' & E' & R' & DD & DS).
        { done. }
        intros ->. left. exists s', na, st. split; [exact E'|]. split; [done|]. split; [|split; [done|split; [right; lia|]]].
        { rewrite DS. subst st. destruct front; lia. }
        intros ->. cbn in st. subst st. split; [done|]. split; [lia|]. intros _. by rewrite DS.
      * (* the size does not fit *)
        unfold max_arrays in EM. rewrite EM.
        destruct chk eqn:EC.
        -- unfold bind at 1. unfold bind at 1.
           assert (forall s1 : dstate, u32 true (2684354558 + 2684354558) s1 = Panic s1) as UE by done. rewrite UE. intros ->. right. exists s, leak. split; [done|]. split; [done|]. split; [done|]. split; [done|].
           split; [|done]. unfold max_arrays. lia.
        -- unfold bind at 1. unfold bind at 1.
           assert (forall s1 : dstate, u32 false (2684354558 + 2684354558) s1 = Ok 1073741820%Z s1) as UE by done. rewrite UE.
           assert (forall s1 : dstate, u32 false (1073741820 + 2) s1 = Ok 1073741822%Z s1) as UE2 by done.
           unfold bind at 1. rewrite UE2.
           unfold bind at 1. unfold allocate_ptr_array, allocate, default_alloc.
           change (1073741822 * 8 =? 0)%Z with false. change (layout_ok (1073741822 * 8) 8) with true. cbv iota. cbn [fst snd].
           set (h1 := halloc (d_h s) _).
           unfold bind at 1. rewrite (proj2 (andb_false_iff _ _)). 2:{ left. apply Z.leb_gt. lia. }
           cbn [negb]. unfold panic. intros ->. right.
           destruct (shape_leak _ _ _ _ _ _ _ (Block (1073741822 * 8) 8 (replicate (Z.to_nat (1073741822 * 8 / 8)) None)) SH) as [SH' LD].
           fold h1 in SH', LD.
           pose proof (rep_move _ _ _ _ _ _ _ _ _ _ _ _ R SH' LD) as R'.
           eexists _, _. split; [done|].
           rewrite <- (dr_b _ _ _ _ _ _ _ _ R), <- (dr_e _ _ _ _ _ _ _ _ R), <- (dr_arr _ _ _ _ _ _ _ _ R) in R'.
           split; [exact R'|]. split; [done|]. split; [cbn [d_size with_h]; done|]. split; [|done]. unfold max_arrays. lia.
Qed.

(** ** Pushing *)
Lemma push_back_slow s pa start subs leak bo xs x : DR s pa start subs leak bo xs ->
  md (bo + length xs) = n - 1 -> start + length subs < Z.to_nat (d_size s) ->
  exists s' subs', (do s <- gets id;
    let e := d_e s in
    run store (di_cur e) (DElem x);
    do p <- allocate_subarray sz al;
    do slot <- add (di_arr e) 1;
    run store slot (DPtr p);
    do a <- add (di_arr e) 1;
    do e' <- set_subarray sz e a;
    set_e (DIt (di_begin e') (di_begin e') (di_end e') (di_arr e'))) s = Ok tt s' /\
   DR s' pa start subs' leak bo (xs ++ [x]) /\ d_drops s' = d_drops s /\ d_size s' = d_size s /\ length subs' = S (length subs) /\
   (forall i, i < length xs -> loc subs' (bo + i) = loc subs (bo + i)).
Proof.
  intros R MD LS. pose proof (dr_shape _ _ _ _ _ _ _ _ R) as SH. pose proof (R_bound R) as LB. pose proof (R_k R) as K.
  pose proof (dr_bo _ _ _ _ _ _ _ _ R) as Lbo. pose proof (dr_len _ _ _ _ _ _ _ _ R) as LK. pose proof n_pos as NP.
  unfold bind at 1, gets. cbn [id]. rewrite (dr_e _ _ _ _ _ _ _ _ R). cbn zeta. cbn [dit_at di_cur di_end di_begin di_arr].
  set (j := bo + length xs) in *. destruct (step_wrap j MD) as [D1 M1].
  destruct (store_elem SH s j x eq_refl LB) as (h1 & E1 & SH1 & G1 & O1).
  unfold bind at 1. rewrite E1. unfold bind at 1. rewrite allocate_subarray_ok. cbn [with_h d_h].
  destruct (shape_add h0 h1 _ _ _ _ _ (subs ++ [h_next h1]) start (start + length subs) SH1) with (s := with_h (with_h s h1) (halloc h1 freshblk)) as (h2 & E2 & SH2 & LD).
  { rewrite Permutation_app_comm. done. }
  { done. }
  { rewrite app_length. cbn. lia. }
  { intros i b Hi. apply lookup_app_Some in Hi as [Hi|[Hle Hi]].
    - right. pose proof (lookup_lt_Some _ _ _ Hi). split; [lia|]. by exists i.
    - left. apply list_lookup_singleton_Some in Hi as [Hi <-]. split; [done|]. lia. }
  { done. }
  destruct (sh_pa _ _ _ _ _ _ _ SH1) as (cs & EP & LC).
  assert (pa <> h_next h1) as NPA by (eapply shape_fresh; [exact SH1|left]).
  assert (h_blk (halloc h1 freshblk) !! pa = Some (Block (d_size s * 8) 8 cs)) as EP1 by (rewrite halloc_other by done; done).
  unfold bind at 1. cbn [with_h] in *. unfold with_h in *.
  rewrite (add_ok (DState _ _ _ _ (halloc h1 freshblk) _) _ _ _ _ EP1) by (cbn; lia).
  replace (start + dv j + 1) with (start + length subs) by lia.
  unfold bind at 1. rewrite E2. cbn [d_arr d_size d_b d_e d_h d_drops].
  destruct (sh_pa _ _ _ _ _ _ _ SH2) as (cs2 & EP2 & LC2).
  unfold bind at 1. rewrite (add_ok (DState _ _ _ _ h2 _) _ _ _ _ EP2) by (cbn; lia).
  replace (start + dv j + 1) with (start + length subs) by lia.
  unfold bind at 1. rewrite (set_subarray_ok (DState _ _ _ _ h2 _) _ _ _ _ _ _ (length subs) SH2) by (rewrite app_length; cbn; lia).
  unfold set_e, modify. cbn [di_begin di_end di_arr d_arr d_size d_b d_e d_h d_drops].
  eexists _, (subs ++ [h_next h1]). split; [done|]. split; [|split; [done|split; [done|split; [rewrite app_length; cbn; lia|]]]].
  2:{ intros i Li. apply loc_app. lia. }
  assert (bo + length (xs ++ [x]) = j + 1) as EJ by (rewrite app_length; cbn; lia).
  destruct R. split; cbn [d_h d_size d_arr d_b d_e]; try done.
  + rewrite EJ, app_length. cbn. lia.
  + rewrite dr_b0. symmetry. apply dit_app. lia.
  + rewrite EJ. unfold dit_at, loc. rewrite D1, M1. replace (dv j + 1) with (length subs) by lia. done.
  + intros i y Hy. apply lookup_app_Some in Hy as [Hy|[Hle Hy]].
    * pose proof (lookup_lt_Some _ _ _ Hy). rewrite loc_app by lia. unfold loc. rewrite LD by (apply loc_in; lia).
      fold (loc subs (bo + i)). rewrite O1 by lia. auto.
    * apply list_lookup_singleton_Some in Hy as [Hy <-]. replace (bo + i) with j by lia.
      rewrite loc_app by lia. unfold loc. rewrite LD by (apply loc_in; lia). done.
Qed.

Definition grown (s s' : dstate) (subs : list nat) (xs : list T) : Prop :=
  d_size s' = d_size s \/ (d_size s' = (2 * Z.of_nat (length subs) + 2)%Z /\ n * (length subs - 1) <= length xs).

(** What pushing at the back does to the pointer array. *)
Definition after_push (s s' : dstate) (pa start : nat) (subs : list nat) (bo len pa' start' : nat) : Prop :=
  if decide (md (bo + len) = n - 1 /\ start + length subs = Z.to_nat (d_size s))
  then start' = start - Nat.max 1 ((start + 1) / 2) /\ (0 < start -> d_size s' = d_size s) /\ (start = 0 -> d_size s' = (2 * d_size s + 2)%Z)
  else pa' = pa /\ start' = start /\ d_size s' = d_size s.

Lemma push_back_at s pa start subs leak bo xs x : DR s pa start subs leak bo xs ->
  (exists s' pa' start' subs', push_back sz al chk x s = Ok tt s' /\ DR s' pa' start' subs' leak bo (xs ++ [x]) /\
    d_drops s' = d_drops s /\ grown s s' subs xs /\
    (forall i, i < length xs -> loc subs' (bo + i) = loc subs (bo + i)) /\ after_push s s' pa start subs bo (length xs) pa' start') \/
  (exists s' leak', push_back sz al chk x s = Panic s' /\ DR s' pa start subs leak' bo xs /\ d_drops s' = d_drops s ++ [x] /\
    d_size s' = d_size s /\ Z.of_nat (length subs) = max_arrays /\ (chk = true -> leak' = leak) /\ n * (length subs - 1) <= length xs).
Proof.
  intros R. pose proof (dr_shape _ _ _ _ _ _ _ _ R) as SH. pose proof (R_bound R) as LB. pose proof (R_k R) as K.
  pose proof (dr_bo _ _ _ _ _ _ _ _ R) as Lbo. pose proof (dr_len _ _ _ _ _ _ _ _ R) as LK. pose proof n_pos as NP.
  pose proof (sh_start _ _ _ _ _ _ _ SH) as LS. pose proof (size_big _ (sh_size _ _ _ _ _ _ _ SH)) as SB.
  pose proof (sh_u32 _ _ _ _ _ _ _ SH) as U. unfold u32_lim in U.
  remember (push_back sz al chk x s) as r eqn:Er. revert Er. unfold push_back, bind at 1, gets at 1. cbn [id].
  rewrite (dr_e _ _ _ _ _ _ _ _ R), (dr_arr _ _ _ _ _ _ _ _ R). cbn zeta. cbn [dit_at di_cur di_end di_begin di_arr].
  set (j := bo + length xs) in *. destruct (sh_loc SH j LB) as (cs & E & Lc). pose proof (md_lt j) as ML.
  unfold bind at 1. rewrite (sub_ok _ _ _ _ _ E) by lia.
  case_decide as Q.
  - assert (md j <> n - 1) as Q' by (intros Q'; apply Q; unfold loc; by rewrite Q'). clear Q.
    destruct (step_div j Q') as [D1 M1].
    destruct (store_elem SH s j x eq_refl LB) as (h1 & E1 & SH1 & G1 & O1).
    unfold bind at 1. rewrite E1. unfold bind at 1. unfold loc at 1.
    destruct (sh_loc SH1 j LB) as (cs1 & EB & Lc1).
    unfold with_h. rewrite (add_ok (DState _ _ _ _ h1 _) _ _ _ _ EB) by (cbn; lia).
    unfold set_e, modify. cbn [d_arr d_size d_b d_e d_h d_drops]. intros ->. left.
    eexists _, pa, start, subs. split; [done|]. split; [|split; [done|split; [by left|split; [done|]]]].
    2:{ unfold after_push. by rewrite decide_False by (intros [? _]; done). }
    assert (bo + length (xs ++ [x]) = j + 1) as EJ by (rewrite app_length; cbn; lia).
    destruct R. split; cbn [d_h d_size d_arr d_b d_e]; try done.
    + rewrite EJ. lia.
    + rewrite EJ. unfold dit_at, loc. by rewrite D1, M1.
    + intros i y Hy. apply lookup_app_Some in Hy as [Hy|[Hle Hy]].
      * pose proof (lookup_lt_Some _ _ _ Hy). rewrite O1 by lia. auto.
      * apply list_lookup_singleton_Some in Hy as [Hy <-]. by replace (bo + i) with j by lia.
  - assert (md j = n - 1) as Q' by (unfold loc in Q; by injection Q as Q). clear Q.
    destruct (sh_pa _ _ _ _ _ _ _ SH) as (pcs & EP & LC).
    unfold bind at 1, on_unwind. unfold bind at 1. rewrite usize_ok by (unfold usize_lim; lia).
    unfold bind at 1. rewrite (add_ok _ _ _ _ _ EP) by (cbn; lia).
    case_decide as Q.
    + assert (start + length subs = Z.to_nat (d_size s)) as EQ by (injection Q as Q; lia).
      destruct (realloc_ok false s _ _ _ _ _ _ R EQ) as [(s1 & pa1 & st1 & E1 & R1 & L1 & DD & DS & AT)|(s1 & lk & E1 & R1 & DD & DS & MX & CK)].
      * rewrite E1. intros ->. left.
        destruct (push_back_slow _ _ _ _ _ _ _ x R1 Q' L1) as (s2 & subs2 & E2 & R2 & DD2 & DS2 & _ & LOC).
        exists s2, pa1, st1, subs2. split; [exact E2|]. split; [done|]. split; [congruence|]. split; [|split; [done|unfold after_push; rewrite decide_True by done; rewrite DS2; by apply AT]].
        unfold grown. rewrite DS2. destruct DS as [DS|DS]; [by left|right]. split; [done|].
        pose proof (dv_md j) as DM. replace (length subs - 1) with (dv j) by lia. lia.
      * rewrite E1. intros ->. right. exists (logged [x] s1), lk. split; [done|]. split; [by apply log_rep|].
        split; [cbn; by rewrite DD|]. split; [done|]. split; [done|]. split; [done|].
        pose proof (dv_md j) as DM. replace (length subs - 1) with (dv j) by lia. lia.
    + assert (start + length subs < Z.to_nat (d_size s)) as L1.
      { destruct (decide (start + length subs = Z.to_nat (d_size s))) as [N|]; [|lia]. exfalso. apply Q. f_equal. lia. }
      unfold ret at 1. intros ->. left.
      destruct (push_back_slow _ _ _ _ _ _ _ x R Q' L1) as (s2 & subs2 & E2 & R2 & DD2 & DS2 & _ & LOC).
      exists s2, pa, start, subs2. split; [exact E2|]. split; [done|]. split; [congruence|]. split; [by left|]. split; [done|].
      unfold after_push. rewrite decide_False by lia. done.
Qed.
Lemma push_back_ok s pa start subs leak bo xs x : DR s pa start subs leak bo xs ->
  (exists s' pa' start' subs', push_back sz al chk x s = Ok tt s' /\ DR s' pa' start' subs' leak bo (xs ++ [x]) /\
    d_drops s' = d_drops s /\ grown s s' subs xs /\
    (forall i, i < length xs -> loc subs' (bo + i) = loc subs (bo + i))) \/
  (exists s' leak', push_back sz al chk x s = Panic s' /\ DR s' pa start subs leak' bo xs /\ d_drops s' = d_drops s ++ [x] /\
    d_size s' = d_size s /\ Z.of_nat (length subs) = max_arrays /\ (chk = true -> leak' = leak) /\ n * (length subs - 1) <= length xs).
Proof.
  intros R. destruct (push_back_at _ _ _ _ _ _ _ x R) as [(s' & pa' & st' & subs' & H1 & H2 & H3 & H4 & H5 & _)|H]; [left|by right].
  by exists s', pa', st', subs'.
Qed.

Lemma push_front_fast pa start subs leak bo xs x size h d : Shape h0 h size pa start subs leak ->
  bo < n -> S (dv (S bo + length xs)) = length subs ->
  (forall i y, xs !! i = Some y -> hload h (loc subs (S bo + i)) = Some (DElem y)) ->
  exists s', (do s <- gets id; store (di_cur (d_b s)) (DElem x))
    (DState (Ptr pa 0) size (dit_at pa start subs bo) (dit_at pa start subs (S bo + length xs)) h d) = Ok tt s' /\
    DR s' pa start subs leak bo (x :: xs) /\ d_drops s' = d /\ d_size s' = size.
Proof.
  intros SH Lbo LK EL.
  assert (S bo + length xs < n * length subs) as LB.
  { rewrite <- LK. apply dv_gt. }
  unfold bind at 1, gets. cbn [id d_b dit_at di_cur].
  destruct (store_elem SH (DState (Ptr pa 0) size (dit_at pa start subs bo) (dit_at pa start subs (S bo + length xs)) h d) bo x eq_refl) as (h1 & E1 & SH1 & G1 & O1); [lia|].
  cbn [dit_at] in E1. rewrite E1. unfold with_h. cbn [d_arr d_size d_b d_e d_h d_drops].
  eexists. split; [done|]. split; [|done].
  split; cbn [d_h d_size d_arr d_b d_e length]; try done.
  - by rewrite Nat.add_succ_r.
  - by rewrite Nat.add_succ_r.
  - intros [|i] y Hy; cbn in Hy.
    + injection Hy as <-. by rewrite Nat.add_0_r.
    + pose proof (lookup_lt_Some _ _ _ Hy). rewrite O1 by lia. rewrite Nat.add_succ_r. by apply EL.
Qed.

Lemma push_front_slow s pa start subs leak xs x : DR s pa start subs leak 0 xs -> 0 < start ->
  exists s1, (do s <- gets id;
      let b := d_b s in
      do p <- allocate_subarray sz al;
      do slot <- sub (di_arr b) 1;
      run store slot (DPtr p);
      do a <- sub (di_arr b) 1;
      do b' <- set_subarray sz b a;
      do c <- sub (di_end b') 1;
      set_b (DIt c (di_begin b') (di_end b') (di_arr b'))) s = Ok tt s1 /\
  exists s', (do s <- gets id; store (di_cur (d_b s)) (DElem x)) s1 = Ok tt s' /\
    exists b0, DR s' pa (start - 1) (b0 :: subs) leak (n - 1) (x :: xs) /\ d_drops s' = d_drops s /\ d_size s' = d_size s.
Proof.
  intros R L0. pose proof (dr_shape _ _ _ _ _ _ _ _ R) as SH. pose proof (R_bound R) as LB. pose proof (R_k R) as K.
  pose proof (dr_len _ _ _ _ _ _ _ _ R) as LK. pose proof n_pos as NP. pose proof (sh_start _ _ _ _ _ _ _ SH) as LS.
  unfold bind at 1, gets at 1. cbn [id]. rewrite (dr_b _ _ _ _ _ _ _ _ R). cbn zeta. cbn [dit_at di_cur di_end di_begin di_arr].
  destruct (dv_small 0 NP) as [D0 M0]. rewrite D0.
  unfold bind at 1. rewrite allocate_subarray_ok.
  set (nb := h_next (d_h s)).
  destruct (shape_add h0 _ _ _ _ _ _ (nb :: subs) (start - 1) (start - 1) SH) with (s := with_h s (halloc (d_h s) freshblk)) as (h2 & E2 & SH2 & LD).
  { done. }
  { lia. }
  { cbn. lia. }
  { intros [|i] b Hi; cbn in Hi.
    - left. injection Hi as <-. split; [done|]. lia.
    - right. split; [lia|]. exists i. split; [done|]. lia. }
  { done. }
  destruct (sh_pa _ _ _ _ _ _ _ SH) as (cs & EP & LC).
  assert (pa <> nb) as NPA by (eapply shape_fresh; [exact SH|left]).
  assert (h_blk (halloc (d_h s) freshblk) !! pa = Some (Block (d_size s * 8) 8 cs)) as EP1 by (rewrite halloc_other by done; done).
  unfold with_h in *. cbn [d_arr d_size d_b d_e d_h d_drops] in *.
  unfold bind at 1. rewrite (sub_ok (DState _ _ _ _ (halloc (d_h s) freshblk) _) _ _ _ _ EP1) by lia.
  replace (start + 0 - 1) with (start - 1) by lia.
  unfold bind at 1. fold nb in E2 |- *. rewrite E2.
  destruct (sh_pa _ _ _ _ _ _ _ SH2) as (cs2 & EP2 & LC2).
  unfold bind at 1. rewrite (sub_ok (DState _ _ _ _ h2 _) _ _ _ _ EP2) by lia.
  replace (start + 0 - 1) with (start - 1 + 0) by lia.
  unfold bind at 1. rewrite (set_subarray_ok (DState _ _ _ _ h2 _) _ _ _ _ _ _ 0 SH2) by (cbn; lia).
  cbn [di_end di_begin di_arr]. change ((nb :: subs) !!! 0) with nb.
  destruct (sh_subs _ _ _ _ _ _ _ SH2 nb) as (cs3 & EB & LC3); [left|].
  unfold bind at 1. rewrite (sub_ok (DState _ _ _ _ h2 _) _ _ _ _ EB) by lia.
  unfold set_b, modify. cbn [d_arr d_size d_b d_e d_h d_drops].
  eexists. split; [done|].
  destruct (push_front_fast pa (start - 1) (nb :: subs) leak (n - 1) xs x _ _ (d_drops s) SH2) as (s' & E' & R' & DD & DS).
  { lia. }
  { replace (S (n - 1) + length xs) with (n + (0 + length xs)) by lia. destruct (dv_add (0 + length xs)) as [-> _]. cbn [length]. lia. }
  { intros i y Hy. replace (S (n - 1) + i) with (n + (0 + i)) by lia. rewrite loc_cons. unfold loc.
    pose proof (lookup_lt_Some _ _ _ Hy).
    rewrite LD by (apply loc_in; lia). by apply (dr_elems _ _ _ _ _ _ _ _ R). }
  exists s'. split; [|exists nb; done].
  rewrite (dr_arr _ _ _ _ _ _ _ _ R), (dr_e _ _ _ _ _ _ _ _ R).
  replace (S (n - 1) + length xs) with (n + (0 + length xs)) in E' by lia. rewrite dit_cons in E'.
  replace (start - 1 + 1) with start in E' by lia.
  destruct (dv_small (n - 1)) as [D1 M1]; [lia|].
  unfold dit_at at 1, loc at 1 in E'. rewrite D1, M1 in E'. exact E'.
Qed.

Lemma push_front_ok s pa start subs leak bo xs x : DR s pa start subs leak bo xs ->
  (exists s' pa' start' subs' bo', push_front sz al chk x s = Ok tt s' /\ DR s' pa' start' subs' leak bo' (x :: xs) /\
    d_drops s' = d_drops s /\ grown s s' subs xs /\
    (forall i, i < length xs -> loc subs' (bo' + S i) = loc subs (bo + i))) \/
  (exists s' leak', push_front sz al chk x s = Panic s' /\ DR s' pa start subs leak' bo xs /\ d_drops s' = d_drops s ++ [x] /\
    d_size s' = d_size s /\ Z.of_nat (length subs) = max_arrays /\ (chk = true -> leak' = leak) /\ n * (length subs - 1) <= length xs).
Proof.
  intros R. pose proof (dr_shape _ _ _ _ _ _ _ _ R) as SH. pose proof (R_bound R) as LB. pose proof (R_k R) as K.
  pose proof (dr_bo _ _ _ _ _ _ _ _ R) as Lbo. pose proof (dr_len _ _ _ _ _ _ _ _ R) as LK. pose proof n_pos as NP.
  pose proof (sh_start _ _ _ _ _ _ _ SH) as LS.
  destruct (dv_small bo Lbo) as [D0 M0].
  remember (push_front sz al chk x s) as r eqn:Er. revert Er. unfold push_front, bind at 1, gets at 1. cbn [id].
  rewrite (dr_b _ _ _ _ _ _ _ _ R), (dr_arr _ _ _ _ _ _ _ _ R). cbn zeta. cbn [dit_at di_cur di_end di_begin di_arr].
  destruct (sh_loc SH bo) as (cs & E & Lc); [lia|].
  unfold bind at 1, on_unwind. rewrite D0 in E. assert (loc subs bo = Ptr (subs !!! 0) bo) as EL by (unfold loc; by rewrite D0, M0).
  rewrite D0, EL.
  case_decide as Q.
  - assert (bo <> 0) as Q' by (intros Q'; apply Q; by rewrite Q'). clear Q.
    unfold bind at 1. rewrite (sub_ok _ _ _ _ _ E) by lia.
    unfold set_b, modify.
    destruct (dv_small (bo - 1)) as [D1 M1]; [lia|].
    destruct (push_front_fast pa start subs leak (bo - 1) xs x _ _ (d_drops s) SH) as (s' & E' & R' & DD & DS).
    { lia. }
    { by replace (S (bo - 1)) with bo by lia. }
    { replace (S (bo - 1)) with bo by lia. apply (dr_elems _ _ _ _ _ _ _ _ R). }
    replace (S (bo - 1)) with bo in E' by lia.
    rewrite (dr_arr _ _ _ _ _ _ _ _ R), (dr_e _ _ _ _ _ _ _ _ R).
    unfold dit_at at 1, loc at 1 in E'. rewrite D1, M1 in E'. intros ->. left.
    exists s', pa, start, subs, (bo - 1). split; [exact E'|]. split; [done|]. split; [done|]. split; [by left|].
    intros i Li. f_equal. lia.
  - assert (bo = 0) as -> by (by injection Q as Q). clear Q.
    unfold bind at 1.
    case_decide as Q.
    + assert (start = 0) as EQ by (injection Q as Q; lia).
      destruct (realloc_ok true s _ _ _ _ _ _ R EQ) as [(s1 & pa1 & st1 & E1 & R1 & L1 & DD & DS & _)|(s1 & lk & E1 & R1 & DD & DS & MX & CK)].
      * rewrite E1. destruct (push_front_slow _ _ _ _ _ _ x R1 L1) as (s2 & E2 & s3 & E3 & b0 & R3 & DD3 & DS3).
        unfold gets in E2 |- *. rewrite E2. intros ->. left.
        exists s3, pa1, (st1 - 1), (b0 :: subs), (n - 1). split; [exact E3|]. split; [done|]. split; [congruence|].
        split.
        { unfold grown; rewrite DS3. destruct DS as [DS|DS]; [by left|right]. split; [done|].
          pose proof (dv_md (0 + length xs)) as DM. replace (length subs - 1) with (dv (0 + length xs)) by lia. lia. }
        intros i Li. replace (n - 1 + S i) with (n + (0 + i)) by lia. apply loc_cons.
      * rewrite E1. intros ->. right. exists (logged [x] s1), lk. split; [done|]. split; [by apply log_rep|].
        split; [cbn; by rewrite DD|]. split; [done|]. split; [done|]. split; [done|].
        pose proof (dv_md (0 + length xs)) as DM. replace (length subs - 1) with (dv (0 + length xs)) by lia. lia.
    + assert (0 < start) as L1.
      { destruct (decide (start = 0)) as [N|]; [|lia]. exfalso. apply Q. f_equal. lia. }
      unfold ret at 1.
      destruct (push_front_slow _ _ _ _ _ _ x R L1) as (s2 & E2 & s3 & E3 & b0 & R3 & DD3 & DS3).
      unfold gets in E2 |- *. rewrite E2. intros ->. left.
      exists s3, pa, (start - 1), (b0 :: subs), (n - 1). split; [exact E3|]. split; [done|]. split; [congruence|].
      split; [by left|].
      intros i Li. replace (n - 1 + S i) with (n + (0 + i)) by lia. apply loc_cons.
Qed.

(** ** Removing *)
Lemma store_size p c (s s' : dstate) : store p c s = Ok tt s' -> d_size s' = d_size s.
Proof.
  unfold store, bind, gets. destruct (hstore (d_h s) p c); cbn; [|done]. intros [= <-]. done.
Qed.
Lemma insert_mid (l r : list T) x y : <[length l := y]> (l ++ x :: r) = l ++ y :: r.
Proof. rewrite <- (Nat.add_0_r (length l)), insert_app_r. done. Qed.

Lemma swap_ok s pa start subs leak bo l x y r : DR s pa start subs leak bo (l ++ x :: y :: r) ->
  exists s1 s2,
  store (loc subs (bo + length l)) (DElem y) s = Ok tt s1 /\ store (loc subs (bo + S (length l))) (DElem x) s1 = Ok tt s2 /\
  DR s2 pa start subs leak bo (l ++ y :: x :: r) /\ d_drops s2 = d_drops s /\ d_size s2 = d_size s.
Proof.
  intros R.
  assert (length (l ++ x :: y :: r) = length l + S (S (length r))) as LL by (rewrite app_length; done).
  destruct (set_elem _ _ _ _ _ _ _ (length l) y R) as (s1 & E1 & R1 & D1 & _); [lia|].
  rewrite insert_mid in R1.
  destruct (set_elem _ _ _ _ _ _ _ (S (length l)) x R1) as (s2 & E2 & R2 & D2 & _).
  { rewrite app_length. cbn. lia. }
  exists s1, s2. split; [done|]. split; [done|]. split; [|split; [congruence|]].
  - replace (l ++ y :: x :: r) with ((l ++ [y]) ++ x :: r) by (by rewrite <- app_assoc).
    replace (l ++ y :: y :: r) with ((l ++ [y]) ++ y :: r) in R2 by (by rewrite <- app_assoc).
    replace (S (length l)) with (length (l ++ [y])) in R2 by (rewrite app_length; cbn; lia). by rewrite insert_mid in R2.
  - pose proof (store_size _ _ _ _ E1). pose proof (store_size _ _ _ _ E2). congruence.
Qed.

Lemma swap_ok' s pa start subs leak bo l y x r : DR s pa start subs leak bo (l ++ y :: x :: r) ->
  exists s1 s2,
  store (loc subs (bo + S (length l))) (DElem y) s = Ok tt s1 /\ store (loc subs (bo + length l)) (DElem x) s1 = Ok tt s2 /\
  DR s2 pa start subs leak bo (l ++ x :: y :: r) /\ d_drops s2 = d_drops s /\ d_size s2 = d_size s.
Proof.
  intros R.
  assert (length (l ++ y :: x :: r) = length l + S (S (length r))) as LL by (rewrite app_length; done).
  destruct (set_elem _ _ _ _ _ _ _ (S (length l)) y R) as (s1 & E1 & R1 & D1 & _); [lia|].
  replace (l ++ y :: x :: r) with ((l ++ [y]) ++ x :: r) in R1 by (by rewrite <- app_assoc).
  replace (S (length l)) with (length (l ++ [y])) in R1 by (rewrite app_length; cbn; lia).
  rewrite insert_mid, <- app_assoc in R1. cbn [app] in R1.
  destruct (set_elem _ _ _ _ _ _ _ (length l) x R1) as (s2 & E2 & R2 & D2 & _).
  { rewrite app_length. cbn. lia. }
  rewrite insert_mid in R2.
  exists s1, s2. split; [done|]. split; [done|]. split; [done|split; [congruence|]].
  pose proof (store_size _ _ _ _ E1). pose proof (store_size _ _ _ _ E2). congruence.
Qed.

Lemma rotate_fwd pa start subs leak bo : forall r s l x f, length r < f -> DR s pa start subs leak bo (l ++ x :: r) ->
  exists s', rotate (raw_next chk) f (iter_at pa start subs (bo + length l) (bo + length (l ++ x :: r)))
      (iter_at pa start subs (bo + length l + 1) (bo + length (l ++ x :: r))) s = Ok tt s' /\
    DR s' pa start subs leak bo (l ++ r ++ [x]) /\ d_drops s' = d_drops s /\ d_size s' = d_size s.
Proof.
  induction r as [|y r IH]; intros s l x f Lf R; (destruct f as [|f]; [cbn in Lf; lia|]); cbn [rotate];
    pose proof (dr_shape _ _ _ _ _ _ _ _ R) as SH; pose proof (R_bound R) as LB.
  - rewrite app_length in *. cbn [length] in *.
    unfold bind at 1. rewrite (raw_next_ok s SH) by lia.
    unfold bind at 1. rewrite Nat.add_assoc. rewrite (raw_next_end s). cbn [fst snd]. by exists s.
  - assert (length (l ++ x :: y :: r) = length l + S (S (length r))) as LL by (rewrite app_length; done).
    rewrite LL in *.
    unfold bind at 1. rewrite (raw_next_ok s SH) by lia.
    unfold bind at 1. rewrite (raw_next_ok s SH) by lia. cbn [fst snd].
    unfold bind at 1. rewrite (read_elem_ok _ _ x).
    2:{ apply (dr_elems _ _ _ _ _ _ _ _ R). by rewrite lookup_app_r, Nat.sub_diag by lia. }
    replace (bo + length l + 1) with (bo + S (length l)) by lia.
    unfold bind at 1. rewrite (read_elem_ok _ _ y).
    2:{ apply (dr_elems _ _ _ _ _ _ _ _ R). rewrite lookup_app_r by lia. by replace (S (length l) - length l) with 1 by lia. }
    destruct (swap_ok _ _ _ _ _ _ _ _ _ _ R) as (s1 & s2 & E1 & E2 & R2 & DD & DS).
    unfold bind at 1. rewrite E1. unfold bind at 1. rewrite E2.
    replace (l ++ y :: x :: r) with ((l ++ [y]) ++ x :: r) in R2 by (by rewrite <- app_assoc).
    destruct (IH _ _ _ f ltac:(cbn in Lf; lia) R2) as (s3 & E3 & R3 & DD3 & DS3).
    rewrite <- app_assoc in R3.
    exists s3. split; [|split; [done|split; congruence]].
    rewrite <- app_assoc in E3. rewrite !app_length in E3. cbn [length app] in E3.
    replace (bo + (length l + 1)) with (bo + S (length l)) in E3 by lia. exact E3.
Qed.

Lemma rotate_bwd pa start subs leak bo : forall l s r x f, length l < f -> DR s pa start subs leak bo (l ++ x :: r) ->
  exists s', rotate (raw_next_back chk) f (iter_at pa start subs bo (bo + S (length l)))
      (iter_at pa start subs bo (bo + length l)) s = Ok tt s' /\
    DR s' pa start subs leak bo (x :: l ++ r) /\ d_drops s' = d_drops s /\ d_size s' = d_size s.
Proof.
  induction l as [|y l IH] using rev_ind; intros s r x f Lf R; (destruct f as [|f]; [cbn in Lf; lia|]); cbn [rotate];
    pose proof (dr_shape _ _ _ _ _ _ _ _ R) as SH; pose proof (R_bound R) as LB.
  - rewrite app_length in *. cbn [length] in *.
    unfold bind at 1. rewrite (raw_next_back_ok s SH) by lia.
    unfold bind at 1. rewrite Nat.add_0_r. rewrite (raw_next_back_end s). cbn [fst snd]. by exists s.
  - rewrite <- app_assoc in R. cbn [app] in R.
    rewrite !app_length in *. cbn [length] in *.
    unfold bind at 1. rewrite (raw_next_back_ok s SH) by lia.
    unfold bind at 1. rewrite (raw_next_back_ok s SH) by lia. cbn [fst snd].
    replace (bo + S (length l + 1) - 1) with (bo + S (length l)) by lia.
    replace (bo + (length l + 1) - 1) with (bo + length l) by lia.
    unfold bind at 1. rewrite (read_elem_ok _ _ x).
    2:{ apply (dr_elems _ _ _ _ _ _ _ _ R). rewrite lookup_app_r by lia. by replace (S (length l) - length l) with 1 by lia. }
    unfold bind at 1. rewrite (read_elem_ok _ _ y).
    2:{ apply (dr_elems _ _ _ _ _ _ _ _ R). by rewrite lookup_app_r, Nat.sub_diag by lia. }
    destruct (swap_ok' _ _ _ _ _ _ _ _ _ _ R) as (s1 & s2 & E1 & E2 & R2 & DD & DS).
    unfold bind at 1. rewrite E1. unfold bind at 1. rewrite E2.
    destruct (IH _ _ _ f ltac:(lia) R2) as (s3 & E3 & R3 & DD3 & DS3).
    exists s3. rewrite <- app_assoc. split; [done|split; [done|split; congruence]].
Qed.

Lemma remove_ok s pa start subs leak bo xs i : DR s pa start subs leak bo xs ->
  exists s' start' subs' bo', remove sz al chk i s = Ok (xs !! i) s' /\
    DR s' pa start' subs' leak bo' (take i xs ++ drop (S i) xs) /\ d_drops s' = d_drops s /\ d_size s' = d_size s /\
    length subs' <= length subs.
Proof.
  intros R. unfold remove. unfold bind at 1. rewrite (len_ok _ _ _ _ _ _ _ R).
  destruct (Nat.leb_spec (length xs) i) as [L|L].
  { exists s, start, subs, bo. rewrite (lookup_ge_None_2 _ _ L), take_ge, drop_ge, app_nil_r by lia. by repeat (split; [done|]). }
  destruct (lookup_lt_is_Some_2 _ _ L) as [x Hx].
  pose proof (take_drop_middle _ _ _ Hx) as EX. set (l := take i xs) in *. set (r := drop (S i) xs) in *.
  assert (length l = i) as LL by (subst l; rewrite take_length; lia). rewrite Hx.
  assert (length xs = i + S (length r)) as LX by (rewrite <- EX, app_length; cbn; lia).
  clearbody l r. rewrite <- EX in R. clear EX Hx.
  pose proof (dr_shape _ _ _ _ _ _ _ _ R) as SH. pose proof (R_bound R) as LB.
  assert (Z.of_nat (length xs) < usize_lim)%Z as LU.
  { pose proof (k_bound SH) as KB. pose proof n_range as NR. pose proof (sh_u32 _ _ _ _ _ _ _ SH) as U. unfold u32_lim in U.
    assert (n * length subs <= 64 * length subs) by (apply Nat.mul_le_mono_r; lia).
    rewrite app_length in LB. cbn [length] in LB. unfold usize_lim. lia. }
  unfold usize_lim in LU.
  destruct (i <? length xs / 2).
  - unfold bind at 1. rewrite (iter_ok _ _ _ _ _ _ _ R).
    rewrite app_length in *. cbn [length] in *. 
    unfold bind at 1. rewrite usize_ok by (unfold usize_lim; lia).
    unfold bind at 1. rewrite usize_ok by (unfold usize_lim; lia).
    unfold bind at 1. rewrite (skip_next_back s SH) by lia.
    unfold bind at 1. rewrite (skip_next_back s SH) by lia.
    match goal with |- context [rotate _ _ (iter_at _ _ _ _ ?a) (iter_at _ _ _ _ ?b)] =>
      replace a with (bo + S (length l)) by lia; replace b with (bo + length l) by lia end.
    destruct (rotate_bwd _ _ _ _ _ l s r x (S (length xs)) ltac:(lia) R) as (s1 & E1 & R1 & D1 & S1).
    unfold bind at 1. rewrite E1.
    destruct (pop_front_ok _ _ _ _ _ _ _ R1) as (s2 & st2 & subs2 & bo2 & E2 & R2 & D2 & S2 & _ & h1 & EH).
    exists s2, st2, subs2, bo2. split; [exact E2|]. split; [exact R2|]. split; [congruence|]. split; [congruence|].
    rewrite EH, app_length. lia.
  - unfold bind at 1. rewrite (iter_ok _ _ _ _ _ _ _ R).
    destruct (rotate_fwd _ _ _ _ _ r s l x (S (length xs)) ltac:(lia) R) as (s1 & E1 & R1 & D1 & S1).
    rewrite app_length in *. cbn [length] in *.
    unfold bind at 1. rewrite (skip_next s SH) by lia.
    unfold bind at 1. rewrite (skip_next s SH) by lia.
    rewrite LL in E1 |- *. rewrite <- Nat.add_assoc in E1. unfold bind at 1. rewrite E1.
    destruct (pop_back_ok _ _ _ _ _ _ _ R1) as (s2 & subs2 & E2 & R2 & D2 & S2 & _ & h1 & EH).
    rewrite app_assoc in E2, R2. rewrite last_snoc in E2. rewrite removelast_last in R2.
    exists s2, start, subs2, bo. split; [exact E2|]. split; [exact R2|]. split; [congruence|]. split; [congruence|].
    rewrite EH, app_length. lia.
Qed.

(** ** Creating *)
Lemma deque_new_ok d : heap_wf h0 ->
  exists s, deque_new sz al h0 d = Ok tt s /\ (exists pa b, DR s pa 3 [b] [] 0 []) /\ d_drops s = d /\ d_size s = 8%Z.
Proof.
  intros WF. pose proof n_pos as NP. set (pa := h_next h0).
  set (null := replicate 8 (Some (DPtr (T := T) Null))).
  set (h1 := hset (halloc h0 (Block (8 * 8) 8 (replicate 8 None))) pa (Block (8 * 8) 8 null)).
  assert (h_blk (halloc h0 (Block (8 * 8) 8 (replicate 8 None))) !! pa = Some (Block (8 * 8) 8 (replicate 8 (@None (dcell T))))) as EA.
  { cbn. by rewrite lookup_insert. }
  assert (Shape h0 h1 8 pa 3 [] []) as SH1.
  { split; try done.
    - apply wf_hset; [|by eexists]. by apply wf_halloc.
    - constructor; [|constructor]. apply not_elem_of_nil.
    - intros b Hb. apply elem_of_list_singleton in Hb as ->. split; [by apply wf_above|]. exists (Block (8 * 8) 8 null).
      unfold h1, hset. cbn. by rewrite lookup_insert.
    - unfold h1. cbn. lia.
    - intros b Hb. assert (b <> pa) as N by (intros ->; apply Hb; left).
      unfold h1. rewrite hset_other by done. rewrite halloc_other by done. done.
    - exists 0%Z. split; [lia|]. done.
    - exists null. split; [|done]. unfold h1, hset. cbn. by rewrite lookup_insert.
    - cbn. lia.
    - intros b Hb. by apply not_elem_of_nil in Hb. }
  set (nb := h_next h1).
  destruct (shape_add h0 h1 _ _ _ _ _ [nb] 3 3 SH1) with (s := DState Null 8 (DIt Null Null Null Null) (DIt Null Null Null Null) (halloc h1 freshblk) d) as (h2 & E2 & SH2 & _).
  { done. }
  { cbn. lia. }
  { cbn. lia. }
  { intros i b Hi. left. apply list_lookup_singleton_Some in Hi as [-> <-]. done. }
  { done. }
  unfold deque_new, init, empty_state, INITIAL_PTR_ARRAY_SIZE.
  unfold bind at 1, set_arr, modify. cbn [d_arr d_size d_b d_e d_h d_drops].
  unfold bind at 1, allocate_ptr_array, allocate, default_alloc. change (8 * 8 =? 0)%Z with false. change (layout_ok (8 * 8) 8) with true.
  cbv iota. cbn [fst snd d_arr d_size d_b d_e d_h d_drops]. change (Z.to_nat (8 * 8 / 8)) with 8. fold pa.
  unfold bind at 1, gets. cbn [d_h]. unfold bind at 1. change (Z.to_nat 8) with 8.
  rewrite (hput_ok _ _ _ _ _ EA) by (cbn; lia). cbn [or_ub bk_bytes bk_align bk_cells]. unfold ret at 1.
  match goal with |- context [hset _ pa (Block _ _ ?c)] => change c with null end. fold h1.
  unfold bind at 1, set_h, modify. cbn [d_arr d_size d_b d_e d_h d_drops].
  unfold bind at 1. rewrite allocate_subarray_ok. unfold with_h. cbn [d_arr d_size d_b d_e d_h d_drops]. fold nb.
  assert (pa <> nb) as NPA by (eapply shape_fresh; [exact SH1|left]).
  destruct (sh_pa _ _ _ _ _ _ _ SH1) as (cs1 & EP1 & LC1).
  assert (h_blk (halloc h1 freshblk) !! pa = Some (Block (8 * 8) 8 cs1)) as EP1' by (rewrite halloc_other by done; done).
  unfold bind at 1. change (Z.to_nat ((8 - 1) / 2)) with 3. rewrite (add_ok (DState _ _ _ _ (halloc h1 freshblk) _) _ _ _ _ EP1') by (cbn [bk_cells]; lia).
  unfold bind at 1. rewrite Nat.add_0_l. fold nb in E2. rewrite E2. unfold with_h. cbn [d_arr d_size d_b d_e d_h d_drops].
  destruct (sh_pa _ _ _ _ _ _ _ SH2) as (cs2 & EP2 & LC2).
  unfold bind at 1. rewrite (add_ok (DState _ _ _ _ h2 _) _ _ _ _ EP2) by (cbn [bk_cells]; lia).
  unfold bind at 1. cbn [id]. unfold bind at 1. change (0 + 3) with (3 + 0).
  rewrite (set_subarray_ok (DState _ _ _ _ h2 _) _ _ _ _ _ _ 0 SH2) by (cbn; lia).
  unfold bind at 1, set_b, modify. cbn [di_begin di_end di_arr d_arr d_size d_b d_e d_h d_drops].
  unfold bind at 1. rewrite (set_subarray_ok (DState _ _ _ _ h2 _) _ _ _ _ _ _ 0 SH2) by (cbn; lia).
  unfold bind at 1, set_e, modify. cbn [di_begin di_end di_arr d_arr d_size d_b d_e d_h d_drops].
  eexists. split; [done|]. split; [|done]. exists pa, nb.
  destruct (dv_small 0 NP) as [D0 M0].
  split; cbn [d_arr d_size d_b d_e d_h d_drops length]; try done.
  - change (0 + 0) with 0. by rewrite D0.
  - unfold dit_at, loc. by rewrite D0, M0.
  - change (0 + 0) with 0. unfold dit_at, loc. by rewrite D0, M0.
Qed.

(** ** Dropping *)
Lemma free_subarrays_ok bs : forall (s : dstate) size pa start rest leak, Shape h0 (d_h s) size pa start (bs ++ rest) leak ->
  exists h', free_subarrays sz al (map (fun b => DPtr (Ptr b 0)) bs) s = Ok tt (with_h s h') /\ Shape h0 h' size pa (start + length bs) rest leak.
Proof.
  induction bs as [|b bs IH]; intros s size pa start rest leak SH; cbn [map free_subarrays].
  - exists (d_h s). cbn [length]. rewrite Nat.add_0_r. split; [|done]. unfold with_h. by destruct s.
  - destruct (shape_del h0 _ _ _ _ _ _ (bs ++ rest) (start + 1) b SH) as [SH' _].
    { done. }
    { pose proof (sh_start _ _ _ _ _ _ _ SH) as L. cbn [app length] in L. lia. }
    { intros i b' Hi. exists (S i). split; [done|]. lia. }
    unfold bind at 1. rewrite free_subarray_ok by (apply (sh_subs _ _ _ _ _ _ _ SH); left).
    destruct (IH (with_h s (hdel (d_h s) b)) size pa (start + 1) rest leak SH') as (h' & E' & S').
    exists h'. rewrite E'. split; [done|]. cbn [length]. by replace (start + S (length bs)) with (start + 1 + length bs) by lia.
Qed.

Lemma slice_ok h pa o bs cs bytes : h_blk h !! pa = Some (Block bytes 8 cs) ->
  (forall i b, bs !! i = Some b -> cs !! (o + i) = Some (Some (DPtr (Ptr b 0)))) ->
  o + length bs <= length cs ->
  hslice h (Ptr pa o) (length bs) = Some (map (fun b => DPtr (T := T) (Ptr b 0)) bs).
Proof.
  intros E H L. rewrite <- (map_length (fun b => DPtr (T := T) (Ptr b 0)) bs). apply (hslice_ok _ _ _ _ _ E); rewrite map_length; [done|].
  cbn [bk_cells]. apply list_eq. intros i. rewrite list_lookup_fmap. change (map (fun b => DPtr (T := T) (Ptr b 0)) bs) with ((fun b => DPtr (T := T) (Ptr b 0)) <$> bs). rewrite list_lookup_fmap.
  destruct (bs !! i) as [b|] eqn:Hb; cbn.
  - rewrite lookup_take by (by eapply lookup_lt_Some). rewrite lookup_drop. by apply H.
  - apply lookup_take_ge. by apply lookup_ge_None.
Qed.

Lemma deque_drop_wf s pa start subs leak bo xs : DR s pa start subs leak bo xs ->
  exists s' b, deque_drop sz al chk s = Ok tt s' /\ d_drops s' = d_drops s ++ xs /\
    heap_wf (d_h s') /\ NoDup (b :: leak) /\ subblk (d_h s') b /\
    (forall b', b' ∈ b :: leak -> h_blk h0 !! b' = None /\ is_Some (h_blk (d_h s') !! b')) /\
    (forall b', b' ∉ b :: leak -> h_blk (d_h s') !! b' = h_blk h0 !! b').
Proof.
  intros R. pose proof (dr_shape _ _ _ _ _ _ _ _ R) as SH. pose proof (R_bound R) as LB. pose proof (R_k R) as K.
  pose proof (dr_len _ _ _ _ _ _ _ _ R) as LK. pose proof (sh_u32 _ _ _ _ _ _ _ SH) as U. unfold u32_lim in U.
  pose proof (size_big _ (sh_size _ _ _ _ _ _ _ SH)) as SB. pose proof (sh_start _ _ _ _ _ _ _ SH) as LS.
  destruct (dv_small bo (dr_bo _ _ _ _ _ _ _ _ R)) as [D0 M0].
  unfold deque_drop. unfold bind at 1, gets. cbn [id]. unfold bind at 1. rewrite (iter_ok _ _ _ _ _ _ _ R).
  destruct (for_iter_ok (fun p => do x <- read_elem p; modify (logged [x])) (fun _ => tt)
    (fun i s1 => s1 = logged (take i xs) s) pa start subs leak (d_size s) bo (length xs)) with (k := length xs) (i := 0) (s := s) (fu := fuel sz s) as (s1 & E1 & I1).
  { done. }
  { intros i s1 ->. exact SH. }
  { intros i s1 L ->. destruct (lookup_lt_is_Some_2 _ _ L) as [x Hx].
    unfold bind. rewrite (read_elem_ok _ _ x) by (by apply (dr_elems _ _ _ _ _ _ _ _ R)).
    eexists. split; [done|]. unfold modify, logged. cbn [d_arr d_size d_b d_e d_h d_drops].
    rewrite (take_S_r _ _ _ Hx), app_assoc. done. }
  { done. }
  { by eapply R_fuel. }
  { unfold logged. rewrite take_0, app_nil_r. by destruct s. }
  rewrite Nat.add_0_r in E1. unfold bind at 1. rewrite E1. rewrite take_ge in I1 by lia.
  rewrite (dr_b _ _ _ _ _ _ _ _ R), (dr_e _ _ _ _ _ _ _ _ R). cbn [dit_at di_arr is_null]. rewrite D0.
  destruct (exists_last (l := subs)) as (bs & b & ES). { intros ->. cbn in K. lia. }
  assert (length subs = S (length bs)) as LBS by (rewrite ES, app_length; cbn; lia).
  unfold bind at 1. unfold bind at 1. rewrite pdiff_ok by lia. cbn [or_ub]. unfold ret at 1.
  replace (start + dv (bo + length xs) - (start + 0)) with (length bs) by lia.
  unfold bind at 1. unfold bind at 1. subst s1. cbn [d_h logged].
  destruct (sh_pa _ _ _ _ _ _ _ SH) as (cs & EP & LC). rewrite Nat.add_0_r.
  rewrite (slice_ok _ _ _ bs _ _ EP).
  2:{ intros i b' Hi. eapply slot_cell; [exact SH|exact EP|]. rewrite ES. by apply lookup_app_l_Some. }
  2:{ lia. }
  cbn [or_ub]. unfold ret at 1.
  rewrite ES in SH.
  destruct (free_subarrays_ok bs (logged xs s) _ _ _ _ _ SH) as (h' & E' & SH').
  rewrite E'. unfold free_ptr_array, bind, gets, with_h, logged. cbn [id d_arr d_size d_b d_e d_h d_drops].
  rewrite (dr_arr _ _ _ _ _ _ _ _ R). unfold deallocate, default_free. cbn [d_h fst snd].
  destruct (sh_pa _ _ _ _ _ _ _ SH') as (cs' & EP' & LC').
  assert (layout_ok (d_size s * 8) 8 = true) as -> by (unfold layout_ok, isize_max; lia).
  assert (hfree h' (Ptr pa 0) (d_size s * 8) 8 = Some (hdel h' pa)) as -> by (unfold hfree; rewrite EP'; cbn [bk_bytes bk_align]; by rewrite !Z.eqb_refl).
  eexists _, b. split; [done|]. cbn [d_drops d_h]. split; [done|].
  pose proof (sh_nodup _ _ _ _ _ _ _ SH') as ND. apply NoDup_cons in ND as [NI ND]. cbn [app] in NI, ND.
  split; [apply wf_hdel, (sh_wf _ _ _ _ _ _ _ SH')|]. split; [done|]. split; [|split].
  - destruct (sh_subs _ _ _ _ _ _ _ SH' b) as (cb & EB & LCB); [left|]. exists cb. split; [|done].
    rewrite hdel_other; [done|]. intros ->. apply NI. left.
  - intros b' Hb. destruct (sh_own _ _ _ _ _ _ _ SH' b') as [L1 L2]; [by right|]. split; [done|].
    rewrite hdel_other; [done|]. intros ->. done.
  - intros b' Hb. destruct (decide (b' = pa)) as [->|N].
    + unfold hdel. cbn. rewrite lookup_delete. symmetry.
      by destruct (sh_own _ _ _ _ _ _ _ SH' pa) as [L1 _]; [left|].
    + rewrite hdel_other by done. apply (sh_frame _ _ _ _ _ _ _ SH'). cbn [app].
      intros Hb'. apply elem_of_cons in Hb' as [?|?]; done.
Qed.

Lemma deque_drop_ok s pa start subs leak bo xs : DR s pa start subs leak bo xs ->
  exists s' b, deque_drop sz al chk s = Ok tt s' /\ d_drops s' = d_drops s ++ xs /\
    NoDup (b :: leak) /\ subblk (d_h s') b /\
    (forall b', b' ∈ b :: leak -> h_blk h0 !! b' = None /\ is_Some (h_blk (d_h s') !! b')) /\
    (forall b', b' ∉ b :: leak -> h_blk (d_h s') !! b' = h_blk h0 !! b').
Proof.
  intros R. destruct (deque_drop_wf _ _ _ _ _ _ _ R) as (s' & b & E & D & _ & H). by exists s', b.
Qed.

(** ** Programs *)
(** The elements that stay keep their places. *)
Definition Stays (c : dcall T) (xs : list T) (subs : list nat) (bo : nat) (subs' : list nat) (bo' : nat) : Prop :=
  forall i j, i < length xs -> moves_to c (length xs) i = Some j -> loc subs' (bo' + j) = loc subs (bo + i).
Lemma stays_same c xs subs bo : moves_to c (length xs) = Some -> Stays c xs subs bo subs bo.
Proof using. clear. intros H i j _ E. rewrite H in E. by injection E as <-. Qed.
Lemma stays_pop_back xs subs bo subs' : (forall i, i < length (removelast xs) -> loc subs' (bo + i) = loc subs (bo + i)) -> Stays DPopBack xs subs bo subs' bo.
Proof using.
  clear Hlay. intros H i j L E. unfold moves_to in E. destruct (Nat.eqb_spec (S i) (length xs)) as [|N]; [done|]. injection E as <-. apply H.
  destruct xs as [|y xs _] using rev_ind; [done|]. rewrite removelast_last. rewrite app_length in L, N. cbn in L, N. lia.
Qed.
Lemma stays_pop_front xs subs bo subs' bo' : (forall i, i < length (tail xs) -> loc subs' (bo' + i) = loc subs (bo + S i)) -> Stays DPopFront xs subs bo subs' bo'.
Proof using. clear Hlay. intros H [|i] j L E; [done|]. injection E as <-. apply H. destruct xs; cbn in *; lia. Qed.

Lemma call_at c s pa start subs leak bo xs : DR s pa start subs leak bo xs ->
  (exists a d xs1 s' pa' start' subs' bo', d_call sz al chk c s = Ok a s' /\ spec_call c xs = (a, d, xs1) /\
    DR s' pa' start' subs' leak bo' xs1 /\ d_drops s' = d_drops s ++ d /\ grown s s' subs xs /\ Stays c xs subs bo subs' bo') \/
  (exists x s' leak', d_call sz al chk c s = Panic s' /\ pushed c = Some x /\ (max_len sz <= Z.of_nat (length xs))%Z /\
    DR s' pa start subs leak' bo xs /\ d_drops s' = d_drops s ++ [x] /\ d_size s' = d_size s /\ (chk = true -> leak' = leak)).
Proof.
  intros R.
  assert (forall k, Z.of_nat k = max_arrays -> n * (k - 1) <= length xs -> (max_len sz <= Z.of_nat (length xs))%Z) as ML.
  { intros k Hk L. unfold max_arrays in Hk. unfold max_len. replace 2684354557%Z with (Z.of_nat (k - 1)) by lia. lia. }
  destruct c; cbn [d_call spec_call pushed].
  - destruct (push_back_ok _ _ _ _ _ _ _ x R) as [(s' & pa' & st' & subs' & E & R' & D & G & LC)|(s' & lk & E & R' & D & DS & MX & CK & L)].
    + left. unfold bind. rewrite E. eexists _, _, _, _, _, _, _, _. split; [done|]. split; [done|]. split; [exact R'|]. split; [by rewrite app_nil_r|split; [done|intros i j Hi [= <-]; by apply LC]].
    + right. unfold bind. rewrite E. eexists _, _, _. split; [done|]. split; [done|]. split; [by eapply ML|]. done.
  - destruct (push_front_ok _ _ _ _ _ _ _ x R) as [(s' & pa' & st' & subs' & bo' & E & R' & D & G & LC)|(s' & lk & E & R' & D & DS & MX & CK & L)].
    + left. unfold bind. rewrite E. eexists _, _, _, _, _, _, _, _. split; [done|]. split; [done|]. split; [exact R'|]. split; [by rewrite app_nil_r|split; [done|intros i j Hi [= <-]; by apply LC]].
    + right. unfold bind. rewrite E. eexists _, _, _. split; [done|]. split; [done|]. split; [by eapply ML|]. done.
  - left. destruct (pop_back_ok _ _ _ _ _ _ _ R) as (s' & subs' & E & R' & D & DS & LC & _).
    unfold bind. rewrite E. eexists _, _, _, _, _, _, _, _. split; [done|]. split; [done|]. split; [exact R'|]. split; [by rewrite app_nil_r|split; [by left|by apply stays_pop_back]].
  - left. destruct (pop_front_ok _ _ _ _ _ _ _ R) as (s' & st' & subs' & bo' & E & R' & D & DS & LC & _).
    unfold bind. rewrite E. eexists _, _, _, _, _, _, _, _. split; [done|]. split; [done|]. split; [exact R'|]. split; [by rewrite app_nil_r|split; [by left|by apply stays_pop_front]].
  - left. unfold bind. rewrite (front_ok _ _ _ _ _ _ _ R). eexists _, _, _, _, _, _, _, _. split; [done|]. split; [done|]. split; [exact R|]. split; [by rewrite app_nil_r|split; [by left|by apply stays_same]].
  - left. unfold bind. rewrite (back_ok _ _ _ _ _ _ _ R). eexists _, _, _, _, _, _, _, _. split; [done|]. split; [done|]. split; [exact R|]. split; [by rewrite app_nil_r|split; [by left|by apply stays_same]].
  - left. destruct (front_mut_ok _ _ _ _ _ _ _ x R) as (s' & E & R' & D & DS). unfold bind. rewrite E.
    destruct xs; eexists _, _, _, _, _, _, _, _; (split; [done|]; split; [done|]; split; [exact R'|]; split; [done|split; [by left|by apply stays_same]]).
  - left. destruct (back_mut_ok _ _ _ _ _ _ _ x R) as (s' & E & R' & D & DS). unfold bind. rewrite E.
    destruct (last xs); eexists _, _, _, _, _, _, _, _; (split; [done|]; split; [done|]; split; [exact R'|]; split; [done|split; [by left|by apply stays_same]]).
  - left. unfold bind. rewrite (len_ok _ _ _ _ _ _ _ R). eexists _, _, _, _, _, _, _, _. split; [done|]. split; [done|]. split; [exact R|]. split; [by rewrite app_nil_r|split; [by left|by apply stays_same]].
  - left. unfold bind. rewrite (is_empty_ok _ _ _ _ _ _ _ R). eexists _, _, _, _, _, _, _, _. split; [done|]. split; [done|]. split; [exact R|]. split; [by rewrite app_nil_r|split; [by left|by apply stays_same]].
  - left. destruct (remove_ok _ _ _ _ _ _ _ i R) as (s' & st' & subs' & bo' & E & R' & D & DS & _).
    unfold bind. rewrite E. eexists _, _, _, _, _, _, _, _. split; [done|]. split; [done|]. split; [exact R'|]. split; [by rewrite app_nil_r|split; [by left|done]].
  - left. unfold bind. rewrite (iter_all_ok _ _ _ _ _ _ _ R). eexists _, _, _, _, _, _, _, _. split; [done|]. split; [done|]. split; [exact R|]. split; [by rewrite app_nil_r|split; [by left|by apply stays_same]].
  - left. destruct (iter_mut_all_ok g _ _ _ _ _ _ _ R) as (s' & E & R' & D & DS). unfold bind. rewrite E.
    eexists _, _, _, _, _, _, _, _. split; [done|]. split; [done|]. split; [exact R'|]. split; [by rewrite app_nil_r|split; [by left|by apply stays_same]].
Qed.

Lemma call_ok c s pa start subs leak bo xs : DR s pa start subs leak bo xs ->
  (exists a d xs1 s' pa' start' subs' bo', d_call sz al chk c s = Ok a s' /\ spec_call c xs = (a, d, xs1) /\
    DR s' pa' start' subs' leak bo' xs1 /\ d_drops s' = d_drops s ++ d /\ grown s s' subs xs) \/
  (exists x s' leak', d_call sz al chk c s = Panic s' /\ pushed c = Some x /\ (max_len sz <= Z.of_nat (length xs))%Z /\
    DR s' pa start subs leak' bo xs /\ d_drops s' = d_drops s ++ [x] /\ d_size s' = d_size s /\ (chk = true -> leak' = leak)).
Proof.
  intros R. destruct (call_at c _ _ _ _ _ _ _ R) as [(a & d & xs1 & s' & pa' & st' & subs' & bo' & H1 & H2 & H3 & H4 & H5 & _)|H]; [left|by right].
  by exists a, d, xs1, s', pa', st', subs', bo'.
Qed.

Definition Rep (s : dstate) (leak : list nat) (xs : list T) : Prop := exists pa start subs bo, DR s pa start subs leak bo xs.

Lemma run_ok cs : forall s leak xs, Rep s leak xs ->
  exists l s' leak' d xs', d_run sz al chk cs s = Some (l, s') /\ Rep s' leak' xs' /\ explains (max_len sz) cs l d xs xs' /\
    d_drops s' = d_drops s ++ d /\ (chk = true \/ None ∉ l -> leak' = leak).
Proof.
  induction cs as [|c cs IH]; intros s leak xs HR.
  { exists [], s, leak, [], xs. split; [done|]. split; [done|]. split; [constructor|]. split; [by rewrite app_nil_r|done]. }
  destruct HR as (pa & start & subs & bo & R). cbn [d_run].
  destruct (call_ok c _ _ _ _ _ _ _ R) as [(a & d & xs1 & s1 & pa1 & st1 & subs1 & bo1 & E & SP & R1 & D & _)|(x & s1 & lk & E & PU & ML & R1 & D & _ & CK)].
  - destruct (IH s1 leak xs1) as (l & s2 & lk2 & d2 & xs2 & E2 & R2 & EX & D2 & LK); [by eexists _, _, _, _|].
    rewrite E, E2. cbn [option_map fst snd]. exists (Some a :: l), s2, lk2, (d ++ d2), xs2. split; [done|]. split; [done|].
    split; [by econstructor|]. split; [by rewrite D2, D, app_assoc|].
    intros [H|H]; apply LK; [by left|right]. intros N. apply H. by right.
  - destruct (IH s1 lk xs) as (l & s2 & lk2 & d2 & xs2 & E2 & R2 & EX & D2 & LK); [by eexists _, _, _, _|].
    rewrite E, E2. cbn [option_map fst snd]. exists (None :: l), s2, lk2, (x :: d2), xs2. split; [done|]. split; [done|].
    split; [by eapply ex_refuse|]. split; [by rewrite D2, D, <- app_assoc|].
    intros [H|H]; [|exfalso; apply H; left]. rewrite LK by (by left). by apply CK.
Qed.

Lemma pushes_cons (c : dcall T) cs : pushes (c :: cs) = (if pushed c then 1 else 0) + pushes cs.
Proof. unfold pushes. cbn [List.filter]. by destruct (pushed c). Qed.

Lemma spec_call_len (c : dcall T) xs : length (spec_call c xs).2 <= length xs + (if pushed c then 1 else 0).
Proof.
  destruct c; cbn [spec_call snd pushed]; rewrite ?app_length; cbn [length]; try lia.
  - induction xs as [|y xs _] using rev_ind; [done|]. rewrite removelast_last, app_length. lia.
  - destruct xs; cbn; lia.
  - destruct xs; cbn; lia.
  - induction xs as [|y xs _] using rev_ind; [cbn; lia|]. rewrite last_snoc. cbn [snd]. rewrite removelast_last, !app_length. cbn. lia.
  - rewrite take_length, drop_length. lia.
  - rewrite map_length. lia.
Qed.

Lemma explains_fun big (cs : list (dcall T)) l d xs xs' : explains big cs l d xs xs' ->
  (Z.of_nat (length xs + pushes cs) <= big)%Z ->
  l = map Some (spec_run cs xs).1.1 /\ d = (spec_run cs xs).1.2 /\ xs' = (spec_run cs xs).2.
Proof.
  induction 1 as [xs|c cs a l d d' xs xs1 xs2 SP EX IH|c cs x l d xs xs' PU L EX IH]; intros B.
  - done.
  - rewrite pushes_cons in B. pose proof (spec_call_len c xs) as LC. rewrite SP in LC. cbn [snd] in LC.
    destruct IH as (-> & -> & ->); [lia|]. cbn [spec_run]. rewrite SP. destruct (spec_run cs xs1) as [[l1 d1] x1]. done.
  - rewrite pushes_cons, PU in B. lia.
Qed.

Lemma spec_call_len_eq (c : dcall T) xs : (forall i, c <> DRemove i) -> length (spec_call c xs).2 = len_call c (length xs).
Proof using.
  clear. intros N. destruct c; cbn [spec_call snd len_call]; rewrite ?app_length; cbn [length]; try lia.
  - induction xs as [|y xs _] using rev_ind; [done|]. rewrite removelast_last, app_length. cbn. lia.
  - destruct xs; cbn; lia.
  - by destruct xs.
  - induction xs as [|y xs _] using rev_ind; [done|]. rewrite last_snoc. cbn [snd]. rewrite removelast_last, !app_length. done.
  - by destruct (N i).
  - by rewrite map_length.
Qed.
Lemma run_at cs : forall s pa start subs leak bo xs, DR s pa start subs leak bo xs -> (Z.of_nat (length xs + pushes cs) <= max_len sz)%Z ->
  exists s' pa' start' subs' bo', d_run sz al chk cs s = Some (map Some (spec_run cs xs).1.1, s') /\
    DR s' pa' start' subs' leak bo' (spec_run cs xs).2 /\ d_drops s' = d_drops s ++ (spec_run cs xs).1.2 /\
    forall i j, i < length xs -> ends_at cs (length xs) i = Some j -> j < length (spec_run cs xs).2 /\ loc subs' (bo' + j) = loc subs (bo + i).
Proof.
  induction cs as [|c cs IH]; intros s pa start subs leak bo xs R B; cbn [d_run spec_run].
  { exists s, pa, start, subs, bo. split; [done|]. split; [done|]. split; [by rewrite app_nil_r|]. by intros i j Hi [= <-]. }
  rewrite pushes_cons in B.
  destruct (call_at c _ _ _ _ _ _ _ R) as [(a & d & xs1 & s1 & pa1 & st1 & subs1 & bo1 & E & SP & R1 & D & _ & SY)|(x & s1 & lk & E & PU & ML & _)].
  2: { rewrite PU in B. lia. }
  pose proof (spec_call_len c xs) as LC. rewrite SP in LC. cbn [snd] in LC.
  destruct (IH s1 pa1 st1 subs1 leak bo1 xs1 R1) as (s2 & pa2 & st2 & subs2 & bo2 & E2 & R2 & D2 & S2); [lia|].
  exists s2, pa2, st2, subs2, bo2. rewrite E, E2, SP. destruct (spec_run cs xs1) as [[l d1] xs2]. cbn [fst snd option_map map] in *.
  split; [done|]. split; [done|]. split; [by rewrite D2, D, app_assoc|]. intros i j Hi EJ. cbn [ends_at] in EJ.
  destruct (moves_to c (length xs) i) as [i1|] eqn:EM; [|done].
  assert (NR : forall k, c <> DRemove k) by (intros k ->; done).
  pose proof (spec_call_len_eq c xs NR) as LE. rewrite SP in LE. cbn [snd] in LE. rewrite <- LE in EJ.
  assert (L1 : i1 < length xs1).
  { rewrite LE. destruct c; cbn in EM |- *; try (injection EM as <-; lia); try done.
    - destruct (length xs) as [|k]; [lia|]. destruct (Nat.eqb_spec i k) as [|]; [done|]. injection EM as <-. lia.
    - destruct i; [done|]. injection EM as <-. lia. }
  destruct (S2 i1 j L1 EJ) as [L2 X]. split; [done|]. rewrite X. by apply SY.
Qed.

Lemma run_size cs : forall s leak xs m l s', Rep s leak xs -> (Z.of_nat (length xs + pushes cs) <= max_len sz)%Z ->
  peak cs xs <= m -> (d_size s <= Z.max 8 (2 * Z.of_nat (m / n) + 4))%Z -> d_run sz al chk cs s = Some (l, s') ->
  (d_size s' <= Z.max 8 (2 * Z.of_nat (m / n) + 4))%Z.
Proof.
  induction cs as [|c cs IH]; intros s leak xs m l s' HR B P SZ E.
  { injection E as _ <-. done. }
  destruct HR as (pa & start & subs & bo & R). cbn [d_run] in E. rewrite pushes_cons in B. cbn [peak] in P.
  destruct (call_ok c _ _ _ _ _ _ _ R) as [(a & d & xs1 & s1 & pa1 & st1 & subs1 & bo1 & E1 & SP & R1 & D & G)|(x & s1 & lk & E1 & PU & ML & _)].
  - rewrite E1 in E. destruct (d_run sz al chk cs s1) as [[l1 s2]|] eqn:E2; [|done]. cbn in E. injection E as _ <-.
    rewrite SP in P. cbn [snd] in P. pose proof (spec_call_len c xs) as LC. rewrite SP in LC. cbn [snd] in LC.
    eapply (IH s1 leak xs1); [by eexists _, _, _, _|lia|lia| |exact E2].
    destruct G as [->|[-> G]]; [done|]. pose proof n_pos.
    assert (length subs - 1 <= m / n).
    { apply Nat.div_le_lower_bound; lia. }
    lia.
  - rewrite PU in B. lia.
Qed.

(** ** Where the elements are *)
Lemma places_nodup s pa start subs leak bo xs : DR s pa start subs leak bo xs ->
  NoDup (map (fun i => loc subs (bo + i)) (seq 0 (length xs))).
Proof.
  intros R. pose proof (R_bound R) as LB. apply NoDup_fmap_2_strong; [|apply NoDup_seq].
  intros i j Hi Hj E. apply elem_of_seq in Hi. apply elem_of_seq in Hj.
  apply (loc_inj (dr_shape _ _ _ _ _ _ _ _ R)) in E; lia.
Qed.

(** ** Iterating from both ends *)
Lemma steps_ok s pa start subs leak bo xs ds : DR s pa start subs leak bo xs -> forall l m r, xs = l ++ m ++ r ->
  exists l' r', xs = l' ++ (spec_steps ds m).2 ++ r' /\
  steps chk ds (iter_at pa start subs (bo + length l) (bo + length l + length m)) s =
    Ok ((spec_steps ds m).1, iter_at pa start subs (bo + length l') (bo + length l' + length (spec_steps ds m).2)) s /\
  step_places chk ds (iter_at pa start subs (bo + length l) (bo + length l + length m)) s =
    Ok (spec_steps ds (map (fun i => loc subs (bo + i)) (seq (length l) (length m)))).1 s.
Proof.
  intros R. pose proof (dr_shape _ _ _ _ _ _ _ _ R) as SH. pose proof (R_bound R) as LB.
  induction ds as [|d ds IH]; intros l m r EX.
  { exists l, r. done. }
  assert (length xs = length l + length m + length r) as LX by (rewrite EX, !app_length; lia).
  destruct d; cbn [steps step_places].
  - destruct m as [|x m].
    + destruct (IH l [] r EX) as (l' & r' & E1 & E2 & E3). exists l', r'. cbn [spec_steps tail head].
      destruct (spec_steps ds []) as [y1 y2] eqn:EY. cbn [fst snd] in *. split; [done|].
      cbn [length seq map] in *. rewrite Nat.add_0_r in *.
      unfold bind at 1. rewrite raw_next_end. cbn [fst snd read_opt]. unfold bind at 1, ret at 1. unfold bind at 1. rewrite E2.
      split; [done|]. unfold bind at 1. rewrite raw_next_end. cbn [fst snd]. unfold bind at 1. rewrite E3.
      cbn [spec_steps]. change (tail (@nil ptr)) with (@nil ptr). by destruct (spec_steps ds (@nil ptr)).
    + destruct (IH (l ++ [x]) m r) as (l' & r' & E1 & E2 & E3). { rewrite EX, <- app_assoc. done. }
      exists l', r'. cbn [spec_steps tail head].
      destruct (spec_steps ds m) as [y1 y2] eqn:EY. cbn [fst snd] in *. split; [done|].
      rewrite app_length in E2, E3. cbn [length seq map] in *.
      replace (bo + (length l + 1)) with (bo + length l + 1) in E2, E3 by lia.
      replace (length l + 1) with (S (length l)) in E3 by lia.
      replace (bo + length l + 1 + length m) with (bo + length l + S (length m)) in E2, E3 by lia.
      unfold bind at 1. rewrite (raw_next_ok s SH) by lia. cbn [fst snd read_opt]. unfold bind at 1. unfold bind at 1.
      rewrite (read_elem_ok _ _ x). 2:{ apply (dr_elems _ _ _ _ _ _ _ _ R). rewrite EX, lookup_app_r, Nat.sub_diag by lia. done. }
      unfold ret at 1. unfold bind at 1. rewrite E2. cbn [fst snd].
      split; [done|]. unfold bind at 1. rewrite (raw_next_ok s SH) by lia. cbn [fst snd]. unfold bind at 1. rewrite E3.
      cbn [spec_steps]. match goal with |- context [tail (?a :: ?b)] => change (tail (a :: b)) with b end. by destruct (spec_steps ds (map _ _)).
  - destruct (decide (m = [])) as [->|NE].
    + destruct (IH l [] r EX) as (l' & r' & E1 & E2 & E3). exists l', r'. cbn [spec_steps removelast last].
      destruct (spec_steps ds []) as [y1 y2] eqn:EY. cbn [fst snd] in *. split; [done|].
      cbn [length seq map] in *. rewrite Nat.add_0_r in *.
      unfold bind at 1. rewrite raw_next_back_end. cbn [fst snd read_opt]. unfold bind at 1, ret at 1. unfold bind at 1. rewrite E2.
      split; [done|]. unfold bind at 1. rewrite raw_next_back_end. cbn [fst snd]. unfold bind at 1. rewrite E3.
      cbn [spec_steps]. change (removelast (@nil ptr)) with (@nil ptr). by destruct (spec_steps ds (@nil ptr)).
    + destruct (exists_last NE) as (m' & x & EM). subst m.
      destruct (IH l m' (x :: r)) as (l' & r' & E1 & E2 & E3). { rewrite EX, <- app_assoc. done. }
      exists l', r'. cbn [spec_steps]. rewrite removelast_last, last_snoc.
      destruct (spec_steps ds m') as [y1 y2] eqn:EY. cbn [fst snd] in *. split; [done|].
      rewrite app_length in *. cbn [length] in *.
      rewrite seq_app, map_app. cbn [seq map].
      unfold bind at 1. rewrite (raw_next_back_ok s SH) by lia. cbn [fst snd read_opt].
      replace (bo + length l + (length m' + 1) - 1) with (bo + length l + length m') by lia.
      unfold bind at 1. unfold bind at 1.
      rewrite (read_elem_ok _ _ x). 2:{ rewrite <- Nat.add_assoc. apply (dr_elems _ _ _ _ _ _ _ _ R).
        rewrite EX, lookup_app_r by lia. replace (length l + length m' - length l) with (length m') by lia.
        rewrite <- app_assoc, lookup_app_r, Nat.sub_diag by lia. done. }
      unfold ret at 1. unfold bind at 1. rewrite E2. cbn [fst snd].
      split; [done|]. unfold bind at 1. rewrite (raw_next_back_ok s SH) by lia. cbn [fst snd].
      replace (bo + length l + (length m' + 1) - 1) with (bo + length l + length m') by lia.
      unfold bind at 1. rewrite E3.
      cbn [spec_steps]. rewrite removelast_last, last_snoc. rewrite Nat.add_assoc. by destruct (spec_steps ds (map _ _)).
Qed.

Lemma into_steps_ok ds : forall s leak xs, Rep s leak xs ->
  exists s', into_steps sz al ds s = Ok (spec_steps ds xs).1 s' /\ Rep s' leak (spec_steps ds xs).2 /\ d_drops s' = d_drops s.
Proof.
  induction ds as [|d ds IH]; intros s leak xs HR.
  { exists s. done. }
  destruct HR as (pa & start & subs & bo & R). destruct d; cbn [into_steps spec_steps].
  - destruct (pop_front_ok _ _ _ _ _ _ _ R) as (s1 & st' & subs' & bo' & E & R' & D & _).
    destruct (IH s1 leak (tail xs)) as (s2 & E2 & R2 & D2); [by eexists _, _, _, _|].
    destruct (spec_steps ds (tail xs)) as [y1 y2]. cbn [fst snd] in *.
    unfold bind. rewrite E, E2. exists s2. split; [done|]. split; [done|congruence].
  - destruct (pop_back_ok _ _ _ _ _ _ _ R) as (s1 & subs' & E & R' & D & _).
    destruct (IH s1 leak (removelast xs)) as (s2 & E2 & R2 & D2); [by eexists _, _, _, _|].
    destruct (spec_steps ds (removelast xs)) as [y1 y2]. cbn [fst snd] in *.
    unfold bind. rewrite E, E2. exists s2. split; [done|]. split; [done|congruence].
Qed.

(** ** The C++ form of iterators *)
Lemma compat_ok (s : dstate) size pa start subs leak i j : Shape h0 (d_h s) size pa start subs leak ->
  i < n * length subs -> j < n * length subs ->
  into_compat (iter_at pa start subs i j) s = Ok (dit_at pa start subs i, dit_at pa start subs j) s.
Proof.
  intros SH Li Lj. unfold into_compat. cbn [ri_cur ri_last ri_arr ri_n ri_last_arr iter_at].
  pose proof (dv_lt _ _ Li) as Ki. pose proof (dv_lt _ _ Lj) as Kj.
  destruct (sh_loc SH i Li) as (ci & Ei & Lci). destruct (sh_loc SH j Lj) as (cj & Ej & Lcj).
  unfold bind at 1. rewrite (read_ptr_ok _ _ _ (slot_read SH _ Ki)).
  unfold bind at 1. rewrite (add_ok _ _ _ _ _ Ei) by (cbn; lia).
  unfold bind at 1. rewrite (read_ptr_ok _ _ _ (slot_read SH _ Kj)).
  unfold bind at 1. rewrite (add_ok _ _ _ _ _ Ej) by (cbn; lia). done.
Qed.
Lemma from_compat_ok (s : dstate) pa start subs i j :
  from_compat (dit_at pa start subs i) (dit_at pa start subs j) s = Ok (iter_at pa start subs i j) s.
Proof.
  unfold from_compat, bind. cbn [dit_at di_end di_begin di_cur di_arr]. rewrite pdiff_ok by lia. cbn [or_ub]. unfold ret, iter_at.
  by rewrite Nat.sub_0_r.
Qed.

End ops.
End proofs.
