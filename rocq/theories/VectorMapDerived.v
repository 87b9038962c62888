(** Proofs of the properties stated in VectorMapProps.v. *)
From Verif Require Import Base Heap HeapLemmas Alloc AllocContract Vector VectorSpec.
From Verif Require Import VectorMap VectorMapSpec.

From Verif Require Import VectorProofs VectorMore VectorMapProofs.

Section pure.
Context {K V : Type}.
Variables cmp eqb : K -> K -> bool.
Hypothesis KO : KeyOrder cmp eqb.

Lemma sorted_nil : sorted_by (V := V) cmp [].
Proof. intros i j x y _ Hx. by rewrite lookup_nil in Hx. Qed.

(** Two sorted arrangements of the same pairs are the same list. *)
Lemma sorted_unique (xs ys : list (K * V)) : sorted_by cmp xs -> sorted_by cmp ys -> xs ≡ₚ ys -> xs = ys.
Proof.
  assert (IRR : forall p q : K * V, cmp (fst p) (fst q) = true -> cmp (fst q) (fst p) = true -> False).
  { intros p q H1 H2. pose proof (ko_trans _ _ KO _ _ _ H1 H2) as H3. by rewrite (ko_irr _ _ KO) in H3. }
  revert ys. induction xs as [|x xs IH]; intros ys Sx Sy P.
  - by apply Permutation_nil in P.
  - destruct ys as [|y ys]; [symmetry in P; by apply Permutation_nil in P|].
    apply sorted_cons in Sx as [Fx Sx]. apply sorted_cons in Sy as [Fy Sy].
    rewrite Forall_forall in Fx, Fy.
    assert (x = y) as ->.
    { assert (Hx : x ∈ y :: ys) by (rewrite <- P; left). assert (Hy : y ∈ x :: xs) by (rewrite P; left).
      apply elem_of_cons in Hx as [->|Hx]; [done|]. apply elem_of_cons in Hy as [->|Hy]; [done|].
      destruct (IRR x y); [by apply Fx|by apply Fy]. }
    f_equal. apply IH; [done..|]. by apply Permutation_cons_inv with y.
Qed.

Lemma parts_app (l1 l2 : list (K * V)) : parts (l1 ++ l2) = parts l1 ++ parts l2.
Proof. unfold parts. by rewrite map_app, concat_app. Qed.

Lemma parts_cons (p : K * V) l : parts (p :: l) = inl (fst p) :: inr (snd p) :: parts l.
Proof. done. Qed.

Lemma parts_Permutation (l1 l2 : list (K * V)) : l1 ≡ₚ l2 -> parts l1 ≡ₚ parts l2.
Proof.
  induction 1 as [|x l1 l2 _ IH|x y l|l1 l2 l3 _ IH1 _ IH2]; [done| | |by etrans].
  - by rewrite !parts_cons, IH.
  - rewrite !parts_cons. solve_Permutation.
Qed.

Lemma has_equiv k k1 (p : K * V) : eqb k1 k = true -> has eqb k p = has eqb k1 p.
Proof.
  intros E. unfold has. destruct (eqb p.1 k) eqn:E1, (eqb p.1 k1) eqn:E2; try done; exfalso.
  - rewrite (ko_eq_trans _ _ KO p.1 k k1) in E2; [done|done|]. by eapply eq_sym.
  - by rewrite (ko_eq_trans _ _ KO p.1 k1 k) in E1.
Qed.

Lemma has_other k k1 (p : K * V) : eqb k1 k = false -> has eqb k1 p = true -> has eqb k p = false.
Proof.
  intros E H. unfold has in *. destruct (eqb p.1 k) eqn:E1; [|done].
  rewrite (ko_eq_trans _ _ KO k1 p.1 k) in E; [done| |done]. by eapply eq_sym.
Qed.

Lemma look_put k k1 (v : V) (m : smap) p : look eqb k1 m = Some p ->
  option_map snd (look eqb k (put eqb k1 v m)) = if eqb k1 k then Some v else option_map snd (look eqb k m).
Proof.
  unfold look, put. cbn [entries]. induction (entries m) as [|q l IH]; cbn [List.find map]; intros HF; [done|].
  destruct (eqb k1 k) eqn:E.
  - destruct (has eqb k1 q) eqn:H1.
    + assert (HK : has eqb k (q.1, v) = true).
      { pose proof (has_equiv k k1 q E) as HE. unfold has in *. cbn. by rewrite HE. }
      by rewrite HK.
    + rewrite (has_equiv k k1 q E), H1. by apply IH.
  - destruct (has eqb k1 q) eqn:H1.
    + assert (HK : has eqb k (q.1, v) = false) by (by apply (has_other k k1 q)).
      rewrite HK, (has_other k k1 q) by done. 
      clear HF IH. induction l as [|q2 l IH]; [done|]. cbn [List.find map].
      destruct (has eqb k1 q2) eqn:H2.
      * assert (HK2 : has eqb k (q2.1, v) = false) by (by apply (has_other k k1 q2)).
        by rewrite HK2, (has_other k k1 q2).
      * by destruct (has eqb k q2).
    + destruct (has eqb k q); [done|]. by apply IH.
Qed.

Lemma look_del k k1 (m : smap (K := K) (V := V)) :
  look eqb k (del eqb k1 m) = if eqb k1 k then None else look eqb k m.
Proof.
  unfold look, del. cbn [entries]. induction (entries m) as [|q l IH]; cbn [List.find List.filter].
  - by destruct (eqb k1 k).
  - destruct (has eqb k1 q) eqn:H1; cbn [negb List.find].
    + rewrite IH. destruct (eqb k1 k) eqn:E; [done|]. by rewrite (has_other k k1 q).
    + rewrite IH. destruct (eqb k1 k) eqn:E; [|done]. by rewrite (has_equiv k k1 q E), H1.
Qed.

Lemma add_inv fits p (m m' : smap (K := K) (V := V)) : add fits p m = Some m' -> entries m' = p :: entries m.
Proof. unfold add. destruct (_ || _); [|done]. by intros [= <-]. Qed.

Lemma look_add fits k k1 (v : V) (m m' : smap) : add fits (k1, v) m = Some m' ->
  option_map snd (look eqb k m') = if eqb k1 k then Some v else option_map snd (look eqb k m).
Proof.
  intros E. unfold look. rewrite (add_inv _ _ _ _ E). cbn [List.find]. unfold has at 1. cbn. by destruct (eqb k1 k).
Qed.

Lemma find_app {X} (f : X -> bool) (l1 l2 : list X) :
  List.find f (l1 ++ l2) = match List.find f l1 with Some x => Some x | None => List.find f l2 end.
Proof. induction l1 as [|x l1 IH]; [done|]. cbn. by destruct (f x). Qed.

Lemma extend_look fits k kvs : forall (m : smap (K := K) (V := V)) d e m',
  spec_extend eqb fits kvs m = (MUnit, d, e, m') ->
  option_map snd (look eqb k m') =
    match List.find (has eqb k) (rev kvs) with Some p => Some (snd p) | None => option_map snd (look eqb k m) end.
Proof.
  induction kvs as [|[k1 v1] kvs IH]; intros m d e m' H; cbn [spec_extend] in H.
  - by simplify_eq.
  - cbn [rev]. rewrite find_app. cbn [List.find]. unfold has at 2. cbn [fst].
    destruct (look eqb k1 m) as [p|] eqn:L.
    + destruct (spec_extend eqb fits kvs (put eqb k1 v1 m)) as [[[a1 d1] e1] m1] eqn:E. simplify_eq.
      rewrite (IH _ _ _ _ E). destruct (List.find _ _); [done|]. rewrite (look_put _ _ _ _ _ L). by destruct (eqb k1 k).
    + destruct (add fits (k1, v1) m) as [m1|] eqn:HA; [|done].
      rewrite (IH _ _ _ _ H). destruct (List.find _ _); [done|]. rewrite (look_add _ _ _ _ _ _ HA). by destruct (eqb k1 k).
Qed.

(** The shape of the answer of each call. *)
Lemma spec_mcalls_app fits cs1 : forall (m : smap (K := K) (V := V)) cs2 l1 d1 e1 m1 l2 d2 e2 m2,
  spec_mcalls eqb fits cs1 m = (l1, d1, e1, m1) -> spec_mcalls eqb fits cs2 m1 = (l2, d2, e2, m2) ->
  spec_mcalls eqb fits (cs1 ++ cs2) m = (l1 ++ l2, d1 ++ d2, e1 ++ e2, m2).
Proof.
  induction cs1 as [|c cs1 IH]; intros m cs2 l1 d1 e1 m1 l2 d2 e2 m2 H1 H2; cbn [spec_mcalls app] in *.
  - by simplify_eq.
  - destruct (spec_mcall eqb fits c m) as [[[a d] e] m3].
    destruct (spec_mcalls eqb fits cs1 m3) as [[[l' d'] e'] m4] eqn:E. simplify_eq.
    rewrite (IH _ _ _ _ _ _ _ _ _ _ E H2). by rewrite <- !app_assoc.
Qed.
End pure.

Section reach.
Context {K V : Type}.
Variables sz al : Z.
Hypothesis Hsz : (0 < sz)%Z.
Hypothesis Hal : (0 < al)%Z.
Variables (chk nd : bool) (cmp eqb : K -> K -> bool).
Hypothesis KO : KeyOrder cmp eqb.
Variable h : heap (K * V).
Hypothesis Hh : heap_wf h.
Notation AS := (DefaultSpec (C := K * V) sz al Hsz Hal).
Notation AI := (DefaultAllocator (K * V)).
Notation MRep := (MRep AI sz al AS cmp).
Notation MPost := (MPost AI sz al nd AS cmp).

Lemma new_map_rep : MRep (new_map h) (SMap [] 0) [].
Proof. split; [by apply Rep_new|]. split; [apply sorted_nil|done]. Qed.

Lemma run_from_new cs l d e m : spec_mcalls eqb (default_fits sz al) cs (SMap [] 0) = (l, d, e, m) ->
  chk = true \/ forallb (m_modest sz) cs = true ->
  exists s, m_run AI sz al chk nd cmp eqb cs (new_map h) = Some (l, s) /\ MPost (new_map h) s m d e.
Proof.
  intros S HK. by apply (m_run_refines AI sz al chk nd Hsz AS cmp eqb KO cs (new_map h) (SMap [] 0) [] l d e m new_map_rep).
Qed.

Lemma reached cs l s : chk = true \/ forallb (m_modest sz) cs = true ->
  m_run AI sz al chk nd cmp eqb cs (new_map h) = Some (l, s) ->
  exists d e m, spec_mcalls eqb (default_fits sz al) cs (SMap [] 0) = (l, d, e, m) /\ MPost (new_map h) s m d e.
Proof.
  intros HK E. destruct (spec_mcalls eqb (default_fits sz al) cs (SMap [] 0)) as [[[l' d] e] m] eqn:S.
  destruct (run_from_new cs l' d e m S HK) as (s' & E' & P). rewrite E in E'. simplify_eq.
  by exists d, e, m.
Qed.

Lemma step_spec s m xs c a d e m' : chk = true \/ m_modest sz c = true -> MRep s m xs ->
  spec_mcall eqb (default_fits sz al) c m = (a, d, e, m') ->
  exists s', m_step AI sz al chk nd cmp eqb c s = Some (a, s') /\ MPost s s' m' d e.
Proof.
  intros HK R S. by apply (m_step_refines AI sz al chk nd Hsz AS cmp eqb KO c s m xs a d e m' R S HK).
Qed.

Lemma get_spec s m xs k : MRep s m xs ->
  m_step AI sz al chk nd cmp eqb (MGet k) s = Some (MRead (option_map snd (look eqb k m)), s).
Proof.
  intros R. unfold m_step. cbn [m_exec]. unfold vm_get.
  destruct (find_it AI sz al Hsz AS cmp eqb KO s m xs k R) as [l1 p l2 E LB FD AT LK PP PS DP DS|l1 l2 E LB FD LK SI DE];
    unfold bind; rewrite LB, FD, LK; [by rewrite AT|done].
Qed.

Lemma empty_heap s m xs : MRep s m xs -> mroom m = 0 -> frame AI sz al AS (ms_v s) = h_blk h ->
  h_blk (st_h (ms_v s)) = h_blk h.
Proof.
  intros ((_ & _ & R) & _ & _) E F. rewrite E in R.
  destruct R as [(EV & _)|(b & bk & j & _ & C0 & _)]; [|lia].
  rewrite <- F. unfold frame. rewrite EV. cbn. done.
Qed.

(** Keys and values are conserved by one call. *)
Lemma insert_conserves s m xs k v : MRep s m xs ->
  match look eqb k m with
  | Some p => [inl k; inr v] ++ parts (entries m) ≡ₚ inr (snd p) :: inl k :: parts (entries (put eqb k v m))
  | None => True
  end.
Proof.
  intros R. destruct (find_it AI sz al Hsz AS cmp eqb KO s m xs k R) as [l1 p l2 E LB FD AT LK PP PS DP DS|l1 l2 E LB FD LK SI DE];
    rewrite LK; [|done].
  destruct R as (_ & _ & P). rewrite <- (parts_Permutation _ _ P), <- (parts_Permutation _ _ (PP v)), E, !parts_app, !parts_cons.
  cbn [fst snd]. solve_Permutation.
Qed.

Lemma delete_conserves s m xs k : MRep s m xs ->
  match look eqb k m with
  | Some p => parts (entries m) ≡ₚ parts [p] ++ parts (entries (del eqb k m))
  | None => del eqb k m = m
  end.
Proof.
  intros R. destruct (find_it AI sz al Hsz AS cmp eqb KO s m xs k R) as [l1 p l2 E LB FD AT LK PP PS DP DS|l1 l2 E LB FD LK SI DE];
    rewrite LK; [|done].
  destruct R as (_ & _ & P). rewrite <- (parts_Permutation _ _ P), <- (parts_Permutation _ _ DP), E, !parts_app, !parts_cons.
  cbn. solve_Permutation.
Qed.

Lemma extend_conserves kvs : forall s m xs a d e m', MRep s m xs ->
  spec_extend eqb (default_fits sz al) kvs m = (a, d, e, m') ->
  parts kvs ++ parts (entries m) ≡ₚ m_returned a ++ parts d ++ e ++ parts (entries m').
Proof.
  induction kvs as [|[k v] kvs IH]; intros s m xs a d e m' R H; cbn [spec_extend] in H.
  - by simplify_eq.
  - pose proof (insert_conserves s m xs k v R) as HC.
    pose proof (vm_insert_ok AI sz al chk nd Hsz AS cmp eqb KO s m xs k v R) as HI.
    destruct (look eqb k m) as [p|] eqn:L.
    + destruct (spec_extend eqb (default_fits sz al) kvs (put eqb k v m)) as [[[a1 d1] e1] m1] eqn:E. simplify_eq.
      destruct HI as (s1 & _ & (xs1 & R1) & _). specialize (IH _ _ _ _ _ _ _ R1 E).
      rewrite parts_cons. cbn [fst snd].
      transitivity (parts kvs ++ [inl k; inr v] ++ parts (entries m)); [solve_Permutation|].
      rewrite HC.
      transitivity ([inl k; inr p.2] ++ (parts kvs ++ parts (entries (put eqb k v m)))); [solve_Permutation|].
      rewrite IH. solve_Permutation.
    + change (as_fits AS) with (default_fits sz al) in HI.
      destruct (add (default_fits sz al) (k, v) m) as [m1|] eqn:HA.
      * destruct HI as (s1 & _ & (xs1 & R1) & _). specialize (IH _ _ _ _ _ _ _ R1 H).
        rewrite <- IH, (add_inv _ _ _ _ HA), !parts_cons. cbn. solve_Permutation.
      * simplify_eq. by cbn.
Qed.

Lemma call_conserves c s m xs a d e m' : MRep s m xs ->
  spec_mcall eqb (default_fits sz al) c m = (a, d, e, m') ->
  m_given c ++ parts (entries m) ≡ₚ m_returned a ++ parts d ++ e ++ parts (entries m').
Proof.
  intros R H. destruct c as [k v|k|k v|k|k|k|k|k v|kvs|n| | | |]; cbn [spec_mcall m_given] in *;
    try pose proof (insert_conserves s m xs k v R) as HC; try pose proof (delete_conserves s m xs k R) as HD.
  - destruct (look eqb k m) as [p|] eqn:L; [simplify_eq; cbn; rewrite <- HC; done|].
    destruct (add _ _ m) as [m1|] eqn:HA; simplify_eq; [|done]. by rewrite (add_inv _ _ _ _ HA).
  - simplify_eq. by cbn.
  - destruct (look eqb k m) as [p|] eqn:L; simplify_eq; [|done]. cbn in *.
    apply (Permutation_cons_inv (a := inl k)). rewrite HC. solve_Permutation.
  - by simplify_eq.
  - destruct (look eqb k m) as [p|] eqn:L; simplify_eq; [|done]. cbn in *. rewrite HD. solve_Permutation.
  - destruct (look eqb k m) as [p|] eqn:L; simplify_eq; [by rewrite HD|]. by rewrite HD.
  - by destruct (look eqb k m) as [p|] eqn:L; simplify_eq.
  - destruct (look eqb k m) as [p|] eqn:L; [simplify_eq; cbn; rewrite HC; solve_Permutation|].
    destruct (add _ _ m) as [m1|] eqn:HA; simplify_eq; [|done]. by rewrite (add_inv _ _ _ _ HA).
  - by eapply extend_conserves.
  - destruct (_ || _); by simplify_eq.
  - by simplify_eq.
  - by simplify_eq.
  - by simplify_eq.
  - simplify_eq. cbn. by rewrite app_nil_r.
Qed.

Lemma calls_conserve cs : forall s m xs l d e m', chk = true \/ forallb (m_modest sz) cs = true -> MRep s m xs ->
  spec_mcalls eqb (default_fits sz al) cs m = (l, d, e, m') ->
  concat (map m_given cs) ++ parts (entries m) ≡ₚ concat (map m_returned l) ++ parts d ++ e ++ parts (entries m').
Proof.
  induction cs as [|c cs IH]; intros s m xs l d e m' HK R H; cbn [spec_mcalls] in H.
  - by simplify_eq.
  - destruct (spec_mcall eqb (default_fits sz al) c m) as [[[a1 d1] e1] m1] eqn:E1.
    destruct (spec_mcalls eqb (default_fits sz al) cs m1) as [[[l2 d2] e2] m2] eqn:E2. injection H as <- <- <- <-.
    assert (HK1 : chk = true \/ m_modest sz c = true).
    { destruct HK as [HK|HK]; [by left|right]. cbn in HK. by apply andb_prop in HK as [? _]. }
    assert (HK2 : chk = true \/ forallb (m_modest sz) cs = true).
    { destruct HK as [HK|HK]; [by left|right]. cbn in HK. by apply andb_prop in HK as [_ ?]. }
    destruct (step_spec s m xs c a1 d1 e1 m1 HK1 R E1) as (s1 & _ & (xs1 & R1) & _).
    specialize (IH _ _ _ _ _ _ _ HK2 R1 E2). pose proof (call_conserves c s m xs a1 d1 e1 m1 R E1) as HC.
    cbn [map concat]. rewrite parts_app.
    transitivity (concat (map m_given cs) ++ (m_given c ++ parts (entries m))); [solve_Permutation|].
    rewrite HC.
    transitivity ((m_returned a1 ++ parts d1 ++ e1) ++ (concat (map m_given cs) ++ parts (entries m1))); [solve_Permutation|].
    rewrite IH. solve_Permutation.
Qed.
End reach.

Lemma modest_first {K V : Type} (sz : Z) (chk : bool) (c : mcall K V) cs :
  chk = true \/ forallb (m_modest sz) (c :: cs) = true ->
  (chk = true \/ m_modest sz c = true) /\ (chk = true \/ forallb (m_modest sz) cs = true).
Proof.
  intros [HK|HK]; [by split; left|]. cbn in HK. apply andb_prop in HK as [? ?]. by split; right.
Qed.

Lemma L_C25_map_refinement :
forall (K V : Type) (sz al : Z) (chk nd : bool) (cmp eqb : K -> K -> bool) (h : heap (K * V))
  (cs : list (mcall K V)) l d e m,
  (0 < sz)%Z -> (0 < al)%Z -> KeyOrder cmp eqb -> heap_wf h ->
  spec_mcalls eqb (default_fits sz al) cs (SMap [] 0) = (l, d, e, m) ->
  chk = true \/ forallb (m_modest sz) cs = true ->
  exists s xs, m_run (DefaultAllocator (K * V)) sz al chk nd cmp eqb cs (new_map h) = Some (l, s) /\
    as_slice sz (ms_v s) = Ok xs (ms_v s) /\ xs ≡ₚ entries m /\
    capacity sz (ms_v s) = Ok (mroom m) (ms_v s).
Proof.
  intros K V sz al chk nd cmp eqb h cs l d e m Hsz Hal KO Hh S HK.
  destruct (run_from_new sz al Hsz Hal chk nd cmp eqb KO h Hh cs l d e m S HK) as (s & E & (xs & R & SO & P) & _).
  exists s, xs. split; [done|]. split; [by eapply as_slice_ok|]. split; [done|]. by eapply capacity_ok.
Qed.

Lemma L_C25_lookup_laws :
forall (K V : Type) (sz al : Z) (chk nd : bool) (cmp eqb : K -> K -> bool) (h : heap (K * V))
  (cs : list (mcall K V)) l s k k' v o o',
  (0 < sz)%Z -> (0 < al)%Z -> KeyOrder cmp eqb -> heap_wf h ->
  chk = true \/ forallb (m_modest sz) (MInsert k v :: cs) = true ->
  m_run (DefaultAllocator (K * V)) sz al chk nd cmp eqb cs (new_map h) = Some (l, s) ->
  m_step (DefaultAllocator (K * V)) sz al chk nd cmp eqb (MGet k) s = Some (MRead o, s) ->
  m_step (DefaultAllocator (K * V)) sz al chk nd cmp eqb (MGet k') s = Some (MRead o', s) ->
  (forall a s1, m_step (DefaultAllocator (K * V)) sz al chk nd cmp eqb (MInsert k v) s = Some (a, s1) -> a <> MPanic ->
     a = MTaken o /\
     m_step (DefaultAllocator (K * V)) sz al chk nd cmp eqb (MGet k') s1
       = Some (MRead (if eqb k k' then Some v else o'), s1)) /\
  (exists s1, m_step (DefaultAllocator (K * V)) sz al chk nd cmp eqb (MRemove k) s = Some (MTaken o, s1) /\
     m_step (DefaultAllocator (K * V)) sz al chk nd cmp eqb (MGet k') s1
       = Some (MRead (if eqb k k' then None else o'), s1)) /\
  (exists s1, m_step (DefaultAllocator (K * V)) sz al chk nd cmp eqb (MGetMutSet k v) s
       = Some (MBool (if o then true else false), s1) /\
     m_step (DefaultAllocator (K * V)) sz al chk nd cmp eqb (MGet k') s1
       = Some (MRead (if eqb k k' then (if o then Some v else None) else o'), s1)).
Proof.
  intros K V sz al chk nd cmp eqb h cs l s k k' v o o' Hsz Hal KO Hh HK E G G'.
  apply modest_first in HK as [HK1 HK].
  destruct (reached sz al Hsz Hal chk nd cmp eqb KO h Hh cs l s HK E) as (d & e & m & S & (xs & R) & _).
  pose proof (get_spec sz al Hsz Hal chk nd cmp eqb KO s m xs k R) as GS. rewrite GS in G. injection G as <-.
  pose proof (get_spec sz al Hsz Hal chk nd cmp eqb KO s m xs k' R) as GS'. rewrite GS' in G'. injection G' as <-.
  assert (AF : forall c a d1 e1 m1, chk = true \/ m_modest sz c = true -> spec_mcall eqb (default_fits sz al) c m = (a, d1, e1, m1) ->
    exists s1, m_step (DefaultAllocator (K * V)) sz al chk nd cmp eqb c s = Some (a, s1) /\
      m_step (DefaultAllocator (K * V)) sz al chk nd cmp eqb (MGet k') s1
       = Some (MRead (option_map snd (look eqb k' m1)), s1)).
  { intros c a d1 e1 m1 HC HS.
    destruct (step_spec sz al Hsz Hal chk nd cmp eqb KO s m xs c a d1 e1 m1 HC R HS) as (s1 & E1 & (xs1 & R1) & _).
    exists s1. split; [done|]. by apply (get_spec sz al Hsz Hal chk nd cmp eqb KO s1 m1 xs1). }
  split; [|split].
  - intros a s1 E1 NP. destruct (spec_mcall eqb (default_fits sz al) (MInsert k v) m) as [[[a1 d1] e1] m1] eqn:HS.
    destruct (AF _ _ _ _ _ HK1 HS) as (s2 & E2 & G2). rewrite E1 in E2. injection E2 as -> ->.
    cbn [spec_mcall] in HS. rewrite G2. destruct (look eqb k m) as [p|] eqn:L.
    + injection HS as <- <- <- <-. split; [done|]. by rewrite (look_put cmp eqb KO _ _ _ _ _ L).
    + destruct (add _ _ m) as [m2|] eqn:HA; injection HS as <- <- <- <-; [|done].
      split; [done|]. by rewrite (look_add _ _ _ _ _ _ _ HA).
  - destruct (spec_mcall eqb (default_fits sz al) (MRemove k) m) as [[[a1 d1] e1] m1] eqn:HS.
    destruct (AF (MRemove k) _ _ _ _ (or_intror eq_refl) HS) as (s2 & E2 & G2). exists s2. rewrite E2, G2. cbn [spec_mcall] in HS.
    destruct (look eqb k m) as [p|] eqn:L; injection HS as <- <- <- <-.
    + rewrite (look_del cmp eqb KO). by destruct (eqb k k').
    + split; [done|]. f_equal. f_equal. f_equal. destruct (eqb k k') eqn:EK; [|done].
      unfold look in *. erewrite find_none_all; [done|]. apply Forall_forall. intros q Hq.
      rewrite (has_equiv cmp eqb KO k' k q EK). by apply (List.find_none _ _ L), elem_of_list_In.
  - destruct (spec_mcall eqb (default_fits sz al) (MGetMutSet k v) m) as [[[a1 d1] e1] m1] eqn:HS.
    destruct (AF (MGetMutSet k v) _ _ _ _ (or_intror eq_refl) HS) as (s2 & E2 & G2). exists s2. rewrite E2, G2. cbn [spec_mcall] in HS.
    destruct (look eqb k m) as [p|] eqn:L; injection HS as <- <- <- <-.
    + split; [done|]. by rewrite (look_put cmp eqb KO _ _ _ _ _ L).
    + split; [done|]. f_equal. f_equal. f_equal. destruct (eqb k k') eqn:EK; [|done].
      unfold look in *. erewrite find_none_all; [done|]. apply Forall_forall. intros q Hq.
      rewrite (has_equiv cmp eqb KO k' k q EK). by apply (List.find_none _ _ L), elem_of_list_In.
Qed.

Lemma L_C26_always_sorted :
forall (K V : Type) (sz al : Z) (chk nd : bool) (cmp eqb : K -> K -> bool) (h : heap (K * V))
  (cs : list (mcall K V)) l s,
  (0 < sz)%Z -> (0 < al)%Z -> KeyOrder cmp eqb -> heap_wf h ->
  chk = true \/ forallb (m_modest sz) cs = true ->
  m_run (DefaultAllocator (K * V)) sz al chk nd cmp eqb cs (new_map h) = Some (l, s) ->
  exists xs, as_slice sz (ms_v s) = Ok xs (ms_v s) /\
    (forall i j p q, i < j -> xs !! i = Some p -> xs !! j = Some q ->
       cmp (fst p) (fst q) = true /\ eqb (fst p) (fst q) = false /\ eqb (fst q) (fst p) = false) /\
    (forall k v, m_step (DefaultAllocator (K * V)) sz al chk nd cmp eqb (MGet k) s = Some (MRead (Some v), s) <->
       exists k', In (k', v) xs /\ eqb k' k = true).
Proof.
  intros K V sz al chk nd cmp eqb h cs l s Hsz Hal KO Hh HK E.
  destruct (reached sz al Hsz Hal chk nd cmp eqb KO h Hh cs l s HK E) as (d & e & m & S & (xs & R) & _).
  pose proof R as (RV & SO & P).
  exists xs. split; [by eapply as_slice_ok|]. split.
  - intros i j p q L Hp Hq. pose proof (SO i j p q L Hp Hq) as HC. split; [done|]. split.
    + destruct (eqb p.1 q.1) eqn:EQ; [|done]. apply (ko_eq _ _ KO) in EQ as [EQ _]. by rewrite EQ in HC.
    + destruct (eqb q.1 p.1) eqn:EQ; [|done]. apply (ko_eq _ _ KO) in EQ as [_ EQ]. by rewrite EQ in HC.
  - intros k v. rewrite (get_spec sz al Hsz Hal chk nd cmp eqb KO s m xs k R).
    assert (F : look eqb k m = List.find (has eqb k) xs).
    { destruct (find_it (DefaultAllocator (K * V)) sz al Hsz (DefaultSpec sz al Hsz Hal) cmp eqb KO s m xs k R)
        as [l1 p l2 EX LB FD AT LK PP PS DP DS|l1 l2 EX LB FD LK SI DE].
      - rewrite LK. symmetry. destruct (search (V := V) cmp eqb KO xs k SO) as (a1 & a2 & c & EX2 & LB2 & N1 & H2).
        unfold look in LK. rewrite <- LK. apply find_Permutation; [done|].
        destruct H2 as [(p2 & a3 & -> & HP & N2)|(N2 & _)].
        + assert (X : forall z, In z xs -> has eqb k z = true -> z = p2).
          { intros z Hz Fz. rewrite EX2 in Hz. apply in_app_or in Hz as [Hz|[Hz|Hz]]; [|done|].
            - rewrite Forall_forall in N1. specialize (N1 z ltac:(by apply elem_of_list_In)). by unfold hask in N1; rewrite N1 in Fz.
            - rewrite Forall_forall in N2. specialize (N2 z ltac:(by apply elem_of_list_In)). by unfold hask in N2; rewrite N2 in Fz. }
          intros x y Hx Hy Fx Fy. by rewrite (X x), (X y).
        + assert (NX : Forall (fun p => hask eqb k p = false) xs) by (rewrite EX2; by apply Forall_app).
          intros x y Hx Hy Fx Fy. rewrite Forall_forall in NX. specialize (NX x ltac:(by apply elem_of_list_In)).
          unfold hask in NX. by rewrite NX in Fx.
      - rewrite LK. unfold look in LK. symmetry. apply find_none_all. apply Forall_forall. intros q Hq.
        apply (List.find_none _ _ LK). apply elem_of_list_In. by rewrite <- P. }
    rewrite F. split.
    + destruct (List.find (has eqb k) xs) as [[k' v']|] eqn:HF; [|done]. cbn. intros [= <-].
      apply List.find_some in HF as [Hin HB]. by exists k'.
    + intros (k' & Hin & HB).
      destruct (List.find (has eqb k) xs) as [[k2 v2]|] eqn:HF.
      * apply List.find_some in HF as [Hin2 HB2]. cbn.
        apply elem_of_list_In, elem_of_list_lookup in Hin as [i Hi].
        apply elem_of_list_In, elem_of_list_lookup in Hin2 as [j Hj].
        assert (EQ : eqb k' k2 = true).
        { eapply (ko_eq_trans _ _ KO); [exact HB|]. by eapply eq_sym. }
        apply (ko_eq _ _ KO) in EQ as [Q1 Q2].
        destruct (Nat.lt_trichotomy i j) as [L|[->|L]].
        -- pose proof (SO i j _ _ L Hi Hj) as HC. cbn in HC. by rewrite HC in Q1.
        -- by simplify_eq.
        -- pose proof (SO j i _ _ L Hj Hi) as HC. cbn in HC. by rewrite HC in Q2.
      * pose proof (List.find_none _ _ HF _ Hin) as HN. unfold has in HN. cbn in HN. by rewrite HN in HB.
Qed.

Lemma L_C27_binary_search :
forall (K V : Type) (cmp : K -> K -> bool) (xs : list (K * V)) (k : K),
  (forall a b c, cmp a b = true -> cmp b c = true -> cmp a c = true) ->
  sorted_by cmp xs ->
  exists i c, lower_bound_by (fun p => cmp (fst p) k) xs = Some (i, c) /\ i <= length xs /\
    (forall j p, xs !! j = Some p -> cmp (fst p) k = (j <? i)) /\
    c <= Nat.log2_up (length xs) + 1.
Proof.
  intros K V cmp xs k HT S.
  destruct (split_at (fun kv => cmp (fst kv) k) xs) as (l1 & l2 & -> & F1 & F2).
  { intros i j x y L Hx Hy H. eapply HT; [by eapply (S i j)|done]. }
  destruct (lower_bound_by_ok (fun kv => cmp (fst kv) k) l1 l2 F1 F2) as (c & E & HC).
  exists (length l1), c. split; [done|]. split; [rewrite app_length; lia|]. split; [|done].
  intros j p Hp. destruct (Nat.ltb_spec j (length l1)) as [L|L].
  - rewrite lookup_app_l in Hp by done. apply (proj1 (Forall_lookup _ _) F1 _ _ Hp).
  - rewrite lookup_app_r in Hp by done. apply (proj1 (Forall_lookup _ _) F2 _ _ Hp).
Qed.

Lemma L_C27_search_in_bounds :
forall (T : Type) (less : T -> bool) (xs : list T),
  exists i c, lower_bound_by less xs = Some (i, c) /\ i <= length xs.
Proof.
  intros T less xs. unfold lower_bound_by. destruct (Nat.eqb_spec (length xs) 0) as [E|E].
  - exists 0, 0. split; [done|lia].
  - assert (X : forall fuel base size cnt, size <= fuel -> 0 < size -> base + size <= length xs ->
      exists i c, lb_loop less xs fuel base size cnt = Some (i, c) /\ i <= length xs).
    { induction fuel as [|fuel IH]; intros base size cnt HF HS HB; [lia|]. cbn [lb_loop].
      destruct (Nat.ltb_spec 1 size) as [L|L].
      - pose proof (Nat.div_mod size 2 ltac:(lia)) as ED. pose proof (Nat.mod_upper_bound size 2 ltac:(lia)).
        destruct (lookup_lt_is_Some_2 xs (base + size / 2)) as [x Hx]; [lia|]. rewrite Hx.
        apply IH; [lia..|]. destruct (less x); lia.
      - destruct (lookup_lt_is_Some_2 xs base) as [x Hx]; [lia|]. rewrite Hx. eexists _, _. split; [done|].
        destruct (less x); lia. }
    apply X; lia.
Qed.

Lemma L_C28_coarse_comparator_refuted :
exists (cmp : nat -> nat -> bool),
  (forall a, cmp a a = false) /\
  (forall a b c, cmp a b = true -> cmp b c = true -> cmp a c = true) /\
  (forall a b c, cmp a b = false -> cmp b a = false -> cmp b c = false -> cmp c b = false ->
     cmp a c = false /\ cmp c a = false) /\
  exists s, m_run (DefaultAllocator (nat * nat)) 16 8 true false cmp Nat.eqb
    [MInsert 11 1; MInsert 12 2; MGet 11; MInsert 11 3; MInsert 12 4; MLen] (new_map (Heap 0 ∅))
    = Some ([MTaken None; MTaken None; MRead None; MTaken None; MTaken None; MNat 4], s) /\
    val (as_slice 16 (ms_v s)) = Some [(12, 4); (11, 3); (12, 2); (11, 1)].
Proof.
  exists (fun a b => a / 10 <? b / 10). split; [intros a; by rewrite Nat.ltb_irrefl|].
  split; [intros a b c; rewrite !Nat.ltb_lt; lia|]. split; [intros a b c; rewrite !Nat.ltb_ge; lia|].
  destruct (m_run _ _ _ _ _ _ _ _ _) as [[l s]|] eqn:E; [|vm_compute in E; discriminate].
  exists s.
  assert (X : option_map (fun ls => (fst ls, val (as_slice 16 (ms_v (snd ls))))) (Some (l, s))
    = Some ([MTaken None; MTaken None; MRead None; MTaken None; MTaken None; MNat 4], Some [(12, 4); (11, 3); (12, 2); (11, 1)])).
  { rewrite <- E. vm_compute. reflexivity. }
  cbn [option_map fst snd] in X. injection X as -> X. split; [done|exact X].
Qed.

Lemma L_C29_entry_is_insert_get :
forall (K V : Type) (sz al : Z) (chk nd : bool) (cmp eqb : K -> K -> bool) (h : heap (K * V))
  (cs : list (mcall K V)) l s k v,
  (0 < sz)%Z -> (0 < al)%Z -> KeyOrder cmp eqb -> heap_wf h ->
  chk = true \/ forallb (m_modest sz) (MInsert k v :: cs) = true ->
  m_run (DefaultAllocator (K * V)) sz al chk nd cmp eqb cs (new_map h) = Some (l, s) ->
  exists o s1 a2 s2 a3 s3 xs,
    m_step (DefaultAllocator (K * V)) sz al chk nd cmp eqb (MGet k) s = Some (MRead o, s) /\
    m_step (DefaultAllocator (K * V)) sz al chk nd cmp eqb (MEntryGet k) s
      = Some (MEntry (match o with Some w => inl (match List.find (fun p => eqb (fst p) k) xs with
                                                  | Some p => p | None => (k, w) end)
                                 | None => inr k end), s1) /\
    as_slice sz (ms_v s) = Ok xs (ms_v s) /\ as_slice sz (ms_v s1) = Ok xs (ms_v s1) /\
    (forall w, o = Some w -> exists k', List.find (fun p => eqb (fst p) k) xs = Some (k', w)) /\
    m_step (DefaultAllocator (K * V)) sz al chk nd cmp eqb (MEntrySet k v) s = Some (a2, s2) /\
    m_step (DefaultAllocator (K * V)) sz al chk nd cmp eqb (MInsert k v) s = Some (a3, s3) /\
    (a2 = MPanic <-> a3 = MPanic) /\
    (a2 <> MPanic -> a2 = MSet (if o then true else false) v /\ a3 = MTaken o) /\
    exists ys cap, as_slice sz (ms_v s2) = Ok ys (ms_v s2) /\ as_slice sz (ms_v s3) = Ok ys (ms_v s3) /\
      capacity sz (ms_v s2) = Ok cap (ms_v s2) /\ capacity sz (ms_v s3) = Ok cap (ms_v s3).
Proof.
  intros K V sz al chk nd cmp eqb h cs l s k v Hsz Hal KO Hh HK E.
  apply modest_first in HK as [HK1 HK].
  destruct (reached sz al Hsz Hal chk nd cmp eqb KO h Hh cs l s HK E) as (d & e & m & S & (xs & R) & _).
  pose proof R as (RV & SO & P).
  assert (F : look eqb k m = List.find (has eqb k) xs).
  { destruct (find_it (DefaultAllocator (K * V)) sz al Hsz (DefaultSpec sz al Hsz Hal) cmp eqb KO s m xs k R)
      as [l1 p l2 EX LB FD AT LK PP PS DP DS|l1 l2 EX LB FD LK SI DE].
    - destruct (search (V := V) cmp eqb KO xs k SO) as (a1 & a2 & c & EX2 & LB2 & N1 & H2).
      symmetry. apply find_Permutation; [done|].
      destruct H2 as [(p2 & a3 & -> & HP & N2)|(N2 & _)].
      + assert (X : forall z, In z xs -> has eqb k z = true -> z = p2).
        { intros z Hz Fz. rewrite EX2 in Hz. apply in_app_or in Hz as [Hz|[Hz|Hz]]; [|done|].
          - rewrite Forall_forall in N1. specialize (N1 z ltac:(by apply elem_of_list_In)). by unfold hask in N1; rewrite N1 in Fz.
          - rewrite Forall_forall in N2. specialize (N2 z ltac:(by apply elem_of_list_In)). by unfold hask in N2; rewrite N2 in Fz. }
        intros x y Hx Hy Fx Fy. by rewrite (X x), (X y).
      + assert (NX : Forall (fun p => hask eqb k p = false) xs) by (rewrite EX2; by apply Forall_app).
        intros x y Hx Hy Fx Fy. rewrite Forall_forall in NX. specialize (NX x ltac:(by apply elem_of_list_In)).
        unfold hask in NX. by rewrite NX in Fx.
    - rewrite LK. unfold look in LK. symmetry. apply find_none_all. apply Forall_forall. intros q Hq.
      apply (List.find_none _ _ LK). apply elem_of_list_In. by rewrite <- P. }
  destruct (spec_mcall eqb (default_fits sz al) (MEntryGet k) m) as [[[a1 d1] e1] m1] eqn:H1.
  destruct (spec_mcall eqb (default_fits sz al) (MEntrySet k v) m) as [[[a2 d2] e2] m2] eqn:H2.
  destruct (spec_mcall eqb (default_fits sz al) (MInsert k v) m) as [[[a3 d3] e3] m3] eqn:H3.
  destruct (step_spec sz al Hsz Hal chk nd cmp eqb KO s m xs (MEntryGet k) _ _ _ _ (or_intror eq_refl) R H1) as (s1 & E1 & (xs1 & R1) & _).
  destruct (step_spec sz al Hsz Hal chk nd cmp eqb KO s m xs (MEntrySet k v) _ _ _ _ HK1 R H2) as (s2 & E2 & (xs2 & R2) & _).
  destruct (step_spec sz al Hsz Hal chk nd cmp eqb KO s m xs (MInsert k v) _ _ _ _ HK1 R H3) as (s3 & E3 & (xs3 & R3) & _).
  exists (option_map snd (look eqb k m)), s1, a2, s2, a3, s3, xs.
  split; [by eapply (get_spec sz al Hsz Hal chk nd cmp eqb KO)|].
  cbn [spec_mcall] in H1, H2, H3.
  change (List.find (fun p : K * V => eqb p.1 k) xs) with (List.find (has eqb k) xs). rewrite <- F.
  destruct R1 as (RV1 & SO1 & P1). destruct R2 as (RV2 & SO2 & P2). destruct R3 as (RV3 & SO3 & P3).
  split.
  { rewrite E1. destruct (look eqb k m) as [p|]; injection H1 as <- <- <- <-; done. }
  split; [by eapply as_slice_ok|]. split.
  { replace xs with xs1; [by eapply as_slice_ok|]. apply (sorted_unique cmp eqb KO); [done..|].
    rewrite P1, P. by destruct (look eqb k m); injection H1 as <- <- <- <-. }
  split.
  { intros w Hw. destruct (look eqb k m) as [[k' v']|]; [|done]. cbn in Hw. injection Hw as <-. by exists k'. }
  split; [done|]. split; [done|].
  assert (M23 : m2 = m3 /\ (a2 = MPanic <-> a3 = MPanic) /\
    (a2 <> MPanic -> a2 = MSet (if option_map snd (look eqb k m) then true else false) v /\ a3 = MTaken (option_map snd (look eqb k m)))).
  { destruct (look eqb k m) as [p|]; [injection H2 as <- <- <- <-; injection H3 as <- <- <- <-; done|].
    destruct (add _ _ m); injection H2 as <- <- <- <-; injection H3 as <- <- <- <-; done. }
  destruct M23 as (-> & M1 & M2). split; [done|]. split; [done|].
  exists xs2, (mroom m3). split; [by eapply as_slice_ok|]. split.
  { replace xs2 with xs3; [by eapply as_slice_ok|]. apply (sorted_unique cmp eqb KO); [done..|]. by rewrite P2, P3. }
  split; by eapply capacity_ok.
Qed.

Lemma L_C30_build_keeps_last :
forall (K V : Type) (sz al : Z) (chk nd : bool) (cmp eqb : K -> K -> bool) (h : heap (K * V)) n kvs a s k,
  (0 < sz)%Z -> (0 < al)%Z -> KeyOrder cmp eqb -> heap_wf h ->
  chk = true \/ forallb (m_modest sz) [MWithCapacity n; MExtend kvs] = true ->
  m_run (DefaultAllocator (K * V)) sz al chk nd cmp eqb [MWithCapacity n; MExtend kvs] (new_map h) = Some ([a; MUnit], s) ->
  m_step (DefaultAllocator (K * V)) sz al chk nd cmp eqb (MGet k) s
    = Some (MRead (option_map snd (List.find (fun p => eqb (fst p) k) (rev kvs))), s).
Proof.
  intros K V sz al chk nd cmp eqb h n kvs a s k Hsz Hal KO Hh HK E.
  destruct (reached sz al Hsz Hal chk nd cmp eqb KO h Hh _ _ s HK E) as (d & e & m & S & (xs & R) & _).
  rewrite (get_spec sz al Hsz Hal chk nd cmp eqb KO s m xs k R). f_equal. f_equal. f_equal.
  cbn [spec_mcalls] in S.
  destruct (spec_mcall eqb (default_fits sz al) (MWithCapacity n) (SMap [] 0)) as [[[a1 d1] e1] m1] eqn:H1.
  cbn [spec_mcall] in S.
  destruct (spec_extend eqb (default_fits sz al) kvs m1) as [[[a2 d2] e2] m2] eqn:H2. simplify_eq.
  rewrite (extend_look cmp eqb KO _ k kvs _ _ _ _ H2).
  assert (EM : entries m1 = []).
  { cbn [spec_mcall] in H1. destruct (_ || _); by simplify_eq. }
  unfold look. rewrite EM. cbn [List.find option_map]. unfold has. by destruct (List.find _ _).
Qed.

Lemma L_C78_map_ownership :
forall (K V : Type) (sz al : Z) (chk : bool) (cmp eqb : K -> K -> bool) (h : heap (K * V)) (cs : list (mcall K V)) l s,
  (0 < sz)%Z -> (0 < al)%Z -> KeyOrder cmp eqb -> heap_wf h ->
  chk = true \/ forallb (m_modest sz) cs = true ->
  m_run (DefaultAllocator (K * V)) sz al chk true cmp eqb cs (new_map h) = Some (l, s) ->
  exists xs, as_slice sz (ms_v s) = Ok xs (ms_v s) /\
    concat (map m_given cs) ≡ₚ
      parts xs ++ concat (map m_returned l) ++ parts (st_drops (ms_v s)) ++ ms_lone s.
Proof.
  intros K V sz al chk cmp eqb h cs l s Hsz Hal KO Hh HK E.
  destruct (reached sz al Hsz Hal chk true cmp eqb KO h Hh cs l s HK E)
    as (d & e & m & S & (xs & R) & F & (d' & PD & D) & L).
  pose proof (calls_conserve sz al Hsz Hal chk true cmp eqb KO cs (new_map h) (SMap [] 0) [] l d e m HK
    (new_map_rep sz al Hsz Hal cmp h Hh) S) as HC.
  destruct R as (RV & SO & P). exists xs. split; [by eapply as_slice_ok|].
  cbn in D, L. rewrite D, L. cbn [entries] in HC. change (parts []) with (@nil (K + V)) in HC. rewrite app_nil_r in HC.
  rewrite HC, (parts_Permutation _ _ P). unfold ran, lone. rewrite (parts_Permutation _ _ PD). solve_Permutation.
Qed.

Lemma L_C78_map_memory :
forall (K V : Type) (sz al : Z) (chk nd : bool) (cmp eqb : K -> K -> bool) (h : heap (K * V)) (cs : list (mcall K V)) l s,
  (0 < sz)%Z -> (0 < al)%Z -> KeyOrder cmp eqb -> heap_wf h ->
  chk = true \/ forallb (m_modest sz) cs = true ->
  m_run (DefaultAllocator (K * V)) sz al chk nd cmp eqb cs (new_map h) = Some (l, s) ->
  (forall b bk, h_blk h !! b = Some bk -> h_blk (st_h (ms_v s)) !! b = Some bk) /\
  exists s', m_step (DefaultAllocator (K * V)) sz al chk nd cmp eqb MClear s = Some (MUnit, s') /\
    h_blk (st_h (ms_v s')) = h_blk h.
Proof.
  intros K V sz al chk nd cmp eqb h cs l s Hsz Hal KO Hh HK E.
  destruct (reached sz al Hsz Hal chk nd cmp eqb KO h Hh cs l s HK E)
    as (d & e & m & S & (xs & R) & F & _).
  change (frame _ sz al (DefaultSpec sz al Hsz Hal) (ms_v (new_map h))) with (h_blk h) in F. split.
  - intros b bk Hb. rewrite <- F in Hb.
    rewrite (frame_lookup (DefaultAllocator (K * V)) sz al (DefaultSpec sz al Hsz Hal)) in Hb by done.
    by destruct (decide _).
  - destruct (step_spec sz al Hsz Hal chk nd cmp eqb KO s m xs MClear _ _ _ _ (or_intror eq_refl) R eq_refl)
      as (s1 & E1 & (xs1 & R1) & F1 & _).
    exists s1. split; [done|]. apply (empty_heap sz al Hsz Hal cmp h s1 _ xs1 R1 eq_refl). by rewrite F1.
Qed.
