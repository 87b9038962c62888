(** Proofs of the properties stated in TraitsProps.v. *)
From Verif Require Import Base Heap Alloc AddrMem FixedPool FixedPoolSpec LinkedList LinkedListSpec RBTree RBTreeSpec Compare CompareSpec.
Local Open Scope Z_scope.

From Verif Require Import FixedPoolProofs RBTreeDerived.
Section orders.
Context {T : Type} (cmp : T -> T -> option comparison).
Hypothesis TO : total_order cmp.
Lemma cmp_gt a b : cmp a b = Some Gt <-> cmp b a = Some Lt.
Proof using TO. pose proof (po_dual _ (to_partial _ TO) a b) as D. rewrite D. destruct (cmp a b) as [[]|]; cbn; split; congruence. Qed.
Lemma cmp_eq a b : lt_op cmp a b = false -> lt_op cmp b a = false -> cmp a b = Some Eq.
Proof using TO.
  unfold lt_op. pose proof (po_dual _ (to_partial _ TO) a b) as D. rewrite D. pose proof (to_total _ TO a b). by destruct (cmp a b) as [[]|].
Qed.
Lemma less_order : strict_weak_order (less_compare cmp).
Proof using TO.
  unfold less_compare. split.
  - intros a. unfold lt_op. by rewrite (to_refl _ TO).
  - intros a b c. unfold lt_op. pose proof (po_trans _ (to_partial _ TO) a b c) as H.
    destruct (cmp a b) as [[]|]; try done. destruct (cmp b c) as [[]|]; try done. intros _ _. by rewrite H.
  - intros a b c H1 H2 H3 H4. pose proof (cmp_eq _ _ H1 H2) as E1. pose proof (cmp_eq _ _ H3 H4) as E2.
    pose proof (po_eq _ (to_partial _ TO) _ _ _ _ E1 E2) as E3. unfold lt_op. rewrite E3. rewrite (po_dual _ (to_partial _ TO) a c), E3. done.
Qed.
Lemma greater_mirror a b : greater_compare cmp a b = less_compare cmp b a.
Proof using TO.
  unfold greater_compare, less_compare, gt_op, lt_op. rewrite (po_dual _ (to_partial _ TO) a b). by destruct (cmp a b) as [[]|].
Qed.
Lemma greater_order : strict_weak_order (greater_compare cmp).
Proof using TO.
  destruct less_order as [H1 H2 H3]. split; intros *; rewrite !greater_mirror; [apply H1|intros A B; by apply (H2 _ b)|intros A B C D; by apply and_comm, (H3 _ b)].
Qed.
End orders.
Lemma z_total : total_order (fun a b : Z => Some (Z.compare a b)).
Proof.
  split; [split|done|].
  - intros a b. cbn. by rewrite Z.compare_antisym.
  - intros a b c [= H1] [= H2]. f_equal. rewrite Z.compare_lt_iff in *. lia.
  - intros a b c o [= H1] [= <-]. f_equal. apply Z.compare_eq in H1. by subst.
  - intros a. by rewrite Z.compare_refl.
Qed.
Lemma float_partial : partial_order float_like.
Proof.
  split.
  - intros [a|] [b|]; cbn; try done. by rewrite Z.compare_antisym.
  - intros [a|] [b|] [c|]; cbn; try done. intros [= H1] [= H2]. f_equal. rewrite Z.compare_lt_iff in *. lia.
  - intros [a|] [b|] [c|] o; cbn; try done. intros [= H1] [= <-]. f_equal. apply Z.compare_eq in H1. by subst.
Qed.

Lemma L_C73_allocate_then_free :
forall (T : Type) (pick : mem T -> Z -> Z -> Z) (strict chk : bool) (sz al n : Z) (m : mem T),
  honest pick -> 0 < sz -> 0 < n -> n * sz < usize_lim -> layout_ok (n * sz) al = true -> 0 < al ->
  exists p m1, allocate (DefaultAddrAlloc pick strict) chk sz al n (tt, m) = Ok p (tt, m1) /\
    (p = 0 /\ m_live m1 = m_live m \/
     p <> 0 /\ m_live m1 = Region p (n * sz) al true :: m_live m /\ accessible m1 p (n * sz) = true /\ (al | p) /\
     (exists m2, deallocate (DefaultAddrAlloc pick strict) chk sz al p n (tt, m1) = Ok tt (tt, m2) /\ m_live m2 = m_live m) /\
     (forall k, strict = true -> 0 <= k < n -> deallocate (DefaultAddrAlloc pick strict) chk sz al p k (tt, m1) = UB)).
Proof.
  intros T pick strict chk sz al n m HP Hs Hn HU HL Ha. assert (0 < n * sz) by nia.
  unfold allocate, bind. rewrite usizeZ_ok by lia. cbn [aa_alloc DefaultAddrAlloc]. unfold default_alloc_raw. rewrite (proj2 (Z.eqb_neq (n * sz) 0)) by lia. rewrite HL. cbn [snd fst].
  destruct (HP m (n * sz) al) as [E|(P1 & P2 & P3 & P4)]; [lia| |].
  - rewrite E. cbn. eexists _, _. split; [done|]. by left.
  - rewrite (proj2 (Z.eqb_neq _ 0)) by lia. eexists _, _. split; [done|]. right. split; [lia|]. split; [done|]. split.
    { unfold accessible. cbn. unfold AddrMem.inside at 1. cbn. rewrite !(proj2 (Z.leb_le _ _)) by lia. done. }
    split; [done|]. unfold deallocate, bind. split.
    + rewrite usizeZ_ok by lia. cbn [aa_free DefaultAddrAlloc]. unfold default_free_raw. rewrite HL. unfold mem_free. cbn [fst snd m_live m_word m_val m_time mem_alloc remove_block r_base r_heap r_bytes r_align andb]. rewrite !Z.eqb_refl. cbn [fst snd m_live m_word m_val m_time mem_alloc remove_block r_base r_heap r_bytes r_align andb]. rewrite !Z.eqb_refl. destruct strict; eexists; done.
    + intros k -> Hk. rewrite usizeZ_ok by nia. cbn [aa_free DefaultAddrAlloc]. unfold default_free_raw.
      assert (layout_ok (k * sz) al = true) as -> by (unfold layout_ok in *; nia). unfold mem_free. cbn [fst snd m_live m_word m_val m_time mem_alloc remove_block r_base r_heap r_bytes r_align andb]. rewrite !Z.eqb_refl. cbn [fst snd m_live m_word m_val m_time mem_alloc remove_block r_base r_heap r_bytes r_align andb].
      rewrite (proj2 (Z.eqb_neq (n * sz) (k * sz))) by nia. done.
Qed.

Lemma L_C73_blocks_allocate_then_free :
forall (C : Type) (sz bytes al : Z) (h : heap C),
  0 < bytes -> layout_ok bytes al = true -> h_blk h !! h_next h = None ->
  exists b h1 bk h2, ai_alloc (DefaultAllocator C) sz bytes al (tt, h) = Ok (Ptr b 0) (tt, h1) /\
    h_blk h1 !! b = Some bk /\ bk_bytes bk = bytes /\ bk_align bk = al /\ length (bk_cells bk) = Z.to_nat (bytes / sz) /\
    ai_free (DefaultAllocator C) (Ptr b 0) bytes al (tt, h1) = Ok tt (tt, h2) /\ h_blk h2 = h_blk h /\
    (forall n, n <> bytes -> layout_ok n al = true -> ai_free (DefaultAllocator C) (Ptr b 0) n al (tt, h1) = UB).
Proof.
  intros C sz bytes al h HB HL HN. cbn [ai_alloc ai_free DefaultAllocator]. unfold default_alloc, default_free. rewrite HL. rewrite (proj2 (Z.eqb_neq bytes 0)) by lia.
  eexists _, _, _, _. split; [done|]. cbn. rewrite lookup_insert. split; [done|]. cbn. split; [done|]. split; [done|]. split; [by rewrite replicate_length|].
  rewrite !Z.eqb_refl. cbn. split; [done|]. cbn. split; [by apply delete_insert|].
  intros n NE HL'. rewrite HL'. by rewrite (proj2 (Z.eqb_neq bytes n)) by done.
Qed.

Lemma L_C73_zero_request_refused :
forall (T C : Type) (pick : mem T -> Z -> Z -> Z) (strict chk : bool) (sz al n : Z) (m : mem T) (h : heap C) (s : Z),
  n * sz = 0 ->
  allocate (DefaultAddrAlloc pick strict) chk sz al n (tt, m) = Panic (tt, m) /\
  ai_alloc (DefaultAllocator C) s (n * sz) al (tt, h) = Panic (tt, h).
Proof.
  intros T C pick strict chk sz al n m h s E. unfold allocate, bind. rewrite E. rewrite usizeZ_ok by (unfold usize_lim; lia). done.
Qed.

Lemma L_C73_overflowing_request_panics :
forall (A T : Type) (aa : AddrAlloc A T) (sz al n : Z) (s : A * mem T),
  usize_lim <= n * sz -> allocate aa true sz al n s = Panic s.
Proof.
  intros A T aa sz al n s H. unfold allocate, bind, usizeZ. rewrite (proj2 (Z.ltb_ge _ _)) by lia. by rewrite andb_false_r.
Qed.

Lemma L_C73_release_request_wraps_refuted :
forall (T : Type) (pick : mem T -> Z -> Z -> Z) (strict : bool) (sz al n : Z) (m : mem T),
  usize_lim <= n * sz -> 0 < (n * sz) mod usize_lim -> layout_ok ((n * sz) mod usize_lim) al = true -> pick m ((n * sz) mod usize_lim) al <> 0 ->
  exists p m1, allocate (DefaultAddrAlloc pick strict) false sz al n (tt, m) = Ok p (tt, m1) /\ p <> 0 /\
    exists b, m_live m1 = Region p b al true :: m_live m /\ b < n * sz.
Proof.
  intros T pick strict sz al n m H H0 HL HP. unfold allocate, bind, usizeZ. rewrite (proj2 (Z.ltb_ge _ _)) by lia. rewrite andb_false_r. unfold ret.
  cbn [aa_alloc DefaultAddrAlloc]. unfold default_alloc_raw. rewrite (proj2 (Z.eqb_neq ((n * sz) mod usize_lim) 0)) by lia. rewrite HL. cbn [fst snd].
  rewrite (proj2 (Z.eqb_neq _ 0) HP). eexists _, _. split; [done|]. split; [done|]. eexists. split; [done|].
  pose proof (Z.mod_pos_bound (n * sz) usize_lim). unfold usize_lim in *. lia.
Qed.

Lemma L_C74_less_and_greater_are_orders :
forall (T : Type) (cmp : T -> T -> option comparison), total_order cmp ->
  strict_weak_order (less_compare cmp) /\ strict_weak_order (greater_compare cmp) /\
  (forall a b, greater_compare cmp a b = less_compare cmp b a) /\
  (forall a b, less_compare cmp a b = true <-> cmp a b = Some Lt) /\
  (forall a b, equivalent (less_compare cmp) a b = true <-> cmp a b = Some Eq).
Proof.
  intros T cmp TO. split; [by apply less_order|]. split; [by apply greater_order|]. split; [by apply greater_mirror|].
  split; intros a b.
  - unfold less_compare, lt_op. by destruct (cmp a b) as [[]|].
  - unfold equivalent, less_compare. split.
    + intros E. apply cmp_eq; [done|destruct (lt_op cmp a b), (lt_op cmp b a); done..].
    + intros E. unfold lt_op. rewrite (po_dual _ (to_partial _ TO) a b), E. done.
Qed.

Lemma L_C74_maps_over_total_orders :
forall (A K V : Type) (cmp : K -> K -> option comparison) (greater : bool) (nsz : Z) (s : tstate A K V) (t : tree K V) (k : K),
  total_order cmp -> 24 <= nsz -> holds nsz s t -> sorted (if greater then greater_compare cmp else less_compare cmp) t ->
  exists o, t_get nsz (if greater then greater_compare cmp else less_compare cmp) k s = Ok o s /\
    (forall v, o = Some v <-> exists k', (k', v) ∈ entries t /\ cmp k k' = Some Eq).
Proof.
  intros A K V cmp greater nsz s t k TO H24 H HS.
  set (lt := if greater then greater_compare cmp else less_compare cmp) in *.
  assert (SW : strict_weak_order lt) by (destruct greater; [by apply greater_order|by apply less_order]).
  destruct (RBTreeDerived.L_C66_lookup_finds_exactly_the_keys A K V lt nsz s t k SW H24 H HS) as (o & b & E & _ & G & _).
  exists o. split; [done|]. intros v. rewrite G.
  assert (EQ : forall k', equivalent lt k k' = true <-> cmp k k' = Some Eq); [|split; intros (k' & H1 & H2); exists k'; split; [done|by apply EQ|done|by apply EQ]].
  intros k'. assert (equivalent lt k k' = equivalent (less_compare cmp) k k') as ->.
  { subst lt. destruct greater; [|done]. unfold equivalent. rewrite !(greater_mirror cmp TO). apply andb_comm. }
  unfold equivalent, less_compare. split.
  - intros E'. apply cmp_eq; [done|destruct (lt_op cmp k k'), (lt_op cmp k' k); done..].
  - intros E'. unfold lt_op. rewrite (po_dual _ (to_partial _ TO) k k'), E'. done.
Qed.

Lemma L_C74_partially_ordered_keys_refuted :
exists (T : Type) (cmp : T -> T -> option comparison),
  partial_order cmp /\ ~ strict_weak_order (less_compare cmp).
Proof.
  exists (option Z), float_like. split; [apply float_partial|]. intros [_ _ H]. destruct (H (Some 1) None (Some 2)) as [H1 _]; done.
Qed.
