(** Proofs of the properties stated in LayoutProps.v. *)
From Verif Require Import Base Alloc AddrMem FixedPool FixedPoolSpec LinkedList LinkedListSpec RBTree RBTreeSpec Layout LayoutSpec.
Local Open Scope Z_scope.

Lemma up_least off al : 0 < al -> least_multiple al off (align_up off al).
Proof.
  intros H. unfold align_up, least_multiple. split; [apply Z.divide_factor_r|].
  pose proof (Z.div_mod (off + al - 1) al). pose proof (Z.mod_pos_bound (off + al - 1) al). lia.
Qed.
Lemma least_unique a x y y' : least_multiple a x y -> least_multiple a x y' -> y = y'.
Proof. intros [[u ->] B] [[u' ->] B']. assert (u = u') by nia. by subst. Qed.
Lemma least_up al off y : 0 < al -> least_multiple al off y -> align_up off al = y.
Proof. intros H L. by apply (least_unique al off); [apply up_least|]. Qed.
Lemma up_fix off al : 0 < al -> (al | off) -> align_up off al = off.
Proof. intros H D. apply least_up; [done|]. split; [done|lia]. Qed.
Lemma up_ge off al : 0 < al -> off <= align_up off al.
Proof. intros H. pose proof (up_least off al H) as [_ ?]. lia. Qed.
Lemma up_div off al : 0 < al -> (al | align_up off al).
Proof. intros H. by apply up_least. Qed.
Lemma up_up off a b : 0 < a -> 0 < b -> (a | b) -> align_up (align_up off a) b = align_up off b.
Proof.
  intros Ha Hb D. apply least_up; [done|]. pose proof (up_least off a Ha) as [D1 B1]. pose proof (up_least off b Hb) as [D2 B2].
  split; [done|]. split; [|lia].
  destruct (Z_le_gt_dec (align_up off a) (align_up off b)) as [L|G]; [done|].
  assert (D3 : (a | align_up off b)) by (by apply (Z.divide_trans _ b)). destruct D1 as [u E1], D3 as [u' E3].
  clear D2 D. assert (u' < u) by nia. assert ((u' + 1) * a <= u * a) by (apply Z.mul_le_mono_nonneg_r; lia). lia.
Qed.
Lemma valid_pos l : valid l -> 0 < ly_align l.
Proof. intros ((k & Hk & ->) & _). apply Z.pow_pos_nonneg; lia. Qed.

Lemma pow_div j k : 0 <= j <= k -> (2 ^ j | 2 ^ k).
Proof. intros H. exists (2 ^ (k - j)). rewrite <- Z.pow_add_r by lia. f_equal. lia. Qed.
Lemma max_pow a b : (exists k, 0 <= k < 62 /\ a = 2 ^ k) -> (exists k, 0 <= k < 62 /\ b = 2 ^ k) ->
  (exists k, 0 <= k < 62 /\ Z.max a b = 2 ^ k) /\ (a | Z.max a b) /\ (b | Z.max a b).
Proof.
  intros (j & Hj & ->) (k & Hk & ->). destruct (Z_le_gt_dec j k) as [L|G].
  - rewrite Z.max_r by (apply Z.pow_le_mono_r; lia). split; [eauto|]. split; [apply pow_div; lia|done].
  - rewrite Z.max_l by (apply Z.pow_le_mono_r; lia). split; [eauto|]. split; [done|apply pow_div; lia].
Qed.
Lemma max_align_ok fs : Forall valid fs -> (exists k, 0 <= k < 62 /\ max_align fs = 2 ^ k) /\ Forall (fun f => (ly_align f | max_align fs)) fs.
Proof.
  induction 1 as [|f fs Hf F [IH1 IH2]]; cbn [max_align]; [split; [by exists 0|constructor]|].
  destruct (max_pow _ _ (proj1 Hf) IH1) as (P & D1 & D2). split; [done|]. constructor; [done|].
  eapply Forall_impl; [exact IH2|]. intros g D. exact (Z.divide_trans _ _ _ D D2).
Qed.

Lemma place_ok fs : Forall valid fs -> forall off os e, place off fs = (os, e) ->
  length os = length fs /\ match os, fs with o :: _, f :: _ => o = align_up off (ly_align f) | _, _ => True end /\
  (forall i f f' o o', fs !! i = Some f -> fs !! S i = Some f' -> os !! i = Some o -> os !! S i = Some o' ->
    least_multiple (ly_align f') (o + ly_size f) o') /\
  (forall i f o, fs !! i = Some f -> os !! i = Some o -> (ly_align f | o)) /\
  match last fs, last os with Some f, Some o => o + ly_size f = e | _, _ => fs = [] /\ off = e end /\ off <= e.
Proof.
  induction 1 as [|f fs Hf F IH]; intros off os e; cbn [place].
  - intros [= <- <-]. repeat split; try done; lia.
  - destruct (place _ fs) as [os' e'] eqn:E. intros [= <- <-]. specialize (IH _ _ _ E) as (L & H1 & H2 & H3 & H4 & H5).
    pose proof (valid_pos _ Hf) as P. pose proof (up_ge off _ P). pose proof (proj1 (proj2 Hf)).
    split; [cbn; lia|]. split; [done|]. split; [|split; [|split; [|lia]]].
    + intros [|i] g g' o o' G1 G2 O1 O2; [|by eapply H2]. cbn in G1, O1. injection G1 as <-. injection O1 as <-.
      destruct fs as [|g fs]; [done|]. destruct os' as [|p os']; [done|]. cbn in G2, O2, H1. injection G2 as <-. injection O2 as <-. subst p.
      apply up_least, valid_pos. by apply Forall_inv in F.
    + intros [|i] g o G O; cbn in *; [simplify_eq; by apply up_div|by eapply H3].
    + destruct fs as [|g fs]; [cbn in E; simplify_eq; done|]. destruct os' as [|p os']; [done|]. rewrite !last_cons_cons.
      destruct (last (g :: fs)) eqn:EL; [|by apply last_None in EL]. destruct (last (p :: os')) eqn:EO; [done|by apply last_None in EO].
Qed.

Lemma repr_ok fs : Forall valid fs -> laid_out fs (offsets fs) (struct fs) /\ valid (struct fs).
Proof.
  intros F. unfold offsets, struct, repr_c. destruct (place 0 fs) as [os e] eqn:E. cbn [fst snd].
  destruct (place_ok fs F _ _ _ E) as (L & H1 & H2 & H3 & H4 & H5). destruct (max_align_ok fs F) as [(k & Hk & P) D].
  assert (P0 : 0 < max_align fs) by (rewrite P; apply Z.pow_pos_nonneg; lia).
  split; [split|].
  - done.
  - destruct os as [|o os], fs as [|f fs]; try done. subst o. apply up_fix; [apply valid_pos; by apply Forall_inv in F|apply Z.divide_0_r].
  - done.
  - intros i f o G O. cbn [ly_align]. split; [by eapply H3|]. rewrite Forall_lookup in D. by eapply D.
  - cbn [ly_align ly_size]. destruct (last fs), (last os); [subst e; by apply up_least|..]; destruct H4 as [-> <-]; done.
  - split; [by exists k|]. cbn [ly_align ly_size]. split; [pose proof (up_ge e _ P0); lia|by apply up_div].
Qed.

Lemma valid_ptr T : valid (pointer T). Proof. split; [by exists 3|]. cbn. split; [lia|by exists 1]. Qed.
Lemma valid_4 : valid word4. Proof. split; [by exists 2|]. cbn. split; [lia|by exists 1]. Qed.
Lemma valid_1 : valid byte1. Proof. split; [by exists 0|]. cbn. split; [lia|by exists 1]. Qed.
Lemma valid_ph : valid phantom. Proof. split; [by exists 0|]. cbn. split; [lia|by exists 0]. Qed.

Lemma place_at off f fs o : 0 < ly_align f -> least_multiple (ly_align f) off o ->
  place off (f :: fs) = (o :: fst (place (o + ly_size f) fs), snd (place (o + ly_size f) fs)).
Proof. intros P L. cbn [place]. rewrite (least_up _ _ _ P L). by destruct (place _ fs). Qed.
Lemma offsets_place fs : offsets fs = fst (place 0 fs).
Proof. unfold offsets, repr_c. by destruct (place 0 fs). Qed.
Lemma place_end fs : forall off, snd (place off fs) = fold_left (fun o f => align_up o (ly_align f) + ly_size f) fs off.
Proof. induction fs as [|f fs IH]; intros off; [done|]. cbn [place fold_left]. rewrite <- IH. by destruct (place _ fs). Qed.
Lemma struct_place fs : struct fs = Lay (align_up (snd (place 0 fs)) (max_align fs)) (max_align fs).
Proof. unfold struct, repr_c. by destruct (place 0 fs). Qed.

Ltac lm := split; [first [by exists 0|by exists 1|by exists 2|by exists 3|by exists 4|by exists 5|by exists 6|by exists 7|by exists 8|by exists 9|by exists 10]|cbn; lia].
Ltac step o := rewrite (place_at _ _ _ o); [|by cbn|by lm]; cbn [fst snd ly_size pointer word4 byte1 phantom Z.add Pos.add].
Lemma iter_struct T : struct (deque_iter_fields T) = Lay 32 8. Proof. done. Qed.
Lemma base_struct : struct list_base_fields = Lay 16 8. Proof. done. Qed.
Lemma policy_struct : struct policy_fields = Lay 12 4. Proof. done. Qed.
Lemma pool_struct : struct pool_fields = Lay 24 8. Proof. done. Qed.

Lemma L_C72_repr_c_layout :
forall (fs : list lay), Forall valid fs -> laid_out fs (offsets fs) (struct fs) /\ valid (struct fs).
Proof.
  exact repr_ok.
Qed.

Lemma L_C72_container_offsets :
forall (T A : lay), valid A ->
  exists v d l h,
    least_multiple (ly_align A) 24 v /\ take 4 (offsets (vector_fields T A)) = [0; 8; 16; v] /\
    least_multiple (ly_align A) 80 d /\ offsets (deque_fields T A) = [0; 8; 16; 48; d] /\
    least_multiple (ly_align A) 20 l /\ take 3 (offsets (list_fields A)) = [0; 16; l] /\
    least_multiple (ly_align A) 36 h /\ take 6 (offsets (hash_table_fields T A)) = [0; 8; 16; 20; 24; h] /\
    offsets (rb_tree_fields T A comparator) = [0; 8; 16; 24; 32; h].
Proof.
  intros T A VA. pose proof (valid_pos _ VA) as P.
  exists (align_up 24 (ly_align A)), (align_up 80 (ly_align A)), (align_up 20 (ly_align A)), (align_up 36 (ly_align A)).
  rewrite !offsets_place. unfold vector_fields, deque_fields, list_fields, hash_table_fields, rb_tree_fields.
  rewrite iter_struct, base_struct, policy_struct.
  split; [by apply up_least|]. split.
  { step 0. step 8. step 16. cbn [place]. done. }
  split; [by apply up_least|]. split.
  { step 0. step 8. step 16. step 48. cbn [place]. done. }
  split; [by apply up_least|]. split.
  { step 0. step 16. cbn [place]. done. }
  split; [by apply up_least|]. split.
  { step 0. step 8. step 16. step 20. step 24. cbn [place]. done. }
  step 0. step 8. step 16. step 24. step 32. cbn [place]. done.
Qed.

Lemma L_C72_wrapper_offsets :
forall (T A C : lay) (n : Z), valid T -> valid A -> valid C -> 0 <= n ->
  exists c p q b,
    least_multiple (ly_align C) (ly_size (struct (vector_fields T A))) c /\ offsets (vector_map_fields T A C) = [0; c] /\
    least_multiple 8 (ly_size A) p /\ offsets (fixed_vector_allocator_fields A) = [0; p] /\
    least_multiple (ly_align A) 24 q /\ take 2 (offsets (overflow_pool_fields A)) = [0; q] /\
    least_multiple (ly_align T) (ly_size (struct (vector_fields T (struct (fixed_vector_allocator_fields A))))) b /\
    offsets (fixed_vector_fields T A n) = [0; b].
Proof.
  intros T A C n VT VA VC Hn. pose proof (valid_pos _ VA) as PA. pose proof (valid_pos _ VT) as PT. pose proof (valid_pos _ VC) as PC.
  assert (VV : forall B, valid B -> valid (struct (vector_fields T B))).
  { intros B VB. apply repr_ok. unfold vector_fields. do 3 (constructor; [apply valid_ptr|]). constructor; [done|]. constructor; [apply valid_ph|constructor]. }
  assert (VF : valid (struct (fixed_vector_allocator_fields A))).
  { apply repr_ok. constructor; [done|]. constructor; [apply valid_ptr|constructor]. }
  assert (Z0 : forall l, valid l -> align_up 0 (ly_align l) = 0).
  { intros l VL. apply up_fix; [by apply valid_pos|apply Z.divide_0_r]. }
  exists (align_up (ly_size (struct (vector_fields T A))) (ly_align C)), (align_up (ly_size A) 8), (align_up 24 (ly_align A)),
    (align_up (ly_size (struct (vector_fields T (struct (fixed_vector_allocator_fields A))))) (ly_align T)).
  rewrite !offsets_place. split; [by apply up_least|]. split.
  { unfold vector_map_fields. cbn [place fst]. rewrite (Z0 _ (VV A VA)). done. }
  split; [by apply up_least|]. split.
  { unfold fixed_vector_allocator_fields. cbn [place fst pointer ly_align]. rewrite (Z0 _ VA). done. }
  split; [by apply up_least|]. split.
  { unfold overflow_pool_fields. rewrite pool_struct. step 0. cbn [place]. done. }
  split; [by apply up_least|].
  unfold fixed_vector_fields. cbn [place fst array ly_align]. rewrite (Z0 _ (VV _ VF)). done.
Qed.

Lemma L_C72_fixed_list_objects :
forall (nsz nal n : Z), node_layout nsz nal -> 0 <= n ->
  ly_size (struct (list_fields (struct (overflow_pool_fields default_allocator)))) = base_list_size /\
  offsets (fixed_list_fields (Lay nsz nal) default_allocator n) = [0; fixed_buffer_off nal; fixed_buffer_off nal + n * nsz] /\
  ly_size (struct (fixed_list_fields (Lay nsz nal) default_allocator n)) = fixed_list_bytes nsz nal n /\
  offsets (conformant_fields (Lay nsz nal) default_allocator n) = [0; base_list_size] /\
  ly_size (struct (conformant_fields (Lay nsz nal) default_allocator n)) = conformant_bytes nsz n.
Proof.
  intros nsz nal n ((k & Hk & EA) & HS & HD & _) Hn.
  assert (P : 0 < nal) by (rewrite EA; apply Z.pow_pos_nonneg; lia).
  assert (D8 : (8 | nal)) by (rewrite EA; apply (pow_div 3); lia).
  assert (G8 : 8 <= nal) by (destruct D8 as [u ->]; lia).
  assert (ES : struct (list_fields (struct (overflow_pool_fields default_allocator))) = Lay 64 8) by done.
  assert (EU : forall x a, 0 < a -> pad_to a x = align_up x a).
  { done. }
  split; [done|]. rewrite !offsets_place, !struct_place. unfold fixed_list_fields, conformant_fields. rewrite ES.
  assert (B : fixed_buffer_off nal = align_up 64 nal) by (unfold fixed_buffer_off; by rewrite EU).
  pose proof (up_div 64 nal P) as DU. pose proof (up_ge 64 nal P) as GU.
  assert (EP : place 0 [Lay 64 8; array n (Lay nsz nal); Lay nsz nal] = ([0; align_up 64 nal; align_up 64 nal + n * nsz], align_up 64 nal + n * nsz + nsz)).
  { rewrite (place_at _ _ _ 0); [|done|by lm]. cbn [place array ly_size ly_align Z.add fst snd].
    try rewrite Z.add_0_l. rewrite (up_fix (align_up 64 nal + n * nsz) nal); [done|done|]. apply Z.divide_add_r; [done|by apply Z.divide_mul_r]. }
  rewrite EP. cbn [fst snd]. rewrite B. split; [done|]. split.
  { cbn [max_align array ly_align ly_size]. rewrite !(Z.max_l nal) by lia. rewrite Z.max_r by lia.
    unfold fixed_list_bytes. rewrite B, up_fix; [lia|done|]. apply Z.divide_add_r; [apply Z.divide_add_r; [done|by apply Z.divide_mul_r]|done]. }
  assert (EC : place 0 [Lay 64 8; array ((n + 1) * nsz - 1) byte1] = ([0; 64], 64 + ((n + 1) * nsz - 1))).
  { rewrite (place_at _ _ _ 0); [|done|by lm]. cbn [place array ly_size ly_align byte1 Z.add fst snd]. rewrite (up_fix (64)); [|lia|by exists 64]. cbn. by rewrite Z.mul_1_r. }
  cbn [ly_size]. rewrite EC. cbn [fst snd]. split; [done|]. cbn [max_align array ly_align byte1]. unfold conformant_bytes. rewrite EU by lia. done.
Qed.

Lemma L_C72_node_layouts :
forall (T K V : lay) (swap : bool), valid T -> valid K -> valid V ->
  ly_size (struct (list_node_fields T)) * 16 <= isize_max - 2 ^ 62 ->
  ly_size (struct (rb_node_fields swap K V)) * 16 <= isize_max - 2 ^ 62 ->
  list_layout (ly_size (struct (list_node_fields T))) (ly_align (struct (list_node_fields T))) /\
  tree_layout (ly_size (struct (rb_node_fields swap K V))) (ly_align (struct (rb_node_fields swap K V))) /\
  (exists o, offsets (list_node_fields T) = [0; o] /\ least_multiple (ly_align T) 16 o) /\
  (exists o, offsets (rb_node_fields swap K V) = [0; 8; 16; o] /\ least_multiple (ly_align (tuple swap K V)) 24 o).
Proof.
  intros T K V swap VT VK VV HL HT.
  assert (VP : valid (tuple swap K V)).
  { unfold tuple. apply repr_ok. destruct swap; by repeat constructor; try apply VK; try apply VV. }
  assert (V1 : Forall valid (list_node_fields T)).
  { unfold list_node_fields. rewrite base_struct. constructor; [|by constructor]. split; [by exists 3|]. split; [done|by exists 2]. }
  assert (V2 : Forall valid (rb_node_fields swap K V)).
  { unfold rb_node_fields. constructor; [apply valid_ptr|]. constructor; [apply valid_ptr|]. constructor; [|by constructor].
    split; [by exists 3|]. split; [done|by exists 1]. }
  destruct (repr_ok _ V1) as [_ ((k1 & K1 & E1) & S1 & D1)]. destruct (repr_ok _ V2) as [_ ((k2 & K2 & E2) & S2 & D2)].
  assert (A1 : 8 <= ly_align (struct (list_node_fields T))).
  { rewrite struct_place. cbn [ly_align]. unfold list_node_fields. rewrite base_struct. cbn [max_align ly_align]. lia. }
  assert (A2 : 8 <= ly_align (struct (rb_node_fields swap K V))).
  { rewrite struct_place. cbn [ly_align]. unfold rb_node_fields. cbn [max_align ly_align pointer]. lia. }
  assert (K1' : 3 <= k1). { destruct (Z_lt_le_dec k1 3) as [L|L]; [|done]. assert (2 ^ k1 < 2 ^ 3) by (apply Z.pow_lt_mono_r; lia). lia. }
  assert (K2' : 3 <= k2). { destruct (Z_lt_le_dec k2 3) as [L|L]; [|done]. assert (2 ^ k2 < 2 ^ 3) by (apply Z.pow_lt_mono_r; lia). lia. }
  assert (O1 : place 0 (list_node_fields T) = ([0; align_up 16 (ly_align T)], align_up 16 (ly_align T) + ly_size T)).
  { unfold list_node_fields. rewrite base_struct. step 0. done. }
  assert (O2 : place 0 (rb_node_fields swap K V) = ([0; 8; 16; align_up 24 (ly_align (tuple swap K V))], align_up 24 (ly_align (tuple swap K V)) + ly_size (tuple swap K V))).
  { unfold rb_node_fields. change (struct [Lay 8 8; phantom; phantom]) with (Lay 8 8). step 0. step 8. step 16. done. }
  assert (G1 : 16 <= ly_size (struct (list_node_fields T))).
  { rewrite struct_place, O1. cbn [snd ly_size]. pose proof (up_ge 16 _ (valid_pos _ VT)). pose proof (proj1 (proj2 VT)).
    pose proof (up_ge (align_up 16 (ly_align T) + ly_size T) (max_align (list_node_fields T))) as U.
    assert (0 < max_align (list_node_fields T)) by (rewrite struct_place in A1; cbn [ly_align] in A1; lia). lia. }
  assert (G2 : 24 <= ly_size (struct (rb_node_fields swap K V))).
  { rewrite struct_place, O2. cbn [snd ly_size]. pose proof (up_ge 24 _ (valid_pos _ VP)). pose proof (proj1 (proj2 VP)).
    pose proof (up_ge (align_up 24 (ly_align (tuple swap K V)) + ly_size (tuple swap K V)) (max_align (rb_node_fields swap K V))) as U.
    assert (0 < max_align (rb_node_fields swap K V)) by (rewrite struct_place in A2; cbn [ly_align] in A2; lia). lia. }
  assert (P1 : 2 ^ k1 <= 2 ^ 61) by (apply Z.pow_le_mono_r; lia). assert (P2 : 2 ^ k2 <= 2 ^ 61) by (apply Z.pow_le_mono_r; lia).
  split; [|split; [|split]].
  - split; [|split; [done|unfold layout_ok, isize_max in *; lia]]. split; [exists k1; split; [lia|done]|]. split; [lia|]. split; [done|]. rewrite E1. unfold layout_ok, isize_max in *. lia.
  - split; [|done]. split; [exists k2; split; [lia|done]|]. split; [lia|]. split; [done|]. rewrite E2. unfold layout_ok, isize_max in *. lia.
  - exists (align_up 16 (ly_align T)). rewrite offsets_place, O1. split; [done|]. by apply up_least, valid_pos.
  - exists (align_up 24 (ly_align (tuple swap K V))). rewrite offsets_place, O2. split; [done|]. by apply up_least, valid_pos.
Qed.

Lemma L_C72_hash_nodes_match_pairs :
forall (K V : lay), valid K -> valid V ->
  (ly_align K <= 8 -> ly_align V <= 8 ->
    nth 1 (offsets (hash_node_fields K V)) 0 = nth 1 (offsets [K; V]) 0 /\
    nth 2 (offsets (hash_node_fields K V)) 0 = nth 1 (offsets [struct [K; V]; pointer byte1]) 0 /\
    struct (hash_node_fields K V) = struct [struct [K; V]; pointer byte1]) /\
  nth 2 (offsets (hash_node_fields K (Lay 0 1))) 0 = nth 1 (offsets [K; pointer byte1]) 0.
Proof.
  intros K V VK VV. pose proof (valid_pos _ VK) as PK. pose proof (valid_pos _ VV) as PV.
  assert (Z0 : forall a, 0 < a -> align_up 0 a = 0) by (intros a Ha; apply up_fix; [done|apply Z.divide_0_r]).
  split.
  - intros LK LV. destruct (max_pow _ _ (proj1 VK) (proj1 VV)) as ((k & Hk & EM) & DK & DV).
    assert (DM : (Z.max (ly_align K) (ly_align V) | 8)).
    { rewrite EM. change 8 with (2 ^ 3). apply pow_div. split; [lia|]. destruct (Z_le_gt_dec k 3); [done|].
      assert (2 ^ 4 <= 2 ^ k) by (apply Z.pow_le_mono_r; lia). lia. }
    assert (PM : 0 < Z.max (ly_align K) (ly_align V)) by lia.
    assert (E8 : Z.max (ly_align K) (Z.max (ly_align V) (Z.max 8 1)) = 8) by lia.
    assert (EP : struct [K; V] = Lay (align_up (align_up (ly_size K) (ly_align V) + ly_size V) (Z.max (ly_align K) (ly_align V))) (Z.max (ly_align K) (ly_align V))).
    { rewrite struct_place, place_end. cbn [fold_left max_align]. rewrite Z0 by done. rewrite Z.add_0_l.
      replace (Z.max (ly_align K) (Z.max (ly_align V) 1)) with (Z.max (ly_align K) (ly_align V)) by lia. done. }
    rewrite EP, !offsets_place, !struct_place, !place_end. unfold hash_node_fields. cbn [place fst nth fold_left ly_size ly_align pointer max_align].
    rewrite !Z0 by done. rewrite !Z.add_0_l. split; [done|]. rewrite up_up by done. split; [done|].
    rewrite E8. replace (Z.max (Z.max (ly_align K) (ly_align V)) (Z.max 8 1)) with 8 by lia. done.
  - rewrite !offsets_place. unfold hash_node_fields. cbn [place fst nth ly_size ly_align pointer]. rewrite !Z0 by done. rewrite !Z.add_0_l.
    rewrite (up_fix (ly_size K) 1) by (try lia; apply Z.divide_1_l). by rewrite Z.add_0_r.
Qed.

Lemma L_C72_overaligned_hash_nodes_refuted :
exists (K V : lay), valid K /\ valid V /\
  nth 2 (offsets (hash_node_fields K V)) 0 <> nth 1 (offsets [struct [K; V]; pointer byte1]) 0 /\
  ly_size (struct (hash_node_fields K V)) <> ly_size (struct [struct [K; V]; pointer byte1]).
Proof.
  exists (Lay 16 16), (Lay 1 1). split; [split; [by exists 4|split; [done|by exists 1]]|]. split; [split; [by exists 0|split; [done|by exists 1]]|]. by vm_compute.
Qed.

Lemma L_C72_tree_entry_order_refuted :
exists (K V : lay), valid K /\ valid V /\ exists swap,
  tuple_key_offset swap K V <> 0 /\ tuple swap K V = struct [K; V].
Proof.
  exists (Lay 4 4), (Lay 8 8). split; [split; [by exists 2|split; [done|by exists 1]]|]. split; [split; [by exists 3|split; [done|by exists 1]]|]. by exists true.
Qed.
