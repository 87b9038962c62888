(** Proofs of the properties stated in HashDepthProps.v. *)
From Verif Require Import Base Heap Alloc RehashPolicy HashTable HashTableSpec HashDepth.
Local Open Scope nat_scope.

From Verif Require Import HeapLemmas RehashPolicyProofs HashTableProofs HashTableMore HashTableDerived.

Definition forget {S A} (o : outcome S A) : outcome S unit :=
  match o with Ok _ s => Ok tt s | Panic s => Panic s | UB => UB end.
Lemma forget_bind {S A B C} (m : M S A) (f : A -> M S B) (g : C -> M S unit) (m' : M S C) s (h : A -> C) :
  m' s = match m s with Ok a s' => Ok (h a) s' | Panic s' => Panic s' | UB => UB end ->
  (forall a s', forget (f a s') = g (h a) s') -> forget (bind m f s) = bind m' g s.
Proof. intros E F. unfold bind. rewrite E. destruct (m s); cbn; [apply F|done|done]. Qed.
Lemma forget_same {S A B} (m : M S A) (f : A -> M S B) (g : A -> M S unit) s :
  (forall a s', forget (f a s') = g a s') -> forget (bind m f s) = bind m g s.
Proof. intros F. apply (forget_bind m f g m s (fun a => a)); [by destruct (m s)|exact F]. Qed.
Lemma forget_count {S A B} (m : M S A) (f : A -> M S B) (g : unit -> M S unit) (m' : M S unit) s :
  forget (m s) = m' s -> (forall a s', forget (f a s') = g tt s') -> forget (bind m f s) = bind m' g s.
Proof. intros E F. apply (forget_bind m f g m' s (fun _ => tt)); [by rewrite <- E; destruct (m s)|exact F]. Qed.

Lemma bind_ok {S A B} (m : M S A) (f : A -> M S B) a s s' : m s = Ok a s' -> bind m f s = f a s'.
Proof. intros E. unfold bind. by rewrite E. Qed.

Lemma free_bucket_forget {K V} nsz nal f : forall p (s : tstate K V),
  forget (free_bucket_depth nsz nal f p s) = free_bucket nsz nal f p s.
Proof.
  induction f as [|f IH]; intros p s; [done|]. cbn [free_bucket_depth free_bucket].
  apply forget_same. intros [[k v] nx] s1. apply forget_count.
  - by destruct (is_null nx); cbn [negb]; [|apply IH].
  - intros d s2. apply forget_same. intros [] s3. unfold bind, ret. by destruct (deallocate p nsz nal 1 s3) as [[]| |].
Qed.

Lemma deepest_forget {S A} (f : A -> M S nat) (g : A -> M S unit) l :
  (forall x s, forget (f x s) = g x s) -> forall s, forget (deepest l f s) = for_each l g s.
Proof.
  intros F. induction l as [|x l IH]; intros s; [done|]. cbn [deepest for_each]. apply forget_count; [apply F|].
  intros d s1. rewrite <- IH. unfold bind, ret. by destruct (deepest l f s1).
Qed.

Definition longest {A} (cs : list (list A)) : nat := foldr (fun c d => Nat.max (length c) d) 0 cs.
Lemma longest_max {A} (cs : list (list A)) : (forall i c, cs !! i = Some c -> length c <= longest cs) /\ (longest cs = 0 \/ exists i c, cs !! i = Some c /\ length c = longest cs).
Proof.
  induction cs as [|c cs [H1 H2]]; cbn [longest foldr]; [split; [done|by left]|]. fold (longest cs) in *. split.
  - intros [|i] c' E; cbn in E; [injection E as <-; lia|]. specialize (H1 i c' E). lia.
  - destruct (decide (longest cs <= length c)) as [L|L].
    + right. exists 0, c. split; [done|lia].
    + right. destruct H2 as [H2|(i & c' & E & H2)]; [lia|]. exists (S i), c'. split; [done|lia].
Qed.

Lemma bucket_depth {K V} nsz nal (c : list (nat * (K * V))) : forall f (s : tstate K V) p d s',
  chain nsz nal (t_h s) p c -> c <> [] -> free_bucket_depth nsz nal f p s = Ok d s' -> d = length c.
Proof.
  induction c as [|e c IH]; intros f s p d s' C N E; [done|]. destruct f as [|f]; [done|].
  destruct C as (nx & -> & L & C). cbn [free_bucket_depth] in E. unfold bind at 1 in E.
  rewrite (node_at_ok _ _ _ _ _ _ _ L) in E. destruct c as [|e' c].
  - cbn in C. subst nx. cbn [is_null] in E. unfold bind at 1, ret at 1 in E. unfold bind at 1, drop_all, modify in E. unfold bind in E.
    destruct (deallocate _ _ _ _ _); try done. cbn in E. by injection E as <- _.
  - assert (is_null nx = false) as X by (destruct C as (? & -> & _); done). rewrite X in E. unfold bind at 1 in E.
    destruct (free_bucket_depth nsz nal f nx s) as [d1 s1| |] eqn:E1; try done.
    apply IH in E1; [|done|done]. subst d1. unfold bind at 1, drop_all, modify in E. unfold bind in E.
    destruct (deallocate _ _ _ _ _); try done. cbn [ret] in E. by injection E as <- _.
Qed.

Lemma loop_depth {K V} nsz nal by_ (h0 : heap (tcell K V)) a : layout_ok nsz nal = true -> forall ps' cs' i ps (s : tstate K V),
  (forall j, j <= length ps -> hadd h0 (Ptr a 0) j = Some (Ptr a j)) ->
  heap_wf (t_h s) -> Slots by_ (t_h s) a ps -> drop i ps = ps' -> i <= length ps -> Forall2 (chain nsz nal (t_h s)) ps' cs' ->
  NoDup (map fst (concat cs')) -> a ∉ map fst (concat cs') ->
  exists s', deepest (seq i (length ps')) (fun i =>
      do slot <- or_ub (hadd h0 (Ptr a 0) i);
      do p <- read_slot slot;
      if is_null p then ret 0
      else do f <- gets fuel; free_bucket_depth nsz nal f p) s = Ok (longest cs') s'.
Proof.
  intros Hlay. induction ps' as [|p ps' IH]; intros cs' i ps s A W E D Li F ND Na.
  - apply Forall2_nil_inv_l in F as ->. by exists s.
  - apply Forall2_cons_inv_l in F as (c & cs & C & F & ->).
    cbn [concat] in *. rewrite map_app in *. apply NoDup_app in ND as (ND1 & ND12 & ND2).
    apply not_elem_of_app in Na as [Na1 Na2].
    assert (Hp : ps !! i = Some p).
    { rewrite <- (Nat.add_0_r i), <- lookup_drop, D. done. }
    assert (D' : drop (S i) ps = ps').
    { rewrite <- Nat.add_1_r, <- drop_drop, D. done. }
    assert (Li' : S i <= length ps) by (apply lookup_lt_Some in Hp; lia).
    cbn [length seq deepest]. unfold bind at 1 2. rewrite A by lia. cbn [or_ub]. unfold ret at 1.
    unfold bind at 1. rewrite (read_slot_ok _ _ _ _ _ _ E Hp).
    destruct c as [|e c].
    + cbn in C. subst p. cbn [is_null]. unfold ret at 1.
      destruct (IH cs (S i) ps s A W E D' Li' F ND2 Na2) as (s' & R).
      exists s'. by rewrite (bind_ok _ _ _ _ _ R).
    + assert (is_null p = false) as -> by (destruct C as (? & -> & _); done).
      unfold bind at 1, gets at 1.
      pose proof (chain_fuel _ _ Hlay _ _ _ W C ND1) as FU.
      assert (FB := free_bucket_ok nsz nal 0 Hlay (e :: c) (fuel s) s p C ltac:(done) ND1 ltac:(unfold fuel; lia)).
      rewrite <- free_bucket_forget in FB. destruct (free_bucket_depth nsz nal (fuel s) p s) as [d1 s1| |] eqn:E1; try done.
      apply (bucket_depth _ _ _ _ _ _ _ _ C ltac:(done)) in E1 as ->. 
      set (s1' := with_hd s (hdels (t_h s) (map fst (e :: c))) (t_drops s ++ parts (map snd (rev (e :: c))))) in FB.
      assert (s1 = s1') as -> by (unfold forget in FB; congruence). rename s1' into s1.
      assert (F1 : frame (map fst (e :: c) ++ map fst (concat cs)) (t_h s) (t_h s1)).
      { split; [apply hdels_next|]. intros b Hb. apply hdels_out. set_solver. }
      destruct (IH cs (S i) ps s1 A) as (s' & R).
      * eapply frame_wf; [exact W|exact F1|]. intros b [Hb|Hb]%elem_of_app.
        -- by eapply chain_live.
        -- by eapply chains_live.
      * unfold Slots. rewrite <- E. by apply hdels_out.
      * done.
      * done.
      * eapply chains_frame; [exact F|]. intros b Hb. apply hdels_out. intros Hb'. by apply (ND12 b).
      * done.
      * done.
      * exists s'. by rewrite (bind_ok _ _ _ _ _ R).
Qed.

Lemma L_C99_counting_is_faithful :
forall (K V : Type) nsz nal (eb : nat) (s : tstate K V),
  match free_buckets_depth nsz nal eb s with Ok _ s' => Ok tt s' | Panic s' => Panic s' | UB => UB end = ht_drop nsz nal eb s.
Proof.
  intros K V nsz nal eb s. change (forget (free_buckets_depth nsz nal eb s) = ht_drop nsz nal eb s).
  unfold free_buckets_depth, ht_drop, free_buckets. apply forget_same. intros s0 s1. destruct (1 <? t_bc s0)%Z; [|done].
  apply forget_count.
  - apply deepest_forget. intros i s2. apply forget_same. intros sl s3. apply forget_same. intros p s4. destruct (is_null p); [done|].
    apply forget_same. intros f s5. apply free_bucket_forget.
  - intros d s2. unfold bind, ret. by destruct (for_each _ _ s2) as [[]| |].
Qed.

Lemma filter_perm {A} (f : A -> bool) (l l' : list A) : l ≡ₚ l' -> length (List.filter f l) = length (List.filter f l').
Proof. induction 1 as [|x l l' P IH|x y l|l l' l'' P1 IH1 P2 IH2]; cbn; [done| | |lia]; repeat destruct (f _); cbn; lia. Qed.
Lemma filter_all {A} (f : A -> bool) (l : list A) : (forall x, x ∈ l -> f x = true) -> List.filter f l = l.
Proof.
  induction l as [|x l IH]; intros H; [done|]. cbn. rewrite (H x) by constructor. f_equal. apply IH. intros y Hy. apply H. by constructor.
Qed.
Lemma filter_none {A} (f : A -> bool) (l : list A) : (forall x, x ∈ l -> f x = false) -> List.filter f l = [].
Proof.
  induction l as [|x l IH]; intros H; [done|]. cbn. rewrite (H x) by constructor. apply IH. intros y Hy. apply H. by constructor.
Qed.

Lemma crowd_at {A} (where_ : A -> nat) (cs : list (list A)) : forall o, (forall i c e, cs !! i = Some c -> e ∈ c -> where_ e = o + i) ->
  forall j, length (List.filter (fun e => where_ e =? j) (concat cs)) = if j <? o then 0 else length (default [] (cs !! (j - o))).
Proof.
  induction cs as [|c cs IH]; intros o H j; cbn [concat].
  - cbn [List.filter length]. rewrite lookup_nil. by destruct (j <? o).
  - rewrite List.filter_app, app_length, (IH (S o)).
    2:{ intros i c' e E He. rewrite (H (S i) c' e E He). lia. }
    assert (P : forall e, e ∈ c -> where_ e = o) by (intros e He; rewrite (H 0 c e eq_refl He); lia).
    destruct (decide (j = o)) as [->|N].
    + rewrite filter_all by (intros e He; rewrite (P e He); apply Nat.eqb_refl).
      rewrite Nat.sub_diag, Nat.ltb_irrefl. rewrite (proj2 (Nat.ltb_lt o (S o))) by lia. cbn. lia.
    + rewrite filter_none by (intros e He; rewrite (P e He); apply Nat.eqb_neq; lia). cbn [length plus].
      destruct (Nat.ltb_spec j o); destruct (Nat.ltb_spec j (S o)); try lia.
      replace (j - o) with (S (j - S o)) by lia. done.
Qed.

Lemma crowds {K V} nsz nal eb hash eqb (h0 : heap (tcell K V)) s cs arrs cnt (m : list (K * V)) : layout_ok nsz nal = true ->
  TRep nsz nal eb hash eqb h0 s cs arrs cnt -> map snd (concat cs) ≡ₚ m -> forall i,
  length (List.filter (fun e => (hash (fst e) mod t_bc s =? i)%Z) m) = if (i <? 0)%Z then 0 else length (default [] (cs !! Z.to_nat i)).
Proof.
  intros Hlay R P i. pose proof (TRep_bc_pos _ _ _ _ _ Hlay _ _ _ _ _ R) as BP.
  rewrite <- (filter_perm _ _ _ P). destruct (Z.ltb_spec i 0) as [L|L].
  - rewrite filter_none; [done|]. intros e _. pose proof (Z.mod_pos_bound (hash (fst e)) (t_bc s) ltac:(lia)). lia.
  - transitivity (length (List.filter (fun e => idx hash (t_bc s) (fst (snd e)) =? Z.to_nat i) (concat cs))).
    + clear P. induction (concat cs) as [|e l IH]; [done|]. cbn [map List.filter]. unfold idx at 1.
      pose proof (Z.mod_pos_bound (hash (fst (snd e))) (t_bc s) ltac:(lia)) as B.
      destruct (Z.eqb_spec (hash (fst (snd e)) mod t_bc s) i) as [E|N]; destruct (Nat.eqb_spec (Z.to_nat (hash (fst (snd e)) mod t_bc s)) (Z.to_nat i)); cbn [length]; lia.
    + rewrite (crowd_at (fun e => idx hash (t_bc s) (fst (snd e))) cs 0); [by rewrite Nat.sub_0_r|].
      intros j c e Hc He. apply (tr_placed _ _ _ _ _ _ _ _ _ _ R j c e Hc He).
Qed.

Lemma drop_depth {K V} nsz nal eb hash eqb (h0 : heap (tcell K V)) s cs arrs cnt : (0 < nsz)%Z -> layout_ok nsz nal = true ->
  TRep nsz nal eb hash eqb h0 s cs arrs cnt -> exists s', free_buckets_depth nsz nal eb s = Ok (longest cs) s'.
Proof.
  intros Hsz Hlay R. destruct (free_all_ok _ _ _ _ _ Hsz Hlay _ _ _ _ _ R) as (h' & FB & _ & _).
  change (ht_drop nsz nal eb s = Ok tt (with_hd s h' (t_drops s ++ dropped cs))) in FB. rewrite <- L_C99_counting_is_faithful in FB.
  destruct (free_buckets_depth nsz nal eb s) as [d s'| |] eqn:E; try done. exists s'. f_equal.
  destruct (tr_arr _ _ _ _ _ _ _ _ _ _ R) as (a & ps & by_ & EA & ES & F & OR).
  pose proof (Forall2_length _ _ _ F) as L. pose proof (tr_bc _ _ _ _ _ _ _ _ _ _ R) as EB.
  unfold free_buckets_depth in E. unfold bind at 1, gets at 1 in E. cbn [id] in E.
  destruct OR as [(-> & -> & B1)|(old & -> & B)].
  - rewrite B1 in E. cbn in E. injection E as <- _. by destruct (TRep_small _ _ _ _ _ Hlay _ _ _ _ R) as (_ & _ & ->).
  - assert (NA : a :: old <> []) by done.
    destruct (TRep_array _ _ _ _ _ _ _ _ _ _ _ _ _ R EA NA ES) as (Ia & Na & Da).
    pose proof (tr_nodup _ _ _ _ _ _ _ _ _ _ R) as ND. apply NoDup_app in ND as (ND1 & ND2 & ND3).
    rewrite (proj2 (Z.ltb_lt _ _)) in E by lia. rewrite EB, EA, Nat2Z.id, <- L in E.
    destruct (loop_depth nsz nal by_ (t_h s) a Hlay ps cs 0 ps s) as (s1 & R1); try done.
    { intros j Hj. eapply (hadd_slots nsz nal Hlay); [exact ES|lia]. } { apply (tr_wf _ _ _ _ _ _ _ _ _ _ R). } { lia. }
    unfold bind at 1 in E. rewrite R1 in E. unfold bind in E. destruct (for_each _ _ s1); try done. cbn in E. by injection E as <- _.
Qed.

Lemma L_C99_table_drop_depth_partial :
forall (K V : Type) nsz nal eb chk hash eqb (h0 : heap (tcell K V)), Setup nsz nal eb hash eqb h0 ->
  forall prog l s a dr m, built nsz nal eb chk hash eqb h0 prog l s -> spec_run eqb prog [] = (a, dr, m) ->
  let crowd i := length (List.filter (fun e => (hash (fst e) mod t_bc s =? i)%Z) m) in
  exists d s', free_buckets_depth nsz nal eb s = Ok d s' /\ d <= length m /\
    (forall i, crowd i <= d) /\ (d = 0 \/ exists i, crowd i = d).
Proof.
  intros K V nsz nal eb chk hash eqb h0 SU prog l s a dr m B S crowd. destruct (built_rep _ _ _ _ _ _ _ SU _ _ _ B) as (cs & arrs & R & H).
  rewrite S in H. destruct H as (_ & P & _).
  destruct (drop_depth _ _ _ _ _ _ _ _ _ _ (su_size _ _ _ _ _ _ SU) (su_layout _ _ _ _ _ _ SU) R) as (s' & E).
  pose proof (crowds _ _ _ _ _ _ _ _ _ _ m (su_layout _ _ _ _ _ _ SU) R P) as C. destruct (longest_max cs) as [H1 H2].
  assert (H3 : forall i, crowd i <= longest cs).
  { intros i. unfold crowd. rewrite C. destruct (i <? 0)%Z; [lia|]. destruct (cs !! Z.to_nat i) as [c|] eqn:Ec; cbn; [by eapply H1|lia]. }
  assert (H4 : longest cs = 0 \/ exists i, crowd i = longest cs).
  { destruct H2 as [H2|(i & c & Ec & H2)]; [by left|right]. exists (Z.of_nat i). unfold crowd. rewrite C, (proj2 (Z.ltb_ge _ _)) by lia.
    by rewrite Nat2Z.id, Ec. }
  exists (longest cs), s'. split; [done|]. split; [|done].
  destruct H4 as [->|[i <-]]; [lia|]. unfold crowd. generalize (fun e : K * V => (hash (fst e) mod t_bc s =? i)%Z). intros f. clear.
  induction m as [|x m IH]; [done|]. cbn. destruct (f x); cbn; lia.
Qed.

Definition clash (i : nat) : Z := (Z.of_nat i * 2 ^ 32)%Z.
Definition clashes (o n : nat) : list (hcall Z Z) := map (fun k => HInsert k k) (map clash (seq o n)).
Lemma clashes_spec n : forall a (m : list (Z * Z)), (forall e, e ∈ m -> (fst e < clash a)%Z /\ hx_hash (fst e) = 0%Z) ->
  (Z.of_nat (length m + n) <= max_entries)%Z ->
  exists m1, spec_run Z.eqb (clashes a n) m = (replicate n (Some (HVal None)), [], m1) /\
    length m1 = length m + n /\ (forall e, e ∈ m1 -> hx_hash (fst e) = 0%Z).
Proof.
  induction n as [|n IH]; intros a m H L.
  - exists m. split; [done|]. split; [lia|]. intros e He. by apply (H e He).
  - unfold clashes. cbn [seq map spec_run spec_call].
    assert (look Z.eqb (clash a) m = None) as ->.
    { apply look_none. intros e He. destruct (H e He). lia. }
    assert (full m = false) as -> by (unfold full; lia). fold (clashes (S a) n).
    destruct (IH (S a) ((clash a, clash a) :: m)) as (m1 & -> & L1 & H1).
    + intros e [->|He]%elem_of_cons; [|destruct (H e He); split; [unfold clash in *; lia|done]]. cbn [fst].
      unfold clash. split; [lia|]. unfold hx_hash. by rewrite Z.mod_mul.
    + cbn [length]. lia.
    + exists m1. split; [done|]. split; [cbn in L1; lia|done].
Qed.

Lemma L_C99_table_drop_depth_refuted :
forall chk n, (Z.of_nat n <= 2557710464)%Z ->
  exists (keys : list Z) l (s s' : tstate Z Z), length keys = n /\ NoDup keys /\ Forall (fun k => 0 <= k < 2 ^ 64)%Z keys /\
    built 24 8 0 chk hx_hash Z.eqb hx_heap (map (fun k => HInsert k k) keys) l s /\
    t_ec s = Z.of_nat n /\ free_buckets_depth 24 8 0 s = Ok n s'.
Proof.
  intros chk n Hn. pose proof (run_start _ _ _ chk _ _ _ (hx_setup Z) (clashes 0 n)) as H.
  destruct (clashes_spec n 0 []) as (m & E & L & Z0).
  { intros e He. by apply elem_of_nil in He. }
  { unfold max_entries. cbn [length]. lia. }
  rewrite E in H. destruct H as (l & s & cs & arrs & B & _ & R & P & _).
  destruct (L_C99_table_drop_depth_partial _ _ _ _ _ chk _ _ _ (hx_setup Z) _ _ _ _ _ _ B E) as (d & s' & ED & L1 & L2 & _).
  exists (map clash (seq 0 n)), l, s, s'. split; [by rewrite map_length, seq_length|]. split.
  { apply NoDup_fmap; [|apply NoDup_seq]. intros i j X. unfold clash in X. lia. }
  split. { apply Forall_forall. intros k Hk. apply elem_of_list_fmap in Hk as (i & -> & Hi). apply elem_of_seq in Hi. unfold clash. lia. }
  split; [exact B|]. cbn [length plus] in L. split.
  { rewrite (tr_ec _ _ _ _ _ _ _ _ _ _ R). apply Permutation_length in P. rewrite map_length, L in P. by rewrite P. }
  rewrite ED. f_equal. specialize (L2 0%Z). cbn beta in L2. rewrite filter_all in L2; [lia|].
  intros e He. by rewrite (Z0 e He).
Qed.
