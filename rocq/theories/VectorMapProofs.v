(** Proofs about [VectorMap]. *)
From Verif Require Import Base Heap HeapLemmas Alloc AllocContract Vector VectorSpec VectorProofs.
From Verif Require Import VectorMap VectorMapSpec.

(** ** Binary search *)
Section search.
Context {T : Type}.
Variable less : T -> bool.

Lemma log2_up_half n : 1 < n -> Nat.log2_up (n - n / 2) + 1 <= Nat.log2_up n.
Proof.
  intros H. pose proof (Nat.div_mod n 2 ltac:(lia)) as E. pose proof (Nat.mod_upper_bound n 2 ltac:(lia)).
  assert (0 < Nat.log2_up n) by (by apply Nat.log2_up_pos).
  enough (Nat.log2_up (n - n / 2) <= Nat.log2_up n - 1) by lia.
  apply Nat.log2_up_le_pow2; [lia|].
  pose proof (proj2 (Nat.log2_up_le_pow2 n (Nat.log2_up n) ltac:(lia)) (Nat.le_refl _)) as HP.
  destruct (Nat.log2_up n) as [|k]; [lia|]. replace (S k - 1) with k by lia. cbn [Nat.pow] in HP. lia.
Qed.

Lemma lb_loop_ok (l1 l2 : list T) :
  Forall (fun x => less x = true) l1 -> Forall (fun x => less x = false) l2 ->
  forall fuel base size cnt,
  size <= fuel -> 0 < size -> base + size <= length (l1 ++ l2) -> base <= length l1 <= base + size ->
  exists c, lb_loop less (l1 ++ l2) fuel base size cnt = Some (length l1, c) /\ c <= cnt + Nat.log2_up size + 1.
Proof.
  intros F1 F2.
  assert (HT : forall j x, (l1 ++ l2) !! j = Some x -> less x = (j <? length l1)).
  { intros j x Hx. destruct (Nat.ltb_spec j (length l1)) as [L|L].
    - rewrite lookup_app_l in Hx by done. by apply (proj1 (Forall_lookup _ _) F1 _ _ Hx).
    - rewrite lookup_app_r in Hx by done. by apply (proj1 (Forall_lookup _ _) F2 _ _ Hx). }
  induction fuel as [|fuel IH]; intros base size cnt HF HS HB HI; [lia|]. cbn [lb_loop].
  destruct (Nat.ltb_spec 1 size) as [L|L].
  - pose proof (Nat.div_mod size 2 ltac:(lia)) as E. pose proof (Nat.mod_upper_bound size 2 ltac:(lia)).
    pose proof (log2_up_half size L).
    destruct (lookup_lt_is_Some_2 (l1 ++ l2) (base + size / 2)) as [x Hx]; [lia|]. rewrite Hx.
    rewrite (HT _ _ Hx).
    destruct (Nat.ltb_spec (base + size / 2) (length l1)) as [Lm|Lm].
    + destruct (IH (base + size / 2) (size - size / 2) (S cnt)) as (c & Ec & Hc); [lia..|].
      exists c. split; [done|lia].
    + destruct (IH base (size - size / 2) (S cnt)) as (c & Ec & Hc); [lia..|].
      exists c. split; [done|lia].
  - destruct (lookup_lt_is_Some_2 (l1 ++ l2) base) as [x Hx]; [lia|]. rewrite Hx, (HT _ _ Hx).
    eexists. split; [|].
    + f_equal. f_equal. destruct (Nat.ltb_spec base (length l1)); lia.
    + lia.
Qed.

Lemma lower_bound_by_ok (l1 l2 : list T) :
  Forall (fun x => less x = true) l1 -> Forall (fun x => less x = false) l2 ->
  exists c, lower_bound_by less (l1 ++ l2) = Some (length l1, c) /\ c <= Nat.log2_up (length (l1 ++ l2)) + 1.
Proof.
  intros F1 F2. unfold lower_bound_by. destruct (Nat.eqb_spec (length (l1 ++ l2)) 0) as [E|E].
  - rewrite app_length in E. exists 0. split; [f_equal; f_equal; lia|lia].
  - destruct (lb_loop_ok l1 l2 F1 F2 (length (l1 ++ l2)) 0 (length (l1 ++ l2)) 0) as (c & Ec & Hc);
      [lia|lia|lia|rewrite app_length; lia|]. exists c. split; [done|lia].
Qed.

(** A prefix-closed predicate splits the list. *)
Lemma split_at (xs : list T) :
  (forall i j x y, i < j -> xs !! i = Some x -> xs !! j = Some y -> less y = true -> less x = true) ->
  exists l1 l2, xs = l1 ++ l2 /\ Forall (fun x => less x = true) l1 /\ Forall (fun x => less x = false) l2.
Proof.
  induction xs as [|x xs IH]; intros H; [by exists [], []|].
  destruct IH as (l1 & l2 & -> & F1 & F2).
  { intros i j y z L Hy Hz. by apply (H (S i) (S j)); [lia|..]. }
  destruct (less x) eqn:E.
  - exists (x :: l1), l2. split; [done|]. by split; [constructor|].
  - exists [], (x :: l1 ++ l2). split; [done|]. split; [done|]. constructor; [done|].
    apply Forall_app. split; [|done]. apply Forall_lookup. intros i y Hy.
    destruct (less y) eqn:Ey; [|done].
    rewrite (H 0 (S i) x y) in E; [done|lia|done| |done]. cbn. by apply lookup_app_l_Some.
Qed.
End search.

Section perm.
Context {T : Type}.
Lemma Permutation_filter (f : T -> bool) (l l' : list T) : l ≡ₚ l' -> List.filter f l ≡ₚ List.filter f l'.
Proof.
  induction 1; cbn.
  - done.
  - destruct (f x); [by constructor|done].
  - destruct (f x), (f y); try done. apply perm_swap.
  - by etrans.
Qed.

Lemma find_Permutation (f : T -> bool) (l l' : list T) :
  l ≡ₚ l' -> (forall x y, In x l -> In y l -> f x = true -> f y = true -> x = y) ->
  List.find f l = List.find f l'.
Proof.
  intros HP HU. destruct (List.find f l') as [y|] eqn:E.
  - apply List.find_some in E as [Hin Hf].
    assert (Hin' : In y l) by (eapply Permutation_in; [symmetry; exact HP|done]).
    destruct (List.find f l) as [x|] eqn:E2.
    + apply List.find_some in E2 as [? ?]. f_equal. by apply HU.
    + by rewrite (List.find_none _ _ E2 _ Hin') in Hf.
  - destruct (List.find f l) as [x|] eqn:E2; [|done].
    apply List.find_some in E2 as [Hin Hf]. apply (Permutation_in _ HP) in Hin.
    by rewrite (List.find_none _ _ E _ Hin) in Hf.
Qed.

Lemma filter_all (f : T -> bool) l : Forall (fun x => f x = true) l -> List.filter f l = l.
Proof. induction 1 as [|x l Hx _ IH]; cbn; [done|]. by rewrite Hx, IH. Qed.

Lemma find_none_all (f : T -> bool) l : Forall (fun x => f x = false) l -> List.find f l = None.
Proof. induction 1 as [|x l Hx _ IH]; cbn; [done|]. by rewrite Hx. Qed.

Lemma find_app_r (f : T -> bool) l1 l2 : Forall (fun x => f x = false) l1 -> List.find f (l1 ++ l2) = List.find f l2.
Proof. induction 1 as [|x l Hx _ IH]; cbn; [done|]. by rewrite Hx. Qed.
End perm.

Section proofs.
Context {A K V : Type}.
Variable AI : AllocImpl A (K * V).
Variables sz al : Z.
Variable chk nd : bool.
Hypothesis Hsz : (0 < sz)%Z.
Variable AS : AllocSpec AI sz al.
Variables cmp eqb : K -> K -> bool.
Hypothesis KO : KeyOrder cmp eqb.

Notation st := (vstate A (K * V)).
Notation mst := (mstate A K V).
Notation Rep := (Rep AI sz al AS).
Notation Post := (Post AI sz al nd AS).
Notation frame := (frame AI sz al AS).
Notation ran := (ran nd).

Definition lone (e : list (K + V)) : list (K + V) := if nd then e else [].

Lemma eq_sym a b : eqb a b = true -> eqb b a = true.
Proof. intros E. apply (ko_eq _ _ KO) in E as [? ?]. by apply (ko_eq _ _ KO). Qed.

Lemma cmp_eq_l a b c : cmp a b = true -> eqb b c = true -> cmp a c = true.
Proof.
  intros H1 H2. destruct (cmp a c) eqn:E; [done|]. exfalso.
  pose proof (proj1 (ko_eq _ _ KO _ _) H2) as [H2a H2b].
  destruct (cmp c a) eqn:E'.
  - by rewrite (ko_trans _ _ KO c a b E' H1) in H2b.
  - assert (E2 : eqb a c = true) by (by apply (ko_eq _ _ KO)).
    assert (E3 : eqb a b = true) by (eapply (ko_eq_trans _ _ KO); [exact E2|by apply eq_sym]).
    apply (ko_eq _ _ KO) in E3 as [E3 _]. by rewrite E3 in H1.
Qed.

Lemma cmp_eq_r a b c : cmp a b = true -> eqb a c = true -> cmp c b = true.
Proof.
  intros H1 H2. destruct (cmp c b) eqn:E; [done|]. exfalso.
  pose proof (proj1 (ko_eq _ _ KO _ _) H2) as [H2a H2b].
  destruct (cmp b c) eqn:E'.
  - by rewrite (ko_trans _ _ KO a b c H1 E') in H2a.
  - assert (E2 : eqb c b = true) by (by apply (ko_eq _ _ KO)).
    assert (E3 : eqb a b = true) by (by eapply (ko_eq_trans _ _ KO)).
    apply (ko_eq _ _ KO) in E3 as [E3 _]. by rewrite E3 in H1.
Qed.

(** The comparator is also negatively transitive. *)
Lemma cmp_not_trans a b c : cmp a c = true -> cmp b c = false -> cmp a b = true.
Proof.
  intros H1 H2. destruct (cmp c b) eqn:E; [by eapply (ko_trans _ _ KO)|].
  eapply cmp_eq_l; [exact H1|]. by apply (ko_eq _ _ KO).
Qed.

Definition hask k (p : K * V) := has eqb k p.

Lemma sorted_app_inv (l1 l2 : list (K * V)) p q : sorted_by cmp (l1 ++ l2) -> In p l1 -> In q l2 ->
  cmp (fst p) (fst q) = true.
Proof.
  intros S Hp Hq. apply elem_of_list_In, elem_of_list_lookup in Hp as [i Hi].
  apply elem_of_list_In, elem_of_list_lookup in Hq as [j Hj].
  apply (S i (length l1 + j) p q).
  - apply lookup_lt_Some in Hi. lia.
  - by apply lookup_app_l_Some.
  - by rewrite lookup_app_r, Nat.add_comm, Nat.add_sub by lia.
Qed.

Lemma sorted_cons (p : K * V) l : sorted_by cmp (p :: l) <->
  Forall (fun q => cmp (fst p) (fst q) = true) l /\ sorted_by cmp l.
Proof.
  split.
  - intros S. split.
    + apply Forall_lookup. intros j q Hq. by apply (S 0 (Datatypes.S j)); [lia|..].
    + intros i j x y L Hx Hy. by apply (S (Datatypes.S i) (Datatypes.S j)); [lia|..].
  - intros [F S] i j x y L Hx Hy. destruct j as [|j]; [lia|]. destruct i as [|i]; cbn in *.
    + simplify_eq. by apply (proj1 (Forall_lookup _ _) F _ _ Hy).
    + apply (S i j); [lia|done..].
Qed.

Lemma sorted_app (l1 l2 : list (K * V)) : sorted_by cmp (l1 ++ l2) <->
  sorted_by cmp l1 /\ sorted_by cmp l2 /\
  Forall (fun p => Forall (fun q => cmp (fst p) (fst q) = true) l2) l1.
Proof.
  induction l1 as [|p l1 IH]; cbn [app].
  - split; [|by intros (_ & ? & _)]. intros H. split; [|by split].
    intros i j x y L Hx. by rewrite lookup_nil in Hx.
  - rewrite !sorted_cons, IH, Forall_app, Forall_cons. naive_solver.
Qed.

(** The two outcomes of a search. *)
Lemma search xs k : sorted_by cmp xs ->
  exists l1 l2 c, xs = l1 ++ l2 /\ lower_bound_by (fun kv => cmp (fst kv) k) xs = Some (length l1, c) /\
    Forall (fun p => hask k p = false) l1 /\
    ((exists p l2', l2 = p :: l2' /\ hask k p = true /\ Forall (fun p => hask k p = false) l2') \/
     (Forall (fun p => hask k p = false) l2 /\ (forall v, sorted_by cmp (l1 ++ (k, v) :: l2)))).
Proof.
  intros S.
  destruct (split_at (fun kv => cmp (fst kv) k) xs) as (l1 & l2 & -> & F1 & F2).
  { intros i j x y L Hx Hy. intros. eapply (ko_trans _ _ KO); [by eapply (S i j)|done]. }
  destruct (lower_bound_by_ok (fun kv => cmp (fst kv) k) l1 l2 F1 F2) as (c & E & _).
  exists l1, l2, c. split; [done|]. split; [done|].
  assert (N1 : Forall (fun p => hask k p = false) l1).
  { eapply Forall_impl; [exact F1|]. intros p Hp. cbn in Hp. unfold hask, has.
    destruct (eqb (fst p) k) eqn:E'; [|done]. apply (ko_eq _ _ KO) in E' as [E' _]. by rewrite Hp in E'. }
  split; [done|].
  assert (N2 : Forall (fun q => cmp k (fst q) = true -> hask k q = false) l2).
  { apply Forall_true. intros q Hq. unfold hask, has. destruct (eqb (fst q) k) eqn:E'; [|done].
    apply (ko_eq _ _ KO) in E' as [_ E']. by rewrite Hq in E'. }
  destruct l2 as [|p l2].
  { right. split; [done|]. intros v. apply sorted_app. rewrite app_nil_r in S. split; [done|].
    split; [by apply sorted_cons|]. eapply Forall_impl; [exact F1|]. intros q Hq. by repeat constructor. }
  apply Forall_cons in F2 as [Fp F2]. apply sorted_app in S as (S1 & S2 & S12).
  apply sorted_cons in S2 as [Sp S2].
  apply Forall_cons in N2 as [Np N2].
  destruct (hask k p) eqn:E'.
  - left. exists p, l2. split; [done|]. split; [done|].
    rewrite Forall_forall in Sp, N2. apply Forall_forall. intros q Hq. apply N2; [done|].
    eapply cmp_eq_r; [by apply Sp|done].
  - right.
    assert (Hkp : cmp k (fst p) = true).
    { destruct (cmp k (fst p)) eqn:E2; [done|]. unfold hask, has in E'.
      by rewrite (proj2 (ko_eq _ _ KO _ _) (conj Fp E2)) in E'. }
    assert (Hk2 : Forall (fun q => cmp k (fst q) = true) l2).
    { eapply Forall_impl; [exact Sp|]. intros q Hq. by eapply (ko_trans _ _ KO). }
    split.
    + constructor; [done|]. rewrite Forall_forall in Hk2, N2. apply Forall_forall. intros q Hq. by apply N2, Hk2.
    + intros v. apply sorted_app. split; [done|]. split.
      * apply sorted_cons. split; [by constructor|]. by apply sorted_cons.
      * rewrite Forall_forall in S12, F1. apply Forall_forall. intros q Hq. constructor; [by apply F1|]. by apply S12.
Qed.

(** ** The vector underneath *)
Lemma replace_value_ok s xs cap i v k old : Rep s xs cap -> xs !! i = Some (k, old) ->
  exists s', replace_value sz i v s = Ok old s' /\ Post s s' (<[i := (k, v)]> xs) cap [].
Proof.
  intros R Hx. pose proof (lookup_lt_Some _ _ _ Hx) as Hi.
  pose proof (Rep_len _ _ _ _ _ _ _ R) as HL.
  destruct (Rep_buf _ _ _ _ _ _ _ R ltac:(lia)) as (b & bk & junk & B).
  pose proof B as (E & Cl & Hb & Hc & Hl).
  assert (Hj : length (bk_cells bk) = length xs + length junk) by (rewrite Hc, app_length, fmap_length; done).
  unfold replace_value.
  unfold bind at 1, gets at 1. unfold bind at 1. rewrite (slice_len_ok AI sz al Hsz AS _ _ _ R).
  destruct (Nat.ltb_spec i (length xs)); [|lia]. cbn [negb]. unfold bind at 1, ret at 1.
  rewrite E. cbn [v_begin].
  unfold bind at 1, from_heap at 1, bind at 1, gets at 1.
  rewrite (hadd_ok _ _ _ _ _ Hb) by lia. unfold or_ub at 1, ret at 1. cbn [Nat.add].
  unfold bind at 1, from_heap at 1, bind at 1, gets at 1.
  rewrite (hload_ok _ _ _ _ (k, old) Hb)
    by (rewrite Hc, lookup_app_l by (rewrite fmap_length; lia); by rewrite list_lookup_fmap, Hx).
  unfold or_ub at 1, ret at 1. cbn [fst snd].
  unfold bind at 1, on_heap, bind at 1, gets at 1.
  unfold hstore. rewrite (hput_ok _ _ _ _ _ Hb) by (cbn [length]; lia).
  unfold or_ub at 1, bind at 1, ret, set_h, modify. rewrite E. cbn [length].
  eexists. split; [reflexivity|].
  rewrite <- (insert_length xs i (k, v)).
  pose proof (Post_hset AI sz al nd AS s xs cap b bk junk
     (Block (bk_bytes bk) (bk_align bk) (take i (bk_cells bk) ++ [Some (k, v)] ++ drop (i + 1) (bk_cells bk)))
     (<[i := (k, v)]> xs) junk [] R ltac:(lia) B) as P.
  rewrite ran_nil, app_nil_r in P.
  apply P; try done.
  - cbn [bk_cells]. rewrite Hc. by apply (put_one Some (fun x => x) (fun _ => eq_refl)).
  - cbn [bk_cells]. rewrite !app_length, take_length, drop_length. cbn [length]. lia.
  - by rewrite insert_length.
Qed.

(** ** The map *)
Definition MRep (s : mst) (m : smap) (xs : list (K * V)) : Prop :=
  Rep (ms_v s) xs (mroom m) /\ sorted_by cmp xs /\ xs ≡ₚ entries m.

Definition MPost (s s' : mst) (m' : smap) (d : list (K * V)) (e : list (K + V)) : Prop :=
  (exists xs', MRep s' m' xs') /\ frame (ms_v s') = frame (ms_v s) /\
  (exists d', d' ≡ₚ d /\ st_drops (ms_v s') = st_drops (ms_v s) ++ ran d') /\
  ms_lone s' = ms_lone s ++ lone e.

Lemma MPost_refl s m xs : MRep s m xs -> MPost s s m [] [].
Proof.
  intros R. split; [by exists xs|]. split; [done|]. unfold lone. split.
  - exists []. split; [done|]. by rewrite ran_nil, app_nil_r.
  - destruct nd; by rewrite app_nil_r.
Qed.

Lemma MPost_trans s1 s2 s3 m2 m3 d1 d2 e1 e2 :
  MPost s1 s2 m2 d1 e1 -> MPost s2 s3 m3 d2 e2 -> MPost s1 s3 m3 (d1 ++ d2) (e1 ++ e2).
Proof.
  intros (_ & F1 & (d1' & P1 & D1) & L1) (R & F2 & (d2' & P2 & D2) & L2).
  split; [done|]. split; [by rewrite F2|]. split.
  - exists (d1' ++ d2'). split; [by rewrite P1, P2|]. by rewrite D2, D1, ran_app, app_assoc.
  - rewrite L2, L1, <- app_assoc. unfold lone. by destruct nd.
Qed.

Lemma lone_MPost s s' m d e e' :
  MPost s s' m d e -> MPost s (MState (ms_v s') (ms_lone s' ++ (if nd then e' else []))) m d (e ++ e').
Proof.
  intros ((xs & R) & F & D & L). split; [by exists xs|]. split; [done|]. split; [done|]. cbn.
  rewrite L, <- app_assoc. unfold lone. by destruct nd.
Qed.

Lemma base_MPost s v' m m' xs' d :
  Post (ms_v s) v' xs' (mroom m') d -> sorted_by cmp xs' -> xs' ≡ₚ entries m' -> m = m' ->
  MPost s (MState v' (ms_lone s)) m d [].
Proof.
  intros (R & F & _ & D) S P ->. split; [by exists xs'|]. split; [done|]. split; [by exists d|].
  cbn. unfold lone. destruct nd; by rewrite app_nil_r.
Qed.

Lemma bind_base {B C} (m : M st B) (f : B -> M mst C) (s : mst) b v :
  m (ms_v s) = Ok b v -> bind (base m) f s = f b (MState v (ms_lone s)).
Proof. intros E. unfold bind, base. by rewrite E. Qed.

Lemma MState_eta (s : mst) : MState (ms_v s) (ms_lone s) = s.
Proof. by destruct s. Qed.

Lemma at_index_ok (s : mst) xs i p : as_slice sz (ms_v s) = Ok xs (ms_v s) -> xs !! i = Some p ->
  at_index sz i s = Ok p s.
Proof. intros ES HX. unfold at_index. by rewrite (bind_base _ _ _ _ _ ES), MState_eta, HX. Qed.

(** How a search ends, in terms of the specification. *)
Inductive Found (s : mst) (m : smap) (xs : list (K * V)) (k : K) : Prop :=
| Hit l1 p l2 : xs = l1 ++ p :: l2 -> lower_bound sz cmp k s = Ok (length l1) s ->
    found sz eqb (length l1) k s = Ok true s -> at_index sz (length l1) s = Ok p s ->
    look eqb k m = Some p ->
    (forall v, l1 ++ (fst p, v) :: l2 ≡ₚ entries (put eqb k v m)) ->
    (forall v, sorted_by cmp (l1 ++ (fst p, v) :: l2)) ->
    l1 ++ l2 ≡ₚ entries (del eqb k m) -> sorted_by cmp (l1 ++ l2) -> Found s m xs k
| Miss l1 l2 : xs = l1 ++ l2 -> lower_bound sz cmp k s = Ok (length l1) s ->
    found sz eqb (length l1) k s = Ok false s -> look eqb k m = None ->
    (forall v, sorted_by cmp (l1 ++ (k, v) :: l2)) -> del eqb k m = m -> Found s m xs k.

Lemma find_it s m xs k : MRep s m xs -> Found s m xs k.
Proof.
  intros (R & S & P). destruct (search xs k S) as (l1 & l2 & c & E & EL & N1 & H).
  assert (ES : as_slice sz (ms_v s) = Ok xs (ms_v s)) by (by eapply as_slice_ok).
  assert (EN : len sz (ms_v s) = Ok (length xs) (ms_v s)) by (by eapply len_ok).
  assert (LB : lower_bound sz cmp k s = Ok (length l1) s).
  { unfold lower_bound. rewrite (bind_base _ _ _ _ _ ES), MState_eta. rewrite EL. done. }
  destruct H as [(p & l2' & -> & Hp & N2)|(N2 & SI)].
  - assert (AT : at_index sz (length l1) s = Ok p s).
    { unfold at_index. rewrite (bind_base _ _ _ _ _ ES), MState_eta, E.
      by rewrite lookup_app_r, Nat.sub_diag. }
    assert (U : List.find (hask k) xs = Some p).
    { rewrite E, find_app_r by done. cbn. by rewrite Hp. }
    apply (Hit _ _ _ _ l1 p l2'); try done.
    + unfold found. rewrite (bind_base _ _ _ _ _ EN), MState_eta, E, app_length. cbn [length].
      rewrite (proj2 (Nat.ltb_lt _ _)) by lia. unfold bind. rewrite AT. unfold hask, has in Hp. by rewrite Hp.
    + unfold look. rewrite <- U. symmetry. apply find_Permutation; [done|].
      intros x y Hx Hy Fx Fy. rewrite E in Hx, Hy.
      assert (X : forall z, In z (l1 ++ p :: l2') -> has eqb k z = true -> z = p).
      { intros z Hz Fz. apply in_app_or in Hz as [Hz|[Hz|Hz]]; [|done|].
        - rewrite Forall_forall in N1. specialize (N1 z ltac:(by apply elem_of_list_In)). by unfold hask in N1; rewrite N1 in Fz.
        - rewrite Forall_forall in N2. specialize (N2 z ltac:(by apply elem_of_list_In)). by unfold hask in N2; rewrite N2 in Fz. }
      by rewrite (X x), (X y).
    + intros v. cbn [put entries]. rewrite <- P, E, map_app. cbn [map]. fold (hask k p). rewrite Hp.
      assert (ID : forall l, Forall (fun p => hask k p = false) l ->
        map (fun q => if has eqb k q then (fst q, v) else q) l = l).
      { induction 1 as [|x l Hx _ IH]; cbn; [done|]. unfold hask in Hx. by rewrite Hx, IH. }
      by rewrite !ID.
    + intros v. rewrite E in S. apply sorted_app in S as (S1 & S2 & S3). apply sorted_cons in S2 as [S2 S4].
      apply sorted_app. split; [done|]. split; [by apply sorted_cons|].
      eapply Forall_impl; [exact S3|]. cbn. intros q Hq. apply Forall_cons in Hq as [? ?]. by constructor.
    + cbn [del entries]. rewrite <- (Permutation_filter _ _ _ P), E, List.filter_app. cbn [List.filter].
      fold (hask k p). rewrite Hp. cbn [negb].
      rewrite !filter_all; [done|..]; (eapply Forall_impl; [eassumption|]; cbn; intros q Hq; unfold hask in Hq; by rewrite Hq).
    + rewrite E in S. apply sorted_app in S as (S1 & S2 & S3). apply sorted_cons in S2 as [S2 S4].
      apply sorted_app. split; [done|]. split; [done|].
      eapply Forall_impl; [exact S3|]. cbn. intros q Hq. by apply Forall_cons in Hq as [? ?].
  - assert (NX : Forall (fun p => hask k p = false) xs) by (rewrite E; by apply Forall_app).
    assert (NM : Forall (fun p => hask k p = false) (entries m)) by (by rewrite <- P).
    apply (Miss _ _ _ _ l1 l2); try done.
    + unfold found. rewrite (bind_base _ _ _ _ _ EN), MState_eta.
      destruct (Nat.ltb_spec (length l1) (length xs)) as [L|L]; [|done].
      destruct l2 as [|q l2]; [rewrite E, app_length in L; cbn in L; lia|].
      unfold bind. rewrite (at_index_ok s xs (length l1) q ES) by (by rewrite E, lookup_app_r, Nat.sub_diag).
      apply Forall_cons in N2 as [N2 _]. unfold hask, has in N2. by rewrite N2.
    + unfold look. by apply find_none_all.
    + unfold del. destruct m as [em rm]. cbn [entries mroom] in *. f_equal. apply filter_all.
      eapply Forall_impl; [exact NM|]. intros q Hq. cbn in *. unfold hask in Hq. by rewrite Hq.
Qed.

Lemma insert_nth_mid {X} (l1 : list X) (x y : X) l2 : <[length l1 := y]> (l1 ++ x :: l2) = l1 ++ y :: l2.
Proof. by rewrite insert_app_r_alt, Nat.sub_diag. Qed.

(** Replacing a value through the vector. *)
Lemma put_ok s m xs k l1 p l2 v : MRep s m xs -> xs = l1 ++ p :: l2 ->
  (forall v, l1 ++ (fst p, v) :: l2 ≡ₚ entries (put eqb k v m)) ->
  (forall v, sorted_by cmp (l1 ++ (fst p, v) :: l2)) ->
  exists s', base (replace_value sz (length l1) v) s = Ok (snd p) s' /\
    MPost s s' (put eqb k v m) [] [] /\ as_slice sz (ms_v s') = Ok (l1 ++ (fst p, v) :: l2) (ms_v s') /\
    ms_lone s' = ms_lone s.
Proof.
  intros (R & S & P) E HP HS. destruct p as [k0 old]. cbn [fst snd] in *.
  destruct (replace_value_ok (ms_v s) xs (mroom m) (length l1) v k0 old R) as (v' & EV & PV).
  { by rewrite E, lookup_app_r, Nat.sub_diag. }
  rewrite E, insert_nth_mid in PV.
  exists (MState v' (ms_lone s)). unfold base. rewrite EV. split; [done|]. split; [|split].
  - by eapply (base_MPost s v' _ (put eqb k v m)).
  - destruct PV as (R' & _). by eapply as_slice_ok.
  - done.
Qed.

(** Inserting a new pair through the vector. *)
Lemma add_ok s m xs k v l1 l2 : MRep s m xs -> xs = l1 ++ l2 ->
  (forall v, sorted_by cmp (l1 ++ (k, v) :: l2)) ->
  match add (as_fits AS) (k, v) m with
  | Some m' => exists s', base (insert AI sz al chk nd (length l1) (k, v)) s = Ok tt s' /\
      MPost s s' m' [] [] /\ as_slice sz (ms_v s') = Ok (l1 ++ (k, v) :: l2) (ms_v s') /\ ms_lone s' = ms_lone s
  | None => chk = true \/ (sz <= isize_max)%Z -> exists s', base (insert AI sz al chk nd (length l1) (k, v)) s = Panic s' /\
      MPost s s' m [(k, v)] [] /\ ms_lone s' = ms_lone s
  end.
Proof.
  intros (R & S & P) E HS. unfold add.
  assert (EN : room_for_one (SVec (entries m) (mroom m)) = need_one xs (mroom m)).
  { unfold room_for_one, need_one. cbn [items room]. by rewrite (Permutation_length P). }
  rewrite EN. destruct (_ || _) eqn:F.
  - destruct (insert_ok AI sz al chk nd Hsz AS (ms_v s) xs (mroom m) (length l1) (k, v) R) as (v' & EV & PV); [|done|].
    { rewrite E, app_length. lia. }
    rewrite E in PV at 1 2. rewrite take_app_alt, drop_app_alt in PV by done.
    exists (MState v' (ms_lone s)). unfold base. rewrite EV. split; [done|]. split; [|split].
    + eapply (base_MPost s v' _ (SMap ((k, v) :: entries m) (need_one xs (mroom m))) _ [] PV); [by apply HS| |done]. cbn [entries].
      rewrite <- P, E. by rewrite Permutation_middle.
    + destruct PV as (R' & _). by eapply as_slice_ok.
    + done.
  - intros HK. unfold base.
    rewrite (insert_panic AI sz al chk nd Hsz AS (ms_v s) xs (mroom m) (length l1) (k, v) R) by (try done; rewrite E, app_length; lia).
    eexists. split; [reflexivity|]. split; [|done].
    split.
    + exists xs. split; [|done]. destruct (ms_v s). unfold log_drop. cbn in *. exact R.
    + split; [done|]. split; [|cbn; unfold lone; destruct nd; by rewrite app_nil_r].
      exists [(k, v)]. split; [done|]. done.
Qed.

Lemma drops_frame (s : mst) d : ms_v s = ms_v s -> frame (log_drops nd d (ms_v s)) = frame (ms_v s).
Proof.
  intros _. revert s. induction d as [|x d IH]; intros s; [done|]. cbn [log_drops fold_left].
  specialize (IH (MState (log_drop nd x (ms_v s)) [])). cbn in IH. unfold log_drops in IH. by rewrite IH.
Qed.

Lemma log_drops_Rep v xs cap d : Rep v xs cap -> Rep (log_drops nd d v) xs cap.
Proof.
  revert v. induction d as [|x d IH]; intros v R; [done|]. cbn [log_drops fold_left].
  apply (IH (log_drop nd x v)). destruct v. exact R.
Qed.

Lemma log_drops_drops (v : st) d : st_drops (log_drops nd d v) = st_drops v ++ ran d.
Proof.
  revert v. induction d as [|x d IH]; intros v; cbn [log_drops fold_left].
  - by rewrite ran_nil, app_nil_r.
  - unfold log_drops in IH. rewrite IH. unfold log_drop. cbn [st_drops]. rewrite <- app_assoc. f_equal.
    unfold VectorProofs.ran. by destruct nd.
Qed.

(** [insert], as used by every inserting call. *)
Lemma vm_insert_ok s m xs k v : MRep s m xs ->
  match look eqb k m with
  | Some p => exists s', vm_insert AI sz al chk nd cmp eqb k v s = Ok (Some (snd p)) s' /\
      MPost s s' (put eqb k v m) [] [inl k]
  | None =>
    match add (as_fits AS) (k, v) m with
    | Some m' => exists s', vm_insert AI sz al chk nd cmp eqb k v s = Ok None s' /\ MPost s s' m' [] []
    | None => chk = true \/ (sz <= isize_max)%Z -> exists s', vm_insert AI sz al chk nd cmp eqb k v s = Panic s' /\
        MPost s s' m [(k, v)] []
    end
  end.
Proof.
  intros R. unfold vm_insert. destruct (find_it s m xs k R) as [l1 p l2 E LB FD AT LK PP PS DP DS|l1 l2 E LB FD LK SI DE].
  - rewrite LK. unfold bind. rewrite LB, FD.
    destruct (put_ok s m xs k l1 p l2 v R E PP PS) as (s' & EV & P' & _ & L'). rewrite EV.
    eexists. split; [reflexivity|]. apply (lone_MPost s s' _ [] [] [inl k] P').
  - rewrite LK. unfold bind. rewrite LB, FD. pose proof (add_ok s m xs k v l1 l2 R E SI) as HA.
    destruct (add (as_fits AS) (k, v) m) as [m'|].
    + destruct HA as (s' & EV & P' & _). rewrite EV. by exists s'.
    + intros HK. destruct (HA HK) as (s' & EV & P' & _). rewrite EV. by exists s'.
Qed.

Lemma insert_all_ok kvs : forall s m xs a d e m', MRep s m xs ->
  spec_extend eqb (as_fits AS) kvs m = (a, d, e, m') -> chk = true \/ (sz <= isize_max)%Z ->
  exists s', match insert_all AI sz al chk nd cmp eqb kvs s with
             | Ok _ s' => Some (MUnit, s') | Panic s' => Some (MPanic, s') | UB => None end = Some (a, s') /\
    MPost s s' m' d e.
Proof.
  induction kvs as [|[k v] kvs IH]; intros s m xs a d e m' R HS HK; cbn [spec_extend] in HS.
  - simplify_eq. exists s. split; [done|]. by eapply MPost_refl.
  - cbn [insert_all]. pose proof (vm_insert_ok s m xs k v R) as HI.
    destruct (look eqb k m) as [p|] eqn:LK.
    + destruct (spec_extend eqb (as_fits AS) kvs (put eqb k v m)) as [[[a1 d1] e1] m1] eqn:HE. simplify_eq.
      destruct HI as (s1 & E1 & P1). unfold bind at 1, on_unwind at 1. rewrite E1.
      unfold bind at 1, drop_lone at 1, modify at 1.
      pose proof (lone_MPost s s1 _ _ _ [inr (snd p)] P1) as P2. pose proof P2 as ((xs2 & R2) & _).
      destruct (IH _ _ _ _ _ _ _ R2 HE HK) as (s3 & E3 & P3).
      exists s3. split; [exact E3|]. exact (MPost_trans _ _ _ _ _ _ _ _ _ P2 P3).
    + destruct (add (as_fits AS) (k, v) m) as [m1|] eqn:HA.
      * destruct HI as (s1 & E1 & P1). unfold bind at 1, on_unwind at 1. rewrite E1.
        unfold bind at 1, drop_lone at 1, modify at 1.
        pose proof (lone_MPost s s1 _ _ _ [] P1) as P2. pose proof P2 as ((xs2 & R2) & _).
        destruct (IH _ _ _ _ _ _ _ R2 HS HK) as (s3 & E3 & P3).
        exists s3. split; [exact E3|]. exact (MPost_trans _ _ _ _ _ _ _ _ _ P2 P3).
      * simplify_eq. destruct HI as (s1 & E1 & (xs1 & R1) & F1 & (d1 & PD1 & D1) & L1); [done|].
        unfold bind at 1, on_unwind at 1. rewrite E1.
        eexists. split; [reflexivity|]. destruct R1 as (R1 & S1 & PP1).
        split; [exists xs1; split; [by apply log_drops_Rep|done]|]. cbn [ms_v ms_lone].
        split; [by rewrite drops_frame|]. split; [|done].
        exists (d1 ++ kvs). split; [by rewrite PD1|]. by rewrite log_drops_drops, D1, ran_app, app_assoc.
Qed.

Theorem m_step_refines c s m xs a d e m' : MRep s m xs ->
  spec_mcall eqb (as_fits AS) c m = (a, d, e, m') -> chk = true \/ m_modest sz c = true ->
  exists s', m_step AI sz al chk nd cmp eqb c s = Some (a, s') /\ MPost s s' m' d e.
Proof.
  intros R HS HK.
  assert (HK' : chk = true \/ (Z.of_nat (m_named c) * sz <= isize_max)%Z).
  { destruct HK as [HK|HK]; [by left|right]. unfold m_modest in HK. lia. }
  clear HK.
  pose proof R as (RV & RS & RP).
  assert (RET : forall a' (r : outcome mst (manswer K V)), r = Ok a' s -> (a', [], [], m) = (a, d, e, m') ->
    exists s', match r with Ok a s' => Some (a, s') | Panic s' => Some (MPanic, s') | UB => None end = Some (a, s') /\
      MPost s s' m' d e).
  { intros a' r -> HE. simplify_eq. exists s. split; [done|]. by eapply MPost_refl. }
  unfold m_step. destruct c as [k v|k|k v|k|k|k|k|k v|kvs|n| | | |]; cbn [m_exec spec_mcall m_named] in *; try rewrite Z.mul_1_l in HK'.
  - pose proof (vm_insert_ok s m xs k v R) as HI. unfold bind.
    destruct (look eqb k m) as [p|].
    + simplify_eq. destruct HI as (s' & E & P). rewrite E. by exists s'.
    + destruct (add (as_fits AS) (k, v) m) as [m1|]; simplify_eq.
      * destruct HI as (s' & E & P). rewrite E. by exists s'.
      * destruct HI as (s' & E & P); [done|]. rewrite E. by exists s'.
  - unfold vm_get. destruct (find_it s m xs k R) as [l1 p l2 E LB FD AT LK PP PS DP DS|l1 l2 E LB FD LK SI DE];
      rewrite LK in HS; eapply RET; try exact HS; unfold bind; rewrite LB, FD; [by rewrite AT|done].
  - unfold vm_get_mut_set. destruct (find_it s m xs k R) as [l1 p l2 E LB FD AT LK PP PS DP DS|l1 l2 E LB FD LK SI DE];
      rewrite LK in HS; simplify_eq; unfold bind; rewrite LB, FD.
    + destruct (put_ok s m _ k l1 p l2 v R eq_refl PP PS) as (s' & EV & P' & _ & L'). rewrite EV.
      eexists. split; [reflexivity|]. apply (lone_MPost s s' _ [] [] [inr (snd p)] P').
    + eexists. split; [reflexivity|]. apply (lone_MPost s s _ [] [] [inr v]). by eapply MPost_refl.
  - unfold vm_contains_key, vm_get.
    destruct (find_it s m xs k R) as [l1 p l2 E LB FD AT LK PP PS DP DS|l1 l2 E LB FD LK SI DE];
      rewrite LK in HS; eapply RET; try exact HS; unfold bind; rewrite LB, FD; [by rewrite AT|done].
  - unfold vm_remove, vm_remove_entry.
    destruct (find_it s m xs k R) as [l1 p l2 E LB FD AT LK PP PS DP DS|l1 l2 E LB FD LK SI DE];
      rewrite LK in HS; [|eapply RET; try exact HS; unfold bind; by rewrite LB, FD].
    unfold bind. rewrite LB, FD.
    destruct (remove_ok AI sz al chk nd Hsz AS (ms_v s) xs (mroom m) (length l1) p RV) as (v' & EV & PV).
    { by rewrite E, lookup_app_r, Nat.sub_diag. }
    rewrite E in PV at 1 2. rewrite take_app_alt in PV by done.
    rewrite drop_app_ge in PV by lia. replace (S (length l1) - length l1) with 1 in PV by lia.
    change (drop 1 (p :: l2)) with l2 in PV.
    unfold base. rewrite EV. destruct p as [k0 v0]. injection HS as <- <- <- <-.
    eexists. split; [reflexivity|]. cbn [ms_v ms_lone fst].
    apply (lone_MPost s (MState v' (ms_lone s)) _ [] [] [inl k0]).
    by eapply (base_MPost s v' _ (del eqb k m)).
  - unfold vm_remove_entry.
    destruct (find_it s m xs k R) as [l1 p l2 E LB FD AT LK PP PS DP DS|l1 l2 E LB FD LK SI DE];
      rewrite LK in HS; [|rewrite DE in HS; eapply RET; try exact HS; unfold bind; by rewrite LB, FD].
    unfold bind. rewrite LB, FD.
    destruct (remove_ok AI sz al chk nd Hsz AS (ms_v s) xs (mroom m) (length l1) p RV) as (v' & EV & PV).
    { by rewrite E, lookup_app_r, Nat.sub_diag. }
    rewrite E in PV at 1 2. rewrite take_app_alt in PV by done.
    rewrite drop_app_ge in PV by lia. replace (S (length l1) - length l1) with 1 in PV by lia.
    change (drop 1 (p :: l2)) with l2 in PV.
    unfold base. rewrite EV. injection HS as <- <- <- <-.
    eexists. split; [reflexivity|]. by eapply (base_MPost s v' _ (del eqb k m)).
  - unfold vm_entry_get, vm_entry.
    destruct (find_it s m xs k R) as [l1 p l2 E LB FD AT LK PP PS DP DS|l1 l2 E LB FD LK SI DE];
      rewrite LK in HS; [|eapply RET; try exact HS; unfold bind; by rewrite LB, FD].
    injection HS as <- <- <- <-. unfold bind. rewrite LB, FD. unfold drop_lone, modify, ret.
    pose proof (lone_MPost s s _ [] [] [inl k] (MPost_refl s m xs R)) as P'.
    erewrite at_index_ok; [|cbn [ms_v]; by eapply as_slice_ok|by rewrite E, lookup_app_r, Nat.sub_diag].
    eexists. split; [reflexivity|]. exact P'.
  - unfold vm_entry_set, vm_entry.
    destruct (find_it s m xs k R) as [l1 p l2 E LB FD AT LK PP PS DP DS|l1 l2 E LB FD LK SI DE]; rewrite LK in HS.
    + injection HS as <- <- <- <-. unfold bind. rewrite LB, FD. unfold drop_lone, modify, ret.
      pose proof (lone_MPost s s _ [] [] [inl k] (MPost_refl s m xs R)) as P1. cbn [app] in P1.
      set (s1 := MState _ _) in *. pose proof P1 as ((xs1 & R1) & _).
      assert (R1' : MRep s1 m xs) by done.
      destruct (put_ok s1 m xs k l1 p l2 v R1' E PP PS) as (s2 & EV & P2 & ES2 & L2). rewrite EV.
      pose proof (MPost_trans _ _ _ _ _ _ _ _ _ P1 P2) as P3. cbn [app] in P3.
      pose proof (lone_MPost s s2 _ _ _ [inr (snd p)] P3) as P4. cbn [app] in P4.
      erewrite at_index_ok; [|cbn [ms_v]; exact ES2|by rewrite lookup_app_r, Nat.sub_diag].
      eexists. split; [reflexivity|]. exact P4.
    + unfold bind. rewrite LB, FD. unfold ret at 1.
      pose proof (add_ok s m xs k v l1 l2 R E SI) as HA.
      destruct (add (as_fits AS) (k, v) m) as [m1|]; simplify_eq.
      * destruct HA as (s' & EV & P' & ES & _). rewrite EV.
        erewrite at_index_ok; [|exact ES|by rewrite lookup_app_r, Nat.sub_diag]. by exists s'.
      * destruct (HA HK') as (s' & EV & P' & _). rewrite EV. by exists s'.
  - destruct (insert_all_ok kvs s m xs a d e m' R HS HK') as (s' & E & P).
    exists s'. split; [|done]. unfold bind. rewrite <- E.
    by destruct (insert_all AI sz al chk nd cmp eqb kvs s).
  - unfold bind, base. destruct (Nat.eqb_spec n 0) as [->|N]; cbn [orb] in HS.
    + rewrite reserve_0. injection HS as <- <- <- <-. rewrite Nat.add_0_r, MState_eta. exists s. split; [done|].
      destruct m. by eapply MPost_refl.
    + destruct (as_fits AS (mroom m + n)) eqn:F; injection HS as <- <- <- <-.
      * destruct (reserve_ok AI sz al chk nd Hsz AS (ms_v s) xs (mroom m) n RV ltac:(lia) F) as (v' & EV & PV).
        rewrite EV. eexists. split; [reflexivity|].
        by eapply (base_MPost s v' _ (SMap (entries m) (mroom m + n))).
      * rewrite (reserve_panic AI sz al chk Hsz AS (ms_v s) xs (mroom m) n RV) by (try done; lia).
        rewrite MState_eta. exists s. split; [done|]. by eapply MPost_refl.
  - rewrite <- (Permutation_length RP) in HS. eapply RET; [|exact HS]. unfold bind, base.
    by rewrite (len_ok AI sz al Hsz AS _ _ _ RV), MState_eta.
  - rewrite <- (Permutation_length RP) in HS. eapply RET; [|exact HS]. unfold bind, base.
    by rewrite (is_empty_ok AI sz al Hsz AS _ _ _ RV), MState_eta.
  - eapply RET; [|exact HS]. unfold bind, base.
    by rewrite (capacity_ok AI sz al Hsz AS _ _ _ RV), MState_eta.
  - injection HS as <- <- <- <-. unfold bind, base.
    destruct (clear_ok AI sz al chk nd Hsz AS (ms_v s) xs (mroom m) RV) as (v' & EV & PV). rewrite EV.
    eexists. split; [reflexivity|]. destruct PV as (R' & F' & _ & D').
    split; [exists []; split; [done|]; split; [|done]; intros i j x y _ Hx; by rewrite lookup_nil in Hx|].
    split; [done|]. split; [by exists xs|]. cbn. unfold lone. destruct nd; by rewrite app_nil_r.
Qed.

Theorem m_run_refines cs : forall s m xs l d e m', MRep s m xs ->
  spec_mcalls eqb (as_fits AS) cs m = (l, d, e, m') -> chk = true \/ forallb (m_modest sz) cs = true ->
  exists s', m_run AI sz al chk nd cmp eqb cs s = Some (l, s') /\ MPost s s' m' d e.
Proof.
  induction cs as [|c cs IH]; intros s m xs l d e m' R HS HK; cbn [spec_mcalls] in HS.
  - simplify_eq. exists s. split; [done|]. by eapply MPost_refl.
  - destruct (spec_mcall eqb (as_fits AS) c m) as [[[a d1] e1] m1] eqn:E1.
    destruct (spec_mcalls eqb (as_fits AS) cs m1) as [[[l2 d2] e2] m2] eqn:E2. simplify_eq.
    destruct (m_step_refines c s m xs a d1 e1 m1 R E1) as (s1 & Es & P1).
    { destruct HK as [HK|HK]; [by left|right]. cbn in HK. by apply andb_prop in HK as [? _]. }
    pose proof P1 as ((xs1 & R1) & _).
    destruct (IH s1 m1 xs1 l2 d2 e2 m' R1 E2) as (s2 & Er & P2).
    { destruct HK as [HK|HK]; [by left|right]. cbn in HK. by apply andb_prop in HK as [_ ?]. }
    exists s2. cbn [m_run]. rewrite Es, Er. split; [done|]. by eapply MPost_trans.
Qed.
End proofs.
