(** Proofs about linked lists: programs, and the allocators. *)
From Verif Require Import Base Alloc AddrMem FixedPool FixedPoolSpec FixedPoolProofs LinkedList LinkedListSpec LinkedListProofs LinkedListCalls.
Local Open Scope Z_scope.


Lemma len_call_ge {T} (c : lcall T) n : (frees c = true /\ pushed c = []) \/ len_call c n = (n + length (pushed c))%nat.
Proof. destruct c; cbn; auto. Qed.
Lemma len_call_mono {T} (c : lcall T) n n' : (n <= n')%nat -> (len_call c n <= len_call c n')%nat.
Proof. destruct c; cbn; lia. Qed.
Lemma peak_mono {T} (cs : list (lcall T)) : forall n n', (n <= n')%nat -> (peak cs n <= peak cs n')%nat.
Proof.
  induction cs as [|c cs IH]; intros n n' L; cbn; [done|]. pose proof (IH _ _ (len_call_mono c _ _ L)). lia.
Qed.
Lemma peak_ge {T} (cs : list (lcall T)) n : (n <= peak cs n)%nat.
Proof. destruct cs; cbn; lia. Qed.
Lemma removelast_length' {T} (xs : list T) : length (removelast xs) = (length xs - 1)%nat.
Proof. destruct xs as [|x xs _] using rev_ind; [done|]. rewrite removelast_last, app_length. cbn. lia. Qed.
Lemma spec_len {T} (c : lcall T) xs a d xs' : spec_call c xs = (a, d, xs') -> length xs' = len_call c (length xs).
Proof.
  destruct c; cbn; intros E; simplify_eq; rewrite ?app_length, ?map_length, ?removelast_length'; cbn; try lia.
  - destruct xs; cbn; lia.
  - destruct xs; simplify_eq; cbn; lia.
  - destruct xs as [|y xs _] using rev_ind; cbn in *; [by simplify_eq|]. rewrite last_snoc in E. simplify_eq. rewrite !app_length, removelast_length', app_length. cbn. lia.
Qed.

Section runs.
Context {A T : Type}.
Variables (aa : AddrAlloc A T) (chk : bool) (nsz nal s B : Z) (nul : bool) (I : A -> mem T -> list Z -> Prop).
Hypothesis Hsz : 16 <= nsz.
Hypothesis Hs : (8 | s).
Hypothesis HB : B < u32_lim.
Hypothesis AO : AllocOK aa chk nsz nal s B nul I.

Local Notation LRep := (LRep s B I).

(** The nodes of the elements that stay are the same. *)
Definition Stays (c : lcall T) (n : nat) (ps ps' : list Z) : Prop :=
  forall i j p, moves_to c n i = Some j -> ps !! i = Some p -> ps' !! j = Some p.
Lemma stays_same (c : lcall T) n ps : (forall i, moves_to c n i = Some i \/ moves_to c n i = None) -> Stays c n ps ps.
Proof using. clear. intros H i j p E Hp. destruct (H i) as [H'|H']; rewrite H' in E; by simplify_eq. Qed.
Lemma stays_app (c : lcall T) n ps qs : moves_to c n = Some -> Stays c n ps (ps ++ qs).
Proof using. clear. intros H i j p E Hp. rewrite H in E. injection E as <-. by apply lookup_app_l_Some. Qed.
Lemma stays_pop_back n ps : length ps = n -> Stays LPopBack n ps (removelast ps).
Proof using.
  clear. intros <- i j p E Hp. unfold moves_to in E. destruct (S i =? length ps)%nat eqn:EI; [done|]. injection E as <-. apply Nat.eqb_neq in EI.
  destruct ps as [|q ps _] using rev_ind; [done|]. rewrite removelast_last. rewrite app_length in EI. cbn in EI.
  pose proof (lookup_lt_Some _ _ _ Hp) as L. rewrite app_length in L. cbn in L. rewrite lookup_app_l in Hp by lia. done.
Qed.

#[local] Hint Extern 0 (Stays _ _ _ _) => (apply stays_same; intros; first [by left|by right]) : core.

Lemma call_at st xs ps c : LRep st xs ps -> (frees c = true -> FreeOK aa chk nsz s I) -> Z.of_nat (length xs + length (pushed c)) <= B ->
  (exists st' ps' a d xs', spec_call c xs = (a, d, xs') /\ l_call aa chk nsz nal c st = Ok a st' /\ LRep st' xs' ps' /\ l_drops st' = l_drops st ++ d /\ Stays c (length xs) ps ps') \/
  (nul = true /\ exists k st' ps', (k < length (pushed c))%nat /\ l_call aa chk nsz nal c st = Panic st' /\ LRep st' (xs ++ take k (pushed c)) ps' /\
     l_drops st' = l_drops st ++ drop k (pushed c)).
Proof.
  intros H FR LE. destruct c as [x|x| | | | |x|x| | | | | |ys| |g]; cbn [pushed length frees] in *; cbn [l_call spec_call].
  - destruct (push_back_ok _ _ _ _ _ _ _ _ Hsz Hs HB AO _ _ _ x H ltac:(lia)) as [(EN & st' & E & H' & D)|(st' & p & E & H' & D)].
    + right. split; [done|]. exists 0%nat, st', ps. split; [lia|]. unfold bind. rewrite E, app_nil_r. done.
    + left. exists st', (ps ++ [p]). eexists _, _, _. split; [reflexivity|]. unfold bind. rewrite E, app_nil_r. split; [done|]. split; [done|]. split; [done|]. by apply stays_app.
  - destruct (push_front_ok _ _ _ _ _ _ _ _ Hsz Hs HB AO _ _ _ x H ltac:(lia)) as [(EN & st' & E & H' & D)|(st' & p & E & H' & D)].
    + right. split; [done|]. exists 0%nat, st', ps. split; [lia|]. unfold bind. rewrite E, app_nil_r. done.
    + left. exists st', (p :: ps). eexists _, _, _. split; [reflexivity|]. unfold bind. rewrite E, app_nil_r. split; [done|]. split; [done|]. split; [done|]. by intros i j q [= <-].
  - left. destruct (pop_back_ok _ _ _ _ _ _ _ _ Hsz Hs HB AO _ _ _ (FR eq_refl) H) as (st' & E & H' & D).
    exists st', (removelast ps). eexists _, _, _. split; [reflexivity|]. unfold bind. rewrite E, app_nil_r. split; [done|]. split; [done|]. split; [done|]. apply stays_pop_back. eapply Forall2_length, (lr_vals _ _ _ _ _ _ H).
  - left. destruct (pop_front_ok _ _ _ _ _ _ _ _ Hsz Hs HB AO _ _ _ (FR eq_refl) H) as (st' & E & H' & D).
    exists st', (tail ps). eexists _, _, _. split; [reflexivity|]. unfold bind. rewrite E, app_nil_r. split; [done|]. split; [done|]. split; [done|]. intros [|i] j q; [done|]. intros [= <-]. by destruct ps.
  - left. exists st, ps. eexists _, _, _. split; [reflexivity|]. rewrite app_nil_r. split; [|done].
    pose proof (front_ok _ _ _ _ _ _ _ _ Hsz Hs AO _ _ _ H) as E. unfold bind in *. destruct (front_place st); [|done..]. by rewrite E.
  - left. exists st, ps. eexists _, _, _. split; [reflexivity|]. rewrite app_nil_r. split; [|done].
    pose proof (back_ok _ _ _ _ _ _ _ _ Hsz Hs AO _ _ _ H) as E. unfold bind in *. destruct (back_place st); [|done..]. by rewrite E.
  - left. destruct (front_mut_ok _ _ _ _ _ _ _ _ Hsz Hs AO _ _ _ x H) as (st' & E & H' & D).
    exists st', ps. unfold bind in *. destruct (front_place st); [|done..]. rewrite E. destruct xs; eexists _, _, _; (split; [reflexivity|]); done.
  - left. destruct (back_mut_ok _ _ _ _ _ _ _ _ Hsz Hs AO _ _ _ x H) as (st' & E & H' & D).
    exists st', ps. unfold bind in *. destruct (back_place st); [|done..]. rewrite E. destruct (last xs); eexists _, _, _; (split; [reflexivity|]); done.
  - left. destruct (clear_ok _ _ _ _ _ _ _ _ Hsz Hs HB AO _ _ _ (FR eq_refl) H) as (st' & E & H' & D).
    exists st', []. eexists _, _, _. split; [reflexivity|]. unfold bind. rewrite E. done.
  - left. exists st, ps. eexists _, _, _. split; [reflexivity|]. rewrite app_nil_r. split; [|done]. unfold bind, len_, gets. by rewrite (lr_size _ _ _ _ _ _ H).
  - left. exists st, ps. eexists _, _, _. split; [reflexivity|]. rewrite app_nil_r. split; [|done]. unfold bind, size_, gets. by rewrite (lr_size _ _ _ _ _ _ H).
  - left. exists st, ps. eexists _, _, _. split; [reflexivity|]. rewrite app_nil_r. split; [|done]. unfold is_empty, bind, len_, gets. rewrite (lr_size _ _ _ _ _ _ H). by destruct xs.
  - left. exists st, ps. eexists _, _, _. split; [reflexivity|]. rewrite app_nil_r. split; [|done]. unfold empty_, bind, size_, gets. rewrite (lr_size _ _ _ _ _ _ H). by destruct xs.
  - destruct (extend_ok _ _ _ _ _ _ _ _ Hsz Hs HB AO _ _ _ ys H LE) as [(st' & qs & E & H' & D)|(EN & k & st' & ps' & K & E & H' & D)].
    + left. exists st', (ps ++ qs). eexists _, _, _. split; [reflexivity|]. unfold bind. rewrite E, app_nil_r. split; [done|]. split; [done|]. split; [done|]. by apply stays_app.
    + right. split; [done|]. exists k, st', ps'. split; [done|]. unfold bind. rewrite E. done.
  - left. exists st, ps. eexists _, _, _. split; [reflexivity|]. rewrite app_nil_r. split; [|done]. unfold bind. by rewrite (iter_all_ok _ _ _ _ _ _ _ _ Hsz Hs HB AO _ _ _ H).
  - left. destruct (iter_mut_ok _ _ _ _ _ _ _ _ Hsz Hs HB AO _ _ _ g H) as (st' & E & H' & D).
    exists st', ps. eexists _, _, _. split; [reflexivity|]. unfold bind. rewrite E, app_nil_r. done.
Qed.

Lemma run_at cs : forall st xs ps, LRep st xs ps -> ((exists c, c ∈ cs /\ frees c = true) -> FreeOK aa chk nsz s I) -> Z.of_nat (peak cs (length xs)) <= B ->
  exists l st' ps' xs' d, l_run aa chk nsz nal cs st = Some (l, st') /\ LRep st' xs' ps' /\ explains cs l d xs xs' /\
    l_drops st' = l_drops st ++ d /\ (nul = false -> spec_run cs xs = (omap id l, d, xs') /\ None ∉ l /\
      forall i j p, ends_at cs (length xs) i = Some j -> ps !! i = Some p -> ps' !! j = Some p).
Proof.
  induction cs as [|c cs IH]; intros st xs ps H FR LE.
  - exists [], st, ps, xs, []. rewrite app_nil_r. split; [done|]. split; [done|]. split; [constructor|]. split; [done|]. intros _. split; [done|]. split; [apply not_elem_of_nil|]. by intros i j p [= ->].
  - cbn in LE. assert (L1 : Z.of_nat (length xs + length (pushed c)) <= B).
    { pose proof (peak_ge cs (len_call c (length xs))). destruct (len_call_ge c (length xs)) as [[_ E]|E]; rewrite E in *; cbn; lia. }
    destruct (call_at st xs ps c H) as [(st1 & ps1 & a & d & xs1 & ES & E & H1 & D1 & SY)|(EN & k & st1 & ps1 & K & E & H1 & D1)].
    + intros F. apply FR. exists c. split; [constructor|done].
    + done.
    + destruct (IH st1 xs1 ps1 H1) as (l & st2 & ps2 & xs2 & d2 & E2 & H2 & X2 & D2 & N2).
      { intros (c' & Hc & F). apply FR. exists c'. split; [by constructor|done]. }
      { rewrite (spec_len _ _ _ _ _ ES). lia. }
      exists (Some a :: l), st2, ps2, xs2, (d ++ d2). cbn. rewrite E, E2. split; [done|]. split; [done|]. split; [by econstructor|].
      split; [by rewrite D2, D1, <- app_assoc|]. intros Hn. destruct (N2 Hn) as [N2a N2b]. rewrite ES, N2a. split; [done|].
      split; [intros X; apply elem_of_cons in X as [X|X]; [done|by apply N2b]|].
      intros i j p EJ Hp. cbn [ends_at] in EJ. destruct (moves_to c (length xs) i) as [i1|] eqn:EM; [|done].
      rewrite <- (spec_len _ _ _ _ _ ES) in EJ. destruct N2b as [_ N2b]. eapply N2b; [exact EJ|]. by eapply SY.
    + destruct (IH st1 (xs ++ take k (pushed c)) ps1 H1) as (l & st2 & ps2 & xs2 & d2 & E2 & H2 & X2 & D2 & N2).
      { intros (c' & Hc & F). apply FR. exists c'. split; [by constructor|done]. }
      { rewrite app_length, take_length. destruct (len_call_ge c (length xs)) as [[_ EP]|EP]; [rewrite EP in K; cbn in K; lia|].
        assert (length xs + k `min` length (pushed c) <= len_call c (length xs))%nat as L2 by lia. pose proof (peak_mono cs _ _ L2). lia. }
      exists (None :: l), st2, ps2, xs2, (drop k (pushed c) ++ d2). cbn. rewrite E, E2. split; [done|]. split; [done|]. split; [by constructor|].
      split; [by rewrite D2, D1, <- app_assoc|]. by rewrite EN.
Qed.
Lemma call_ok st xs ps c : LRep st xs ps -> (frees c = true -> FreeOK aa chk nsz s I) -> Z.of_nat (length xs + length (pushed c)) <= B ->
  (exists st' ps' a d xs', spec_call c xs = (a, d, xs') /\ l_call aa chk nsz nal c st = Ok a st' /\ LRep st' xs' ps' /\ l_drops st' = l_drops st ++ d) \/
  (nul = true /\ exists k st' ps', (k < length (pushed c))%nat /\ l_call aa chk nsz nal c st = Panic st' /\ LRep st' (xs ++ take k (pushed c)) ps' /\
     l_drops st' = l_drops st ++ drop k (pushed c)).
Proof.
  intros H FR LE. destruct (call_at st xs ps c H FR LE) as [(st' & ps' & a & d & xs' & H1 & H2 & H3 & H4 & _)|H']; [left|by right].
  by exists st', ps', a, d, xs'.
Qed.
Lemma run_ok cs : forall st xs ps, LRep st xs ps -> ((exists c, c ∈ cs /\ frees c = true) -> FreeOK aa chk nsz s I) -> Z.of_nat (peak cs (length xs)) <= B ->
  exists l st' ps' xs' d, l_run aa chk nsz nal cs st = Some (l, st') /\ LRep st' xs' ps' /\ explains cs l d xs xs' /\
    l_drops st' = l_drops st ++ d /\ (nul = false -> spec_run cs xs = (omap id l, d, xs') /\ None ∉ l).
Proof.
  intros st xs ps H FR LE. destruct (run_at cs st xs ps H FR LE) as (l & st' & ps' & xs' & d & H1 & H2 & H3 & H4 & H5).
  exists l, st', ps', xs', d. split; [done|]. split; [done|]. split; [done|]. split; [done|]. intros N. by destruct (H5 N) as (? & ? & _).
Qed.

(** *** What the ring looks like from outside *)
Lemma follow_from (m : mem T) x ps e : (forall y, y ∈ x :: ps -> word_at m y = true) -> fwd (m_word m) x ps e -> follow_next m x ps e.
Proof.
  revert x. induction ps as [|p ps IH]; intros x W F; cbn in *.
  - by rewrite load_word_ok by (apply W; constructor).
  - destruct F as [F1 F2]. split; [by rewrite load_word_ok by (apply W; constructor)|]. apply IH; [|done]. intros y Hy. apply W. by constructor.
Qed.
Lemma seg_bwd (m : mem T) x ps e : (forall y, y ∈ ps ++ [e] -> word_at m (y + 8) = true) ->
  Forall (link (m_word m)) (zip (x :: ps) (ps ++ [e])) -> follow_prev m e (rev ps) x.
Proof.
  revert x e. induction ps as [|p ps IH] using rev_ind; intros x e W F.
  - cbn in *. apply Forall_cons in F as [[_ F] _]. cbn in F. rewrite load_word_ok; [done|]. apply W. constructor.
  - rewrite rev_unit. cbn. rewrite zip_back, List.last_last in F. apply Forall_app in F as [F FL]. apply Forall_cons in FL as [[_ FL] _]. cbn in FL.
    split; [rewrite load_word_ok; [done|apply W; set_solver]|]. apply IH.
    + intros y Hy. apply W. apply elem_of_app. by left.
    + change (x :: ps ++ [p]) with ((x :: ps) ++ [p]) in F. rewrite <- (app_nil_r (ps ++ [p])) in F.
      rewrite zip_with_app in F by (rewrite app_length; cbn; lia). change (zip_with pair [p] []) with (@nil (Z * Z)) in F. rewrite app_nil_r in F. exact F.
Qed.
Lemma rep_follow st xs ps : LRep st xs ps ->
  follow_next (l_mem st) s ps s /\ follow_prev (l_mem st) s (rev ps) s /\ Forall2 (fun p x => load_val (l_mem st) p nsz = Some x) ps xs /\ NoDup (s :: ps).
Proof.
  intros [EN ES HI R V LB]. split; [|split; [|split]].
  - apply follow_from; [|by apply seg_fwd]. intros y Hy. eapply (alloc_words aa chk nsz nal s B nul I Hsz Hs AO); done.
  - apply seg_bwd; [|done]. intros y Hy. eapply (alloc_words aa chk nsz nal s B nul I Hsz Hs AO); [done|].
    apply elem_of_app in Hy as [Hy|Hy]; [by constructor|]. apply elem_of_list_singleton in Hy as ->. constructor.
  - assert (SUB : forall p, p ∈ ps -> accessible (l_mem st) p nsz = true).
    { intros p Hp. by destruct (ao_node _ _ _ _ _ _ _ _ AO _ _ _ _ HI Hp) as (_ & _ & AC & _). }
    clear -V SUB. induction V; constructor; [unfold load_val; by rewrite SUB by constructor|]. apply IHV. intros q Hq. apply SUB. by constructor.
  - by eapply (alloc_nodup aa chk nsz nal s B nul I).
Qed.

Lemma rep_iter_take k st xs ps : LRep st xs ps ->
  exists i i', iter st = Ok i st /\ it_len i = Z.of_nat (length xs) /\
    iter_take chk nsz k i st = Ok (map Some (take k xs) ++ replicate (k - length xs) None, i') st /\ it_len i' = Z.of_nat (length xs - k).
Proof.
  intros H. pose proof H as [EN ES HI R V LB]. exists (LIter s s (Z.of_nat (length xs))).
  destruct (iter_take_ok _ _ _ _ _ _ _ _ Hsz Hs HB AO k st s ps xs (LIter s s (Z.of_nat (length xs))) ps HI) as (i' & E & L); try done.
  - by eapply rep_fwd.
  - constructor.
  - exists i'. split; [|done]. unfold iter, size_, bind, gets. by rewrite EN, ES.
Qed.

Lemma drop_ok st xs ps : FreeOK aa chk nsz s I -> LRep st xs ps ->
  exists st', list_drop aa chk nsz st = Ok tt st' /\ I (l_alloc st') (l_mem st') [] /\ l_drops st' = l_drops st ++ xs.
Proof.
  intros FR H. destruct (clear_ok _ _ _ _ _ _ _ _ Hsz Hs HB AO _ _ _ FR H) as (st' & E & H' & D). exists st'. split; [done|]. split; [apply H'|done].
Qed.

End runs.

(** ** Conservation *)
Lemma last_perm {T} (xs : list T) x : last xs = Some x -> xs ≡ₚ x :: removelast xs.
Proof.
  destruct xs as [|y xs _] using rev_ind; [done|]. rewrite last_snoc, removelast_last. intros E. simplify_eq. solve_Permutation.
Qed.
Lemma spec_conserve {T} (c : lcall T) xs a d xs' : no_rewrite c = true -> spec_call c xs = (a, d, xs') ->
  given c ++ xs ≡ₚ taken c (Some a) ++ d ++ xs'.
Proof.
  destruct c; cbn; intros N E; simplify_eq; cbn; rewrite ?app_nil_r; try done; try solve_Permutation.
  - destruct (last xs) as [x|] eqn:E; cbn; [by apply last_perm|]. apply last_None in E as ->. done.
  - by destruct xs.
  - destruct xs; simplify_eq; cbn; solve_Permutation.
  - destruct (last xs) as [y|] eqn:E'; simplify_eq; cbn; [|done]. rewrite (last_perm _ _ E') at 1. solve_Permutation.
Qed.
Lemma explains_conserve {T} (cs : list (lcall T)) l d xs xs' : forallb no_rewrite cs = true -> explains cs l d xs xs' ->
  concat (map given cs) ++ xs ≡ₚ all_taken cs l ++ d ++ xs'.
Proof.
  intros N X. induction X as [xs|c cs a l d d' xs xs1 xs2 ES X IH|c cs k l d xs xs' K X IH]; cbn in *; [done| |].
  - apply andb_prop in N as [N1 N2]. pose proof (spec_conserve _ _ _ _ _ N1 ES) as P1. specialize (IH N2).
    transitivity (taken c (Some a) ++ d ++ concat (map given cs) ++ xs1); [|rewrite IH; solve_Permutation].
    transitivity (concat (map given cs) ++ given c ++ xs); [solve_Permutation|]. rewrite P1. solve_Permutation.
  - apply andb_prop in N as [N1 N2]. specialize (IH N2).
    assert (taken c None = []) as -> by (destruct c; done).
    assert (EG : given c = pushed c) by (destruct c; cbn in *; try done; lia). rewrite EG.
    transitivity (drop k (pushed c) ++ concat (map given cs) ++ xs ++ take k (pushed c)); [|rewrite IH; solve_Permutation].
    rewrite <- (take_drop k (pushed c)) at 1. solve_Permutation.
Qed.

(** ** The default allocator *)
Lemma list_layout_facts nsz nal : list_layout nsz nal -> node_layout nsz nal /\ 16 <= nsz < usize_lim /\ 0 <= nsz * 16 < usize_lim.
Proof.
  intros (NL & L16 & LK). pose proof (node_layout_pos _ _ NL). unfold layout_ok, isize_max, usize_lim in *. split; [done|]. lia.
Qed.

Section default.
Context {T : Type}.
Variables (pick : mem T -> Z -> Z -> Z) (strict chk : bool) (nsz nal obj bytes : Z) (m0 : mem T) (nul : bool) (B : nat).
Hypothesis LS : ListSetup m0 obj bytes nsz nal.
Hypothesis HP : honest pick.
Hypothesis HN : nul = false -> room pick (m_live m0) nsz nal B.
Hypothesis H16 : 16 <= bytes.

Local Notation aa := (DefaultAddrAlloc pick strict).
Definition DI (u : unit) (m : mem T) (L : list Z) : Prop := DInv nsz nal (m_live m0) m L.

Lemma dinv_perm (m : mem T) L L' : DInv nsz nal (m_live m0) m L -> L ≡ₚ L' -> DInv nsz nal (m_live m0) m L'.
Proof.
  intros [D1 D2 D3 D4] P. split.
  - by rewrite D1, P.
  - intros p Hp. apply D2. by rewrite P.
  - by rewrite <- P.
  - intros p q Hp Hq. apply D4; by rewrite P.
Qed.

Lemma alloc_keeps (m : mem T) L p : DInv nsz nal (m_live m0) m L -> accessible m obj 16 = true -> may_place m p nsz nal ->
  keeps obj L m (mem_alloc m p nsz nal).
Proof.
  intros D AS MP. pose proof (list_layout_facts _ _ (ls_node _ _ _ _ _ LS)) as (NL & Z16 & _).
  assert (AP : forall x, x ∈ obj :: L -> p + nsz <= x \/ x + 16 <= p).
  { intros x Hx. apply (may_place_apart m p nsz nal); [lia|done|]. apply elem_of_cons in Hx as [-> |Hx]; [done|].
    eapply accessible_sub; [eapply dinv_block; [exact D|exact Hx]|lia|lia]. }
  split.
  - intros x Hx. specialize (AP _ Hx). split; apply alloc_word_other; unfold meets; cbn; lia.
  - intros x Hx. specialize (AP x ltac:(by constructor)). apply alloc_val_other. unfold meets; cbn; lia.
Qed.

Lemma obj_accessible (m : mem T) L : DInv nsz nal (m_live m0) m L -> accessible m obj 16 = true.
Proof.
  intros D. eapply accessible_live; [|eapply accessible_sub; [apply LS|lia|lia]]. intros r Hr. by eapply dinv_old.
Qed.

Lemma default_ok : AllocOK aa chk nsz nal obj (Z.of_nat B) nul DI.
Proof.
  pose proof (list_layout_facts _ _ (ls_node _ _ _ _ _ LS)) as (NL & Z16 & _). pose proof (node_layout_pos _ _ NL) as (? & D8 & ? & ?).
  split; unfold DI.
  - intros a m L p D Hp. destruct (di_place _ _ _ _ _ D p Hp) as (? & ? & DV & ?). split; [done|]. split; [by etransitivity|].
    split; [by eapply dinv_block|]. eapply (dinv_apart nsz nal (m_live m0)); [apply LS|exact D|done|done|lia|]. eapply accessible_sub; [apply LS|lia|lia].
  - intros a m L D. apply D.
  - intros a m L p q D. apply (di_pair _ _ _ _ _ D).
  - intros a m L D. by eapply obj_accessible.
  - intros a m L L' D P. by eapply dinv_perm.
  - intros a m m' L D (E & _). by eapply dinv_live.
  - intros a m L D LT. unfold allocate. unfold bind. rewrite Z.mul_1_l, usizeZ_ok by lia. cbn [aa_alloc DefaultAddrAlloc].
    destruct (default_alloc_ok pick nsz nal (m_live m0) NL HP a m L D) as (p & m' & E & C & EP). exists p, a, m'. split; [done|].
    destruct C as [(-> & -> & D')|(NE & MP & -> & D')].
    + split; [by split|]. left. split; [done|]. split; [|done]. destruct nul; [done|]. exfalso. apply (HN eq_refl m L); [lia|apply D|done].
    + split; [|by right]. apply alloc_keeps; [done|by eapply obj_accessible|done].
Qed.

Lemma default_frees : strict = false -> FreeOK aa chk nsz obj DI.
Proof.
  intros ST a m p L D. pose proof (ls_node _ _ _ _ _ LS) as (NL & _ & LK). pose proof (list_layout_facts _ _ (ls_node _ _ _ _ _ LS)) as (_ & _ & ?).
  unfold deallocate. unfold bind. rewrite usizeZ_ok by lia. cbn [aa_free DefaultAddrAlloc].
  destruct (default_free_ok strict nsz nal (m_live m0) NL (ls_wf _ _ _ _ _ LS) a m (p :: L) L p (nsz * 16) 8 D) as (m' & E & D' & EW & EV); [done|done|by left|].
  exists a, m'. split; [done|]. split; [|done]. split; [intros x _; by rewrite EW|intros x _; by rewrite EV].
Qed.

(** The request of the list does not have the layout of the block. *)
Lemma strict_free a m p L : strict = true -> DI a m (p :: L) -> deallocate aa chk 16 8 p nsz (a, m) = UB.
Proof.
  intros ST D. pose proof (ls_node _ _ _ _ _ LS) as (NL & Z16 & LK). pose proof (list_layout_facts _ _ (ls_node _ _ _ _ _ LS)) as (_ & _ & ?).
  unfold deallocate. unfold bind. rewrite usizeZ_ok by lia. cbn [aa_free DefaultAddrAlloc]. unfold default_free_raw. rewrite LK. cbn [snd fst]. unfold mem_free.
  destruct (remove_block p (m_live m)) as [[r l]|] eqn:E; [|done].
  destruct (remove_block_some _ _ _ _ E) as (PL & EB & EH).
  destruct (di_place _ _ _ _ _ D p ltac:(constructor)) as (P1 & P2 & P3 & P4).
  assert (r = blk nsz nal p) as ->.
  { assert (Hr : r ∈ m_live m0 ++ map (blk nsz nal) (p :: L)) by (rewrite <- (di_live _ _ _ _ _ D), PL; constructor).
    apply elem_of_app in Hr as [Hr|Hr].
    - specialize (P4 _ Hr). pose proof (ls_wf _ _ _ _ _ LS _ Hr). unfold meets in P4. lia.
    - apply elem_of_list_fmap in Hr as (q & -> & Hq). cbn in EB. by subst. }
  rewrite ST. cbn. rewrite (proj2 (Z.eqb_neq nsz (nsz * 16))) by lia. done.
Qed.

Lemma new_ok : exists s0, list_new obj tt m0 = Ok tt s0 /\ LRep obj (Z.of_nat B) DI s0 [] [] /\ l_drops s0 = [].
Proof.
  assert (A16 : accessible m0 obj 16 = true) by (eapply accessible_sub; [apply LS|lia|lia]).
  assert (W : word_at m0 obj = true /\ word_at m0 (obj + 8) = true).
  { pose proof (ls_align _ _ _ _ _ LS). split; apply (word_at_ok _ obj 16); try done; try lia. by apply Z.divide_add_r; [|exists 1]. }
  unfold list_new, init_sentinel_node, bind, gets, set_prev, set_next. cbn [l_node]. destruct W as [W1 W2].
  rewrite put_word_ok by done. rewrite put_word_ok by done. eexists. split; [reflexivity|]. split; [|done]. split; try done.
  - split; cbn.
    + by rewrite app_nil_r.
    + intros p Hp. by apply elem_of_nil in Hp.
    + constructor.
    + intros p q Hp. by apply elem_of_nil in Hp.
  - cbn. unfold ring. cbn. constructor; [|constructor]. split; cbn; [apply lookup_insert|]. rewrite lookup_insert_ne by lia. apply lookup_insert.
  - cbn. lia.
Qed.

End default.
