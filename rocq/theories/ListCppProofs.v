(** Proofs about lists shared by Rust and C++. *)
From Verif Require Import Base Alloc AddrMem FixedPool FixedPoolSpec FixedPoolProofs LinkedList LinkedListSpec LinkedListProofs LinkedListCalls LinkedListRuns LinkedListFixed ListCpp ListCppSpec.
Local Open Scope Z_scope.

(** ** Rings, anywhere *)
Lemma zip_mid (ps1 ps2 : list Z) (e : Z) : forall s, zip (s :: ps1 ++ ps2) ((ps1 ++ ps2) ++ [e]) =
  zip (s :: ps1) ps1 ++ (last_of s ps1, hd e ps2) :: zip ps2 (tl (ps2 ++ [e])).
Proof.
  induction ps1 as [|p ps1 IH]; intros s.
  - cbn [app]. by rewrite zip_front.
  - change (zip (s :: (p :: ps1) ++ ps2) (((p :: ps1) ++ ps2) ++ [e])) with ((s, p) :: zip (p :: ps1 ++ ps2) ((ps1 ++ ps2) ++ [e])).
    rewrite IH. change (zip (s :: p :: ps1) (p :: ps1)) with ((s, p) :: zip (p :: ps1) ps1). unfold last_of. by rewrite last_cons_default.
Qed.
Lemma zip_fst {X Y} (l : list X) : forall (k : list Y), length l = length k -> map fst (zip l k) = l.
Proof. induction l as [|x l IH]; intros [|y k] E; cbn in *; try done; try lia. f_equal. apply IH. lia. Qed.
Lemma zip_snd {X Y} (l : list X) : forall (k : list Y), length l = length k -> map snd (zip l k) = k.
Proof. induction l as [|x l IH]; intros [|y k] E; cbn in *; try done; try lia. f_equal. apply IH. lia. Qed.

(** The pairs of a ring besides one of them have other ends. *)
Lemma mid_rest s ps1 ps2 c d : NoDup (s :: ps1 ++ ps2) ->
  (c, d) ∈ zip (s :: ps1) ps1 ++ zip ps2 (tl (ps2 ++ [s])) ->
  c ∈ s :: ps1 ++ ps2 /\ d ∈ s :: ps1 ++ ps2 /\ c <> last_of s ps1 /\ d <> first_of s ps2.
Proof.
  intros ND HI.
  assert (L : length (s :: ps1 ++ ps2) = length ((ps1 ++ ps2) ++ [s])) by (rewrite (app_length _ [s]); cbn; lia).
  assert (P : zip (s :: ps1 ++ ps2) ((ps1 ++ ps2) ++ [s]) ≡ₚ (last_of s ps1, first_of s ps2) :: zip (s :: ps1) ps1 ++ zip ps2 (tl (ps2 ++ [s]))).
  { rewrite zip_mid. by rewrite <- Permutation_middle. }
  assert (ND2 : NoDup ((ps1 ++ ps2) ++ [s])) by (by rewrite Permutation_app_comm).
  assert (HZ : (c, d) ∈ zip (s :: ps1 ++ ps2) ((ps1 ++ ps2) ++ [s])) by (rewrite P; by constructor).
  pose proof (elem_zip _ _ _ _ HZ) as [Hc Hd]. split; [done|]. split.
  { apply elem_of_app in Hd as [Hd|Hd]; [by constructor|]. apply elem_of_list_singleton in Hd as ->. constructor. }
  rewrite <- (zip_fst _ _ L), P in ND. rewrite <- (zip_snd _ _ L), P in ND2. cbn [map fst snd] in ND, ND2.
  apply NoDup_cons in ND as [N1 _]. apply NoDup_cons in ND2 as [N2 _].
  split; intros ->.
  - apply N1. change (last_of s ps1) with (fst (last_of s ps1, d)). by apply elem_of_list_fmap_1.
  - apply N2. change (first_of s ps2) with (snd (c, first_of s ps2)). by apply elem_of_list_fmap_1.
Qed.

Lemma ring_mid w s ps1 ps2 : ring w s (ps1 ++ ps2) ->
  w !! last_of s ps1 = Some (first_of s ps2) /\ w !! (first_of s ps2 + 8) = Some (last_of s ps1).
Proof.
  unfold ring. rewrite zip_mid. intros R. apply Forall_app in R as [_ R]. by apply Forall_cons in R as [[R1 R2] _].
Qed.
Lemma mid_in s (ps1 ps2 : list Z) : last_of s ps1 ∈ s :: ps1 ++ ps2 /\ first_of s ps2 ∈ s :: ps1 ++ ps2.
Proof.
  pose proof (last_of_in s ps1) as H1. pose proof (first_of_in s ps2) as H2. split.
  - apply elem_of_cons in H1 as [-> |H1]; [constructor|]. apply elem_of_cons; right. apply elem_of_app. by left.
  - apply elem_of_cons in H2 as [-> |H2]; [constructor|]. apply elem_of_cons; right. apply elem_of_app. by right.
Qed.

Lemma ring_insert w s ps1 ps2 p : NoDup (s :: ps1 ++ ps2) -> p ∉ s :: ps1 ++ ps2 -> sep (p :: s :: ps1 ++ ps2) -> ring w s (ps1 ++ ps2) ->
  ring (<[first_of s ps2 + 8 := p]> (<[last_of s ps1 := p]> (<[p + 8 := last_of s ps1]> (<[p := first_of s ps2]> w)))) s (ps1 ++ p :: ps2).
Proof.
  intros ND NI SP R. unfold ring in *. rewrite zip_mid. rewrite zip_mid in R. destruct (mid_in s ps1 ps2) as [LI FI].
  change (zip (p :: ps2) (tl ((p :: ps2) ++ [s]))) with (zip (p :: ps2) (ps2 ++ [s])). rewrite zip_front. cbn [hd].
  fold (first_of s ps2) in R |- *. rewrite <- Permutation_middle in R |- *. apply Forall_cons in R as [_ R].
  rewrite <- Permutation_middle. apply (relink_insert w (p :: s :: ps1 ++ ps2)); [done|by constructor|by constructor|constructor| | | |done].
  - intros E. by rewrite E in LI.
  - intros E. by rewrite E in FI.
  - intros c d HI. destruct (mid_rest _ _ _ _ _ ND HI) as (Hc & Hd & ? & ?). split; [by constructor|]. split; [by constructor|].
    split; [done|]. split; [done|]. split; intros ->; done.
Qed.
Lemma ring_erase w s ps1 p ps2 : NoDup (s :: ps1 ++ p :: ps2) -> sep (s :: ps1 ++ p :: ps2) -> ring w s (ps1 ++ p :: ps2) ->
  w !! p = Some (first_of s ps2) /\ w !! (p + 8) = Some (last_of s ps1) /\
  ring (<[last_of s ps1 := first_of s ps2]> (<[first_of s ps2 + 8 := last_of s ps1]> w)) s (ps1 ++ ps2).
Proof.
  intros ND SP R. destruct (mid_in s ps1 ps2) as [LI FI].
  assert (SUB : forall y, y ∈ s :: ps1 ++ ps2 -> y ∈ s :: ps1 ++ p :: ps2) by (intros y; clear; set_solver).
  assert (ND' : NoDup (s :: ps1 ++ ps2)).
  { assert (P : s :: ps1 ++ p :: ps2 ≡ₚ p :: s :: ps1 ++ ps2) by solve_Permutation. rewrite P in ND. by apply NoDup_cons in ND as [_ ND]. }
  assert (E1 : w !! (p + 8) = Some (last_of s ps1)) by (apply (ring_mid w s ps1 (p :: ps2) R)).
  assert (E2 : w !! p = Some (first_of s ps2)).
  { rewrite cons_middle, app_assoc in R. pose proof (ring_mid w s (ps1 ++ [p]) ps2 R) as [X _]. unfold last_of in X. by rewrite List.last_last in X. }
  split; [done|]. split; [done|]. unfold ring in *. rewrite zip_mid in R. rewrite zip_mid.
  change (zip (p :: ps2) (tl ((p :: ps2) ++ [s]))) with (zip (p :: ps2) (ps2 ++ [s])) in R. rewrite zip_front in R. cbn [hd] in R.
  fold (first_of s ps2) in R |- *. rewrite <- Permutation_middle in R |- *. apply Forall_cons in R as [_ R].
  rewrite <- Permutation_middle in R. apply Forall_cons in R as [_ R].
  apply (relink_remove w (s :: ps1 ++ ps2)); [intros x y Hx Hy; apply SP; auto|done|done| |done].
  intros c d HI. destruct (mid_rest _ _ _ _ _ ND' HI) as (Hc & Hd & ? & ?). done.
Qed.

Lemma reverse_is_rev {X} (l : list X) : reverse l = rev l.
Proof. symmetry. apply rev_alt. Qed.
(** Swapping the pointers of every node turns the ring round. *)
Lemma ring_reverse (w w' : gmap Z Z) s ps : ring w s ps ->
  (forall x, x ∈ s :: ps -> w' !! x = w !! (x + 8) /\ w' !! (x + 8) = w !! x) -> ring w' s (rev ps).
Proof.
  intros R H. unfold ring in *. rewrite Forall_forall in R |- *. intros [c d] HI.
  assert (HI' : (d, c) ∈ zip (s :: ps) (ps ++ [s])).
  { apply elem_of_list_lookup in HI as (i & Hi). apply lookup_zip_with_Some in Hi as (c' & d' & E & Hc & Hd). simplify_eq.
    change (s :: rev ps) with ([s] ++ rev ps) in Hc. change ([s] ++ rev ps) with (rev [s] ++ rev ps) in Hc. change (rev ps ++ [s]) with (rev (s :: ps)) in Hd.
    rewrite <- rev_app_distr in Hc. rewrite <- reverse_is_rev in Hc, Hd.
    assert (Li := lookup_lt_Some _ _ _ Hc). rewrite reverse_length, app_length in Li. cbn in Li.
    rewrite reverse_lookup in Hc by (rewrite app_length; cbn; lia). rewrite reverse_lookup in Hd by (cbn; lia).
    apply elem_of_list_lookup. exists (length ps - i)%nat. apply lookup_zip_with_Some. exists d', c'. split; [done|].
    rewrite app_length in Hc. cbn [length] in Hc, Hd.
    replace (length ps + 1 - S i)%nat with (length ps - i)%nat in Hc by lia. replace (S (length ps) - S i)%nat with (length ps - i)%nat in Hd by lia. done. }
  destruct (R _ HI') as [L1 L2]. cbn in L1, L2. pose proof (elem_zip _ _ _ _ HI') as [Hd Hc].
  assert (Hc' : c ∈ s :: ps). { apply elem_of_app in Hc as [Hc|Hc]; [by constructor|]. apply elem_of_list_singleton in Hc as ->. constructor. }
  split; cbn; [by rewrite (proj1 (H c Hc'))|by rewrite (proj2 (H d Hd))].
Qed.

(** Following next from a node. *)
Lemma ring_next w s ps1 p ps2 : ring w s (ps1 ++ p :: ps2) -> w !! p = Some (first_of s ps2) /\ w !! (p + 8) = Some (last_of s ps1).
Proof.
  intros R. split.
  - rewrite cons_middle, app_assoc in R. pose proof (ring_mid w s (ps1 ++ [p]) ps2 R) as [X _]. unfold last_of in X. by rewrite List.last_last in X.
  - apply (ring_mid w s ps1 (p :: ps2) R).
Qed.

(** It takes nodes back, with the request C++ makes. *)
Definition FreeX {A T} (aa : AddrAlloc A T) (chk : bool) (nsz nal s : Z) (I : A -> mem T -> list Z -> Prop) : Prop :=
  forall a m p L, I a m (p :: L) ->
    exists a' m', deallocate aa chk nsz nal p 1 (a, m) = Ok tt (a', m') /\ keeps s L m m' /\ I a' m' L.

Section calls.
Context {A T : Type}.
Variables (aa : AddrAlloc A T) (chk : bool) (nsz nal s B : Z) (I : A -> mem T -> list Z -> Prop).
Hypothesis Hsz : 16 <= nsz.
Hypothesis Hs : (8 | s).
Hypothesis HB : B < u32_lim.
Hypothesis AO : AllocOK aa chk nsz nal s B false I.
Hypothesis FR : FreeOK aa chk nsz s I.
Hypothesis FX : FreeX aa chk nsz nal s I.

Local Notation LRep := (LRep s B I).
Local Notation words := (alloc_words aa chk nsz nal s B false I Hsz Hs AO).
Local Notation ne := (alloc_ne aa chk nsz nal s B false I Hsz AO).

Lemma rep_split st xs ps i : LRep st xs ps -> (i <= length xs)%nat ->
  ps = take i ps ++ drop i ps /\ xs = take i xs ++ drop i xs /\ length (take i ps) = i /\ length (take i xs) = i /\ length ps = length xs.
Proof using Type.
  intros H Li. pose proof (Forall2_length _ _ _ (lr_vals _ _ _ _ _ _ H)) as L. rewrite !take_drop, !take_length. split; [done|]. split; [done|]. lia.
Qed.

Lemma walk_ok st xs ps2 : forall i ps1 (p : Z), LRep st xs (ps1 ++ ps2) -> (i <= length ps2)%nat -> p = first_of s ps2 ->
  cpp_walk i p st = Ok (first_of s (drop i ps2)) st.
Proof using Hsz Hs HB AO.
  induction ps2 as [|q ps2 IH]; intros i ps1 p H Li ->.
  - destruct i; [|cbn in Li; lia]. done.
  - destruct i as [|i]; [by rewrite drop_0|]. cbn [cpp_walk first_of hd drop]. pose proof H as [EN ES HI R V LB].
    unfold bind at 1, gets at 1. rewrite EN. rewrite (proj2 (Z.eqb_neq q s)) by (eapply ne; [done|apply elem_of_app; right; constructor]).
    unfold bind at 1. destruct (words _ _ _ q HI) as [W1 _]; [apply elem_of_cons; right; apply elem_of_app; right; constructor|].
    unfold get_next. rewrite (get_word_ok _ _ _ W1 (proj1 (ring_next _ _ _ _ _ R))).
    apply (IH i (ps1 ++ [q])); [by rewrite <- app_assoc|cbn in Li; lia|done].
Qed.
Lemma at_ok st xs ps i : LRep st xs ps -> (i <= length xs)%nat -> cpp_at i st = Ok (first_of s (drop i ps)) st.
Proof using Hsz Hs HB AO.
  intros H Li. pose proof H as [EN ES HI R V LB]. unfold cpp_at. unfold bind at 1, gets at 1. rewrite EN. unfold bind at 1.
  rewrite (proj1 (ends aa chk nsz nal s B false I Hsz Hs AO _ _ _ H)). apply (walk_ok st xs ps i []); [done| |done].
  by rewrite (Forall2_length _ _ _ V).
Qed.

(** *** Inserting *)
Lemma mod_u32 z : 0 <= z < u32_lim -> z mod u32_lim = z.
Proof using Type. intros. by apply Z.mod_small. Qed.

Lemma insert_ok st xs ps i x : LRep st xs ps -> (i <= length xs)%nat -> Z.of_nat (length xs) < B ->
  exists st' ps', cpp_insert aa chk nsz nal i x st = Ok tt st' /\ LRep st' (take i xs ++ x :: drop i xs) ps' /\ l_drops st' = l_drops st.
Proof using Hsz Hs HB AO.
  intros H Li LT. pose proof H as [EN ES HI R V LB]. unfold cpp_insert. unfold bind at 1. rewrite (at_ok _ _ _ _ H Li).
  destruct (rep_split _ _ _ _ H Li) as (EPS & EXS & L1 & L2 & LL). set (ps1 := take i ps) in *. set (ps2 := drop i ps) in *.
  set (xs1 := take i xs) in *. set (xs2 := drop i xs) in *. 
  destruct (ao_alloc _ _ _ _ _ _ _ _ AO _ _ _ HI) as (p & a' & m' & E & [KW KV] & [(_ & C & _)|(NE & I')]); [by rewrite LL|done|].
  unfold bind at 1. rewrite (in_alloc_ok _ _ _ _ _ E). rewrite (proj2 (Z.eqb_neq p 0) NE).
  assert (R' : ring (m_word m') s ps) by (eapply ring_frame; [exact R|exact KW]).
  assert (V' : Forall2 (fun p x => m_val m' !! p = Some x) ps xs) by (eapply vals_keep; [exact KV|exact V]).
  destruct (ao_node _ _ _ _ _ _ _ _ AO _ _ _ p I' ltac:(constructor)) as (? & ? & AC & _).
  unfold bind at 1. rewrite put_val_ok by done. set (st1 := setv _ _).
  assert (I1 : I (l_alloc st1) (l_mem st1) (p :: ps)) by (eapply ao_write; [exact AO|exact I'|apply (relinks_put s (LState (l_node st) (l_size st) a' m' (l_drops st))); constructor]).
  assert (ND : NoDup (s :: p :: ps)) by (by eapply (alloc_nodup aa chk nsz nal s B false I)).
  assert (SP : sep (s :: p :: ps)) by (by eapply (alloc_sep aa chk nsz nal s B false I)).
  set (nx := first_of s ps2). set (pv := last_of s ps1).
  destruct (mid_in s ps1 ps2) as [Hpv Hnx]. rewrite <- EPS in Hpv, Hnx. fold nx in Hnx. fold pv in Hpv.
  assert (NI : p ∉ s :: ps).
  { apply NoDup_cons in ND as [N1 ND]. apply NoDup_cons in ND as [N2 _]. intros X. apply elem_of_cons in X as [-> |X]; [apply N1; constructor|done]. }
  assert (ND' : NoDup (s :: ps)).
  { apply NoDup_cons in ND as [N1 ND]. apply NoDup_cons in ND as [N2 ND]. constructor; [|done]. intros X. apply N1. by constructor. }
  assert (UP : forall y, y ∈ s :: ps -> y ∈ s :: p :: ps) by (intros y; clear; set_solver).
  assert (Hp : p ∈ s :: p :: ps) by (apply elem_of_cons; right; constructor).
  assert (X1 : p <> nx) by (by intros ->).
  assert (X2 : p <> nx + 8) by (apply SP; auto).
  assert (RM : m_word m' !! (nx + 8) = Some pv) by (rewrite EPS in R'; apply (ring_mid _ _ _ _ R')).
  destruct (words _ _ _ p I1 Hp) as [W1 W2]. destruct (words _ _ _ nx I1 (UP _ Hnx)) as [_ W3]. destruct (words _ _ _ pv I1 (UP _ Hpv)) as [W4 _].
  change (m_word m') with (m_word (l_mem st1)) in RM, R'.
  unfold set_next, set_prev, get_prev. fold nx.
  unfold bind at 1. rewrite put_word_ok by done.
  unfold bind at 1. rewrite (get_word_ok _ _ pv) by (first [done|cbn; by rewrite !lookup_insert_ne by lia]).
  unfold bind at 1. rewrite put_word_ok by done.
  unfold bind at 1. rewrite put_word_ok by done.
  unfold bind at 1. rewrite put_word_ok by done.
  unfold bind at 1, gets at 1. cbn [l_size setw]. change (l_size st1) with (l_size st). rewrite ES, mod_u32 by lia.
  eexists _, (ps1 ++ p :: ps2). split; [reflexivity|]. split; [|done]. split.
  - done.
  - cbn. rewrite app_length. cbn. rewrite EXS at 1. rewrite app_length. lia.
  - cbn. eapply ao_perm; [exact AO| |instantiate (1 := p :: ps); rewrite EPS; solve_Permutation].
    eapply ao_write; [exact AO|exact I1|]. apply (relinks_insert aa chk nsz nal s B false I Hsz Hs HB AO st1).
    intros k Hk. repeat (apply elem_of_cons in Hk as [-> |Hk]); [exists nx|exists pv|exists p|exists p|by apply elem_of_nil in Hk]; auto.
  - cbn. apply ring_insert; rewrite <- EPS; [done|done|intros y z Hy Hz; apply SP; clear -Hy Hz; set_solver|done].
  - cbn. rewrite EPS, EXS in V'. apply Forall2_app_inv in V' as [V1 V2]; [|lia].
    assert (F : forall q, q ∈ ps -> <[p := x]> (m_val m') !! q = m_val m' !! q).
    { intros q Hq. apply lookup_insert_ne. intros ->. apply NI. by constructor. }
    apply Forall2_app; [|constructor; [apply lookup_insert|]].
    + eapply (vals_eq (m_val m')); [|exact V1]. intros q Hq. apply F. rewrite EPS. apply elem_of_app. by left.
    + eapply (vals_eq (m_val m')); [|exact V2]. intros q Hq. apply F. rewrite EPS. apply elem_of_app. by right.
  - rewrite app_length. cbn. rewrite EXS in LT. rewrite app_length in LT. lia.
Qed.

(** *** Erasing *)
Lemma rep_cut st xs ps i : LRep st xs ps -> (i < length xs)%nat ->
  exists p x ps2 xs2, drop i ps = p :: ps2 /\ drop i xs = x :: xs2 /\ ps2 = drop (S i) ps /\ xs2 = drop (S i) xs /\
    ps = take i ps ++ p :: ps2 /\ xs = take i xs ++ x :: xs2 /\ length (take i ps) = i /\ length (take i xs) = i.
Proof using Type.
  intros H Li. destruct (rep_split _ _ _ i H ltac:(lia)) as (EPS & EXS & L1 & L2 & LL).
  destruct (drop i ps) as [|p ps2] eqn:E1; [apply (f_equal length) in E1; rewrite drop_length in E1; cbn in E1; lia|].
  destruct (drop i xs) as [|x xs2] eqn:E2; [apply (f_equal length) in E2; rewrite drop_length in E2; cbn in E2; lia|].
  exists p, x, ps2, xs2. split; [done|]. split; [done|].
  assert (D : forall {X} (l : list X) y k, drop i l = y :: k -> k = drop (S i) l).
  { intros X l y k E. replace (S i) with (i + 1)%nat by lia. rewrite <- drop_drop, E. done. }
  split; [by eapply D|]. split; [by eapply D|]. done.
Qed.

Lemma erase_ok st xs ps i : LRep st xs ps -> (i < length xs)%nat ->
  exists st' ps', cpp_erase aa chk nsz nal i st = Ok tt st' /\ LRep st' (take i xs ++ drop (S i) xs) ps' /\ l_drops st' = l_drops st ++ take 1 (drop i xs).
Proof using All.
  intros H Li. pose proof H as [EN ES HI R V LB]. unfold cpp_erase. unfold bind at 1. rewrite (at_ok _ _ _ i H ltac:(lia)).
  destruct (rep_cut _ _ _ _ H Li) as (p & x & ps2 & xs2 & D1 & D2 & _ & EX2 & EPS & EXS & L1 & L2). rewrite D1, D2, <- EX2. cbn [first_of hd]. clear D1 D2 EX2.
  set (ps1 := take i ps) in *. set (xs1 := take i xs) in *. clearbody ps1 xs1. subst ps xs.
  unfold bind at 1, gets at 1. rewrite EN. rewrite (proj2 (Z.eqb_neq p s)) by (eapply ne; [done|apply elem_of_app; right; constructor]).
  assert (ND : NoDup (s :: ps1 ++ p :: ps2)) by (by eapply (alloc_nodup aa chk nsz nal s B false I)).
  assert (SP : sep (s :: ps1 ++ p :: ps2)) by (by eapply (alloc_sep aa chk nsz nal s B false I)).
  assert (V0 := V). apply Forall2_app_inv in V0 as [V1 V2]; [|lia]. apply Forall2_cons_1 in V2 as [VP V2].
  destruct (ring_erase _ _ _ _ _ ND SP R) as (E1 & E2 & R').
  set (nx := first_of s ps2) in *. set (pv := last_of s ps1) in *. destruct (mid_in s ps1 ps2) as [Hpv Hnx]. fold nx in Hnx. fold pv in Hpv.
  assert (UP : forall y, y ∈ s :: ps1 ++ ps2 -> y ∈ s :: ps1 ++ p :: ps2) by (intros y; clear; set_solver).
  assert (Hp : p ∈ s :: ps1 ++ p :: ps2) by (clear; set_solver).
  assert (NP : p ∉ s :: ps1 ++ ps2).
  { rewrite <- Permutation_middle in ND. apply NoDup_cons in ND as [N1 ND]. apply NoDup_cons in ND as [N2 _].
    intros X. apply elem_of_cons in X as [-> |X]; [apply N1; constructor|done]. }
  destruct (words _ _ _ p HI Hp) as [W1 W2]. destruct (words _ _ _ nx HI (UP _ Hnx)) as [_ W3]. destruct (words _ _ _ pv HI (UP _ Hpv)) as [W4 _].
  unfold get_next, get_prev, set_prev, set_next.
  unfold bind at 1. rewrite (get_word_ok _ _ nx) by done. unfold bind at 1. rewrite (get_word_ok _ _ pv) by done.
  unfold bind at 1. rewrite put_word_ok by done. unfold bind at 1. rewrite put_word_ok by done. 
  change (setw (setw st (<[nx + 8 := pv]> (m_word (l_mem st)))) (<[pv := nx]> (m_word (l_mem (setw st (<[nx + 8 := pv]> (m_word (l_mem st)))))))) with
    (setw st (<[pv := nx]> (<[nx + 8 := pv]> (m_word (l_mem st))))). set (st1 := setw _ _).
  assert (I1 : I (l_alloc st1) (l_mem st1) (p :: ps1 ++ ps2)).
  { eapply ao_perm; [exact AO|instantiate (1 := ps1 ++ p :: ps2)|by rewrite Permutation_middle].
    eapply ao_write; [exact AO|exact HI|]. apply (relinks_remove aa chk nsz nal s B false I Hsz Hs HB AO). intros k Hk.
    repeat (apply elem_of_cons in Hk as [-> |Hk]); [exists pv|exists nx|by apply elem_of_nil in Hk]; auto. }
  unfold bind at 1. rewrite (move_val_ok aa chk nsz nal s B false I AO st1 _ _ _ p x I1 eq_refl ltac:(constructor) VP). set (st2 := setv _ _).
  unfold bind at 1, modify at 1. set (st3 := logged _ _).
  assert (I2 : I (l_alloc st3) (l_mem st3) (p :: ps1 ++ ps2)) by (eapply ao_write; [exact AO|exact I1|apply (relinks_delete s st1); constructor]).
  destruct (FX _ _ _ _ I2) as (a4 & m4 & E4 & [KW KV] & I4).
  unfold bind at 1. rewrite (in_alloc_ok _ _ _ _ _ E4). unfold bind at 1, gets at 1. cbn [l_size l_node l_drops st3 st2 logged setv st1 setw].
  rewrite ES, app_length. cbn [length]. rewrite app_length in LB. cbn [length] in LB. rewrite mod_u32 by lia.
  eexists _, (ps1 ++ ps2). split; [reflexivity|]. split; [|done]. split.
  - done.
  - cbn. rewrite app_length. lia.
  - exact I4.
  - cbn. eapply ring_frame; [exact R'|]. exact KW.
  - cbn. eapply vals_keep; [exact KV|]. cbn.
    eapply (vals_eq (m_val (l_mem st))); [|by apply Forall2_app].
    intros q Hq. apply lookup_delete_ne. intros ->. apply NP. by constructor.
  - rewrite app_length. lia.
Qed.

(** *** Assigning *)
Lemma cassign_ok st xs ps i y : LRep st xs ps -> (i < length xs)%nat ->
  exists st', cpp_assign nsz i y st = Ok tt st' /\ LRep st' (<[i := y]> xs) ps /\ l_drops st' = l_drops st ++ take 1 (drop i xs).
Proof using Hsz Hs HB AO.
  intros H Li. pose proof H as [EN ES HI R V LB]. unfold cpp_assign. unfold bind at 1. rewrite (at_ok _ _ _ i H ltac:(lia)).
  destruct (rep_cut _ _ _ _ H Li) as (p & x & ps2 & xs2 & D1 & D2 & _ & EX2 & EPS & EXS & L1 & L2). rewrite D1, D2. cbn [first_of hd]. clear D1 D2 EX2.
  set (ps1 := take i ps) in *. set (xs1 := take i xs) in *. clearbody ps1 xs1. subst ps xs.
  unfold bind at 1, gets at 1. rewrite EN. rewrite (proj2 (Z.eqb_neq p s)) by (eapply ne; [done|apply elem_of_app; right; constructor]).
  assert (ND := ao_nodup _ _ _ _ _ _ _ _ AO _ _ _ HI).
  assert (NP : p ∉ ps1 ++ ps2). { rewrite <- Permutation_middle in ND. by apply NoDup_cons in ND as [N1 ND]. }
  assert (V0 := V). apply Forall2_app_inv in V0 as [V1 V2]; [|lia]. apply Forall2_cons_1 in V2 as [VP V2].
  assert (Hp : p ∈ ps1 ++ p :: ps2) by (apply elem_of_app; right; constructor).
  unfold bind at 1. rewrite (move_val_ok aa chk nsz nal s B false I AO st _ _ _ p x HI eq_refl Hp VP).
  destruct (ao_node _ _ _ _ _ _ _ _ AO _ _ _ _ HI Hp) as (? & ? & AC & _).
  unfold bind at 1. rewrite put_val_ok by done. unfold modify. eexists. split; [reflexivity|]. split; [|done].
  apply rep_logged. cbn. rewrite insert_delete_insert.
  replace (<[i := y]> (xs1 ++ x :: xs2)) with (xs1 ++ y :: xs2) by (subst i; rewrite <- L2, list_insert_middle || (rewrite <- L2; by rewrite insert_app_r_alt, Nat.sub_diag by done)).
  change (setv (setv st (delete p (m_val (l_mem st)))) (<[p:=y]> (m_val (l_mem st)))) with (setv st (<[p:=y]> (m_val (l_mem st)))).
  eapply (rep_setv aa chk nsz nal s B false I AO); [exact H|by rewrite !app_length|intros k Hk; apply lookup_insert_ne; by intros ->|].
  assert (F : forall q, q ∈ ps1 ++ ps2 -> <[p := y]> (m_val (l_mem st)) !! q = m_val (l_mem st) !! q).
  { intros q Hq. apply lookup_insert_ne. by intros ->. }
  apply Forall2_app; [|constructor; [apply lookup_insert|]].
  - eapply (vals_eq (m_val (l_mem st))); [|exact V1]. intros q Hq. apply F, elem_of_app. by left.
  - eapply (vals_eq (m_val (l_mem st))); [|exact V2]. intros q Hq. apply F, elem_of_app. by right.
Qed.

(** *** Reading *)
Lemma cfwd_ok fuel st xs : forall ps1 ps2 ys, I (l_alloc st) (l_mem st) (ps1 ++ ps2) -> l_node st = s -> ring (m_word (l_mem st)) s (ps1 ++ ps2) ->
  Forall2 (fun p x => m_val (l_mem st) !! p = Some x) ps2 ys -> (length ps2 <= fuel)%nat -> xs = ys ->
  cpp_loop nsz fuel true (first_of s ps2) st = Ok xs st.
Proof using Hsz Hs HB AO.
  revert xs. induction fuel as [|fuel IH]; intros xs ps1 ps2 ys HI EN R V LE ->; cbn [cpp_loop]; unfold bind at 1, gets at 1; rewrite EN.
  - destruct ps2; [|cbn in LE; lia]. apply Forall2_nil_inv_l in V as ->. cbn. by rewrite Z.eqb_refl.
  - destruct V as [|p y ps2 ys VP V]; cbn [first_of hd]; [by rewrite Z.eqb_refl|].
    assert (Hp : p ∈ ps1 ++ p :: ps2) by (apply elem_of_app; right; constructor).
    rewrite (proj2 (Z.eqb_neq p s)) by (by eapply ne).
    destruct (ao_node _ _ _ _ _ _ _ _ AO _ _ _ _ HI Hp) as (_ & _ & AC & _).
    unfold bind at 1, get_val at 1, bind at 1, gets at 1, load_val. rewrite AC, VP. cbn [or_ub]. unfold ret at 1.
    destruct (words _ _ _ p HI ltac:(by constructor)) as [W1 _]. unfold bind at 1, get_next. rewrite (get_word_ok _ _ _ W1 (proj1 (ring_next _ _ _ _ _ R))).
    unfold bind. rewrite (IH ys (ps1 ++ [p]) ps2 ys); [done|by rewrite <- app_assoc|done|by rewrite <- app_assoc|done|cbn in LE; lia|done].
Qed.
Lemma cbwd_ok fuel st : forall ps1 ps2 ys, I (l_alloc st) (l_mem st) (ps1 ++ ps2) -> l_node st = s -> ring (m_word (l_mem st)) s (ps1 ++ ps2) ->
  Forall2 (fun p x => m_val (l_mem st) !! p = Some x) ps1 ys -> (length ps1 <= fuel)%nat ->
  cpp_loop nsz fuel false (last_of s ps1) st = Ok (rev ys) st.
Proof using Hsz Hs HB AO.
  induction fuel as [|fuel IH]; intros ps1 ps2 ys HI EN R V LE; cbn [cpp_loop]; unfold bind at 1, gets at 1; rewrite EN.
  - destruct ps1; [|cbn in LE; lia]. apply Forall2_nil_inv_l in V as ->. cbn. by rewrite Z.eqb_refl.
  - destruct ps1 as [|p ps1 _] using rev_ind; [apply Forall2_nil_inv_l in V as ->; cbn; by rewrite Z.eqb_refl|].
    apply Forall2_app_inv_l in V as (ys1 & ys2 & V & V2 & ->). apply Forall2_cons_inv_l in V2 as (y & ? & VP & V2 & ->). apply Forall2_nil_inv_l in V2 as ->.
    unfold last_of. rewrite List.last_last, rev_unit. rewrite <- app_assoc in HI, R. cbn [app] in HI, R.
    assert (Hp : p ∈ ps1 ++ p :: ps2) by (apply elem_of_app; right; constructor).
    rewrite (proj2 (Z.eqb_neq p s)) by (by eapply ne).
    destruct (ao_node _ _ _ _ _ _ _ _ AO _ _ _ _ HI Hp) as (_ & _ & AC & _).
    unfold bind at 1, get_val at 1, bind at 1, gets at 1, load_val. rewrite AC, VP. cbn [or_ub]. unfold ret at 1.
    destruct (words _ _ _ p HI ltac:(by constructor)) as [_ W1]. unfold bind at 1, get_prev. rewrite (get_word_ok _ _ _ W1 (proj2 (ring_next _ _ _ _ _ R))).
    unfold bind. rewrite (IH ps1 (p :: ps2) ys1); [done|done|done|done|done|rewrite app_length in LE; cbn in LE; lia].
Qed.
Lemma cread_ok st xs ps (f : bool) : LRep st xs ps -> cpp_read nsz f st = Ok (if f then xs else rev xs) st.
Proof using Hsz Hs HB AO.
  intros H. pose proof H as [EN ES HI R V LB]. unfold cpp_read. unfold bind at 1, gets at 1. rewrite EN. unfold bind at 1, gets at 1. unfold bind at 1.
  pose proof (rep_fuel aa chk nsz nal s B false I AO _ _ _ H) as LF. destruct (ends aa chk nsz nal s B false I Hsz Hs AO _ _ _ H) as [E1 E2].
  destruct f.
  - rewrite E1. by eapply (cfwd_ok _ _ _ [] ps).
  - rewrite E2. eapply (cbwd_ok _ _ ps []); rewrite ?app_nil_r; done.
Qed.

(** *** Reversing *)
Lemma reverse_step_ok fuel w0 ps0 st ps1 p ps2 : s :: ps0 = ps1 ++ p :: ps2 -> I (l_alloc st) (l_mem st) ps0 -> l_node st = s -> ring w0 s ps0 ->
  (forall x, x ∈ ps1 -> m_word (l_mem st) !! x = w0 !! (x + 8) /\ m_word (l_mem st) !! (x + 8) = w0 !! x) ->
  (forall x, x ∈ p :: ps2 -> m_word (l_mem st) !! x = w0 !! x /\ m_word (l_mem st) !! (x + 8) = w0 !! (x + 8)) ->
  exists w1, cpp_reverse_loop fuel p st =
      (if (first_of s ps2 =? s) then ret tt else match fuel with O => ub | S f => cpp_reverse_loop f (first_of s ps2) end) (setw st w1) /\
    relinks s ps0 (l_mem st) (l_mem (setw st w1)) /\
    (forall x, x ∈ ps1 ++ [p] -> w1 !! x = w0 !! (x + 8) /\ w1 !! (x + 8) = w0 !! x) /\
    (forall x, x ∈ ps2 -> w1 !! x = m_word (l_mem st) !! x /\ w1 !! (x + 8) = m_word (l_mem st) !! (x + 8)).
Proof using Hsz Hs HB AO.
  clear FR FX.
  intros EQ HI EN R DN TD.
  assert (Hp : p ∈ s :: ps0) by (rewrite EQ; apply elem_of_app; right; constructor).
  assert (ND : NoDup (s :: ps0)) by (by eapply (alloc_nodup aa chk nsz nal s B false I)).
  assert (SP : sep (s :: ps0)) by (by eapply (alloc_sep aa chk nsz nal s B false I)).
  set (nx := first_of s ps2).
  assert (HN : w0 !! p = Some nx /\ exists pv, w0 !! (p + 8) = Some pv).
  { destruct ps1 as [|q ps1].
    - injection EQ as -> ->. destruct (ring_ends _ _ _ R) as [? ?]. split; [done|by eexists].
    - injection EQ as <- ->. destruct (ring_next _ _ _ _ _ R) as [? ?]. split; [done|by eexists]. }
  destruct HN as [HN (pv & HV)].
  destruct (words _ _ _ p HI Hp) as [W1 W2]. destruct (TD p ltac:(constructor)) as [T1 T2]. rewrite HN in T1. rewrite HV in T2.
  set (w1 := <[p + 8 := nx]> (<[p := pv]> (m_word (l_mem st)))). exists w1. split.
  { destruct fuel as [|fuel]; cbn [cpp_reverse_loop]; unfold get_next, get_prev, set_next, set_prev.
    - unfold bind at 1. rewrite (get_word_ok _ _ _ W1 T1). unfold bind at 1. rewrite (get_word_ok _ _ _ W2 T2).
      unfold bind at 1. rewrite put_word_ok by done. unfold bind at 1. rewrite put_word_ok by done.
      unfold bind at 1. rewrite (get_word_ok _ _ nx) by (first [done|cbn; apply lookup_insert]).
      unfold bind at 1, gets at 1. cbn [l_node setw]. by rewrite EN.
    - unfold bind at 1. rewrite (get_word_ok _ _ _ W1 T1). unfold bind at 1. rewrite (get_word_ok _ _ _ W2 T2).
      unfold bind at 1. rewrite put_word_ok by done. unfold bind at 1. rewrite put_word_ok by done.
      unfold bind at 1. rewrite (get_word_ok _ _ nx) by (first [done|cbn; apply lookup_insert]).
      unfold bind at 1, gets at 1. cbn [l_node setw]. by rewrite EN. }
  split. { apply (relinks_remove aa chk nsz nal s B false I Hsz Hs HB AO). intros k Hk. exists p. split; [done|]. repeat (apply elem_of_cons in Hk as [-> |Hk]); [by right|by left|by apply elem_of_nil in Hk]. }
  assert (OTH : forall x, x ∈ s :: ps0 -> x <> p -> w1 !! x = m_word (l_mem st) !! x /\ w1 !! (x + 8) = m_word (l_mem st) !! (x + 8)).
  { intros x Hx NE. pose proof (SP x p Hx Hp). pose proof (SP p x Hp Hx). subst w1. rewrite !lookup_insert_ne by lia. done. }
  assert (OWN : w1 !! p = w0 !! (p + 8) /\ w1 !! (p + 8) = w0 !! p).
  { subst w1. rewrite HN, HV. split; [rewrite lookup_insert_ne by lia|]; apply lookup_insert. }
  rewrite EQ in ND. apply NoDup_app in ND as (_ & N12 & N2). apply NoDup_cons in N2 as [NP _]. split.
  - intros x Hx. apply elem_of_app in Hx as [Hx|Hx]; [|apply elem_of_list_singleton in Hx as ->; done].
    destruct (OTH x) as [-> ->]; [rewrite EQ; apply elem_of_app; by left|intros ->; apply (N12 _ Hx); constructor|by apply DN].
  - intros x Hx. apply OTH; [rewrite EQ; apply elem_of_app; right; by constructor|by intros ->].
Qed.
Lemma reverse_loop_ok fuel w0 ps0 : forall st ps1 p ps2, s :: ps0 = ps1 ++ p :: ps2 -> I (l_alloc st) (l_mem st) ps0 -> l_node st = s -> ring w0 s ps0 ->
  (forall x, x ∈ ps1 -> m_word (l_mem st) !! x = w0 !! (x + 8) /\ m_word (l_mem st) !! (x + 8) = w0 !! x) ->
  (forall x, x ∈ p :: ps2 -> m_word (l_mem st) !! x = w0 !! x /\ m_word (l_mem st) !! (x + 8) = w0 !! (x + 8)) ->
  (length ps2 <= fuel)%nat ->
  exists w, cpp_reverse_loop fuel p st = Ok tt (setw st w) /\ relinks s ps0 (l_mem st) (l_mem (setw st w)) /\
    (forall x, x ∈ s :: ps0 -> w !! x = w0 !! (x + 8) /\ w !! (x + 8) = w0 !! x).
Proof using Hsz Hs HB AO.
  clear FR FX.
  induction fuel as [|fuel IH]; intros st ps1 p ps2 EQ HI EN R DN TD LE.
  - destruct (reverse_step_ok 0 w0 ps0 st ps1 p ps2 EQ HI EN R DN TD) as (w1 & E & RL & DN1 & OTH).
    destruct ps2 as [|q ps2]; [|cbn in LE; lia]. exists w1. rewrite E. cbn [first_of hd]. rewrite Z.eqb_refl. split; [done|]. split; [done|]. by rewrite EQ.
  - destruct (reverse_step_ok (S fuel) w0 ps0 st ps1 p ps2 EQ HI EN R DN TD) as (w1 & E & RL & DN1 & OTH). rewrite E.
    destruct ps2 as [|q ps2]; [exists w1; cbn [first_of hd]; rewrite Z.eqb_refl; split; [done|]; split; [done|]; by rewrite EQ|].
    cbn [first_of hd] in *.
    assert (Hq : q ∈ ps0).
    { destruct ps1 as [|z ps1]; [injection EQ as -> ->; constructor|injection EQ as <- ->]. apply elem_of_app. right. apply elem_of_cons; right. constructor. }
    rewrite (proj2 (Z.eqb_neq q s)) by (by eapply ne).
    destruct (IH (setw st w1) (ps1 ++ [p]) q ps2) as (w2 & E2 & RL2 & F2).
    + by rewrite <- app_assoc.
    + eapply ao_write; [exact AO|exact HI|exact RL].
    + done.
    + done.
    + exact DN1.
    + intros x Hx. cbn. destruct (OTH x Hx) as [-> ->]. apply TD. by constructor.
    + cbn in LE. lia.
    + exists w2. split; [exact E2|]. split; [|done]. destruct RL as (_ & _ & RL & _), RL2 as (_ & _ & RL2 & _). split; [done|]. split; [done|]. split; [|done].
      intros k Hk. cbn in RL2 |- *. rewrite (RL2 k Hk). apply (RL k Hk).
Qed.
Lemma reverse_ok st xs ps : LRep st xs ps ->
  exists st', cpp_reverse st = Ok tt st' /\ LRep st' (rev xs) (rev ps) /\ l_drops st' = l_drops st.
Proof using Hsz Hs HB AO.
  intros H. pose proof H as [EN ES HI R V LB]. unfold cpp_reverse. unfold bind at 1, gets at 1. rewrite EN. unfold bind at 1, gets at 1.
  destruct (reverse_loop_ok (size (m_word (l_mem st))) (m_word (l_mem st)) ps st [] s ps) as (w & E & RL & F); try done.
  { intros x Hx. by apply elem_of_nil in Hx. }
  { by eapply (rep_fuel aa chk nsz nal s B false I AO). }
  exists (setw st w). split; [done|]. split; [|done]. split.
  - done.
  - cbn. by rewrite rev_length.
  - cbn. eapply ao_perm; [exact AO| |apply Permutation_rev]. eapply ao_write; [exact AO|exact HI|exact RL].
  - cbn. eapply ring_reverse; [exact R|exact F].
  - cbn. clear -V. induction V as [|p x ps xs E V IH]; cbn; [constructor|]. apply Forall2_app; [done|by constructor].
  - by rewrite rev_length.
Qed.

(** *** Calls and programs *)
Lemma m_call_ok st xs ps c : LRep st xs ps -> in_range c (length xs) -> Z.of_nat (length (snd (mixed_call c xs))) <= B ->
  exists st' ps' a d xs', mixed_call c xs = (a, d, xs') /\ m_call aa chk nsz nal c st = Ok a st' /\ LRep st' xs' ps' /\ l_drops st' = l_drops st ++ d.
Proof using All.
  intros H RG LE. destruct c as [c|i x|i|i x| | | |]; cbn [mixed_call m_call snd in_range] in *.
  - destruct (spec_call c xs) as [[a d] xs'] eqn:ES. cbn in LE.
    assert (L : Z.of_nat (length xs + length (pushed c)) <= B).
    { pose proof (spec_len _ _ _ _ _ ES) as E. pose proof (lr_bound _ _ _ _ _ _ H). destruct (len_call_ge c (length xs)) as [[_ EP]|EP]; [rewrite EP; cbn; lia|lia]. }
    destruct (call_ok aa chk nsz nal s B false I Hsz Hs HB AO st xs ps c H ltac:(done) L) as [(st' & ps' & a' & d' & xs2 & ES' & E & H' & D)|(C & _)]; [|done].
    rewrite ES in ES'. injection ES' as <- <- <-. exists st', ps', a, d, xs'. done.
  - destruct (insert_ok _ _ _ i x H RG) as (st' & ps' & E & H' & D).
    { assert (length (take i xs ++ x :: drop i xs) = S (length xs)) as X by (rewrite app_length; cbn; rewrite take_length, drop_length; lia). rewrite X in LE. lia. }
    exists st', ps'. eexists _, _, _. split; [reflexivity|]. unfold bind. rewrite E, app_nil_r. done.
  - destruct (erase_ok _ _ _ i H RG) as (st' & ps' & E & H' & D). exists st', ps'. eexists _, _, _. split; [reflexivity|]. unfold bind. rewrite E. done.
  - destruct (cassign_ok _ _ _ i x H RG) as (st' & E & H' & D). exists st', ps. eexists _, _, _. split; [reflexivity|]. unfold bind. rewrite E. done.
  - exists st, ps. eexists _, _, _. split; [reflexivity|]. unfold bind. rewrite (cread_ok _ _ _ true H), app_nil_r. done.
  - exists st, ps. eexists _, _, _. split; [reflexivity|]. unfold bind. rewrite (cread_ok _ _ _ false H), app_nil_r. done.
  - exists st, ps. eexists _, _, _. split; [reflexivity|]. unfold bind, gets. rewrite (lr_size _ _ _ _ _ _ H), app_nil_r. done.
  - destruct (reverse_ok _ _ _ H) as (st' & E & H' & D). exists st', (rev ps). eexists _, _, _. split; [reflexivity|]. unfold bind. rewrite E, app_nil_r. done.
Qed.

Lemma m_run_ok (n : nat) cs : B = Z.of_nat n -> forall st xs ps, LRep st xs ps -> proper n cs xs ->
  exists answers st' ps' xs' d, m_run aa chk nsz nal cs st = Some (map Some answers, st') /\ LRep st' xs' ps' /\
    mixed_run cs xs = (answers, d, xs') /\ l_drops st' = l_drops st ++ d.
Proof using All.
  intros EB. induction cs as [|c cs IH]; intros st xs ps H PR.
  - exists [], st, ps, xs, []. cbn. by rewrite app_nil_r.
  - cbn [proper] in PR. destruct PR as (RG & LE & PR).
    destruct (m_call_ok st xs ps c H RG ltac:(lia)) as (st1 & ps1 & a & d & xs1 & ES & E & H1 & D1). rewrite ES in PR. cbn in PR.
    destruct (IH st1 xs1 ps1 H1 PR) as (l & st2 & ps2 & xs2 & d2 & E2 & H2 & ES2 & D2).
    exists (a :: l), st2, ps2, xs2, (d ++ d2). cbn. rewrite E, E2, ES, ES2. split; [done|]. split; [done|]. split; [done|]. by rewrite D2, D1, <- app_assoc.
Qed.

End calls.

(** ** The allocators take back nodes from C++ *)
Section frees.
Context {T : Type}.
Variables (pick : mem T -> Z -> Z -> Z) (strict chk : bool) (nsz nal obj bytes : Z) (m0 : mem T).
Hypothesis LS : ListSetup m0 obj bytes nsz nal.

Lemma default_frees_x : FreeX (DefaultAddrAlloc pick strict) chk nsz nal obj (DI nsz nal m0).
Proof using LS.
  intros a m p L D. pose proof (ls_node _ _ _ _ _ LS) as (NL & _ & LK). pose proof (list_layout_facts _ _ (ls_node _ _ _ _ _ LS)) as (_ & ? & ?).
  unfold deallocate. unfold bind. rewrite Z.mul_1_l, usizeZ_ok by lia. cbn [aa_free DefaultAddrAlloc].
  destruct (default_free_ok strict nsz nal (m_live m0) NL (ls_wf _ _ _ _ _ LS) a m (p :: L) L p nsz nal D) as (m' & E & D' & EW & EV); [done|apply NL|by right|].
  exists a, m'. split; [done|]. split; [|done]. split; [intros x _; by rewrite EW|intros x _; by rewrite EV].
Qed.
End frees.

Section fixed_frees.
Context {T : Type}.
Variables (pick : mem T -> Z -> Z -> Z) (strict chk : bool) (nsz nal obj bytes base len : Z) (m0 : mem T).
Hypothesis LS : ListSetup m0 obj bytes nsz nal.
Hypothesis PS : PoolSetup m0 base len nsz nal.
Hypothesis H16 : 16 <= bytes.
Hypothesis HO : obj + 16 <= base.
Hypothesis HP : honest pick.
Hypothesis PAD : accessible m0 base (pool_end base len nsz nal + 1 - base) = true.

Lemma fixed_frees_x : FreeX (FixedListAlloc pick strict chk nsz nal) chk nsz nal obj (GI nsz nal base len m0).
Proof using All.
  intros q m p L (slots & avail & over & OI & P). pose proof (ls_node _ _ _ _ _ LS) as (NL & _ & LK). pose proof (list_layout_facts _ _ (ls_node _ _ _ _ _ LS)) as (_ & Z16 & _).
  assert (GA := gi_apart pick strict chk nsz nal obj bytes base len m0 LS PS H16 HO HP PAD true 0 ltac:(done)).
  assert (GN := gi_nodup pick strict chk nsz nal obj bytes base len m0 LS PS H16 HO HP PAD true 0 ltac:(done)).
  unfold deallocate. unfold bind. rewrite Z.mul_1_l, usizeZ_ok by lia. cbn [aa_free FixedListAlloc OPoolAlloc].
  assert (Hp : p ∈ slots ++ over) by (rewrite <- P; constructor).
  assert (NI : p ∉ L).
  { pose proof (GN _ _ _ _ _ OI) as ND. rewrite <- app_assoc in ND. rewrite (Permutation_app_comm avail over), app_assoc in ND. apply NoDup_app in ND as (ND & _).
    rewrite <- P in ND. by apply NoDup_cons in ND as [? _]. }
  apply elem_of_app in Hp as [Hp|Hp].
  - apply elem_of_Permutation in Hp as (slots' & PS').
    destruct (opool_free_slot_ok pick strict base len nsz nal m0 PS PAD chk q m slots slots' avail over p nsz nal OI PS') as (q' & m' & w & E & OI' & EM).
    exists q', m'. split; [done|]. split.
    + split; [|by rewrite EM]. intros x Hx. rewrite EM. cbn.
      assert (x + 16 <= p \/ p + 16 <= x).
      { apply elem_of_cons in Hx as [-> |Hx].
        - destruct (slot_node pick strict chk nsz nal obj bytes base len m0 LS PS H16 HO _ _ _ _ p (oi_pool _ _ _ _ _ _ _ _ _ _ OI) ltac:(rewrite PS'; constructor)) as (_ & _ & _ & ?). lia.
        - assert (x ∈ slots ++ over) as Hx' by (rewrite <- P; by constructor). assert (p ∈ slots) as Hp by (rewrite PS'; constructor).
          assert (x <> p) as NE by (by intros ->). destruct (GA _ _ _ _ _ x p OI) as [|]; [clear -Hx'; set_solver|clear -Hp; set_solver|done|lia|lia]. }
      rewrite !lookup_insert_ne by lia. done.
    + exists slots', (p :: avail), over. split; [done|]. apply (Permutation_cons_inv (a := p)). rewrite P, PS'. done.
  - apply elem_of_Permutation in Hp as (over' & PO').
    destruct (opool_free_over_ok pick strict base len nsz nal m0 PS (ls_wf _ _ _ _ _ LS) PAD chk q m slots avail over over' p nsz nal OI PO') as (q' & m' & E & OI' & EW & EV);
      [apply NL|by right|].
    exists q', m'. split; [done|]. split; [split; [intros x _; by rewrite EW|intros x _; by rewrite EV]|].
    exists slots, avail, over'. split; [done|]. apply (Permutation_cons_inv (a := p)). rewrite P, PO'. solve_Permutation.
Qed.
End fixed_frees.
