(** Proofs about pools. *)
From Verif Require Import Base Alloc AddrMem FixedPool FixedPoolSpec.
Local Open Scope Z_scope.

(** ** Arithmetic *)
Lemma round_up_spec a b : 0 < b -> (b | round_up a b) /\ a <= round_up a b < a + b.
Proof.
  intros Hb. unfold round_up. split; [apply Z.divide_factor_r|].
  pose proof (Z.div_mod (a + b - 1) b ltac:(lia)). pose proof (Z.mod_pos_bound (a + b - 1) b Hb). lia.
Qed.
Lemma round_up_least a b c : 0 < b -> (b | c) -> a <= c -> round_up a b <= c.
Proof.
  intros Hb [d ->] L. unfold round_up. apply Z.mul_le_mono_nonneg_r; [lia|].
  assert ((a + b - 1) / b < d + 1); [|lia]. apply Z.div_lt_upper_bound; lia.
Qed.
Lemma round_up_fix a b : 0 < b -> (b | a) -> round_up a b = a.
Proof. intros Hb D. pose proof (round_up_least a b a Hb D ltac:(lia)). pose proof (round_up_spec a b Hb). lia. Qed.
Lemma mask_down e k : 0 <= k -> Z.land e (Z.lnot (2 ^ k - 1)) = e / 2 ^ k * 2 ^ k.
Proof.
  intros Hk. rewrite <- Z.ldiff_land. replace (2 ^ k - 1) with (Z.ones k) by (rewrite Z.ones_equiv; lia).
  rewrite Z.ldiff_ones_r, Z.shiftl_mul_pow2, Z.shiftr_div_pow2 by lia. done.
Qed.
Lemma pow2_and k : 0 <= k -> Z.land (2 ^ k) (2 ^ k - 1) = 0.
Proof.
  intros Hk. replace (2 ^ k - 1) with (Z.ones k) by (rewrite Z.ones_equiv; lia).
  rewrite Z.land_ones by lia. apply Z.mod_same. pose proof (Z.pow_pos_nonneg 2 k). lia.
Qed.
Lemma usizeZ_ok {S} chk r (s : S) : 0 <= r < usize_lim -> usizeZ chk r s = Ok r s.
Proof. intros H. unfold usizeZ. by rewrite (proj2 (Z.leb_le 0 r)), (proj2 (Z.ltb_lt r usize_lim)) by lia. Qed.
Lemma debug_assert_ok {S} chk b (s : S) : b = true -> debug_assert chk b s = Ok tt s.
Proof. intros ->. unfold debug_assert. by rewrite andb_false_r. Qed.

Lemma node_layout_pos sz al : node_layout sz al -> 8 <= al /\ (8 | al) /\ al <= sz /\ 0 < sz < usize_lim.
Proof.
  intros ((k & Hk & ->) & Hs & D & L).
  assert (2 ^ 3 <= 2 ^ k) by (apply Z.pow_le_mono_r; lia).
  assert (8 | 2 ^ k). { exists (2 ^ (k - 3)). replace 8 with (2 ^ 3) by done. rewrite <- Z.pow_add_r by lia. f_equal. lia. }
  split; [lia|]. split; [done|]. split; [by apply Z.divide_pos_le|]. unfold layout_ok, isize_max, usize_lim in *. lia.
Qed.

(** ** Memory *)
Section mem.
Context {T : Type}.
Implicit Types (m : mem T).

Lemma accessible_sub m a n b k : accessible m a n = true -> a <= b -> b + k <= a + n -> accessible m b k = true.
Proof.
  unfold accessible. rewrite !existsb_exists. intros (r & Hr & I) L1 L2. exists r. split; [done|].
  unfold inside in *. lia.
Qed.
Lemma accessible_live m m' a n : (forall r, r ∈ m_live m -> r ∈ m_live m') -> accessible m a n = true -> accessible m' a n = true.
Proof.
  unfold accessible. rewrite !existsb_exists. intros H (r & Hr & I). exists r. split; [|done].
  apply elem_of_list_In, H, elem_of_list_In, Hr.
Qed.
Lemma word_at_ok m a n b : accessible m a n = true -> a <= b -> b + 8 <= a + n -> (8 | b) -> word_at m b = true.
Proof.
  intros A L1 L2 D. unfold word_at. rewrite (accessible_sub _ _ _ _ _ A L1 L2). apply Z.mod_divide in D; [|done]. by rewrite D.
Qed.
Lemma load_word_ok m a : word_at m a = true -> load_word m a = m_word m !! a.
Proof. intros H. unfold load_word. by rewrite H. Qed.
Lemma store_word_ok m a w : word_at m a = true ->
  store_word m a w = Some (Mem (m_live m) (<[a := w]> (m_word m)) (m_val m) (m_time m)).
Proof. intros H. unfold store_word. by rewrite H. Qed.

Lemma alloc_word_other m p bytes align a : meets a 8 (Region p bytes align true) = false ->
  m_word (mem_alloc m p bytes align) !! a = m_word m !! a.
Proof.
  intros H. cbn. destruct (m_word m !! a) as [w|] eqn:E.
  - apply map_filter_lookup_Some. done.
  - apply map_filter_lookup_None. by left.
Qed.
Lemma alloc_val_other m p bytes align a : meets a 1 (Region p bytes align true) = false ->
  m_val (mem_alloc m p bytes align) !! a = m_val m !! a.
Proof.
  intros H. cbn. destruct (m_val m !! a) as [w|] eqn:E.
  - apply map_filter_lookup_Some. done.
  - apply map_filter_lookup_None. by left.
Qed.
Lemma may_place_apart m p bytes align a n : 0 < n -> may_place m p bytes align -> accessible m a n = true ->
  p + bytes <= a \/ a + n <= p.
Proof.
  intros Hn (_ & _ & _ & H) A. unfold accessible in A. apply existsb_exists in A as (r & Hr & I).
  specialize (H r ltac:(by apply elem_of_list_In)). unfold meets, inside in *. lia.
Qed.

(** Removing a block by its address, when live blocks have distinct addresses. *)
Lemma remove_block_some p (l : list region) r l' : remove_block p l = Some (r, l') -> l ≡ₚ r :: l' /\ r_base r = p /\ r_heap r = true.
Proof.
  revert r l'. induction l as [|r0 l IH]; intros r l' E; cbn in E; [done|].
  destruct ((r_base r0 =? p) && r_heap r0) eqn:B.
  - injection E as <- <-. split; [done|]. lia.
  - destruct (remove_block p l) as [[r1 l1]|] eqn:E1; [|done]. injection E as <- <-.
    destruct (IH _ _ eq_refl) as (P & ? & ?). split; [|done]. rewrite P. constructor.
Qed.
Lemma remove_block_ex p (l : list region) r : r ∈ l -> r_base r = p -> r_heap r = true -> exists r' l', remove_block p l = Some (r', l').
Proof.
  intros Hr Hb Hh. induction l as [|r0 l IH]; [by apply elem_of_nil in Hr|]. cbn.
  destruct ((r_base r0 =? p) && r_heap r0) eqn:B; [by eexists _, _|].
  apply elem_of_cons in Hr as [-> | Hr]; [lia|].
  destruct (IH Hr) as (r' & l' & ->). by eexists _, _.
Qed.

End mem.

(** ** The pool *)
Fixpoint chain (w : gmap Z Z) (h : Z) (l : list Z) : Prop :=
  match l with
  | [] => h = 0
  | x :: l' => h = x /\ x <> 0 /\ exists n, w !! x = Some n /\ chain w n l'
  end.

Lemma chain_frame w w' h l : chain w h l -> (forall x, x ∈ l -> w' !! x = w !! x) -> chain w' h l.
Proof.
  revert h. induction l as [|x l IH]; intros h C H; cbn in *; [done|].
  destruct C as (-> & Hx & n & E & C). split; [done|]. split; [done|]. exists n. split.
  - rewrite H; [done|]. constructor.
  - apply IH; [done|]. intros y Hy. apply H. by constructor.
Qed.

Section pool.
Context {T : Type}.
Variables (base len sz al : Z).
Hypothesis NL : node_layout sz al.
Hypothesis Hbase : 0 < base.
Hypothesis Hlen : 0 <= len /\ base + len < usize_lim.
Hypothesis Hroom : pool_first base al <= base + len.

Local Notation first := (pool_first base al).
Local Notation N := (pool_count base len sz al).
Local Notation slot i := (first + Z.of_nat i * sz).
Definition slots_from (j k : nat) : list Z := map (fun i => slot i) (seq j k).

Lemma first_ok : (al | first) /\ base <= first < base + al.
Proof. pose proof (node_layout_pos _ _ NL). apply round_up_spec. lia. Qed.
Lemma count_ok : first + Z.of_nat N * sz <= base + len < first + Z.of_nat N * sz + sz.
Proof.
  unfold pool_count. pose proof (node_layout_pos _ _ NL) as (? & ? & ? & ?).
  pose proof (Z.div_mod (base + len - first) sz ltac:(lia)). pose proof (Z.mod_pos_bound (base + len - first) sz ltac:(lia)).
  assert (0 <= (base + len - first) / sz) by (apply Z.div_pos; lia).
  rewrite Z2Nat.id by done. lia.
Qed.
Lemma slot_in (i : nat) : (i < N)%nat -> (al | slot i) /\ base <= slot i /\ slot i + sz <= first + Z.of_nat N * sz /\ slot i + sz <= base + len /\ 0 < slot i /\ (8 | slot i).
Proof.
  intros Hi. pose proof first_ok as (D & L1). pose proof count_ok. pose proof (node_layout_pos _ _ NL) as (? & D8 & ? & ?).
  destruct NL as (_ & _ & DS & _).
  assert (al | slot i) by (apply Z.divide_add_r; [done|by apply Z.divide_mul_r]).
  assert (Z.of_nat i * sz + sz <= Z.of_nat N * sz) by nia.
  assert (0 <= Z.of_nat i * sz) by nia.
  split; [done|]. split; [lia|]. split; [lia|]. split; [lia|]. split; [lia|]. by etransitivity.
Qed.
Lemma slot_inj i j : slot i = slot j -> i = j.
Proof. pose proof (node_layout_pos _ _ NL). intros E. assert (Z.of_nat i = Z.of_nat j); [|lia]. nia. Qed.
Lemma slots_nodup j k : NoDup (slots_from j k).
Proof.
  unfold slots_from. apply NoDup_fmap_2; [|apply NoDup_seq]. intros x y E. by apply slot_inj.
Qed.
Lemma slots_cons j k : slots_from j (S k) = slot j :: slots_from (S j) k.
Proof. done. Qed.
Lemma elem_slots j k x : x ∈ slots_from j k <-> exists i, (j <= i < j + k)%nat /\ x = slot i.
Proof.
  unfold slots_from. rewrite elem_of_list_fmap. setoid_rewrite elem_of_seq. split; intros (i & ? & ?); exists i; done.
Qed.

Implicit Types (m : mem T).

(** [avail] is the stack of free slots: the chain, then the slots never used. *)
Record PInv (q : pool) m (held avail : list Z) : Prop := {
  pi_cap : p_cap q = slot N;
  pi_stack : exists free j, (j <= N)%nat /\ p_next q = slot j /\ chain (m_word m) (p_head q) free /\
    avail = free ++ slots_from j (N - j);
  pi_perm : held ++ avail ≡ₚ slots_from 0 N;
  pi_mem : accessible m base len = true
}.

Lemma pinv_nodup q m held avail : PInv q m held avail -> NoDup (held ++ avail).
Proof. intros I. rewrite (pi_perm _ _ _ _ I). apply slots_nodup. Qed.
Lemma pinv_in q m held avail x : PInv q m held avail -> x ∈ held ++ avail -> exists i, (i < N)%nat /\ x = slot i.
Proof.
  intros I H. rewrite (pi_perm _ _ _ _ I) in H. apply elem_slots in H as (i & ? & ->). exists i. split; [lia|done].
Qed.
Lemma pinv_word q m held avail x k : PInv q m held avail -> x ∈ held ++ avail -> 0 <= k -> 8 * (k + 1) <= sz -> word_at m (x + 8 * k) = true.
Proof.
  intros I H K1 K2. destruct (pinv_in _ _ _ _ _ I H) as (i & Hi & ->). destruct (slot_in i Hi) as (? & ? & ? & ? & ? & ?).
  apply (word_at_ok _ base len); [by destruct I|lia|lia|]. apply Z.divide_add_r; [done|apply Z.divide_factor_l].
Qed.

(** Distinct slots do not overlap. *)
Lemma slots_apart q m held avail x y : PInv q m held avail -> x ∈ held ++ avail -> y ∈ held ++ avail -> x <> y -> x + sz <= y \/ y + sz <= x.
Proof.
  intros I Hx Hy NE. destruct (pinv_in _ _ _ _ _ I Hx) as (i & Hi & ->). destruct (pinv_in _ _ _ _ _ I Hy) as (j & Hj & ->).
  pose proof (node_layout_pos _ _ NL). assert (i <> j) by congruence. assert (Z.of_nat i + 1 <= Z.of_nat j \/ Z.of_nat j + 1 <= Z.of_nat i) as [|] by lia; [left|right]; nia.
Qed.

(** Changing words outside the free slots, or adding live regions, does no harm. *)
Lemma pinv_frame q m m' held avail : PInv q m held avail ->
  (forall x, x ∈ avail -> m_word m' !! x = m_word m !! x) -> accessible m' base len = true -> PInv q m' held avail.
Proof.
  intros [C (free & j & Hj & Hn & CH & ->) P A] W A'. split; [done| |done|done].
  exists free, j. split; [done|]. split; [done|]. split; [|done]. eapply chain_frame; [done|].
  intros x Hx. apply W. apply elem_of_app. by left.
Qed.

Lemma pool_init_ok chk m : accessible m base len = true ->
  exists q, forall q0, pool_init chk sz al base len (q0, m) = Ok tt (q, m) /\ PInv q m [] (slots_from 0 N).
Proof.
  intros A. pose proof (node_layout_pos _ _ NL) as (A8 & D8 & AS & SZ). pose proof first_ok as (DF & LF). pose proof count_ok as LC.
  destruct NL as ((k & Hk & EA) & _ & DS & _).
  assert (EF : (base + (al - 1)) / al * al = first) by (unfold pool_first, round_up; do 2 f_equal; lia).
  assert (LB : base + (al - 1) < usize_lim).
  { destruct (Z.lt_ge_cases (base + (al - 1)) usize_lim) as [|G]; [done|exfalso].
    assert (DU : (al | usize_lim)). { exists (2 ^ (64 - k)). rewrite EA, <- Z.pow_add_r by lia. unfold usize_lim. f_equal. lia. }
    assert (usize_lim <= first); [|lia]. rewrite <- EF. destruct DU as [d EU]. rewrite EU in *.
    apply Z.mul_le_mono_nonneg_r; [lia|]. apply Z.div_le_lower_bound; lia. }
  exists (Pool 0 first (slot N)). intros q0. unfold pool_init. unfold bind at 1. rewrite debug_assert_ok.
  2: { rewrite EA, pow2_and by lia. done. }
  cbv zeta. rewrite (proj2 (Z.ltb_ge al 1)) by lia. unfold bind at 1. rewrite usizeZ_ok by lia.
  assert (EM : forall e, Z.land e (Z.lnot (al - 1)) = e / al * al) by (intros e; rewrite EA; apply mask_down; lia).
  rewrite EM, EF.
  unfold bind at 1. rewrite usizeZ_ok by lia. unfold bind at 1. rewrite usizeZ_ok by lia. unfold bind at 1.
  rewrite debug_assert_ok by lia. rewrite (proj2 (Z.eqb_neq sz 0)) by lia.
  replace (len - (first - base)) with (base + len - first) by lia.
  assert (EN : (base + len - first) / sz = Z.of_nat N).
  { unfold pool_count. rewrite Z2Nat.id; [done|]. apply Z.div_pos; lia. }
  rewrite EN. assert (0 <= Z.of_nat N * sz) by nia. unfold bind at 1. rewrite usizeZ_ok by lia. split; [done|].
  split; [done| |done|done]. exists [], 0%nat. split; [lia|]. split; [cbn; lia|]. split; [done|]. by rewrite Nat.sub_0_r.
Qed.

Lemma pool_alloc_ok chk q m held avail : PInv q m held avail ->
  exists q', pool_alloc chk sz al sz al (q, m) = Ok (match avail with x :: _ => x | [] => 0 end) (q', m) /\
    PInv q' m (match avail with x :: _ => x :: held | [] => held end) (tail avail) /\ can_allocate q = match avail with [] => false | _ => true end.
Proof.
  intros I. pose proof I as [C (free & j & Hj & Hn & CH & EA) P A]. unfold pool_alloc.
  unfold bind at 1. rewrite debug_assert_ok by apply Z.eqb_refl. unfold bind at 1. rewrite debug_assert_ok by apply Z.eqb_refl.
  unfold bind at 1, gets at 1, bind at 1, gets at 1. cbn [fst snd]. unfold can_allocate. destruct free as [|x free].
  - cbn in CH. rewrite CH. cbn [Z.eqb negb]. rewrite Hn, C. destruct (decide (j = N)) as [-> |NE].
    + rewrite Z.eqb_refl. cbn [negb]. rewrite EA, Nat.sub_diag. cbn. exists q. split; [done|]. split; [|done].
      split; [done| |by rewrite EA, Nat.sub_diag in P|done].
      exists [], N. rewrite Nat.sub_diag. done.
    + assert (slot j <> slot N) as NS. { intros E. by apply slot_inj in E. }
      rewrite (proj2 (Z.eqb_neq _ _) NS). cbn [negb]. destruct (slot_in j ltac:(lia)) as (? & ? & ? & ? & ? & ?).
      rewrite (accessible_sub _ _ _ _ _ A) by lia. rewrite EA. replace (N - j)%nat with (S (N - S j)) by lia. cbn [app]. rewrite slots_cons.
      eexists. split; [reflexivity|]. change (tail (slot j :: slots_from (S j) (N - S j))) with (slots_from (S j) (N - S j)).
      split; [|done]. split; [done| | |done].
      * exists [], (S j). split; [lia|]. split; [cbn; lia|]. done.
      * rewrite <- P, EA. replace (N - j)%nat with (S (N - S j)) by lia. cbn [app]. rewrite slots_cons. solve_Permutation.
  - cbn in CH. destruct CH as (EH & Hx & n & EW & CH). rewrite EH, (proj2 (Z.eqb_neq x 0) Hx). cbn [negb].
    assert (word_at m x = true) as WA.
    { replace x with (x + 8 * 0) by lia. eapply pinv_word; [done| |done|]. - rewrite EA. apply elem_of_app. right. constructor.
      - pose proof (node_layout_pos _ _ NL). lia. }
    rewrite (load_word_ok _ _ WA), EW. rewrite EA. cbn [app].
    eexists. split; [reflexivity|]. change (tail (x :: free ++ slots_from j (N - j))) with (free ++ slots_from j (N - j)).
    split; [|done]. split; [done| | |done].
    + by exists free, j.
    + rewrite <- P, EA. cbn. solve_Permutation.
Qed.

Lemma pool_free_ok chk q m held held' avail p n a : PInv q m held avail -> held ≡ₚ p :: held' ->
  exists q' m', pool_free chk p n a (q, m) = Ok tt (q', m') /\ PInv q' m' held' (p :: avail) /\
    m' = Mem (m_live m) (<[p := p_head q]> (m_word m)) (m_val m) (m_time m).
Proof.
  intros I HP. pose proof I as [C (free & j & Hj & Hn & CH & EA) P A].
  assert (Hp : p ∈ held ++ avail) by (apply elem_of_app; left; rewrite HP; constructor).
  destruct (pinv_in _ _ _ _ _ I Hp) as (i & Hi & Ei). destruct (slot_in i Hi) as (? & ? & ? & ? & ? & ?).
  assert (word_at m p = true) as WA.
  { replace p with (p + 8 * 0) by lia. eapply pinv_word; [done|done|done|]. pose proof (node_layout_pos _ _ NL). lia. }
  unfold pool_free. unfold bind at 1. rewrite debug_assert_ok by lia. unfold bind at 1, gets at 1, bind at 1, gets at 1. cbn [fst snd].
  rewrite (store_word_ok _ _ _ WA). eexists _, _. split; [reflexivity|]. split; [|done].
  pose proof (pinv_nodup _ _ _ _ I) as ND. rewrite HP in ND. cbn in ND. apply NoDup_cons in ND as [NI ND].
  split; [done| | |done].
  - exists (p :: free), j. split; [done|]. split; [done|]. split; [|by rewrite EA].
    cbn. split; [done|]. split; [lia|]. exists (p_head q). rewrite lookup_insert. split; [done|].
    eapply chain_frame; [done|]. intros x Hx. cbn. rewrite lookup_insert_ne; [done|]. intros ->. apply NI.
    apply elem_of_app. right. rewrite EA. apply elem_of_app. by left.
  - rewrite <- P, HP. solve_Permutation.
Qed.

End pool.

(** ** Blocks from the global allocator *)
Section blocks.
Context {T : Type}.
Variables (pick : mem T -> Z -> Z -> Z) (strict : bool) (sz al : Z) (live0 : list region).
Hypothesis NL : node_layout sz al.
Hypothesis HP : honest pick.
Hypothesis WF : forall r, r ∈ live0 -> 0 < r_bytes r.

Definition blk (p : Z) : region := Region p sz al true.

Record DInv (m : mem T) (over : list Z) : Prop := {
  di_live : m_live m ≡ₚ live0 ++ map blk over;
  di_place : forall p, p ∈ over -> 0 < p /\ p + sz < usize_lim /\ (al | p) /\ forall r, r ∈ live0 -> meets p sz r = false;
  di_nodup : NoDup over;
  di_pair : forall p q, p ∈ over -> q ∈ over -> p <> q -> p + sz <= q \/ q + sz <= p
}.

Lemma blk_inj p q : blk p = blk q -> p = q.
Proof. intros E. by injection E. Qed.

Lemma dinv_live m m' over : DInv m over -> m_live m' = m_live m -> DInv m' over.
Proof. intros [] E. split; [by rewrite E|done..]. Qed.

Lemma dinv_old m over r : DInv m over -> r ∈ live0 -> r ∈ m_live m.
Proof. intros I Hr. rewrite (di_live _ _ I). apply elem_of_app. by left. Qed.

Lemma dinv_block m over p : DInv m over -> p ∈ over -> accessible m p sz = true.
Proof.
  intros I Hp. unfold accessible. apply existsb_exists. exists (blk p). split.
  - apply elem_of_list_In. rewrite (di_live _ _ I). apply elem_of_app. right. apply elem_of_list_fmap. by exists p.
  - unfold inside. cbn. lia.
Qed.

(** What was accessible at the start is apart from every block. *)
Lemma dinv_apart (m0 m : mem T) over p a n : DInv m over -> m_live m0 = live0 -> p ∈ over -> 0 < n -> accessible m0 a n = true ->
  p + sz <= a \/ a + n <= p.
Proof.
  intros I E Hp Hn A. destruct (di_place _ _ I _ Hp) as (? & ? & ? & H). unfold accessible in A. rewrite E in A.
  apply existsb_exists in A as (r & Hr & IN). apply elem_of_list_In in Hr. specialize (H _ Hr). unfold meets, inside in *. lia.
Qed.

Lemma default_alloc_ok (u : unit) m over : DInv m over ->
  exists p m', default_alloc_raw pick sz al (u, m) = Ok p (u, m') /\
    ((p = 0 /\ m' = mem_tick m /\ DInv m' over) \/
     (p <> 0 /\ may_place m p sz al /\ m' = mem_alloc m p sz al /\ DInv m' (p :: over))) /\
    p = pick m sz al.
Proof.
  intros I. pose proof (node_layout_pos _ _ NL) as (? & ? & ? & ?). pose proof NL as (_ & _ & _ & L).
  unfold default_alloc_raw. rewrite (proj2 (Z.eqb_neq sz 0)) by lia. rewrite L. cbn [fst snd]. destruct (Z.eqb_spec (pick m sz al) 0) as [E|NE].
  - exists 0, (mem_tick m). split; [done|]. split; [|done]. left. split; [done|]. split; [done|]. by eapply dinv_live.
  - eexists _, _. split; [reflexivity|]. split; [|done]. right. split; [done|]. destruct (HP m sz al) as [|MP]; [lia|done|]. split; [done|]. split; [done|].
    pose proof MP as (P1 & P2 & P3 & P4).
    assert (AP : forall q, q ∈ over -> pick m sz al + sz <= q \/ q + sz <= pick m sz al).
    { intros q Hq. apply (may_place_apart m _ _ al); [lia|done|]. by eapply dinv_block. }
    split.
    + cbn. rewrite (di_live _ _ I). solve_Permutation.
    + intros p Hp. apply elem_of_cons in Hp as [-> |Hp]; [|by apply I]. split; [done|]. split; [done|]. split; [done|].
      intros r Hr. apply P4. by eapply dinv_old.
    + constructor; [|by destruct I]. intros Hp. specialize (AP _ Hp). lia.
    + intros p q Hp Hq NEpq. apply elem_of_cons in Hp as [-> |Hp]; apply elem_of_cons in Hq as [-> |Hq].
      * done.
      * by apply AP.
      * specialize (AP _ Hp). lia.
      * by apply (di_pair _ _ I).
Qed.

Lemma default_free_ok (u : unit) m over over' p bytes align : DInv m over -> over ≡ₚ p :: over' ->
  layout_ok bytes align = true -> strict = false \/ (bytes = sz /\ align = al) ->
  exists m', default_free_raw strict p bytes align (u, m) = Ok tt (u, m') /\ DInv m' over' /\
    m_word m' = m_word m /\ m_val m' = m_val m.
Proof.
  intros I HO L SB. pose proof (node_layout_pos _ _ NL) as (? & ? & ? & ?).
  assert (Hp : p ∈ over) by (rewrite HO; constructor). destruct (di_place _ _ I _ Hp) as (P1 & P2 & P3 & P4).
  unfold default_free_raw. rewrite L. cbn [fst snd]. unfold mem_free.
  destruct (remove_block_ex p (m_live m) (blk p)) as (r & l & E); [|done|done|].
  { rewrite (di_live _ _ I). apply elem_of_app. right. apply elem_of_list_fmap. by exists p. }
  rewrite E. destruct (remove_block_some _ _ _ _ E) as (PL & EB & EH).
  assert (r = blk p) as ->.
  { assert (Hr : r ∈ live0 ++ map blk over) by (rewrite <- (di_live _ _ I), PL; constructor).
    apply elem_of_app in Hr as [Hr|Hr].
    - specialize (P4 _ Hr). specialize (WF _ Hr). unfold meets in P4. lia.
    - apply elem_of_list_fmap in Hr as (q & -> & Hq). cbn in EB. by subst. }
  assert (LK : strict && negb ((r_bytes (blk p) =? bytes) && (r_align (blk p) =? align)) = false).
  { destruct SB as [-> |[-> ->]]; [done|]. cbn. rewrite !Z.eqb_refl. by rewrite andb_false_r. }
  rewrite LK. eexists. split; [reflexivity|]. split; [|done].
  assert (ND : NoDup (p :: over')) by (rewrite <- HO; apply I). apply NoDup_cons in ND as [NI ND].
  assert (SUB : forall q, q ∈ over' -> q ∈ over) by (intros q Hq; rewrite HO; by constructor).
  split; [| |done|].
  - cbn. apply (Permutation_cons_inv (a := blk p)). rewrite <- PL, (di_live _ _ I), HO. solve_Permutation.
  - intros q Hq. apply (di_place _ _ I). auto.
  - intros q q' Hq Hq'. apply (di_pair _ _ I); auto.
Qed.

End blocks.

Lemma bump_honest {T} : honest (@bump_pick T).
Proof.
  intros m bytes align Hb. unfold bump_pick. set (top := fold_right _ _ _). cbv zeta.
  destruct (_ && _ && _) eqn:C; [right|by left]. apply andb_prop in C as [C C3]. apply andb_prop in C as [C1 C2].
  pose proof (round_up_spec top align ltac:(lia)) as (D & L).
  split; [lia|]. split; [lia|]. split; [done|].
  intros r Hr. assert (r_base r + r_bytes r <= top); [|unfold meets; lia].
  subst top. clear -Hr. induction (m_live m) as [|r0 l IH]; [by apply elem_of_nil in Hr|]. cbn.
  apply elem_of_cons in Hr as [-> |Hr]; [lia|]. specialize (IH Hr). lia.
Qed.

Lemma end_ok {T} base len sz al (m0 : mem T) : PoolSetup m0 base len sz al -> base <= pool_end base len sz al <= base + len.
Proof.
  intros [NL' B L R A]. pose proof (count_ok base len sz al NL' R). pose proof (first_ok base sz al NL').
  pose proof (node_layout_pos _ _ NL'). unfold pool_end. nia.
Qed.

(** ** Pools with overflow *)
Section opool.
Context {T : Type}.
Variables (pick : mem T -> Z -> Z -> Z) (strict : bool) (base len sz al : Z) (m0 : mem T).
Hypothesis PS : PoolSetup m0 base len sz al.
Hypothesis HP : honest pick.
Hypothesis WF : forall r, r ∈ m_live m0 -> 0 < r_bytes r.
(** The byte after the last slot belongs to the caller too. *)
Hypothesis PAD : accessible m0 base (pool_end base len sz al + 1 - base) = true.

Let NL := ps_node _ _ _ _ _ PS.
Local Notation PI := (PInv base len sz al).
Local Notation DI := (DInv sz al (m_live m0)).

Record OInv (q : opool unit) (m : mem T) (slots avail over : list Z) : Prop := {
  oi_pool : PI (o_pool q) m slots avail;
  oi_over : DI m over;
  oi_begin : o_begin q = base
}.

Lemma base_live (m : mem T) over : DI m over -> forall a n, accessible m0 a n = true -> accessible m a n = true.
Proof.
  intros I a n A. eapply accessible_live; [|exact A]. intros r Hr. by eapply dinv_old.
Qed.

Lemma slot_bounds q (m : mem T) slots avail x : PI q m slots avail -> x ∈ slots ++ avail -> base <= x /\ x + sz <= pool_end base len sz al /\ (8 | x) /\ 0 < x /\ (al | x).
Proof.
  intros I H. destruct PS as [NL' B L R A]. destruct (pinv_in _ _ _ _ _ _ _ _ _ I H) as (i & Hi & ->).
  destruct (slot_in base len sz al NL' B R i Hi) as (? & ? & ? & ? & ? & ?). unfold pool_end. done.
Qed.

(** Blocks of the overflow allocator lie apart from the slots. *)
Lemma over_apart q m slots avail over x p : OInv q m slots avail over -> x ∈ slots ++ avail -> p ∈ over ->
  p + sz <= x \/ x + sz <= p.
Proof.
  intros [IP ID _] Hx Hp. destruct (slot_bounds _ _ _ _ _ IP Hx) as (? & ? & _). pose proof (end_ok base len sz al m0 PS).
  pose proof (node_layout_pos _ _ NL). destruct (dinv_apart sz al (m_live m0) WF m0 m over p base (pool_end base len sz al + 1 - base)); auto; lia.
Qed.

Lemma opool_init_ok chk : exists q, opool_init chk sz al base len (opool_with tt, m0) = Ok tt (q, m0) /\
  OInv q m0 [] (pool_slots base len sz al) [].
Proof.
  destruct PS as [NL' B L R A]. destruct (pool_init_ok base len sz al NL' B L R chk m0 A) as (q & H).
  destruct (H pool_default) as (E & I). exists (OPool q tt base). unfold opool_init, bind, in_pool. cbn [opool_with o_pool o_over o_begin].
  rewrite E. split; [done|]. split; [exact I| |done]. split.
  - cbn. by rewrite app_nil_r.
  - intros p Hp. by apply elem_of_nil in Hp.
  - constructor.
  - intros p p' Hp. by apply elem_of_nil in Hp.
Qed.

Lemma opool_alloc_ok chk q m slots avail over : OInv q m slots avail over ->
  exists p q' m', opool_alloc (DefaultAddrAlloc pick strict) chk sz al sz al (q, m) = Ok p (q', m') /\
    match avail with
    | x :: avail' => p = x /\ m' = m /\ OInv q' m' (x :: slots) avail' over
    | [] => p = pick m sz al /\
      ((p = 0 /\ m' = mem_tick m /\ OInv q' m' slots [] over) \/
       (p <> 0 /\ may_place m p sz al /\ m' = mem_alloc m p sz al /\ OInv q' m' slots [] (p :: over)))
    end.
Proof.
  intros I. pose proof I as [IP ID EB]. destruct PS as [NL' B L R A].
  destruct (pool_alloc_ok base len sz al NL' B R chk _ _ _ _ IP) as (q1 & E1 & I1 & _).
  unfold opool_alloc. unfold bind at 1. rewrite debug_assert_ok by apply Z.eqb_refl. unfold bind at 1. rewrite debug_assert_ok by apply Z.eqb_refl.
  unfold bind at 1, in_pool at 1. rewrite E1. destruct avail as [|x avail].
  - cbn [Z.eqb negb]. unfold in_over. cbn [aa_alloc DefaultAddrAlloc o_pool o_over o_begin].
    destruct (default_alloc_ok pick sz al (m_live m0) NL HP (o_over q) m over ID) as (p & m' & E2 & [(-> & -> & D)|(NE & MP & -> & D)] & EP).
    + rewrite E2. eexists _, _, _. split; [reflexivity|]. split; [done|]. left. split; [done|]. split; [done|]. split; [|done|done].
      eapply pinv_frame; [exact I1|done|]. by apply (base_live _ _ D).
    + rewrite E2. eexists _, _, _. split; [reflexivity|]. split; [done|]. right. split; [done|]. split; [done|]. split; [done|]. split; [|done|done].
      eapply pinv_frame; [exact I1|intros x Hx; by apply elem_of_nil in Hx|]. by apply (base_live _ _ D).
  - assert (Hx : x ∈ slots ++ x :: avail) by (apply elem_of_app; right; constructor).
    destruct (slot_bounds _ _ _ _ _ IP Hx) as (? & ? & _). rewrite (proj2 (Z.eqb_neq x 0)) by lia. cbn [negb].
    eexists _, _, _. split; [reflexivity|]. split; [done|]. split; [done|]. split; [exact I1|done|done].
Qed.

Lemma opool_free_slot_ok chk q m slots slots' avail over p n a : OInv q m slots avail over -> slots ≡ₚ p :: slots' ->
  exists q' m' w, opool_free (DefaultAddrAlloc pick strict) chk p n a (q, m) = Ok tt (q', m') /\ OInv q' m' slots' (p :: avail) over /\
    m' = Mem (m_live m) (<[p := w]> (m_word m)) (m_val m) (m_time m).
Proof.
  intros I HS. pose proof I as [IP ID EB]. destruct PS as [NL' B L R A].
  assert (Hx : p ∈ slots ++ avail) by (apply elem_of_app; left; rewrite HS; constructor).
  destruct (slot_bounds _ _ _ _ _ IP Hx) as (? & ? & _). pose proof (node_layout_pos _ _ NL).
  destruct (pool_free_ok base len sz al NL' B R chk _ _ _ _ _ _ n a IP HS) as (q1 & m1 & E1 & I1 & EM).
  unfold opool_free. unfold bind at 1, gets at 1. cbn [fst]. rewrite EB, (pi_cap _ _ _ _ _ _ _ _ IP).
  fold (pool_end base len sz al). rewrite (proj2 (Z.leb_le base p)), (proj2 (Z.leb_le p _)) by lia. cbn [andb].
  unfold in_pool. rewrite E1. eexists _, _, _. split; [reflexivity|]. split; [|exact EM].
  split; [exact I1| |done]. eapply dinv_live; [exact ID|]. by rewrite EM.
Qed.

Lemma opool_free_over_ok chk q m slots avail over over' p bytes align : OInv q m slots avail over -> over ≡ₚ p :: over' ->
  layout_ok bytes align = true -> strict = false \/ (bytes = sz /\ align = al) ->
  exists q' m', opool_free (DefaultAddrAlloc pick strict) chk p bytes align (q, m) = Ok tt (q', m') /\ OInv q' m' slots avail over' /\
    m_word m' = m_word m /\ m_val m' = m_val m.
Proof.
  intros I HO LK SB. pose proof I as [IP ID EB]. destruct PS as [NL' B L R A]. pose proof (end_ok base len sz al m0 PS). pose proof (node_layout_pos _ _ NL).
  assert (Hp : p ∈ over) by (rewrite HO; constructor).
  pose proof (dinv_apart sz al (m_live m0) WF m0 m over p base (pool_end base len sz al + 1 - base) ID eq_refl Hp ltac:(lia) PAD) as AP.
  destruct (default_free_ok strict sz al (m_live m0) NL WF (o_over q) m over over' p bytes align ID HO LK SB) as (m1 & E1 & D1 & EW & EV).
  unfold opool_free. unfold bind at 1, gets at 1. cbn [fst]. rewrite EB, (pi_cap _ _ _ _ _ _ _ _ IP).
  fold (pool_end base len sz al). replace ((base <=? p) && (p <=? pool_end base len sz al)) with false by lia.
  unfold in_over. cbn [aa_free DefaultAddrAlloc]. rewrite E1. eexists _, _. split; [reflexivity|]. split; [|done].
  split; [|exact D1|done]. eapply pinv_frame; [exact IP|by rewrite EW|]. by apply (base_live _ _ D1).
Qed.

End opool.
