(** Proofs about strings. *)
From Verif Require Import Base Heap HeapLemmas Alloc AllocContract Vector VectorSpec VectorProofs VectorMore VectorFindings.
From Verif Require Import Hash String StringSpec.

Lemma usize_Z {S} chk (r : Z) : (0 <= r < usize_lim)%Z -> usize (S:=S) chk r = ret (Z.to_nat r).
Proof. intros H. unfold usize. by replace ((0 <=? r) && (r <? usize_lim))%Z with true by lia. Qed.

Lemma nt_alloc_steps {A} (AI : AllocImpl A Z) chk sz n align s b res s1 p h :
  usize chk (n + 1) s = Ok b s -> ai_alloc AI sz (Z.of_nat b) align s = Ok res s1 ->
  hadd (snd s1) res (Z.to_nat n) = Some p -> hstore (snd s1) p 0%Z = Some h ->
  nt_alloc AI chk sz n align s = Ok res (fst s1, h).
Proof.
  intros E1 E2 E3 E4. unfold nt_alloc, bind. rewrite E1, E2. unfold gets, id. rewrite E3. cbn. by rewrite E4.
Qed.

Lemma default_alloc_ok (h : heap Z) sz bytes align : (0 < bytes)%Z -> layout_ok bytes align = true ->
  default_alloc sz bytes align (tt, h) =
    Ok (Ptr (h_next h) 0) (tt, halloc h (Block bytes align (replicate (Z.to_nat (bytes / sz)) None))).
Proof. intros H1 H2. unfold default_alloc. rewrite (proj2 (Z.eqb_neq _ _)) by lia. by rewrite H2. Qed.

Lemma nt_alloc_panics {A} (AI : AllocImpl A Z) chk sz n align s b :
  usize chk (n + 1) s = Ok b s -> ai_alloc AI sz (Z.of_nat b) align s = Panic s ->
  nt_alloc AI chk sz n align s = Panic s.
Proof. intros E1 E2. unfold nt_alloc, bind. by rewrite E1, E2. Qed.

Lemma nt_free_steps {A} (AI : AllocImpl A Z) chk n align p s b r :
  usize chk (n + 1) s = Ok b s -> ai_free AI p (Z.of_nat b) align s = r ->
  nt_free AI chk p n align s = r.
Proof. intros E1 E2. unfold nt_free, bind. by rewrite E1, E2. Qed.

Lemma default_alloc_panic (h : heap Z) sz bytes align : bytes = 0%Z \/ layout_ok bytes align = false ->
  default_alloc sz bytes align (tt, h) = Panic (tt, h).
Proof. intros [->|H]; [done|]. unfold default_alloc. destruct (bytes =? 0)%Z; [done|]. by rewrite H. Qed.

Lemma default_free_ok (h h' : heap Z) p bytes align : layout_ok bytes align = true ->
  hfree h p bytes align = Some h' -> default_free p bytes align (tt, h) = Ok tt (tt, h').
Proof. intros H1 H2. unfold default_free. cbn [snd fst]. by rewrite H1, H2. Qed.

Lemma usize_over {S} chk r (s : S) : r = usize_lim -> usize chk r s = Panic s \/ usize chk r s = Ok 0 s.
Proof. intros ->. unfold usize. destruct chk; [left|right]; done. Qed.

(** The NUL-terminating allocator on top of the default one. *)
Section nt.
Variable chk : bool.
Notation NT := (NullTerminatorAllocator (DefaultAllocator Z) chk).

Lemma nt_alloc_eq (h : heap Z) n : string_fits n = true ->
  ai_alloc NT 1 (Z.of_nat n * 1) 1 (tt, h) =
    Ok (Ptr (h_next h) 0) (tt, halloc h (Block (Z.of_nat n + 1) 1 (replicate n None ++ [Some 0%Z]))).
Proof.
  intros F. unfold string_fits in F. rewrite Z.mul_1_r.
  set (bk := Block (Z.of_nat n + 1) 1 (replicate (n + 1) (@None Z))).
  assert (Hb : h_blk (halloc h bk) !! h_next h = Some bk) by (cbn; by rewrite lookup_insert).
  assert (Hc : bk_cells bk = replicate n None ++ [None]) by (cbn; by rewrite replicate_add).
  assert (Hl : length (bk_cells bk) = n + 1) by (rewrite Hc, app_length, replicate_length; done).
  apply (nt_alloc_steps _ chk 1 (Z.of_nat n) 1 (tt, h) (n + 1) (Ptr (h_next h) 0) (tt, halloc h bk) (Ptr (h_next h) n)).
  - rewrite usize_Z by (unfold usize_lim, isize_max in *; lia). unfold ret. f_equal. lia.
  - pose proof (default_alloc_ok h 1 (Z.of_nat (n + 1)) 1 ltac:(lia) ltac:(unfold layout_ok; lia)) as E.
    rewrite Z.div_1_r, Nat2Z.id in E. rewrite Nat2Z.inj_add in E. rewrite Nat2Z.inj_add. exact E.
  - rewrite Nat2Z.id. cbn [snd]. rewrite (hadd_ok _ _ _ _ _ Hb) by lia. done.
  - cbn [snd]. unfold hstore. rewrite (hput_ok _ _ _ _ _ Hb) by (cbn [length]; lia). f_equal.
    unfold hset, halloc. cbn [h_next h_blk]. rewrite insert_insert. f_equal. f_equal.
    rewrite Hc. cbn [length]. rewrite take_app_alt by (by rewrite replicate_length).
    rewrite drop_ge by (rewrite app_length, replicate_length; cbn; lia). by rewrite app_nil_r.
Qed.

Lemma nt_alloc_too_big (h : heap Z) n : string_fits n = false -> (Z.of_nat n * 1 < usize_lim)%Z ->
  ai_alloc NT 1 (Z.of_nat n * 1) 1 (tt, h) = Panic (tt, h).
Proof.
  rewrite Z.mul_1_r. unfold string_fits. intros F B.
  destruct (Z.ltb_spec (Z.of_nat n + 1) usize_lim).
  - apply (nt_alloc_panics _ _ _ _ _ _ (n + 1)).
    + rewrite usize_Z by lia. unfold ret. f_equal. lia.
    + apply default_alloc_panic. right. unfold layout_ok. lia.
  - assert (E : (Z.of_nat n + 1 = usize_lim)%Z) by lia.
    destruct (usize_over (S := unit * heap Z) chk (Z.of_nat n + 1) (tt, h) E) as [E1|E1].
    + unfold ai_alloc, NullTerminatorAllocator, nt_alloc, bind. by rewrite E1.
    + apply (nt_alloc_panics _ _ _ _ _ _ 0 E1). apply default_alloc_panic. by left.
Qed.

Lemma nt_free_ok (h : heap Z) b n bk : h_blk h !! b = Some bk ->
  bk_bytes bk = (Z.of_nat n + 1)%Z -> bk_align bk = 1%Z -> string_fits n = true ->
  ai_free NT (Ptr b 0) (Z.of_nat n * 1) 1 (tt, h) = Ok tt (tt, hdel h b).
Proof.
  rewrite Z.mul_1_r. unfold string_fits. intros E EB EA F.
  apply (nt_free_steps _ _ _ _ _ _ (n + 1)).
  - rewrite usize_Z by (unfold usize_lim, isize_max in *; lia). unfold ret. f_equal. lia.
  - rewrite Nat2Z.inj_add. apply default_free_ok; [unfold layout_ok; lia|].
    unfold hfree. by rewrite E, EB, EA, !Z.eqb_refl.
Qed.

Definition NTSpec : AllocSpec NT 1 1.
Proof.
  refine {|
    as_fits := string_fits;
    as_pool := fun _ => None;
    as_layout := fun n bk =>
      bk_bytes bk = (Z.of_nat n + 1)%Z /\ bk_align bk = 1%Z /\ string_fits n = true /\
      length (bk_cells bk) = n + 1
  |}.
  - intros n F. unfold string_fits in F. lia.
  - intros [] h n Hn F. rewrite nt_alloc_eq by done.
    eexists _, [Some 0%Z]. split; [reflexivity|]. split; [done|].
    cbn. rewrite app_length, replicate_length. done.
  - intros [] h n Hn F B. exact (nt_alloc_too_big h n F B).
  - intros [] h b n bk _ E (EB & EA & F & EL). by apply (nt_free_ok h b n bk).
  - done.
  - intros n bk cs (? & ? & ? & <-) L. done.
Defined.
End nt.

Section proofs.
Variable chk : bool.
Notation NT := (NullTerminatorAllocator (DefaultAllocator Z) chk).
Notation st := (vstate unit Z).
Notation AS := (NTSpec chk).
Notation Rep := (Rep NT 1 1 AS).
Notation Post := (Post NT 1 1 false AS).
Notation frame := (frame NT 1 1 AS).
Implicit Types s : st.

Let H1 : (0 < 1)%Z := eq_refl.

(** [s] holds the string [t]. *)
Definition SRep s (t : sstr) : Prop :=
  Rep s (sp_bytes t) (sp_room t) /\ end_cell s = sp_mark t.

Lemma Rep_end_null s xs cap : Rep s xs cap -> cap = 0 -> v_end (st_v s) = Null.
Proof. intros (_ & _ & [(E & _)|(b & bk & j & _ & C0 & _)]) ->; [by rewrite E|lia]. Qed.

Lemma end_cell_null s xs cap : Rep s xs cap -> cap = 0 -> end_cell s = None.
Proof. intros R E. unfold end_cell. by rewrite (Rep_end_null _ _ _ R E). Qed.

Lemma null_terminate_ok s xs cap : Rep s xs cap ->
  exists s', null_terminate s = Ok tt s' /\ Post s s' xs cap [] /\
    end_cell s' = (if cap =? 0 then None else Some 0%Z).
Proof.
  intros R. unfold null_terminate, bind at 1, gets at 1.
  destruct (Nat.eqb_spec cap 0) as [C|C].
  - rewrite (Rep_end_null _ _ _ R C). cbn [is_null]. exists s. split; [done|].
    split; [by apply Post_refl|]. by eapply end_cell_null.
  - destruct (Rep_buf _ _ _ _ _ _ _ R ltac:(lia)) as (b & bk & junk & B).
    pose proof B as (E & Cl & Hb & Hc & Hl). rewrite E. cbn [v_end is_null].
    assert (Hlen : length (bk_cells bk) = cap + 1).
    { destruct R as (_ & _ & [(E' & _)|(b' & bk' & j' & E' & _ & _ & _ & Hb' & _ & _ & HO)]); rewrite E in E'; [done|].
      injection E' as <-. rewrite Hb in Hb'. injection Hb' as <-. destruct HO as [HO|HO]; [done|]. apply HO. }
    unfold on_heap, bind at 1, gets at 1. unfold hstore.
    rewrite (hput_ok _ _ _ _ _ Hb) by (cbn [length]; lia).
    unfold bind at 1, or_ub, ret, set_h, modify. rewrite E. set (bk' := Block _ _ _).
    eexists. split; [reflexivity|].
    assert (Hj : length (bk_cells bk) = length xs + length junk) by (rewrite Hc, app_length, fmap_length; done).
    assert (Hc' : bk_cells bk' = (Some <$> xs) ++ Some 0%Z :: drop 1 junk).
    { unfold bk'. cbn [bk_cells length]. rewrite Hc.
      rewrite take_app_alt by (by rewrite fmap_length).
      rewrite drop_app_ge by (rewrite fmap_length; lia). rewrite fmap_length.
      replace (length xs + 1 - length xs) with 1 by lia. done. }
    split.
    + pose proof (Post_hset NT 1 1 false AS s xs cap b bk junk bk' xs _ [] R ltac:(lia) B eq_refl eq_refl Hc') as P.
      rewrite app_nil_r in P. apply P; [|done].
      rewrite Hc', app_length, fmap_length. cbn [length]. rewrite drop_length. lia.
    + unfold end_cell. cbn [st_v st_h v_end]. rewrite (hload_at _ _ _ bk') by apply hset_lookup.
      rewrite Hc', lookup_app_r, fmap_length, Nat.sub_diag by (rewrite fmap_length; lia). done.
Qed.

Lemma Post_nil_trans s1 s2 s3 xs2 c2 xs3 c3 :
  Post s1 s2 xs2 c2 [] -> Post s2 s3 xs3 c3 [] -> Post s1 s3 xs3 c3 [].
Proof. intros P Q. exact (Post_trans _ _ _ _ _ _ _ _ _ _ _ _ _ _ P Q). Qed.

Lemma log_drop_id x s : log_drop false x s = s.
Proof. unfold log_drop. rewrite app_nil_r. by destruct s. Qed.

(** One string call. *)
Theorem s_step_refines c s t a t' :
  SRep s t -> spec_scall string_fits c t = (a, t') -> chk = true \/ s_modest c = true ->
  exists s', s_step (DefaultAllocator Z) chk c s = Some (a, s') /\ SRep s' t' /\
    Post s s' (sp_bytes t') (sp_room t') [].
Proof.
  intros (R & HM) HS HK.
  destruct t as [bs k m]. cbn [sp_bytes sp_room sp_mark] in *.
  pose proof (Rep_len _ _ _ _ _ _ _ R) as HL.
  pose proof (Rep_cap NT 1 1 AS _ _ _ R) as HC.
  assert (RET : forall a' (m' : outcome st sanswer), m' = Ok a' s -> a' = a -> SStr bs k m = t' ->
     exists s', (match m' with Ok a s' => Some (a, s') | Panic s' => Some (SPanic, s') | UB => None end) = Some (a, s') /\
       SRep s' t' /\ Post s s' (sp_bytes t') (sp_room t') []).
  { intros a' m' -> -> <-. exists s. split; [done|]. split; [done|]. by apply Post_refl. }
  assert (INS : forall i ch, i <= length bs ->
    grow_to string_fits (one_more (SStr bs k m)) (SStr bs k m)
      (SUnit, SStr (take i bs ++ (ch mod 256)%Z :: drop i bs) (one_more (SStr bs k m)) (Some 0%Z)) = (a, t') ->
    exists s', match s_insert (DefaultAllocator Z) chk i ch s with
               | Ok _ s' => Some (SUnit, s') | Panic s' => Some (SPanic, s') | UB => None end = Some (a, s') /\
       SRep s' t' /\ Post s s' (sp_bytes t') (sp_room t') []).
  { intros i ch Hi HG. unfold grow_to in HG.
    change (one_more (SStr bs k m)) with (need_one bs k) in HG. cbn [sp_room] in HG.
    unfold s_insert, char_as_u8, bind.
    destruct ((need_one bs k =? k) || string_fits (need_one bs k)) eqn:F; injection HG as <- <-.
    - destruct (insert_ok NT 1 1 chk false H1 AS s bs k i (ch mod 256)%Z R Hi F) as (s1 & E1 & P1).
      rewrite E1. pose proof P1 as (R1 & _).
      destruct (null_terminate_ok _ _ _ R1) as (s2 & E2 & P2 & M2). rewrite E2.
      exists s2. split; [done|]. cbn [sp_bytes sp_room]. pose proof P2 as (R2 & _).
      assert (N : need_one bs k <> 0).
      { unfold need_one. destruct (Nat.eqb_spec (length bs) k); [destruct (Nat.eqb_spec k 0)|]; lia. }
      rewrite (proj2 (Nat.eqb_neq _ _) N) in M2.
      split; [by split|]. by eapply Post_nil_trans.
    - rewrite (insert_panic NT 1 1 chk false H1 AS s bs k i _ R Hi F) by (right; unfold isize_max; lia). rewrite log_drop_id.
      exists s. split; [done|]. split; [done|]. by apply Post_refl. }
  assert (RES : forall n, (k + n + 1 =? k) || string_fits (k + n + 1) = true ->
    exists s', s_reserve (DefaultAllocator Z) chk n s = Ok tt s' /\ Post s s' bs (k + n + 1) [] /\ end_cell s' = None).
  { intros n F. replace (k + n + 1 =? k) with false in F by (symmetry; apply Nat.eqb_neq; lia). cbn [orb] in F.
    pose proof (as_fits_bound AS (k + n + 1) F) as FB.
    unfold s_reserve, bind. rewrite (usize_ok' chk _ (n + 1)) by (unfold usize_lim, isize_max in *; lia). unfold ret.
    replace (k + n + 1) with (k + (n + 1)) in * by lia.
    apply (reserve_ok_end NT 1 1 chk false H1 AS s bs k (n + 1) R ltac:(lia) F). }
  assert (RESP : forall n, (k + n + 1 =? k) || string_fits (k + n + 1) = false -> chk = true \/ (Z.of_nat (n + 1) <= isize_max)%Z ->
    s_reserve (DefaultAllocator Z) chk n s = Panic s).
  { intros n F K. apply orb_false_elim in F as [_ F]. unfold s_reserve, bind, usize.
    destruct (_ && _)%Z eqn:E; [|destruct K as [->|K]; [done|unfold usize_lim, isize_max in *; lia]]. unfold ret.
    replace (Z.to_nat _) with (n + 1) by lia.
    apply (reserve_panic NT 1 1 chk H1 AS s bs k (n + 1) R); [lia| |destruct K; [by left|right; lia]].
    by replace (k + (n + 1)) with (k + n + 1) by lia. }
  unfold s_step. destruct c; cbn [spec_scall sp_bytes sp_room s_exec] in *.
  - destruct (INS (length bs) c ltac:(lia)) as (s' & E & X).
    { rewrite firstn_all, skipn_all. exact HS. }
    exists s'. split; [|done]. rewrite <- E. unfold s_push, bind.
    rewrite (len_ok NT 1 1 H1 AS s bs k R). by destruct (s_insert _ _ _ _ s).
  - injection HS as <- <-. unfold s_pop, bind.
    destruct (pop_ok NT 1 1 false H1 AS s bs k R) as (s1 & E1 & P1).
    rewrite E1. pose proof P1 as (R1 & _).
    destruct (null_terminate_ok _ _ _ R1) as (s2 & E2 & P2 & M2). rewrite E2.
    exists s2. split; [unfold ret; by destruct (last bs)|]. cbn [sp_bytes sp_room]. pose proof P2 as (R2 & _).
    split; [by split|]. by eapply Post_nil_trans.
  - destruct (Nat.leb_spec i (length bs)) as [Hi|Hi].
    + destruct (INS i c Hi HS) as (s' & E & X). exists s'. split; [|done]. rewrite <- E.
      unfold bind. by destruct (s_insert _ _ _ _ s).
    + injection HS as <- <-. unfold s_insert, bind.
      rewrite (insert_oob NT 1 1 chk false H1 AS s bs k i _ R Hi). rewrite log_drop_id.
      exists s. split; [done|]. split; [done|]. by apply Post_refl.
  - unfold s_remove, bind.
    rewrite (len_ok NT 1 1 H1 AS s bs k R).
    destruct (bs !! i) as [b|] eqn:Eb; injection HS as <- <-.
    + pose proof (lookup_lt_Some _ _ _ Eb). rewrite (proj2 (Nat.leb_gt _ _)) by done.
      destruct (remove_ok_end NT 1 1 chk false H1 AS s bs k i b R Eb) as (s' & E & P & M).
      rewrite E. exists s'. split; [done|]. cbn [sp_bytes sp_room]. pose proof P as (R' & _).
      split; [by split|done].
    + apply lookup_ge_None in Eb. rewrite (proj2 (Nat.leb_le _ _)) by done.
      exists s. split; [done|]. split; [done|]. by apply Post_refl.
  - unfold grow_to in HS. cbn [sp_room] in HS. unfold bind.
    destruct ((k + n + 1 =? k) || string_fits (k + n + 1)) eqn:F; injection HS as <- <-.
    + destruct (RES n F) as (s' & E & P & M). rewrite E. exists s'. split; [done|]. cbn [sp_bytes sp_room].
      pose proof P as (R' & _). split; [by split|done].
    + rewrite (RESP n F) by (destruct HK as [HK|HK]; [by left|right; unfold s_modest in HK; cbn [s_named] in HK; lia]). exists s. split; [done|]. split; [done|]. by apply Post_refl.
  - unfold grow_to in HS. cbn [sp_room] in HS. unfold s_assign, bind.
    destruct ((k + length buf + 1 =? k) || string_fits (k + length buf + 1)) eqn:F; injection HS as <- <-.
    + destruct (RES _ F) as (s1 & E1 & P1 & _). rewrite E1. pose proof P1 as (R1 & _).
      destruct (append_ok NT 1 1 chk false H1 AS Some id ltac:(done) s1 bs (k + length buf + 1) buf R1 eq_refl) as (s2 & E2 & P2).
      { rewrite Nat.max_l by lia. by rewrite Nat.eqb_refl. }
      rewrite E2. pose proof P2 as (R2 & _).
      destruct (null_terminate_ok _ _ _ R2) as (s3 & E3 & P3 & M3). rewrite E3.
      rewrite Nat.max_l, map_id in P2 by lia. rewrite Nat.max_l, map_id in P3 by lia. rewrite Nat.max_l in M3 by lia.
      rewrite (proj2 (Nat.eqb_neq _ _)) in M3 by lia.
      exists s3. split; [done|]. cbn [sp_bytes sp_room]. pose proof P3 as (R3 & _).
      split; [by split|]. eapply Post_nil_trans; [|exact P3]. by eapply Post_nil_trans.
    + rewrite (RESP _ F) by (destruct HK as [HK|HK]; [by left|right; unfold s_modest in HK; cbn [s_named] in HK; lia]). exists s. split; [done|]. split; [done|]. by apply Post_refl.
  - injection HS as <- <-. unfold bind.
    destruct (clear_ok NT 1 1 chk false H1 AS s bs k R) as (s' & E & P). rewrite E.
    exists s'. split; [done|]. cbn [sp_bytes sp_room]. pose proof P as (R' & F' & A' & D').
    split; [split; [done|by eapply end_cell_null]|]. done.
  - injection HS as <- <-. eapply RET; [|done|done]. unfold bind. by rewrite (len_ok NT 1 1 H1 AS s bs k R).
  - injection HS as <- <-. eapply RET; [|done|done]. unfold bind. by rewrite (capacity_ok NT 1 1 H1 AS s bs k R).
  - injection HS as <- <-. eapply RET; [|done|done]. unfold bind. by rewrite (is_empty_ok NT 1 1 H1 AS s bs k R).
  - injection HS as <- <-. eapply RET; [|done|done]. unfold bind. by rewrite (is_full_ok NT 1 1 H1 AS s bs k R).
  - injection HS as <- <-. eapply RET; [|done|done]. unfold s_bytes, bind. by rewrite (as_slice_ok NT 1 1 H1 AS s bs k R).
  - injection HS as <- <-. eapply RET; [|done|done]. unfold s_hash, s_bytes, bind. by rewrite (as_slice_ok NT 1 1 H1 AS s bs k R).
Qed.

Theorem s_run_refines cs : forall s t l t',
  SRep s t -> spec_srun string_fits cs t = (l, t') -> chk = true \/ forallb s_modest cs = true ->
  exists s', s_run (DefaultAllocator Z) chk cs s = Some (l, s') /\ SRep s' t' /\
    frame s' = frame s /\ st_drops s' = st_drops s.
Proof.
  induction cs as [|c cs IH]; intros s t l t' R HS HK; cbn [spec_srun] in HS.
  - simplify_eq. by exists s.
  - destruct (spec_scall string_fits c t) as [a t1] eqn:E1.
    destruct (spec_srun string_fits cs t1) as [l2 t2] eqn:E2. simplify_eq.
    destruct (s_step_refines c s t a t1 R E1) as (s1 & Es & R1 & P1).
    { destruct HK as [HK|HK]; [by left|right]. cbn in HK. by apply andb_prop in HK as [? _]. }
    destruct (IH s1 t1 l2 t' R1 E2) as (s2 & Er & R2 & F2 & D2).
    { destruct HK as [HK|HK]; [by left|right]. cbn in HK. by apply andb_prop in HK as [_ ?]. }
    exists s2. cbn [s_run]. rewrite Es, Er. split; [done|]. split; [done|].
    destruct P1 as (_ & F1 & _ & D1). rewrite F2, F1, D2, D1. cbn. by rewrite app_nil_r.
Qed.

(** A clone of a non-empty string is terminated by the allocator. *)
Lemma s_clone_ok s xs cap : Rep s xs cap -> (length xs =? 0) || string_fits (length xs) = true ->
  exists v s', s_clone (DefaultAllocator Z) chk s = Ok v s' /\
    exists s1, v = st_v s1 /\ st_a s' = st_a s1 /\ st_h s' = st_h s1 /\ st_drops s' = st_drops s1 /\
    Post (VState new_in (st_a s) (st_h s) (st_drops s)) s1 xs (length xs) [] /\
    end_cell s1 = (if length xs =? 0 then None else Some 0%Z).
Proof.
  intros R F. assert (W : heap_wf (st_h s)) by apply R.
  assert (R0 : Rep (VState new_in (st_a s) (st_h s) (st_drops s)) [] 0) by (by apply Rep_new).
  unfold s_clone, clone_vec, bind. rewrite (as_slice_ok NT 1 1 H1 AS s xs cap R).
  unfold from_in, build. destruct s as [v0 [] h d]. cbn [st_a st_h st_drops st_v] in *.
  destruct (assign_ok NT 1 1 chk false H1 AS Some id ltac:(done) _ _ _ xs R0 ltac:(by left)) as (s1 & E1 & P1).
  { by rewrite Nat.max_0_l. }
  rewrite E1. rewrite Nat.max_0_l, take_nil, map_id in P1.
  eexists _, _. split; [reflexivity|]. exists s1. cbn [st_a st_h st_drops].
  repeat (split; [done|]).
  destruct (Nat.eqb_spec (length xs) 0) as [L|L].
  { pose proof P1 as (R1 & _). by eapply end_cell_null. }
  assert (NE : xs <> []) by (destruct xs; cbn in L; done).
  cbn [orb] in F.
  destruct (assign_head NT 1 1 chk false H1 AS Some tt h d xs W NE F) as (bk & E & Hl & Ht & HA).
  rewrite E1 in E.
  unfold allocate, bind in HA. rewrite (usize_ok' chk _ (length xs)) in HA by (unfold string_fits, usize_lim, isize_max in *; lia).
  unfold ret, lift_alloc in HA. cbn [st_a st_h] in HA.
  pose proof (nt_alloc_eq chk h (length xs) F) as NE2. rewrite Z.mul_1_r in NE2. rewrite NE2 in HA.
  injection HA as HA. apply (f_equal (lookup (h_next h))) in HA. rewrite !lookup_insert in HA. injection HA as HA. subst bk.
  set (bk := Block _ _ _) in E.
  destruct (clone_from_slice_ok false Some id ltac:(done) xs
     (VState (Vec (Ptr (h_next h) 0) (Ptr (h_next h) (length xs)) (Ptr (h_next h) (length xs))) tt (halloc h bk) d)
     (h_next h) 0 bk []) as (bk' & E' & EB & EA & EC).
  { cbn. by rewrite lookup_insert. } { done. } { by left. }
  rewrite E' in E. injection E as ->. unfold end_cell. cbn [st_h st_v v_end].
  rewrite (hload_at _ _ _ bk') by apply hset_lookup. rewrite EC, take_0. cbn [app Nat.add].
  rewrite lookup_app_r by (rewrite fmap_length, map_length; lia).
  rewrite fmap_length, map_length, Nat.sub_diag, lookup_drop, Nat.add_0_r. unfold bk. cbn [bk_cells].
  rewrite lookup_app_r by (rewrite replicate_length; lia). by rewrite replicate_length, Nat.sub_diag.
Qed.

Lemma s_clone_panic s xs cap : Rep s xs cap -> (length xs =? 0) || string_fits (length xs) = false ->
  s_clone (DefaultAllocator Z) chk s = Panic s.
Proof.
  intros R F. assert (W : heap_wf (st_h s)) by apply R.
  assert (R0 : Rep (VState new_in (st_a s) (st_h s) (st_drops s)) [] 0) by (by apply Rep_new).
  unfold s_clone, clone_vec, bind. rewrite (as_slice_ok NT 1 1 H1 AS s xs cap R).
  unfold from_in, build.
  rewrite (assign_panic NT 1 1 chk false H1 AS Some _ _ _ xs R0); [|by rewrite Nat.max_0_l|].
  { cbn. by destruct s. }
  right. pose proof (Rep_len _ _ _ _ _ _ _ R). pose proof (Rep_cap NT 1 1 AS _ _ _ R). lia.
Qed.

(** ** Several strings *)
Definition vrep (t : sstr) : svec Z := SVec (sp_bytes t) (sp_room t).

Record SWRep (base : gmap nat (block Z)) (w : world) (ts : list sstr) : Prop := {
  sw_rep : WRep NT 1 1 AS base w (map vrep ts);
  sw_mark : forall i v t, w_vecs w !! i = Some v -> ts !! i = Some t ->
    hload (w_h w) (v_end v) = sp_mark t
}.

Lemma SWRep_at base w ts i v t : SWRep base w ts -> w_vecs w !! i = Some v -> ts !! i = Some t ->
  SRep (VState v (w_a w) (w_h w) (w_drops w)) t.
Proof.
  intros W Hv Ht. split; [|by eapply (sw_mark _ _ _ W)].
  pose proof (wr_rep _ _ _ _ _ _ _ (sw_rep _ _ _ W) i v (vrep t) Hv) as R.
  eapply (Rep_other _ _ _ _ _ _ (w_h w) []); try done.
  - apply R. by rewrite list_lookup_fmap, Ht.
  - apply (sw_rep _ _ _ W).
Qed.

(** Changing one string leaves the memory of the others alone. *)
Lemma others_same base w ss i v s' xs' cap' d : WRep NT 1 1 AS base w ss -> w_vecs w !! i = Some v ->
  Post (VState v (w_a w) (w_h w) (w_drops w)) s' xs' cap' d ->
  forall j vj b, i <> j -> w_vecs w !! j = Some vj -> own_block vj = Some b ->
    h_blk (st_h s') !! b = h_blk (w_h w) !! b.
Proof.
  intros W Hv (R' & HF & HA & _) j vj b N Hj Ho.
  assert (NO : own_block v <> Some b) by (intros E; apply N; by eapply (wr_inj _ _ _ _ _ _ _ W)).
  pose proof (f_equal (lookup b) HF) as E. rewrite !frame_lookup in E by done. cbn [st_v st_h] in E.
  rewrite (decide_False (P := own_block v = Some b)) in E by done.
  destruct (decide _) as [D|D]; [|done].
  destruct (lookup_lt_is_Some_2 ss j) as [sj Hsj].
  { rewrite (wr_len _ _ _ _ _ _ _ W). by eapply lookup_lt_Some. }
  destruct (Rep_own _ _ _ _ _ _ _ b (wr_rep _ _ _ _ _ _ _ W _ _ _ Hj Hsj) Ho) as [? E2].
  cbn [st_h] in E2. congruence.
Qed.

Lemma end_own s xs cap : Rep s xs cap -> v_end (st_v s) = Null \/
  exists b o, own_block (st_v s) = Some b /\ v_end (st_v s) = Ptr b o.
Proof.
  intros (_ & _ & [(E & _)|(b & bk & j & E & _)]); rewrite E; cbn; [by left|right]. eauto.
Qed.

Lemma hload_same (h h' : heap Z) b o : h_blk h' !! b = h_blk h !! b -> hload h' (Ptr b o) = hload h (Ptr b o).
Proof. intros E. unfold hload, cells_of. by rewrite E. Qed.

Lemma mark_others base w ts i v s' t' : SWRep base w ts -> w_vecs w !! i = Some v ->
  Post (VState v (w_a w) (w_h w) (w_drops w)) s' (sp_bytes t') (sp_room t') [] ->
  forall j vj tj, i <> j -> w_vecs w !! j = Some vj -> ts !! j = Some tj ->
  hload (st_h s') (v_end vj) = sp_mark tj.
Proof.
  intros W Hv P j vj tj N Hj Ht. rewrite <- (sw_mark _ _ _ W j vj tj Hj Ht).
  pose proof (SWRep_at _ _ _ _ _ _ W Hj Ht) as (R & _).
  destruct (end_own _ _ _ R) as [E|(b & o & Eo & E)]; cbn [st_v] in *; rewrite E; [done|].
  apply hload_same. by eapply (others_same base w _ i v s' _ _ [] (sw_rep _ _ _ W) Hv P j vj b).
Qed.

Lemma SWRep_update base w ts i v s' t' : SWRep base w ts -> w_vecs w !! i = Some v ->
  SRep s' t' -> Post (VState v (w_a w) (w_h w) (w_drops w)) s' (sp_bytes t') (sp_room t') [] ->
  SWRep base (World (<[i := st_v s']> (w_vecs w)) (st_a s') (st_h s') (st_drops s')) (<[i := t']> ts).
Proof.
  intros W Hv (R' & M') P. split; cbn [w_vecs w_a w_h w_drops].
  - change (map vrep (<[i := t']> ts)) with (vrep <$> <[i := t']> ts). rewrite list_fmap_insert. eapply WRep_update; [apply W|done|exact P].
  - intros j vj tj Hj Ht. destruct (decide (i = j)) as [<-|N].
    + rewrite list_lookup_insert in Hj by (by eapply lookup_lt_Some).
      assert (i < length ts).
      { apply lookup_lt_Some in Ht. by rewrite insert_length in Ht. }
      rewrite list_lookup_insert in Ht by done. simplify_eq. exact M'.
    + rewrite list_lookup_insert_ne in Hj by done. rewrite list_lookup_insert_ne in Ht by done.
      by eapply (mark_others base w ts i v s' t' W Hv P j vj tj N).
Qed.

Lemma SWRep_new base w ts d : SWRep base w ts ->
  SWRep base (World (w_vecs w ++ [new_in]) (w_a w) (w_h w) d) (ts ++ [new_str]).
Proof.
  intros W. split; cbn [w_vecs w_a w_h w_drops].
  - rewrite map_app. apply WRep_snoc. apply W.
  - pose proof (wr_len _ _ _ _ _ _ _ (sw_rep _ _ _ W)) as L. rewrite map_length in L.
    intros i v t Hv Ht. apply lookup_app_Some in Hv as [Hv|[Li Hv]].
    + rewrite lookup_app_l in Ht by (rewrite L; by eapply lookup_lt_Some). by eapply (sw_mark _ _ _ W).
    + rewrite lookup_app_r in Ht by (rewrite L; lia).
      apply list_lookup_singleton_Some in Hv as [E <-]. rewrite L, E in Ht. by injection Ht as <-.
Qed.

Lemma SWRep_built base w ts s' t' : SWRep base w ts -> SRep s' t' ->
  Post (VState new_in (w_a w) (w_h w) (w_drops w)) s' (sp_bytes t') (sp_room t') [] ->
  SWRep base (World (w_vecs w ++ [st_v s']) (st_a s') (st_h s') (st_drops s')) (ts ++ [t']).
Proof.
  intros W R P. pose proof (SWRep_new base w ts (w_drops w) W) as W1.
  pose proof (wr_len _ _ _ _ _ _ _ (sw_rep _ _ _ W)) as L. rewrite map_length in L.
  pose proof (SWRep_update _ _ _ (length (w_vecs w)) new_in s' t' W1) as W2.
  cbn [w_vecs w_a w_h w_drops] in W2.
  rewrite lookup_app_r, Nat.sub_diag in W2 by lia. specialize (W2 eq_refl R P).
  rewrite insert_app_r_alt, Nat.sub_diag in W2 by lia. cbn in W2.
  rewrite insert_app_r_alt in W2 by (rewrite L; lia). rewrite L, Nat.sub_diag in W2. done.
Qed.

Theorem s_wstep_refines base o w ts a ts' :
  SWRep base w ts -> spec_sop string_fits o ts = Some (a, ts') -> chk = true \/ o_modest o = true ->
  exists w', s_wstep (DefaultAllocator Z) chk o w = Some (a, w') /\ SWRep base w' ts' /\ w_drops w' = w_drops w.
Proof.
  intros W HS HK.
  assert (R0 : Rep (VState new_in (w_a w) (w_h w) (w_drops w)) [] 0).
  { apply Rep_new; [apply (sw_rep _ _ _ W)|done]. }
  assert (SR0 : SRep (VState new_in (w_a w) (w_h w) (w_drops w)) new_str) by (by split).
  assert (SAME : forall r : outcome (vstate unit Z) vec,
    r = Panic (VState new_in (w_a w) (w_h w) (w_drops w)) -> exists w', s_build w r = Some (SPanic, w') /\ SWRep base w' ts /\ w_drops w' = w_drops w).
  { intros r ->. cbn. eexists. split; [reflexivity|]. by destruct w. }
  destruct o; cbn [spec_sop] in HS.
  - cbn in HS. simplify_eq. cbn. eexists. split; [reflexivity|]. split; [|done]. by apply SWRep_new.
  - cbn [s_wstep]. unfold s_with_capacity, with_capacity, build. cbn [st_a st_h st_drops].
    unfold spec_new in HS. destruct (Nat.eqb_spec n 0) as [->|N].
    + cbn in HS. simplify_eq. rewrite reserve_0. cbn. eexists. split; [reflexivity|]. split; [|done].
      by apply SWRep_new.
    + cbn [orb] in HS. destruct (string_fits n) eqn:F; simplify_eq.
      * destruct (reserve_ok_end NT 1 1 chk false H1 AS _ _ _ n R0 ltac:(lia) F) as (s' & E & P & M).
        rewrite E. cbn [s_build]. eexists. split; [reflexivity|]. cbn [st_a st_h st_drops].
        pose proof P as (R' & _ & _ & D). split; [|cbn; rewrite D; cbn; by rewrite app_nil_r].
        apply (SWRep_built base w ts s' (SStr [] n None)); [done|by split|done].
      * rewrite (reserve_panic NT 1 1 chk H1 AS _ _ _ n R0) by (first [done|lia|destruct HK as [HK|HK]; [by left|right; cbn in HK; lia]]).
        apply SAME. done.
  - cbn [s_wstep]. unfold s_from, build. cbn [st_a st_h st_drops].
    destruct (spec_scall string_fits (SAssign buf) new_str) as [a1 t1] eqn:EA.
    destruct (s_step_refines (SAssign buf) _ new_str a1 t1 SR0 EA) as (s' & E & R' & P).
    { exact HK. }
    unfold spec_scall, grow_to, new_str in EA. cbn [sp_room sp_bytes Nat.add app] in EA.
    replace (length buf + 1 =? 0) with false in EA by (symmetry; apply Nat.eqb_neq; lia). cbn [orb] in EA.
    unfold s_step in E. cbn [s_exec] in E. unfold bind at 1 in E. unfold spec_new in HS.
    destruct (string_fits (length buf + 1)) eqn:F.
    + injection EA as <- <-. injection HS as <- <-.
      destruct (s_assign _ _ _ _) as [u s1|s1|]; [|done|done]. unfold ret in E. injection E as ->.
      cbn. eexists. split; [reflexivity|].
      split; [apply (SWRep_built base w ts s' (SStr buf (length buf + 1) (Some 0%Z))); done|].
      destruct P as (_ & _ & _ & D). cbn. rewrite D. cbn. by rewrite app_nil_r.
    + injection EA as <- <-. injection HS as <- <-.
      destruct (s_assign _ _ _ _) as [u s1|s1|]; [done| |done]. injection E as ->.
      pose proof R' as (RR & _). destruct (clear_ok NT 1 1 chk false H1 AS s' [] 0 RR) as (s2 & E2 & P2).
      rewrite E2. cbn [s_build]. eexists. split; [reflexivity|]. cbn [st_a st_h st_drops].
      pose proof (Post_nil_trans _ _ _ _ _ _ _ P P2) as P3.
      pose proof (WRep_unbuilt NT 1 1 false AS base w _ s2 [] (st_drops s2) (sw_rep _ _ _ W) P3) as W3.
      split; [|destruct P3 as (_ & _ & _ & D); cbn; rewrite D; cbn; by rewrite app_nil_r].
      split; [exact W3|]. cbn [w_vecs w_h]. intros j vj tj Hj Htj.
      assert (BUILT := SWRep_built base w ts s2 new_str W).
      destruct BUILT as [_ BM].
      { split; [apply P3|]. eapply end_cell_null; [apply P3|done]. } { exact P3. }
      apply (BM j vj tj); cbn [w_vecs]; by apply lookup_app_l_Some.
  - destruct (ts !! i) as [t|] eqn:Et; [|done].
    destruct (lookup_lt_is_Some_2 (w_vecs w) i) as [v Hv].
    { rewrite <- (wr_len _ _ _ _ _ _ _ (sw_rep _ _ _ W)), map_length. by eapply lookup_lt_Some. }
    cbn [s_wstep]. rewrite Hv. pose proof (SWRep_at _ _ _ _ _ _ W Hv Et) as (R & _).
    unfold spec_new in HS.
    destruct ((length (sp_bytes t) =? 0) || string_fits (length (sp_bytes t))) eqn:F; injection HS as <- <-.
    + destruct (s_clone_ok _ _ _ R F) as (v' & s' & E & s1 & -> & EA & EH & ED & P & M).
      rewrite E. cbn [s_build]. rewrite EA, EH, ED. eexists. split; [reflexivity|].
      split; [|destruct P as (_ & _ & _ & D); cbn; rewrite D; cbn; by rewrite app_nil_r].
      apply SWRep_built; [done| |exact P]. split; [apply P|done].
    + rewrite (s_clone_panic _ _ _ R F). cbn. eexists. split; [reflexivity|]. by destruct w.
  - destruct (ts !! i) as [t|] eqn:Et; [|done]. destruct (ts !! j) as [u|] eqn:Eu; [|done]. injection HS as <- <-.
    destruct (lookup_lt_is_Some_2 (w_vecs w) i) as [v Hv].
    { rewrite <- (wr_len _ _ _ _ _ _ _ (sw_rep _ _ _ W)), map_length. by eapply lookup_lt_Some. }
    destruct (lookup_lt_is_Some_2 (w_vecs w) j) as [v' Hv'].
    { rewrite <- (wr_len _ _ _ _ _ _ _ (sw_rep _ _ _ W)), map_length. by eapply lookup_lt_Some. }
    cbn [s_wstep]. rewrite Hv, Hv'. unfold s_bytes.
    rewrite (as_slice_ok NT 1 1 H1 AS _ _ _ (proj1 (SWRep_at _ _ _ _ _ _ W Hv Et))).
    rewrite (as_slice_ok NT 1 1 H1 AS _ _ _ (proj1 (SWRep_at _ _ _ _ _ _ W Hv' Eu))).
    by exists w.
  - destruct (ts !! i) as [t|] eqn:Et; [|done].
    destruct (lookup_lt_is_Some_2 (w_vecs w) i) as [v Hv].
    { rewrite <- (wr_len _ _ _ _ _ _ _ (sw_rep _ _ _ W)), map_length. by eapply lookup_lt_Some. }
    destruct (spec_scall string_fits c t) as [a1 t1] eqn:Ec. injection HS as <- <-.
    destruct (s_step_refines c _ t a1 t1 (SWRep_at _ _ _ _ _ _ W Hv Et) Ec HK) as (s' & E & R' & P).
    cbn [s_wstep]. rewrite Hv, E. eexists. split; [reflexivity|].
    split; [by eapply SWRep_update|]. destruct P as (_ & _ & _ & D). cbn. rewrite D. cbn. by rewrite app_nil_r.
Qed.

Theorem s_wrun_refines base os : forall w ts l ts',
  SWRep base w ts -> spec_sops string_fits os ts = Some (l, ts') -> chk = true \/ forallb o_modest os = true ->
  exists w', s_wrun (DefaultAllocator Z) chk os w = Some (l, w') /\ SWRep base w' ts' /\ w_drops w' = w_drops w.
Proof.
  induction os as [|o os IH]; intros w ts l ts' W HS HK; cbn [spec_sops] in HS.
  - simplify_eq. by exists w.
  - destruct (spec_sop string_fits o ts) as [[a ts1]|] eqn:E1; [|done].
    destruct (spec_sops string_fits os ts1) as [[l2 ts2]|] eqn:E2; [|done]. simplify_eq.
    destruct (s_wstep_refines base o w ts a ts1 W E1) as (w1 & Es & W1 & D1).
    { destruct HK as [HK|HK]; [by left|right]. cbn in HK. by apply andb_prop in HK as [? _]. }
    destruct (IH w1 ts1 l2 ts' W1 E2) as (w2 & Er & W2 & D2).
    { destruct HK as [HK|HK]; [by left|right]. cbn in HK. by apply andb_prop in HK as [_ ?]. }
    exists w2. cbn [s_wrun]. rewrite Es, Er. split; [done|]. split; [done|]. by rewrite D2, D1.
Qed.

Lemma SWRep_start (h : heap Z) d : heap_wf h -> SWRep (h_blk h) (World [] tt h d) [].
Proof. intros W. split; [by apply WRep_start|]. done. Qed.

End proofs.
