(** The vector model refines the list specification. *)
From Verif Require Import Base Heap HeapLemmas Alloc AllocContract Vector VectorSpec.

Ltac blia := unfold usize_lim, isize_max in *; lia.

Section proofs.
Context {A T : Type}.
Variable AI : AllocImpl A T.
Variables sz al : Z.
Variable chk nd : bool.
Hypothesis Hsz : (0 < sz)%Z.
Variable AS : AllocSpec AI sz al.

Notation st := (vstate A T).
Implicit Types s : st.

Definition drop_opt (o : option nat) (m : gmap nat (block T)) : gmap nat (block T) :=
  match o with Some b => delete b m | None => m end.
Definition own_block (v : vec) : option nat :=
  match v_begin v with Ptr b _ => Some b | Null => None end.

(** Everything in the heap except the vector's buffer and the allocator's pool. *)
Definition frame s : gmap nat (block T) :=
  drop_opt (own_block (st_v s)) (drop_opt (as_pool AS (st_a s)) (h_blk (st_h s))).

(** The state [s] holds the list [xs] with capacity [cap]. *)
Definition Rep s (xs : list T) (cap : nat) : Prop :=
  heap_wf (st_h s) /\
  (forall p, as_pool AS (st_a s) = Some p -> is_Some (h_blk (st_h s) !! p)) /\
  ( (st_v s = Vec Null Null Null /\ xs = [] /\ cap = 0) \/
    (exists b bk junk,
       st_v s = Vec (Ptr b 0) (Ptr b (length xs)) (Ptr b cap) /\
       0 < cap /\ length xs <= cap /\ (Z.of_nat cap * sz <= isize_max)%Z /\
       h_blk (st_h s) !! b = Some bk /\
       bk_cells bk = (Some <$> xs) ++ junk /\ cap <= length (bk_cells bk) /\
       (as_pool AS (st_a s) = Some b \/ as_layout AS cap bk)) ).

Lemma Rep_cap s xs cap : Rep s xs cap -> (Z.of_nat cap * sz <= isize_max)%Z.
Proof. intros (_ & _ & [(_ & _ & ->)|(b & bk & j & _ & _ & _ & H & _)]); [blia|done]. Qed.

Lemma Rep_len s xs cap : Rep s xs cap -> length xs <= cap.
Proof. intros (_ & _ & [(_ & -> & ->)|(b & bk & j & _ & _ & H & _)]); [done|done]. Qed.

Lemma usize_ok {S} (n : nat) : (Z.of_nat n < usize_lim)%Z -> usize (S:=S) chk (Z.of_nat n) = ret n.
Proof.
  intros H. unfold usize.
  replace ((0 <=? Z.of_nat n) && (Z.of_nat n <? usize_lim))%Z with true by lia.
  by rewrite Nat2Z.id.
Qed.

Lemma usize_ok' {S} (r : Z) (n : nat) : r = Z.of_nat n -> (Z.of_nat n < usize_lim)%Z -> usize (S:=S) chk r = ret n.
Proof. intros ->. apply usize_ok. Qed.

Lemma len_ok s xs cap : Rep s xs cap -> len sz s = Ok (length xs) s.
Proof.
  intros (_ & _ & R). unfold len, bind, gets, offset_from.
  destruct (Z.eqb_spec sz 0); [lia|].
  destruct R as [(-> & -> & ->)|(b & bk & j & -> & _)]; cbn [v_end v_begin].
  - done.
  - rewrite pdiff_ok by lia. by rewrite Nat.sub_0_r.
Qed.

Lemma capacity_ok s xs cap : Rep s xs cap -> capacity sz s = Ok cap s.
Proof.
  intros (_ & _ & R). unfold capacity, bind, gets, offset_from.
  destruct (Z.eqb_spec sz 0); [lia|].
  destruct R as [(-> & -> & ->)|(b & bk & j & -> & _)]; cbn [v_end v_begin v_cap].
  - done.
  - rewrite pdiff_ok by lia. by rewrite Nat.sub_0_r.
Qed.

Lemma is_empty_ok s xs cap : Rep s xs cap -> is_empty sz s = Ok (length xs =? 0) s.
Proof. intros R. unfold is_empty, bind. by rewrite (len_ok _ _ _ R). Qed.

Lemma is_full_ok s xs cap : Rep s xs cap -> is_full sz s = Ok (length xs =? cap) s.
Proof.
  intros R. unfold is_full, bind. rewrite (len_ok _ _ _ R). by rewrite (capacity_ok _ _ _ R).
Qed.

Lemma take_fmap_app {B} (f : T -> B) (xs : list T) (j : list B) :
  take (length xs) ((f <$> xs) ++ j) = f <$> xs.
Proof. rewrite take_app_le by (rewrite fmap_length; lia). apply firstn_all2. rewrite fmap_length; lia. Qed.

Lemma as_slice_ok s xs cap : Rep s xs cap -> as_slice sz s = Ok xs s.
Proof.
  intros R. pose proof (len_ok _ _ _ R) as L.
  unfold as_slice, bind at 1, gets.
  destruct R as (_ & _ & [(E & -> & ->)|(b & bk & j & E & C0 & Cl & Cz & Hb & Hc & Hl & _)]);
    rewrite E; cbn [v_begin is_null]; [done|].
  unfold bind. rewrite L. unfold from_heap, bind, gets.
  rewrite (hslice_ok _ _ _ _ _ Hb); [done| |].
  - lia.
  - rewrite Hc. cbn [drop]. apply take_fmap_app.
Qed.

(** Allocation and deallocation of arrays. *)
Lemma allocate_ok s n : 0 < n -> as_fits AS n = true ->
  exists bk tail,
    allocate AI sz al chk n s
      = Ok (Ptr (h_next (st_h s)) 0) (VState (st_v s) (st_a s) (halloc (st_h s) bk) (st_drops s)) /\
    bk_cells bk = replicate n None ++ tail /\ as_layout AS n bk.
Proof.
  intros Hn F. pose proof (as_fits_bound AS n F) as B.
  destruct (as_alloc_ok AS (st_a s) (st_h s) n Hn F) as (bk & tail & E & Hc & HL).
  exists bk, tail. split; [|done].
  unfold allocate, bind. rewrite (usize_ok' _ (Z.to_nat (Z.of_nat n * sz))) by blia.
  cbn [ret]. unfold lift_alloc. rewrite Z2Nat.id by lia. unfold ret. by rewrite E.
Qed.

Lemma allocate_panic s n : 0 < n -> as_fits AS n = false ->
  (chk = true \/ (Z.of_nat n * sz < usize_lim)%Z) ->
  allocate AI sz al chk n s = Panic s.
Proof.
  intros Hn F H. unfold allocate, bind.
  destruct (Z_lt_dec (Z.of_nat n * sz) usize_lim) as [L|L].
  - rewrite (usize_ok' _ (Z.to_nat (Z.of_nat n * sz))) by lia.
    unfold ret, lift_alloc. rewrite Z2Nat.id by lia.
    rewrite (as_alloc_panic AS) by done. by destruct s.
  - destruct H as [->|H]; [|lia]. unfold usize.
    by replace ((0 <=? Z.of_nat n * sz) && (Z.of_nat n * sz <? usize_lim))%Z with false by lia.
Qed.

Lemma deallocate_ok s b n bk :
  h_blk (st_h s) !! b = Some bk -> (Z.of_nat n * sz <= isize_max)%Z ->
  (as_pool AS (st_a s) = Some b \/ as_layout AS n bk) ->
  deallocate AI sz al chk (Ptr b 0) n s =
    Ok tt (VState (st_v s) (st_a s)
       (if decide (as_pool AS (st_a s) = Some b) then st_h s else hdel (st_h s) b) (st_drops s)).
Proof.
  intros Hb B H. unfold deallocate, bind.
  rewrite (usize_ok' _ (Z.to_nat (Z.of_nat n * sz))) by blia.
  unfold ret, lift_alloc. rewrite Z2Nat.id by lia.
  destruct (decide _) as [P|P].
  - by rewrite (as_free_pool AS).
  - destruct H as [H|H]; [done|]. by rewrite (as_free_own AS _ _ _ _ bk).
Qed.

(** A heap in which one block was replaced. *)
Definition upd s (b : nat) (bk : block T) (v : vec) : st :=
  VState v (st_a s) (hset (st_h s) b bk) (st_drops s).

Lemma hset_hset (h : heap T) b bk bk' : hset (hset h b bk) b bk' = hset h b bk'.
Proof. unfold hset. cbn. by rewrite insert_insert. Qed.

Lemma hset_same (h : heap T) b bk : h_blk h !! b = Some bk -> hset h b bk = h.
Proof. intros E. unfold hset. rewrite insert_id by done. by destruct h. Qed.

Lemma hset_lookup (h : heap T) b bk : h_blk (hset h b bk) !! b = Some bk.
Proof. cbn. by rewrite lookup_insert. Qed.

Lemma frame_hset s v b bk d :
  st_v s = v -> own_block v = Some b ->
  frame (VState v (st_a s) (hset (st_h s) b bk) d) = frame s.
Proof.
  intros E O. unfold frame. cbn [st_v st_a st_h]. rewrite E, O. cbn [drop_opt hset h_blk].
  destruct (as_pool AS (st_a s)) as [p|]; cbn [drop_opt].
  - rewrite (delete_commute _ b p), (delete_commute _ b p).
    by rewrite delete_insert_delete.
  - by rewrite delete_insert_delete.
Qed.


Lemma frame_v s v d :
  own_block v = own_block (st_v s) -> frame (VState v (st_a s) (st_h s) d) = frame s.
Proof. intros E. unfold frame. cbn [st_v st_a st_h]. by rewrite E. Qed.

(** The destructors of [d] run, if there are any. *)
Definition ran (d : list T) : list T := if nd then d else [].

Lemma ran_nil : ran [] = [].
Proof. unfold ran. by destruct nd. Qed.

Lemma ran_app d1 d2 : ran (d1 ++ d2) = ran d1 ++ ran d2.
Proof. unfold ran. by destruct nd. Qed.

(** Result of a call: new contents and capacity, nothing else disturbed, the
    elements [d] dropped. *)
Definition Post s s' (xs' : list T) (cap' : nat) (d : list T) : Prop :=
  Rep s' xs' cap' /\ frame s' = frame s /\ st_a s' = st_a s /\ st_drops s' = st_drops s ++ ran d.

Lemma Post_refl s xs cap : Rep s xs cap -> Post s s xs cap [].
Proof. intros R. split; [done|]. by rewrite ran_nil, app_nil_r. Qed.

Lemma Post_trans s1 s2 s3 xs2 c2 d1 xs3 c3 d2 :
  Post s1 s2 xs2 c2 d1 -> Post s2 s3 xs3 c3 d2 -> Post s1 s3 xs3 c3 (d1 ++ d2).
Proof.
  intros (R2 & F2 & A2 & D2) (R3 & F3 & A3 & D3). split; [done|].
  rewrite F3, F2, A3, A2, D3, D2, ran_app, app_assoc. done.
Qed.

(** The buffer of a vector with non-zero capacity. *)
Definition Buf s (xs : list T) (cap b : nat) (bk : block T) (junk : list (option T)) : Prop :=
  st_v s = Vec (Ptr b 0) (Ptr b (length xs)) (Ptr b cap) /\
  length xs <= cap /\ h_blk (st_h s) !! b = Some bk /\
  bk_cells bk = (Some <$> xs) ++ junk /\ cap <= length (bk_cells bk).

Lemma Rep_buf s xs cap : Rep s xs cap -> 0 < cap -> exists b bk junk, Buf s xs cap b bk junk.
Proof.
  intros (_ & _ & [(_ & _ & ->)|(b & bk & j & E & C0 & Cl & Cz & Hb & Hc & Hl & _)]) Hc0; [lia|].
  exists b, bk, j. done.
Qed.

(** In-place modification of the buffer. *)
Lemma Post_hset s xs cap b bk junk bk' xs' junk' d :
  Rep s xs cap -> 0 < cap -> Buf s xs cap b bk junk ->
  bk_bytes bk' = bk_bytes bk -> bk_align bk' = bk_align bk ->
  bk_cells bk' = (Some <$> xs') ++ junk' -> length (bk_cells bk') = length (bk_cells bk) ->
  length xs' <= cap ->
  Post s (VState (Vec (Ptr b 0) (Ptr b (length xs')) (Ptr b cap)) (st_a s)
            (hset (st_h s) b bk') (st_drops s ++ ran d)) xs' cap d.
Proof.
  intros (W & P & R) C0 (E & Cl & Hb & Hc & Hl) EB EA EC EL Cl'.
  destruct R as [(_ & _ & ->)|(b0 & bk0 & j0 & E0 & _ & _ & Cz & Hb0 & Hc0 & Hl0 & HO)]; [lia|].
  rewrite E in E0. injection E0 as <-. rewrite Hb in Hb0. injection Hb0 as <-.
  split; [|split; [|done]].
  - split; [|split].
    + apply wf_hset; [done|]. by eexists.
    + cbn [st_a st_h]. intros p Hp. specialize (P p Hp). cbn.
      destruct (decide (p = b)) as [->|N].
      * rewrite lookup_insert. by eexists.
      * by rewrite lookup_insert_ne.
    + right. exists b, bk', junk'. cbn [st_v st_a st_h].
      split; [done|]. split; [done|]. split; [done|]. split; [done|].
      split; [apply hset_lookup|]. split; [done|]. split; [lia|].
      destruct HO as [HO|HO]; [by left|right].
      apply (as_layout_cells AS _ _ (bk_cells bk')) in HO; [|done].
      rewrite <- EB, <- EA in HO. by destruct bk'.
  - unfold frame. cbn [st_v st_a st_h]. rewrite E. cbn [own_block v_begin drop_opt hset h_blk].
    destruct (as_pool AS (st_a s)) as [p|]; cbn [drop_opt].
    + rewrite (delete_commute _ b p), (delete_commute _ b p).
      by rewrite delete_insert_delete.
    + by rewrite delete_insert_delete.
Qed.

(** Shrinking in place: only the end pointer moves. *)
Lemma Post_shrink s xs cap b bk junk n :
  Rep s xs cap -> 0 < cap -> Buf s xs cap b bk junk -> n <= length xs ->
  Post s (VState (Vec (Ptr b 0) (Ptr b n) (Ptr b cap)) (st_a s) (st_h s) (st_drops s))
       (take n xs) cap [].
Proof.
  intros R C0 B Hn. pose proof B as (E & Cl & Hb & Hc & Hl).
  pose proof (Post_hset s xs cap b bk junk bk (take n xs) ((Some <$> drop n xs) ++ junk) []
                R C0 B eq_refl eq_refl) as P.
  rewrite take_length, Nat.min_l in P by lia.
  rewrite hset_same, ran_nil, app_nil_r in P by done. apply P; try done; try lia.
  by rewrite app_assoc, <- fmap_app, take_drop.
Qed.

Lemma reserve_0 s : reserve AI sz al chk 0 s = Ok tt s.
Proof. done. Qed.

(** The cell at the end pointer. *)
Definition end_cell s : option T := hload (st_h s) (v_end (st_v s)).

Lemma hload_at (h : heap T) b o bk : h_blk h !! b = Some bk -> hload h (Ptr b o) = mjoin (bk_cells bk !! o).
Proof. intros E. unfold hload. by rewrite (cells_of_some _ _ _ E). Qed.

Lemma reserve_ok_end s xs cap n :
  Rep s xs cap -> 0 < n -> as_fits AS (cap + n) = true ->
  exists s', reserve AI sz al chk n s = Ok tt s' /\ Post s s' xs (cap + n) [] /\ end_cell s' = None.
Proof.
  intros R Hn F. pose proof (as_fits_bound AS _ F) as FB. pose proof (Rep_len _ _ _ R) as HL.
  unfold reserve. destruct (Nat.eqb_spec n 0) as [->|_]; [lia|].
  unfold bind at 1. rewrite (len_ok _ _ _ R).
  unfold bind at 1. rewrite (capacity_ok _ _ _ R).
  unfold bind at 1. rewrite (usize_ok' _ (cap + n)) by (unfold usize_lim, isize_max in *; nia).
  unfold ret at 1. unfold bind at 1.
  destruct (allocate_ok s (cap + n) ltac:(lia) F) as (nbk & tail & EA & NC & NL).
  rewrite EA. unfold bind at 1, gets at 1. cbn [st_v].
  destruct R as (W & P & R).
  pose proof (wf_fresh _ W) as HF.
  destruct R as [(E & -> & ->)|(b & bk & j & E & C0 & Cl & Cz & Hb & Hc & Hl & HO)].
  - rewrite E. cbn [v_begin is_null negb]. unfold bind at 1, ret at 1.
    cbn [length]. unfold from_heap, bind, gets, or_ub, ret. cbn [st_h].
    rewrite (hadd_ok _ _ _ _ nbk); [|cbn; by rewrite lookup_insert|lia].
    rewrite (hadd_ok _ _ _ _ nbk); [|cbn; by rewrite lookup_insert|rewrite NC, app_length, replicate_length; lia].
    eexists. split; [reflexivity|]. cbn [Nat.add].
    split; [|unfold end_cell; cbn [st_h st_v v_end]; rewrite (hload_at _ _ _ nbk) by (cbn; by rewrite lookup_insert);
      rewrite NC, lookup_app_l, lookup_replicate_2 by (rewrite ?replicate_length; lia); done].
    split; [|split; [|split; [done|]]].
    + split; [by apply wf_halloc|]. cbn [st_a st_h st_v]. split.
      * intros p Hp. specialize (P p Hp). cbn. destruct (decide (p = h_next (st_h s))) as [->|N].
        -- rewrite lookup_insert. by eexists.
        -- by rewrite lookup_insert_ne.
      * right. exists (h_next (st_h s)), nbk, (bk_cells nbk). cbn [length].
        split; [done|]. split; [lia|]. split; [lia|]. split; [done|].
        split; [cbn; by rewrite lookup_insert|]. split; [done|].
        split; [rewrite NC, app_length, replicate_length; lia|]. by right.
    + unfold frame. cbn [st_v st_a st_h]. rewrite E. cbn [own_block v_begin drop_opt halloc h_blk].
      destruct (as_pool AS (st_a s)) as [p|] eqn:EP; cbn [drop_opt].
      * destruct (P p eq_refl) as [pb Hpb].
        assert (p <> h_next (st_h s)) by (intros ->; congruence).
        rewrite delete_commute, delete_insert; [done|]. done.
      * by rewrite delete_insert.
    + cbn. by rewrite ran_nil, app_nil_r.
  - rewrite E. cbn [v_begin is_null negb]. 
    assert (Hbne : b <> h_next (st_h s)) by (intros ->; congruence).
    unfold bind at 1. unfold bind at 1. unfold on_heap, bind at 1, gets at 1. cbn [st_h].
    assert (Hb1 : h_blk (halloc (st_h s) nbk) !! b = Some bk)
      by (cbn; by rewrite lookup_insert_ne).
    assert (Hn1 : h_blk (halloc (st_h s) nbk) !! h_next (st_h s) = Some nbk)
      by (cbn; by rewrite lookup_insert).
    unfold hcopy. rewrite (hraw_ok _ _ _ _ _ Hb1) by lia.
    rewrite drop_0, Hc, take_fmap_app.
    rewrite (hput_ok _ _ _ _ _ Hn1)
      by (rewrite fmap_length, NC, app_length, replicate_length; lia).
    rewrite take_0. cbn [Nat.add app]. unfold or_ub at 1, bind at 1, ret at 1, set_h at 1, modify at 1.
    cbn [st_v st_a st_h st_drops].
    set (nbk' := Block _ _ _). set (h1 := hset _ _ nbk').
    unfold bind at 1.
    set (vv := Vec _ _ _).
    assert (Ecap : capacity sz (VState vv (st_a s) h1 (st_drops s))
                   = Ok cap (VState vv (st_a s) h1 (st_drops s))).
    { unfold capacity, bind, gets, offset_from. destruct (Z.eqb_spec sz 0); [lia|].
      unfold vv. cbn [st_v]. cbn [v_cap v_begin]. rewrite pdiff_ok by lia. by rewrite Nat.sub_0_r. }
    rewrite Ecap.
    assert (Hb2 : h_blk h1 !! b = Some bk).
    { unfold h1, hset. cbn. rewrite !lookup_insert_ne by done. done. }
    rewrite (deallocate_ok (VState vv (st_a s) h1 (st_drops s)) b cap bk Hb2 Cz HO).
    cbn [st_v st_a st_h st_drops].
    set (h2 := if decide _ then h1 else hdel h1 b).
    assert (Hn2 : h_blk h2 !! h_next (st_h s) = Some nbk').
    { unfold h2. destruct (decide _); cbn.
      - by rewrite lookup_insert.
      - rewrite lookup_delete_ne by done. by rewrite lookup_insert. }
    assert (LC : length (bk_cells nbk') = length (bk_cells nbk)).
    { unfold nbk'. cbn [bk_cells]. rewrite app_length, drop_length, fmap_length.
      rewrite NC, app_length, replicate_length. lia. }
    assert (LN : cap + n <= length (bk_cells nbk)) by (rewrite NC, app_length, replicate_length; lia).
    unfold from_heap, bind, gets, or_ub, ret. cbn [st_h].
    rewrite (hadd_ok _ _ _ _ _ Hn2) by lia.
    rewrite (hadd_ok _ _ _ _ _ Hn2) by lia.
    eexists. split; [reflexivity|]. cbn [Nat.add].
    split; [|unfold end_cell; cbn [st_h st_v v_end]; rewrite (hload_at _ _ _ _ Hn2); cbn [nbk' bk_cells];
      rewrite lookup_app_r, fmap_length, Nat.sub_diag, lookup_drop, Nat.add_0_r by (rewrite fmap_length; lia);
      rewrite NC, lookup_app_l, lookup_replicate_2 by (rewrite ?replicate_length; lia); done].
    split; [|split; [|split; [done|cbn; by rewrite ran_nil, app_nil_r]]].
    + assert (W1 : heap_wf h1).
      { unfold h1. apply wf_hset; [by apply wf_halloc|]. by eexists. }
      split; [|split]; cbn [st_v st_a st_h].
      * unfold h2. destruct (decide _); [done|]. by apply wf_hdel.
      * intros p Hp. specialize (P p Hp). unfold h2.
        assert (p <> h_next (st_h s)) by (intros ->; destruct P; congruence).
        destruct (decide _) as [D|D]; cbn.
        -- by rewrite !lookup_insert_ne.
        -- assert (p <> b) by (intros ->; done).
           rewrite lookup_delete_ne by done. by rewrite !lookup_insert_ne.
      * right. exists (h_next (st_h s)), nbk', (drop (length xs) (bk_cells nbk)).
        split; [done|]. split; [lia|]. split; [lia|]. split; [done|].
        split; [done|]. split; [cbn [nbk' bk_cells]; by rewrite fmap_length|]. split; [lia|].
        right. apply (as_layout_cells AS); [done|exact LC].
    + unfold frame. cbn [st_v st_a st_h]. rewrite E. cbn [own_block v_begin drop_opt].
      unfold h2, h1. destruct (decide _) as [D|D].
      * rewrite D. cbn [drop_opt hset halloc h_blk]. rewrite insert_insert.
        rewrite delete_commute, delete_insert by done.
        symmetry. apply delete_notin. by rewrite lookup_delete.
      * cbn [hset hdel halloc h_blk]. rewrite insert_insert.
        destruct (as_pool AS (st_a s)) as [p|] eqn:EP; cbn [drop_opt].
        -- destruct (P p eq_refl) as [pb Hpb].
           assert (p <> h_next (st_h s)) by (intros ->; congruence).
           rewrite (delete_commute _ (h_next _) p), (delete_commute _ (h_next _) b).
           rewrite delete_insert by done. by rewrite delete_commute.
        -- rewrite delete_commute. by rewrite delete_insert.
Qed.

Lemma reserve_ok s xs cap n :
  Rep s xs cap -> 0 < n -> as_fits AS (cap + n) = true ->
  exists s', reserve AI sz al chk n s = Ok tt s' /\ Post s s' xs (cap + n) [].
Proof. intros R Hn F. destruct (reserve_ok_end s xs cap n R Hn F) as (s' & ? & ? & ?). by exists s'. Qed.

Lemma reserve_panic s xs cap n :
  Rep s xs cap -> 0 < n -> as_fits AS (cap + n) = false ->
  chk = true \/ (Z.of_nat n * sz <= isize_max)%Z ->
  reserve AI sz al chk n s = Panic s.
Proof.
  intros R Hn F K. pose proof (Rep_cap _ _ _ R) as HC.
  unfold reserve. destruct (Nat.eqb_spec n 0) as [->|_]; [lia|].
  unfold bind at 1. rewrite (len_ok _ _ _ R).
  unfold bind at 1. rewrite (capacity_ok _ _ _ R).
  unfold bind at 1. unfold usize.
  destruct ((0 <=? _) && _)%Z eqn:U;
    [|destruct K as [->|K]; [done|exfalso; unfold usize_lim, isize_max in *; nia]].
  unfold ret at 1. unfold bind at 1.
  replace (Z.to_nat (Z.of_nat cap + Z.of_nat n)) with (cap + n) by lia.
  rewrite allocate_panic; [done|lia|done|].
  destruct K as [K|K]; [by left|right]. unfold usize_lim, isize_max in *. nia.
Qed.

(** Making room for one more element. *)
Lemma grow_unfold s xs cap : Rep s xs cap ->
  grow AI sz al chk s = reserve AI sz al chk (if cap =? 0 then 1 else cap) s.
Proof.
  intros R. pose proof (Rep_cap _ _ _ R) as HC.
  unfold grow. unfold bind at 1. rewrite (capacity_ok _ _ _ R).
  unfold calculate_grow_capacity. destruct (Nat.eqb_spec cap 0) as [->|N].
  - unfold bind at 1, ret at 1. unfold bind at 1. rewrite (capacity_ok _ _ _ R).
    unfold bind at 1. by rewrite (usize_ok' _ 1) by blia.
  - unfold bind at 1. rewrite (usize_ok' _ (cap * 2)) by (unfold usize_lim, isize_max in *; nia).
    unfold ret at 1. unfold bind at 1. rewrite (capacity_ok _ _ _ R).
    unfold bind at 1. by rewrite (usize_ok' _ cap) by (unfold usize_lim, isize_max in *; nia).
Qed.

Definition need_one (xs : list T) (cap : nat) : nat :=
  if length xs =? cap then (if cap =? 0 then 1 else 2 * cap) else cap.

Definition make_room : M st unit :=
  do f <- is_full sz; if f then grow AI sz al chk else ret tt.

Lemma make_room_ok s xs cap :
  Rep s xs cap -> (need_one xs cap =? cap) || as_fits AS (need_one xs cap) = true ->
  exists s', make_room s = Ok tt s' /\ Post s s' xs (need_one xs cap) [] /\
             length xs < need_one xs cap.
Proof.
  intros R F. pose proof (Rep_len _ _ _ R) as HL.
  unfold make_room, bind. rewrite (is_full_ok _ _ _ R). unfold need_one in *.
  destruct (Nat.eqb_spec (length xs) cap) as [E|E].
  - rewrite (grow_unfold _ _ _ R). set (k := if cap =? 0 then 1 else cap).
    assert (Ek : (if cap =? 0 then 1 else 2 * cap) = cap + k) by (unfold k; destruct (Nat.eqb_spec cap 0); lia).
    rewrite Ek in *. assert (0 < k) by (unfold k; destruct (Nat.eqb_spec cap 0); lia).
    destruct (Nat.eqb_spec (cap + k) cap); [lia|]. cbn in F.
    destruct (reserve_ok s xs cap k R ltac:(lia) F) as (s' & E' & P).
    exists s'. split; [done|]. split; [done|lia].
  - exists s. split; [done|]. split; [by apply Post_refl|lia].
Qed.

Lemma make_room_panic s xs cap :
  Rep s xs cap -> (need_one xs cap =? cap) || as_fits AS (need_one xs cap) = false ->
  chk = true \/ (sz <= isize_max)%Z ->
  make_room s = Panic s.
Proof.
  intros R F K. pose proof (Rep_cap _ _ _ R) as HC. unfold make_room, bind. rewrite (is_full_ok _ _ _ R). unfold need_one in *.
  destruct (Nat.eqb_spec (length xs) cap) as [E|E].
  - rewrite (grow_unfold _ _ _ R). set (k := if cap =? 0 then 1 else cap).
    assert (Ek : (if cap =? 0 then 1 else 2 * cap) = cap + k) by (unfold k; destruct (Nat.eqb_spec cap 0); lia).
    rewrite Ek in *. assert (0 < k) by (unfold k; destruct (Nat.eqb_spec cap 0); lia).
    destruct (Nat.eqb_spec (cap + k) cap); [lia|]. cbn in F.
    apply (reserve_panic s xs cap k); [done|done|done|].
    destruct K as [K|K]; [by left|right].
    unfold k in *. destruct (Nat.eqb_spec cap 0); unfold isize_max in *; lia.
  - by rewrite Nat.eqb_refl in F.
Qed.

Lemma drop_app_fmap (xs : list T) (junk : list (option T)) n :
  drop (length xs + n) ((Some <$> xs) ++ junk) = drop n junk.
Proof. rewrite drop_app_ge by (rewrite fmap_length; lia). rewrite fmap_length. f_equal. lia. Qed.

(** Writing past the end and incrementing the size. *)
Lemma write_end_ok s xs cap x : Rep s xs cap -> length xs < cap ->
  exists s', (do v <- gets st_v; run on_heap (fun h => hstore h (v_end v) x); increment_size) s = Ok tt s' /\
             Post s s' (xs ++ [x]) cap [].
Proof.
  intros R L. destruct (Rep_buf _ _ _ R ltac:(lia)) as (b & bk & junk & B).
  pose proof B as (E & Cl & Hb & Hc & Hl).
  unfold bind at 1, gets at 1. rewrite E. cbn [v_end].
  unfold bind at 1, on_heap, bind at 1, gets at 1.
  assert (Hj : length (bk_cells bk) = length xs + length junk) by (rewrite Hc, app_length, fmap_length; done).
  unfold hstore. rewrite (hput_ok _ _ _ _ _ Hb) by (cbn [length]; lia).
  unfold or_ub at 1, bind at 1, ret at 1, set_h, modify at 1. cbn [length].
  set (bk' := Block _ _ _).
  assert (Lc : length (bk_cells bk') = length (bk_cells bk)).
  { unfold bk'. cbn [bk_cells]. rewrite !app_length, take_length, drop_length. cbn [length]. lia. }
  unfold increment_size, bind at 1, gets at 1. cbn [st_v]. rewrite E. cbn [v_end v_begin v_cap].
  unfold bind at 1, from_heap, bind at 1, gets at 1. cbn [st_h].
  rewrite (hadd_ok _ _ _ _ bk'); [|apply hset_lookup|lia].
  unfold or_ub, ret. unfold set_v, modify. cbn [st_a st_h st_drops st_v].
  eexists. split; [reflexivity|].
  pose proof (Post_hset s xs cap b bk junk bk' (xs ++ [x]) (drop 1 junk) [] R ltac:(lia) B eq_refl eq_refl) as P.
  rewrite app_length in P. cbn [length] in P. rewrite ran_nil, app_nil_r in P. apply P; [|done|lia].
  unfold bk'. cbn [bk_cells]. rewrite Hc.
  rewrite take_fmap_app, drop_app_fmap, fmap_app, <- app_assoc. done.
Qed.

Lemma push_unfold s x : push AI sz al chk nd x s =
  on_unwind (log_drop nd x)
    (do _ <- make_room; do v <- gets st_v; run on_heap (fun h => hstore h (v_end v) x); increment_size) s.
Proof.
  unfold push, on_unwind, make_room, bind.
  destruct (is_full sz s) as [[] ?|?|]; try done.
Qed.

Lemma push_ok s xs cap x :
  Rep s xs cap -> (need_one xs cap =? cap) || as_fits AS (need_one xs cap) = true ->
  exists s', push AI sz al chk nd x s = Ok tt s' /\ Post s s' (xs ++ [x]) (need_one xs cap) [].
Proof.
  intros R F. destruct (make_room_ok _ _ _ R F) as (s1 & E1 & P1 & L1).
  pose proof P1 as (R1 & _). destruct (write_end_ok s1 _ _ x R1 L1) as (s2 & E2 & P2).
  exists s2. split.
  - rewrite push_unfold. unfold on_unwind. unfold bind at 1. rewrite E1. by rewrite E2.
  - exact (Post_trans _ _ _ _ _ _ _ _ _ P1 P2).
Qed.

(** Logging a drop changes nothing but the log. *)
Lemma Post_log s xs cap x : Rep s xs cap -> Post s (log_drop nd x s) xs cap [x].
Proof. intros R. split; [exact R|]. done. Qed.

Lemma push_panic s xs cap x :
  Rep s xs cap -> (need_one xs cap =? cap) || as_fits AS (need_one xs cap) = false ->
  chk = true \/ (sz <= isize_max)%Z ->
  push AI sz al chk nd x s = Panic (log_drop nd x s).
Proof.
  intros R F K. rewrite push_unfold. unfold on_unwind, bind.
  by rewrite (make_room_panic _ _ _ R F K).
Qed.

Lemma pop_ok s xs cap : Rep s xs cap ->
  exists s', pop sz s = Ok (last xs) s' /\ Post s s' (removelast xs) cap [].
Proof.
  intros R. unfold pop, bind at 1. rewrite (is_empty_ok _ _ _ R).
  destruct xs as [|x0 xs0] using rev_ind.
  - cbn. exists s. split; [done|by apply Post_refl].
  - clear IHxs0. rewrite app_length. cbn [length].
    destruct (Nat.eqb_spec (length xs0 + 1) 0); [lia|].
    pose proof (Rep_len _ _ _ R) as HL. rewrite app_length in HL. cbn [length] in HL.
    destruct (Rep_buf _ _ _ R ltac:(lia)) as (b & bk & junk & B).
    pose proof B as (E & Cl & Hb & Hc & Hl). rewrite app_length in E. cbn [length] in E.
    unfold bind at 1, decrement_size, bind at 1, gets at 1. rewrite E. cbn [v_end v_begin v_cap].
    unfold bind at 1, from_heap at 1, bind at 1, gets at 1.
    rewrite (hsub_ok _ _ _ _ _ Hb) by lia. unfold or_ub at 1, ret at 1, set_v, modify.
    unfold bind at 1, gets at 1. cbn [st_v v_end st_a st_h st_drops].
    unfold bind at 1, from_heap, bind at 1, gets at 1. cbn [st_h].
    replace (length xs0 + 1 - 1) with (length xs0) by lia.
    rewrite (hload_ok _ _ _ _ x0 Hb).
    + unfold or_ub, ret. eexists. split; [by rewrite last_snoc|].
      pose proof (Post_shrink _ _ _ _ _ _ (length xs0) R ltac:(lia) B) as P.
      rewrite app_length in P. specialize (P ltac:(lia)).
      rewrite take_app in P. rewrite removelast_app by done. by rewrite app_nil_r.
    + rewrite Hc, fmap_app, <- app_assoc. rewrite lookup_app_r by (rewrite fmap_length; lia).
      rewrite fmap_length, Nat.sub_diag. done.
Qed.

(** Moving the tail one to the right and writing into the gap. *)
Lemma insert_body_ok s xs cap i x : Rep s xs cap -> length xs < cap -> i <= length xs ->
  exists s', (do v <- gets st_v;
    do src <- from_heap (fun h => hadd h (v_begin v) i);
    do dst <- from_heap (fun h => hadd h (v_begin v) (i + 1));
    do n <- len sz;
    do k <- usize chk (Z.of_nat n - Z.of_nat i);
    run on_heap (fun h => hcopy h src dst k);
    run on_heap (fun h => hstore h src x);
    increment_size) s = Ok tt s' /\
    Post s s' (take i xs ++ x :: drop i xs) cap [].
Proof.
  intros R L Hi. pose proof (Rep_cap _ _ _ R) as HC.
  destruct (Rep_buf _ _ _ R ltac:(lia)) as (b & bk & junk & B).
  pose proof B as (E & Cl & Hb & Hc & Hl).
  assert (Hj : length (bk_cells bk) = length xs + length junk) by (rewrite Hc, app_length, fmap_length; done).
  unfold bind at 1, gets at 1. rewrite E. cbn [v_begin].
  unfold bind at 1, from_heap at 1, bind at 1, gets at 1.
  rewrite (hadd_ok _ _ _ _ _ Hb) by lia. unfold or_ub at 1, ret at 1.
  unfold bind at 1, from_heap at 1, bind at 1, gets at 1.
  rewrite (hadd_ok _ _ _ _ _ Hb) by lia. unfold or_ub at 1, ret at 1.
  unfold bind at 1. rewrite (len_ok _ _ _ R).
  unfold bind at 1. rewrite (usize_ok' _ (length xs - i)) by (unfold usize_lim, isize_max in *; nia).
  unfold ret at 1. cbn [Nat.add].
  unfold bind at 1, on_heap at 1, bind at 1, gets at 1.
  unfold hcopy. rewrite (hraw_ok _ _ _ _ _ Hb) by lia.
  assert (Hmid : take (length xs - i) (drop i (bk_cells bk)) = Some <$> drop i xs).
  { rewrite Hc. rewrite drop_app_le by (rewrite fmap_length; lia).
    rewrite <- fmap_drop. rewrite <- (drop_length xs i). apply take_fmap_app. }
  rewrite Hmid.
  rewrite (hput_ok _ _ _ _ _ Hb) by (rewrite fmap_length, drop_length; lia).
  unfold or_ub at 1, bind at 1, ret at 1, set_h, modify at 1.
  set (bk1 := Block _ _ _).
  assert (Hc1 : bk_cells bk1 = (Some <$> take i xs) ++ take 1 (drop i (bk_cells bk)) ++ (Some <$> drop i xs) ++ drop 1 junk).
  { unfold bk1. cbn [bk_cells]. rewrite fmap_length, drop_length.
    replace (i + 1 + (length xs - i)) with (length xs + 1) by lia.
    rewrite Hc at 2. rewrite drop_app_fmap.
    rewrite <- (take_take_drop (bk_cells bk) i 1), <- app_assoc. f_equal.
    rewrite Hc. rewrite take_app_le by (rewrite fmap_length; lia). by rewrite fmap_take. }
  assert (Lc1 : length (bk_cells bk1) = length (bk_cells bk)).
  { rewrite Hc1, !app_length, !fmap_length, !take_length, !drop_length. lia. }
  unfold bind at 1, on_heap at 1, bind at 1, gets at 1. cbn [st_h].
  unfold hstore. rewrite (hput_ok _ _ _ _ bk1) by (try apply hset_lookup; cbn [length]; lia).
  unfold or_ub at 1, bind at 1, ret at 1, set_h, modify at 1. cbn [st_v st_a st_h st_drops].
  rewrite hset_hset. set (bk2 := Block _ _ _).
  assert (Hc2 : bk_cells bk2 = (Some <$> (take i xs ++ x :: drop i xs)) ++ drop 1 junk).
  { unfold bk2. cbn [bk_cells length]. rewrite Hc1.
    rewrite take_app_alt by (rewrite fmap_length, take_length; lia).
    rewrite drop_app_ge by (rewrite fmap_length, take_length; lia).
    rewrite fmap_length, take_length, Nat.min_l by lia.
    replace (i + 1 - i) with 1 by lia.
    rewrite drop_app_alt by (rewrite take_length, drop_length; lia).
    rewrite fmap_app, fmap_cons, <- app_assoc. done. }
  assert (Lc2 : length (bk_cells bk2) = length (bk_cells bk)).
  { rewrite Hc2, app_length, fmap_length, app_length. cbn [length]. rewrite take_length, !drop_length. lia. }
  unfold increment_size, bind at 1, gets at 1. cbn [st_v]. rewrite E. cbn [v_end v_begin v_cap].
  unfold bind at 1, from_heap, bind at 1, gets at 1. cbn [st_h].
  rewrite (hadd_ok _ _ _ _ bk2); [|apply hset_lookup|lia].
  unfold or_ub, ret. unfold set_v, modify. cbn [st_a st_h st_drops st_v].
  eexists. split; [reflexivity|].
  pose proof (Post_hset s xs cap b bk junk bk2 (take i xs ++ x :: drop i xs) (drop 1 junk) [] R ltac:(lia) B eq_refl eq_refl Hc2 Lc2) as P.
  rewrite app_length in P. cbn [length] in P. rewrite take_length, drop_length in P.
  replace (i `min` length xs + S (length xs - i)) with (length xs + 1) in P by lia.
  rewrite ran_nil, app_nil_r in P. apply P. lia.
Qed.

Lemma insert_ok s xs cap i x :
  Rep s xs cap -> i <= length xs ->
  (need_one xs cap =? cap) || as_fits AS (need_one xs cap) = true ->
  exists s', insert AI sz al chk nd i x s = Ok tt s' /\
             Post s s' (take i xs ++ x :: drop i xs) (need_one xs cap) [].
Proof.
  intros R Hi F. destruct (make_room_ok _ _ _ R F) as (s1 & E1 & P1 & L1).
  pose proof P1 as (R1 & _). destruct (insert_body_ok s1 _ _ i x R1 L1 Hi) as (s2 & E2 & P2).
  exists s2. split.
  - unfold insert, on_unwind. unfold bind at 1. rewrite (len_ok _ _ _ R).
    rewrite (proj2 (Nat.leb_le _ _) Hi). cbn [negb]. unfold bind at 1, ret at 1.
    unfold make_room, bind in E1. unfold bind at 1. destruct (is_full sz s) as [f s0|?|]; try done.
    unfold bind at 1. destruct f; [rewrite E1|injection E1 as ->; unfold ret at 1]; by rewrite E2.
  - exact (Post_trans _ _ _ _ _ _ _ _ _ P1 P2).
Qed.

Lemma insert_oob s xs cap i x :
  Rep s xs cap -> length xs < i -> insert AI sz al chk nd i x s = Panic (log_drop nd x s).
Proof.
  intros R Hi. unfold insert, on_unwind. unfold bind at 1. rewrite (len_ok _ _ _ R).
  rewrite (proj2 (Nat.leb_gt _ _) Hi). done.
Qed.

Lemma insert_panic s xs cap i x :
  Rep s xs cap -> i <= length xs ->
  (need_one xs cap =? cap) || as_fits AS (need_one xs cap) = false ->
  chk = true \/ (sz <= isize_max)%Z ->
  insert AI sz al chk nd i x s = Panic (log_drop nd x s).
Proof.
  intros R Hi F K. pose proof (make_room_panic _ _ _ R F K) as E1.
  unfold insert, on_unwind. unfold bind at 1. rewrite (len_ok _ _ _ R).
  rewrite (proj2 (Nat.leb_le _ _) Hi). cbn [negb]. unfold bind at 1, ret at 1.
  unfold make_room, bind in E1. unfold bind at 1. destruct (is_full sz s) as [f s0|?|]; try done.
  - unfold bind at 1. destruct f; [by rewrite E1|done].
  - by injection E1 as ->.
Qed.

Lemma remove_none s xs cap i : Rep s xs cap -> length xs <= i ->
  remove sz chk i s = Ok None s.
Proof.
  intros R Hi. unfold remove, bind at 1. rewrite (len_ok _ _ _ R).
  by rewrite (proj2 (Nat.leb_le _ _) Hi).
Qed.

Lemma remove_ok_end s xs cap i x : Rep s xs cap -> xs !! i = Some x ->
  exists s', remove sz chk i s = Ok (Some x) s' /\
             Post s s' (take i xs ++ drop (S i) xs) cap [] /\ end_cell s' = last xs.
Proof.
  intros R Hx. pose proof (lookup_lt_Some _ _ _ Hx) as Hi.
  pose proof (Rep_cap _ _ _ R) as HC. pose proof (Rep_len _ _ _ R) as HL.
  unfold remove, bind at 1. rewrite (len_ok _ _ _ R).
  rewrite (proj2 (Nat.leb_gt _ _) Hi).
  destruct (Rep_buf _ _ _ R ltac:(lia)) as (b & bk & junk & B).
  pose proof B as (E & Cl & Hb & Hc & Hl).
  assert (Hj : length (bk_cells bk) = length xs + length junk) by (rewrite Hc, app_length, fmap_length; done).
  unfold bind at 1, gets at 1. rewrite E. cbn [v_begin].
  unfold bind at 1, from_heap at 1, bind at 1, gets at 1.
  rewrite (hadd_ok _ _ _ _ _ Hb) by lia. unfold or_ub at 1, ret at 1.
  unfold bind at 1, from_heap at 1, bind at 1, gets at 1. cbn [Nat.add].
  rewrite (hload_ok _ _ _ _ x Hb)
    by (rewrite Hc, lookup_app_l by (rewrite fmap_length; lia); by rewrite list_lookup_fmap, Hx).
  unfold or_ub at 1, ret at 1.
  unfold bind at 1, decrement_size, bind at 1, gets at 1. rewrite E. cbn [v_end v_begin v_cap].
  unfold bind at 1, from_heap at 1, bind at 1, gets at 1.
  rewrite (hsub_ok _ _ _ _ _ Hb) by lia. unfold or_ub at 1, ret at 1, set_v, modify at 1.
  cbn [st_v st_a st_h st_drops].
  unfold bind at 1, from_heap at 1, bind at 1, gets at 1. cbn [st_h].
  rewrite (hadd_ok _ _ _ _ _ Hb) by lia. unfold or_ub at 1, ret at 1. cbn [Nat.add].
  assert (El : forall v a h d, v_begin v = Ptr b 0 -> v_end v = Ptr b (length xs - 1) ->
    len (A:=A) (T:=T) sz (VState v a h d) = Ok (length xs - 1) (VState v a h d)).
  { intros v a h d E1 E2. unfold len, bind, gets, offset_from. destruct (Z.eqb_spec sz 0); [lia|].
    cbn [st_v]. rewrite E1, E2, pdiff_ok by lia. by rewrite Nat.sub_0_r. }
  unfold bind at 1. rewrite El by done.
  unfold bind at 1. rewrite (usize_ok' _ (length xs - 1 - i)) by (unfold usize_lim, isize_max in *; nia).
  unfold ret at 1.
  unfold bind at 1, on_heap at 1, bind at 1, gets at 1. cbn [st_h].
  unfold hcopy. rewrite (hraw_ok _ _ _ _ _ Hb) by lia.
  assert (Hmid : take (length xs - 1 - i) (drop (i + 1) (bk_cells bk)) = Some <$> drop (S i) xs).
  { rewrite Hc. rewrite drop_app_le by (rewrite fmap_length; lia).
    rewrite <- fmap_drop. replace (i + 1) with (S i) by lia.
    replace (length xs - 1 - i) with (length (drop (S i) xs)) by (rewrite drop_length; lia).
    apply take_fmap_app. }
  rewrite Hmid.
  rewrite (hput_ok _ _ _ _ _ Hb) by (rewrite fmap_length, drop_length; lia).
  unfold or_ub at 1, bind at 1, ret at 1, set_h, modify at 1. cbn [st_v st_a st_h st_drops].
  set (bk1 := Block _ _ _).
  set (ys := take i xs ++ drop (S i) xs).
  assert (Ly : length ys = length xs - 1) by (unfold ys; rewrite app_length, take_length, drop_length; lia).
  assert (Hc1 : bk_cells bk1 = (Some <$> ys) ++ drop (length xs - 1) (bk_cells bk)).
  { unfold bk1, ys. cbn [bk_cells]. rewrite fmap_length, drop_length.
    replace (i + (length xs - S i)) with (length xs - 1) by lia.
    rewrite Hc at 1. rewrite take_app_le by (rewrite fmap_length; lia).
    rewrite <- fmap_take, fmap_app, <- app_assoc. done. }
  assert (Lc1 : length (bk_cells bk1) = length (bk_cells bk)).
  { rewrite Hc1, app_length, fmap_length, drop_length. lia. }
  unfold ret. eexists. split; [reflexivity|]. split.
  { pose proof (Post_hset s xs cap b bk junk bk1 ys _ [] R ltac:(lia) B eq_refl eq_refl Hc1 Lc1) as P.
    rewrite ran_nil, app_nil_r, Ly in P. apply P. lia. }
  unfold end_cell. cbn [st_h st_v v_end]. rewrite (hload_at _ _ _ bk1) by apply hset_lookup.
  rewrite Hc1, lookup_app_r by (rewrite fmap_length; lia).
  rewrite fmap_length, Ly, Nat.sub_diag, lookup_drop, Nat.add_0_r, Hc.
  rewrite lookup_app_l by (rewrite fmap_length; lia). rewrite list_lookup_fmap, last_lookup.
  replace (length xs - 1) with (pred (length xs)) by lia.
  destruct (xs !! Nat.pred _); reflexivity.
Qed.

Lemma remove_ok s xs cap i x : Rep s xs cap -> xs !! i = Some x ->
  exists s', remove sz chk i s = Ok (Some x) s' /\
             Post s s' (take i xs ++ drop (S i) xs) cap [].
Proof. intros R E. destruct (remove_ok_end s xs cap i x R E) as (s' & ? & ? & ?). by exists s'. Qed.


(** Dropping initialised cells in place. *)
Lemma drop_places_ok xs : forall s b o bk,
  h_blk (st_h s) !! b = Some bk -> o + length xs <= length (bk_cells bk) ->
  take (length xs) (drop o (bk_cells bk)) = Some <$> xs ->
  exists bk', drop_places nd (Ptr b o) (length xs) s
      = Ok tt (VState (st_v s) (st_a s) (hset (st_h s) b bk') (st_drops s ++ ran xs)) /\
    bk_bytes bk' = bk_bytes bk /\ bk_align bk' = bk_align bk /\
    length (bk_cells bk') = length (bk_cells bk).
Proof.
  induction xs as [|x xs IH]; intros s b o bk Hb Hl Ht.
  - exists bk. cbn [length drop_places]. rewrite ran_nil, app_nil_r, hset_same by done.
    split; [by destruct s|done].
  - cbn [length] in *. cbn [drop_places].
    assert (Hx : bk_cells bk !! o = Some (Some x)).
    { assert (E : take (S (length xs)) (drop o (bk_cells bk)) !! 0 = Some (Some x)) by (by rewrite Ht).
      rewrite lookup_take in E by lia. rewrite lookup_drop, Nat.add_0_r in E. done. }
    assert (Hd : take (length xs) (drop (o + 1) (bk_cells bk)) = Some <$> xs).
    { rewrite <- drop_drop. rewrite fmap_cons in Ht.
      destruct (drop o (bk_cells bk)) as [|c cs]; [done|]. cbn in *. by injection Ht. }
    unfold drop_place. unfold bind at 1. destruct nd eqn:Hnd.
    + unfold bind at 1, from_heap at 1, bind at 1, gets at 1.
      rewrite (hload_ok _ _ _ _ _ Hb Hx). unfold or_ub at 1, ret at 1.
      unfold bind at 1, modify at 1, log_drop. unfold on_heap at 1, bind at 1, gets at 1. cbn [st_h].
      rewrite (hput_ok _ _ _ _ _ Hb) by (cbn [length]; lia).
      unfold or_ub at 1, bind at 1, ret at 1, set_h, modify at 1. cbn [st_v st_a st_h st_drops length].
      set (bk1 := Block _ _ _).
      assert (Lc1 : length (bk_cells bk1) = length (bk_cells bk)).
      { unfold bk1. cbn [bk_cells]. rewrite !app_length, take_length, drop_length. cbn [length]. lia. }
      unfold bind at 1, from_heap at 1, bind at 1, gets at 1. cbn [st_h].
      rewrite (hadd_ok _ _ _ _ bk1); [|apply hset_lookup|lia].
      unfold or_ub at 1, ret at 1.
      edestruct (IH (VState (st_v s) (st_a s) (hset (st_h s) b bk1) (st_drops s ++ [x])) b (o + 1) bk1)
        as (bk' & E & EB & EA & EL).
      * apply hset_lookup.
      * lia.
      * rewrite <- Hd. f_equal. unfold bk1. cbn [bk_cells].
        rewrite app_assoc. rewrite drop_app_alt; [done|].
        rewrite app_length, take_length. cbn [length]. lia.
      * exists bk'. rewrite E. cbn [st_v st_a st_h st_drops]. rewrite hset_hset.
        split; [|by rewrite EB, EA, EL]. f_equal. f_equal. rewrite <- app_assoc. f_equal.
        unfold ran. by rewrite Hnd.
    + unfold ret at 1. unfold bind at 1, from_heap at 1, bind at 1, gets at 1.
      rewrite (hadd_ok _ _ _ _ _ Hb) by lia. unfold or_ub at 1, ret at 1.
      destruct (IH s b (o + 1) bk Hb ltac:(lia) Hd) as (bk' & E & EB & EA & EL).
      exists bk'. rewrite E. split; [|done]. unfold ran. by rewrite Hnd.
Qed.

Lemma clear_ok s xs cap : Rep s xs cap ->
  exists s', clear AI sz al chk nd s = Ok tt s' /\ Post s s' [] 0 xs.
Proof.
  intros R. pose proof (len_ok _ _ _ R) as EL. unfold clear. unfold bind at 1, gets at 1.
  destruct R as (W & P & R).
  destruct R as [(E & -> & ->)|(b & bk & j & E & C0 & Cl & Cz & Hb & Hc & Hl & HO)].
  - rewrite E. cbn [v_begin is_null negb]. unfold bind, ret, set_v, modify.
    eexists. split; [reflexivity|]. split; [|split; [|split]].
    + split; [done|]. split; [done|]. by left.
    + apply frame_v. by rewrite E.
    + done.
    + cbn. by rewrite ran_nil, app_nil_r.
  - rewrite E. cbn [v_begin is_null negb]. unfold bind at 1. unfold bind at 1. rewrite EL.
    unfold bind at 1.
    destruct (drop_places_ok xs s b 0 bk Hb) as (bk' & ED & EB & EA & ELc).
    + lia.
    + rewrite drop_0, Hc. apply take_fmap_app.
    + rewrite ED. unfold bind at 1.
      assert (Ecap : forall (h : heap T) (d : list T), capacity sz (VState (st_v s) (st_a s) h d) = Ok cap (VState (st_v s) (st_a s) h d)).
      { intros h d. unfold capacity, bind, gets, offset_from. destruct (Z.eqb_spec sz 0); [lia|].
        cbn [st_v]. rewrite E. cbn [v_cap v_begin]. rewrite pdiff_ok by lia. by rewrite Nat.sub_0_r. }
      rewrite Ecap.
      rewrite (deallocate_ok (VState (st_v s) (st_a s) (hset (st_h s) b bk') (st_drops s ++ ran xs)) b cap bk'); [|apply hset_lookup|done|].
      2:{ destruct HO as [HO|HO]; [by left|right].
          apply (as_layout_cells AS _ _ (bk_cells bk')) in HO; [|lia]. rewrite <- EB, <- EA in HO. by destruct bk'. }
      cbn [st_v st_a st_h st_drops]. unfold set_v, modify. cbn [st_v st_a st_h st_drops].
      set (h2 := if decide _ then _ else _).
      eexists. split; [reflexivity|]. split; [|split; [|split; done]].
      * split; [|split]; cbn [st_v st_a st_h].
        -- unfold h2. destruct (decide _); [|apply wf_hdel]; apply wf_hset; try done; by eexists.
        -- intros p Hp. specialize (P p Hp). unfold h2. destruct (decide _) as [D|D]; cbn.
           ++ destruct (decide (p = b)) as [->|N]; [rewrite lookup_insert; by eexists|].
              by rewrite lookup_insert_ne.
           ++ assert (p <> b) by (intros ->; done).
              rewrite lookup_delete_ne by done. by rewrite lookup_insert_ne.
        -- by left.
      * unfold frame. cbn [st_v st_a st_h]. rewrite E. cbn [own_block v_begin drop_opt].
        unfold h2. destruct (decide _) as [D|D].
        -- rewrite D. cbn [drop_opt hset h_blk]. rewrite delete_insert_delete.
           symmetry. apply delete_notin. by rewrite lookup_delete.
        -- cbn [hset hdel h_blk]. rewrite delete_insert_delete.
           destruct (as_pool AS (st_a s)) as [p|] eqn:EP; cbn [drop_opt]; [|done].
           by rewrite delete_commute.
Qed.

Variable clone : T -> option T.
Variable cl : T -> T.
Hypothesis Hclone : forall x, clone x = Some (cl x).

(** Cloning a slice over places that are initialised or need no drop. *)
Lemma clone_from_slice_ok buf : forall s b o bk (olds : list T),
  h_blk (st_h s) !! b = Some bk -> o + length buf <= length (bk_cells bk) ->
  (nd = false \/ take (length buf) (drop o (bk_cells bk)) = Some <$> olds) ->
  exists bk', clone_from_slice nd clone (Ptr b o) buf s
      = Ok tt (VState (st_v s) (st_a s) (hset (st_h s) b bk') (st_drops s ++ ran olds)) /\
    bk_bytes bk' = bk_bytes bk /\ bk_align bk' = bk_align bk /\
    bk_cells bk' = take o (bk_cells bk) ++ (Some <$> map cl buf) ++ drop (o + length buf) (bk_cells bk).
Proof.
  induction buf as [|x buf IH]; intros s b o bk olds Hb Hl Ho.
  - exists bk. cbn [length clone_from_slice]. rewrite hset_same by done.
    assert (Er : ran olds = []).
    { unfold ran. destruct Ho as [->|Ho]; [done|]. destruct olds; [by destruct nd|done]. }
    rewrite Er, app_nil_r. split; [by destruct s|]. split; [done|]. split; [done|].
    cbn. by rewrite Nat.add_0_r, take_drop.
  - cbn [length] in *. cbn [clone_from_slice]. rewrite Hclone.
    unfold bind at 1, drop_place.
    set (olds' := tail olds).
    assert (Hstep : exists h1 bk1, 
      (if nd then do x0 <- from_heap (fun h => hload h (Ptr b o));
         run modify (log_drop nd x0); on_heap (fun h => hput h (Ptr b o) [None]) else ret tt) s
      = Ok tt (VState (st_v s) (st_a s) h1 (st_drops s ++ ran (take 1 olds))) /\
      h1 = hset (st_h s) b bk1 /\ bk_bytes bk1 = bk_bytes bk /\ bk_align bk1 = bk_align bk /\
      take o (bk_cells bk1) = take o (bk_cells bk) /\
      drop (o + 1) (bk_cells bk1) = drop (o + 1) (bk_cells bk) /\
      length (bk_cells bk1) = length (bk_cells bk) /\
      (nd = false \/ take (length buf) (drop (o + 1) (bk_cells bk)) = Some <$> olds')).
    { destruct nd eqn:Hnd.
      - destruct Ho as [|Ho]; [done|].
        destruct olds as [|x0 olds0].
        { exfalso. apply (f_equal length) in Ho. rewrite take_length, drop_length, fmap_length in Ho. cbn [length] in Ho. lia. }
        assert (Hx : bk_cells bk !! o = Some (Some x0)).
        { assert (E : take (S (length buf)) (drop o (bk_cells bk)) !! 0 = Some (Some x0)) by (by rewrite Ho).
          rewrite lookup_take in E by lia. rewrite lookup_drop, Nat.add_0_r in E. done. }
        eexists _, (Block (bk_bytes bk) (bk_align bk) (take o (bk_cells bk) ++ [None] ++ drop (o + 1) (bk_cells bk))).
        split; [|split; [reflexivity|]].
        + unfold bind at 1, from_heap at 1, bind at 1, gets at 1.
          rewrite (hload_ok _ _ _ _ _ Hb Hx). unfold or_ub at 1, ret at 1.
          unfold bind at 1, modify at 1, log_drop. unfold on_heap at 1, bind at 1, gets at 1. cbn [st_h].
          rewrite (hput_ok _ _ _ _ _ Hb) by (cbn [length]; lia).
          unfold or_ub at 1, bind at 1, ret at 1, set_h, modify at 1. cbn [st_v st_a st_h st_drops length].
          f_equal. f_equal. unfold ran. rewrite Hnd. done.
        + cbn [bk_bytes bk_align bk_cells]. split; [done|]. split; [done|]. split; [|split; [|split]].
          * rewrite take_app_alt; [done|]. rewrite take_length. lia.
          * rewrite app_assoc, drop_app_alt; [done|]. rewrite app_length, take_length. cbn. lia.
          * rewrite !app_length, take_length, drop_length. cbn [length]. lia.
          * right. rewrite <- drop_drop. rewrite fmap_cons in Ho.
            destruct (drop o (bk_cells bk)) as [|c cs]; [done|]. cbn in *. by injection Ho.
      - eexists _, bk. split; [|split; [reflexivity|]].
        + rewrite hset_same by done. unfold ran. rewrite Hnd, app_nil_r. by destruct s.
        + repeat split; try done. by left. }
    destruct Hstep as (h1 & bk1 & E1 & -> & EB1 & EA1 & ET1 & ED1 & EL1 & Ho1).
    rewrite E1. clear E1.
    unfold bind at 1, on_heap at 1, bind at 1, gets at 1. cbn [st_h].
    unfold hstore. rewrite (hput_ok _ _ _ _ bk1) by (try apply hset_lookup; cbn [length]; lia).
    unfold or_ub at 1, bind at 1, ret at 1, set_h, modify at 1. cbn [st_v st_a st_h st_drops length].
    rewrite hset_hset, ET1, ED1, EB1, EA1. set (bk2 := Block _ _ _).
    assert (Lc2 : length (bk_cells bk2) = length (bk_cells bk)).
    { unfold bk2. cbn [bk_cells]. rewrite !app_length, take_length, drop_length. cbn [length]. lia. }
    assert (Ed2 : drop (o + 1) (bk_cells bk2) = drop (o + 1) (bk_cells bk)).
    { unfold bk2. cbn [bk_cells]. rewrite app_assoc, drop_app_alt; [done|]. rewrite app_length, take_length. cbn. lia. }
    unfold bind at 1, from_heap at 1, bind at 1, gets at 1. cbn [st_h].
    rewrite (hadd_ok _ _ _ _ bk2); [|apply hset_lookup|lia].
    unfold or_ub at 1, ret at 1.
    edestruct (IH (VState (st_v s) (st_a s) (hset (st_h s) b bk2) (st_drops s ++ ran (take 1 olds))) b (o + 1) bk2 olds')
      as (bk' & E & EB & EA & EC).
    + apply hset_lookup.
    + lia.
    + by rewrite Ed2.
    + exists bk'. rewrite E. cbn [st_v st_a st_h st_drops]. rewrite hset_hset.
      split; [|split; [by rewrite EB|split; [by rewrite EA|]]].
      * f_equal. f_equal. rewrite <- app_assoc, <- ran_app. f_equal. f_equal.
        unfold olds'. by destruct olds.
      * rewrite EC. rewrite <- drop_drop, Ed2, drop_drop.
        assert (Et2 : take (o + 1) (bk_cells bk2) = take o (bk_cells bk) ++ [Some (cl x)]).
        { unfold bk2. cbn [bk_cells]. rewrite app_assoc.
          apply take_app_alt. rewrite app_length, take_length; cbn; lia. }
        rewrite Et2, <- app_assoc. cbn. do 3 f_equal. f_equal. lia.
Qed.


(** The [reserve] in front of [append] and [assign]. *)
Lemma reserve_to_ok s xs cap n :
  Rep s xs cap ->
  (Nat.max cap n =? cap) || as_fits AS (Nat.max cap n) = true ->
  (Z.of_nat n < usize_lim)%Z ->
  exists s', (if cap <? n then
      do c <- capacity sz; do d <- usize chk (Z.of_nat n - Z.of_nat c); reserve AI sz al chk d
    else ret tt) s = Ok tt s' /\ Post s s' xs (Nat.max cap n) [].
Proof.
  intros R F Hn. destruct (Nat.ltb_spec cap n) as [L|L].
  - rewrite Nat.max_r in * by lia. destruct (Nat.eqb_spec n cap); [lia|]. cbn in F.
    unfold bind at 1. rewrite (capacity_ok _ _ _ R). unfold bind at 1.
    rewrite (usize_ok' _ (n - cap)) by lia. unfold ret at 1.
    replace n with (cap + (n - cap)) in F by lia.
    destruct (reserve_ok s xs cap (n - cap) R ltac:(lia) F) as (s' & E & P).
    exists s'. split; [done|]. by replace (cap + (n - cap)) with n in P by lia.
  - rewrite Nat.max_l by lia. exists s. split; [done|]. by apply Post_refl.
Qed.

Lemma reserve_to_panic s xs cap n :
  Rep s xs cap ->
  (Nat.max cap n =? cap) || as_fits AS (Nat.max cap n) = false ->
  chk = true \/ (Z.of_nat (n - cap) * sz <= isize_max)%Z ->
  (if cap <? n then
      do c <- capacity sz; do d <- usize chk (Z.of_nat n - Z.of_nat c); reserve AI sz al chk d
    else ret tt) s = Panic s.
Proof.
  intros R F K. destruct (Nat.ltb_spec cap n) as [L|L].
  - rewrite Nat.max_r in * by lia. destruct (Nat.eqb_spec n cap); [lia|]. cbn in F.
    unfold bind at 1. rewrite (capacity_ok _ _ _ R). unfold bind at 1.
    unfold usize. destruct ((0 <=? _) && _)%Z eqn:U;
      [|destruct K as [->|K]; [done|exfalso; unfold usize_lim, isize_max in *; nia]].
    unfold ret at 1. replace (Z.to_nat (Z.of_nat n - Z.of_nat cap)) with (n - cap) by lia.
    replace n with (cap + (n - cap)) in F by lia.
    apply (reserve_panic s xs cap (n - cap)); [done|lia|done|done].
  - rewrite Nat.max_l, Nat.eqb_refl in F by lia. done.
Qed.

Lemma fits_usize n : as_fits AS n = true -> (Z.of_nat n < usize_lim)%Z.
Proof. intros F. pose proof (as_fits_bound AS _ F). unfold usize_lim, isize_max in *. nia. Qed.

Lemma cap_usize s xs cap : Rep s xs cap -> (Z.of_nat cap < usize_lim)%Z.
Proof. intros R. pose proof (Rep_cap _ _ _ R). unfold usize_lim, isize_max in *. nia. Qed.

Lemma append_ok s xs cap buf :
  Rep s xs cap -> nd = false ->
  (Nat.max cap (length xs + length buf) =? cap) || as_fits AS (Nat.max cap (length xs + length buf)) = true ->
  exists s', append AI sz al chk nd clone buf s = Ok tt s' /\
    Post s s' (xs ++ map cl buf) (Nat.max cap (length xs + length buf)) [].
Proof.
  intros R Hnd F. unfold append. unfold bind at 1. rewrite (len_ok _ _ _ R).
  assert (HU : (Z.of_nat (length xs + length buf) < usize_lim)%Z).
  { destruct (Nat.eqb_spec (Nat.max cap (length xs + length buf)) cap) as [E|E]; cbn in F.
    - pose proof (cap_usize _ _ _ R). lia.
    - pose proof (fits_usize _ F). lia. }
  unfold bind at 1. rewrite (usize_ok' _ (length xs + length buf)) by lia. unfold ret at 1.
  unfold bind at 1. rewrite (capacity_ok _ _ _ R).
  destruct (reserve_to_ok s xs cap _ R F HU) as (s1 & E1 & P1).
  unfold bind at 1. rewrite E1. clear E1. pose proof P1 as (R1 & _).
  set (cap1 := Nat.max cap (length xs + length buf)) in *.
  unfold bind at 1, gets at 1.
  destruct (decide (cap1 = 0)) as [Z0|NZ].
  - pose proof R1 as (_ & _ & R1'). destruct R1' as [(E & -> & _)|(b & bk & j & _ & ? & _)]; [|lia].
    rewrite E. assert (buf = []) as -> by (destruct buf; [done|]; unfold cap1 in Z0; cbn in Z0; lia).
    cbn [v_end v_begin v_cap length]. unfold bind at 1, from_heap at 1, bind at 1, gets at 1. cbn [hadd].
    unfold or_ub at 1, ret at 1, bind at 1, set_v at 1, modify at 1. cbn [is_null clone_from_slice].
    exists s1. split.
    + cbn. unfold ret. f_equal. destruct s1; cbn in *. by rewrite E.
    + by rewrite app_nil_r.
  - destruct (Rep_buf _ _ _ R1 ltac:(lia)) as (b & bk & junk & B).
    pose proof B as (E & Cl & Hb & Hc & Hl). rewrite E. cbn [v_end v_begin v_cap is_null].
    assert (length xs + length buf <= cap1) by lia.
    unfold bind at 1, from_heap at 1, bind at 1, gets at 1.
    rewrite (hadd_ok _ _ _ _ _ Hb) by lia. unfold or_ub at 1, ret at 1.
    unfold bind at 1, set_v at 1, modify at 1.
    unfold bind at 1, from_heap at 1, bind at 1, gets at 1. cbn [st_h].
    rewrite (hadd_ok _ _ _ _ _ Hb) by lia. unfold or_ub at 1, ret at 1. cbn [Nat.add].
    edestruct (clone_from_slice_ok buf (VState (Vec (Ptr b 0) (Ptr b (length xs + length buf)) (Ptr b cap1))
       (st_a s1) (st_h s1) (st_drops s1)) b (length xs) bk [] Hb) as (bk' & EC & EB & EA & ECc).
    + lia.
    + by left.
    + rewrite EC. cbn [st_v st_a st_h st_drops]. eexists. split; [reflexivity|].
      apply (Post_trans s s1 _ xs cap1 [] _ _ []); [done|].
      pose proof (Post_hset s1 xs cap1 b bk junk bk' (xs ++ map cl buf) (drop (length buf) junk) []
        R1 ltac:(lia) B EB EA) as P.
      rewrite app_length, map_length in P. apply P.
      * rewrite ECc, Hc, take_fmap_app, drop_app_fmap, fmap_app, <- app_assoc. done.
      * rewrite ECc, !app_length, fmap_length, map_length, take_length, drop_length. lia.
      * lia.
Qed.

Lemma append_panic s xs cap buf :
  Rep s xs cap ->
  (Nat.max cap (length xs + length buf) =? cap) || as_fits AS (Nat.max cap (length xs + length buf)) = false ->
  chk = true \/ (Z.of_nat (length buf) * sz <= isize_max)%Z -> append AI sz al chk nd clone buf s = Panic s.
Proof.
  intros R F K. unfold append. unfold bind at 1. rewrite (len_ok _ _ _ R).
  unfold bind at 1. unfold usize at 1. pose proof (Rep_len _ _ _ R) as HL. pose proof (Rep_cap _ _ _ R) as HC.
  destruct ((0 <=? _) && _)%Z eqn:U;
    [|destruct K as [->|K]; [done|exfalso; unfold usize_lim, isize_max in *; nia]].
  unfold ret at 1. replace (Z.to_nat (Z.of_nat (length xs) + Z.of_nat (length buf))) with (length xs + length buf) by lia.
  unfold bind at 1. rewrite (capacity_ok _ _ _ R).
  unfold bind at 1. rewrite (reserve_to_panic s xs cap _ R F); [done|].
  destruct K as [K|K]; [by left|right]. nia.
Qed.

Lemma assign_ok s xs cap buf :
  Rep s xs cap -> nd = false \/ length buf <= length xs ->
  (Nat.max cap (length buf) =? cap) || as_fits AS (Nat.max cap (length buf)) = true ->
  exists s', assign AI sz al chk nd clone buf s = Ok tt s' /\
    Post s s' (map cl buf) (Nat.max cap (length buf)) (take (length buf) xs).
Proof.
  intros R Hnd F. unfold assign. unfold bind at 1. rewrite (capacity_ok _ _ _ R).
  assert (HU : (Z.of_nat (length buf) < usize_lim)%Z).
  { destruct (Nat.eqb_spec (Nat.max cap (length buf)) cap) as [E|E]; cbn in F.
    - pose proof (cap_usize _ _ _ R). lia.
    - pose proof (fits_usize _ F). lia. }
  destruct (reserve_to_ok s xs cap _ R F HU) as (s1 & E1 & P1).
  unfold bind at 1. rewrite E1. clear E1. pose proof P1 as (R1 & _).
  set (cap1 := Nat.max cap (length buf)) in *.
  unfold bind at 1, gets at 1.
  destruct (decide (cap1 = 0)) as [Z0|NZ].
  - pose proof R1 as (_ & _ & R1'). destruct R1' as [(E & -> & _)|(b & bk & j & _ & ? & _)]; [|lia].
    rewrite E. assert (buf = []) as -> by (destruct buf; [done|]; unfold cap1 in Z0; cbn in Z0; lia).
    cbn [v_end v_begin v_cap length]. unfold bind at 1, from_heap at 1, bind at 1, gets at 1. cbn [hadd].
    unfold or_ub at 1, ret at 1, bind at 1, set_v at 1, modify at 1. cbn [clone_from_slice].
    exists s1. split; [|done].
    cbn. unfold ret. f_equal. destruct s1; cbn in *. by rewrite E.
  - destruct (Rep_buf _ _ _ R1 ltac:(lia)) as (b & bk & junk & B).
    pose proof B as (E & Cl & Hb & Hc & Hl). rewrite E. cbn [v_end v_begin v_cap is_null].
    unfold bind at 1, from_heap at 1, bind at 1, gets at 1.
    rewrite (hadd_ok _ _ _ _ _ Hb) by lia. unfold or_ub at 1, ret at 1.
    unfold bind at 1, set_v at 1, modify at 1. cbn [Nat.add].
    edestruct (clone_from_slice_ok buf (VState (Vec (Ptr b 0) (Ptr b (length buf)) (Ptr b cap1))
       (st_a s1) (st_h s1) (st_drops s1)) b 0 bk (take (length buf) xs) Hb) as (bk' & EC & EB & EA & ECc).
    + lia.
    + destruct Hnd as [Hnd|Hnd]; [by left|right]. rewrite drop_0, Hc.
      rewrite take_app_le by (rewrite fmap_length; lia). by rewrite fmap_take.
    + rewrite EC. cbn [st_v st_a st_h st_drops]. eexists. split; [reflexivity|].
      apply (Post_trans s s1 _ xs cap1 [] _ _ (take (length buf) xs)); [done|].
      pose proof (Post_hset s1 xs cap1 b bk junk bk' (map cl buf) (drop (length buf) (bk_cells bk)) (take (length buf) xs)
        R1 ltac:(lia) B EB EA) as P.
      rewrite map_length in P. apply P.
      * rewrite ECc, take_0. done.
      * rewrite ECc, !app_length, fmap_length, map_length, take_length, drop_length. lia.
      * lia.
Qed.

Lemma assign_panic s xs cap buf :
  Rep s xs cap ->
  (Nat.max cap (length buf) =? cap) || as_fits AS (Nat.max cap (length buf)) = false ->
  chk = true \/ (Z.of_nat (length buf) * sz <= isize_max)%Z -> assign AI sz al chk nd clone buf s = Panic s.
Proof.
  intros R F K. unfold assign. unfold bind at 1. rewrite (capacity_ok _ _ _ R).
  unfold bind at 1. rewrite (reserve_to_panic s xs cap _ R F); [done|].
  destruct K as [K|K]; [by left|right]. nia.
Qed.

(** Index assignment and swap. *)
Lemma slice_len_ok s xs cap : Rep s xs cap ->
  (if is_null (v_begin (st_v s)) then ret 0 else len sz) s = Ok (length xs) s.
Proof.
  intros R. pose proof (len_ok _ _ _ R) as EL.
  destruct R as (_ & _ & [(E & -> & _)|(b & bk & j & E & _)]); rewrite E; cbn [is_null v_begin]; done.
Qed.

Lemma index_set_oob s xs cap i x : Rep s xs cap -> xs !! i = None ->
  index_set sz nd i x s = Panic (log_drop nd x s).
Proof.
  intros R Hx. apply lookup_ge_None in Hx. unfold index_set, on_unwind.
  unfold bind at 1, gets at 1. unfold bind at 1. rewrite (slice_len_ok _ _ _ R).
  destruct (Nat.ltb_spec i (length xs)); [lia|]. done.
Qed.

Lemma put_one (xs : list T) (junk : list (option T)) i x : i < length xs ->
  take i ((Some <$> xs) ++ junk) ++ [Some x] ++ drop (i + 1) ((Some <$> xs) ++ junk)
  = (Some <$> <[i := x]> xs) ++ junk.
Proof.
  intros L. rewrite list_fmap_insert, <- insert_app_l by (rewrite fmap_length; lia).
  rewrite insert_take_drop by (rewrite app_length, fmap_length; lia).
  by replace (i + 1) with (S i) by lia.
Qed.

Lemma index_set_ok s xs cap i x old : Rep s xs cap -> xs !! i = Some old ->
  exists s', index_set sz nd i x s = Ok tt s' /\ Post s s' (<[i := x]> xs) cap [old].
Proof.
  intros R Hx. pose proof (lookup_lt_Some _ _ _ Hx) as Hi.
  pose proof (Rep_len _ _ _ R) as HL.
  destruct (Rep_buf _ _ _ R ltac:(lia)) as (b & bk & junk & B).
  pose proof B as (E & Cl & Hb & Hc & Hl).
  assert (Hj : length (bk_cells bk) = length xs + length junk) by (rewrite Hc, app_length, fmap_length; done).
  unfold index_set, on_unwind.
  unfold bind at 1, gets at 1. unfold bind at 1. rewrite (slice_len_ok _ _ _ R).
  destruct (Nat.ltb_spec i (length xs)); [|lia]. cbn [negb]. unfold bind at 1, ret at 1.
  rewrite E. cbn [v_begin].
  unfold bind at 1, from_heap at 1, bind at 1, gets at 1.
  rewrite (hadd_ok _ _ _ _ _ Hb) by lia. unfold or_ub at 1, ret at 1. cbn [Nat.add].
    assert (Hstep : exists bk1, drop_place nd (Ptr b i) s
        = Ok tt (VState (st_v s) (st_a s) (hset (st_h s) b bk1) (st_drops s ++ ran [old])) /\
      bk_bytes bk1 = bk_bytes bk /\ bk_align bk1 = bk_align bk /\
      take i (bk_cells bk1) = take i (bk_cells bk) /\
      drop (i + 1) (bk_cells bk1) = drop (i + 1) (bk_cells bk) /\
      length (bk_cells bk1) = length (bk_cells bk)).
    { unfold drop_place. destruct nd eqn:Hnd.
      - unfold bind at 1, from_heap at 1, bind at 1, gets at 1.
        rewrite (hload_ok _ _ _ _ old Hb)
          by (rewrite Hc, lookup_app_l by (rewrite fmap_length; lia); by rewrite list_lookup_fmap, Hx).
        unfold or_ub at 1, ret at 1, bind at 1, modify at 1, log_drop.
        unfold on_heap at 1, bind at 1, gets at 1. cbn [st_h].
        rewrite (hput_ok _ _ _ _ _ Hb) by (cbn [length]; lia).
        unfold or_ub at 1, bind at 1, ret at 1, set_h, modify at 1. cbn [st_v st_a st_h st_drops length].
        eexists. split; [unfold ran; rewrite Hnd; reflexivity|].
        cbn [bk_bytes bk_align bk_cells]. split; [done|]. split; [done|]. split; [|split].
        + rewrite take_app_alt; [done|]. rewrite take_length. lia.
        + rewrite app_assoc, drop_app_alt; [done|]. rewrite app_length, take_length. cbn. lia.
        + rewrite !app_length, take_length, drop_length. cbn [length]. lia.
      - exists bk. rewrite hset_same by done. unfold ran. rewrite Hnd, app_nil_r.
        split; [by destruct s|done]. }
    destruct Hstep as (bk1 & ED & EB1 & EA1 & ET1 & EDr1 & EL1).
    unfold bind at 1. rewrite ED. unfold on_heap, bind at 1, gets at 1. cbn [st_h].
    unfold hstore. rewrite (hput_ok _ _ _ _ bk1) by (try apply hset_lookup; cbn [length]; lia).
    unfold or_ub at 1, bind at 1, ret at 1, set_h, modify. cbn [st_v st_a st_h st_drops length].
    rewrite hset_hset, ET1, EDr1, EB1, EA1. rewrite E.
    eexists. split; [reflexivity|].
    rewrite <- (insert_length xs i x).
    eapply Post_hset; try done.
    + lia.
    + cbn [bk_cells]. rewrite Hc. by apply put_one.
    + cbn [bk_cells]. rewrite !app_length, take_length, drop_length. cbn [length]. lia.
    + by rewrite insert_length.
Qed.

Lemma swap_oob s xs cap i j : Rep s xs cap -> xs !! i = None \/ xs !! j = None ->
  swap sz i j s = Panic s.
Proof.
  intros R Hx. unfold swap.
  unfold bind at 1, gets at 1. unfold bind at 1. rewrite (slice_len_ok _ _ _ R).
  assert ((i <? length xs) && (j <? length xs) = false) as ->; [|done].
  destruct Hx as [Hx|Hx]; apply lookup_ge_None in Hx; lia.
Qed.

Lemma swap_ok s xs cap i j x y : Rep s xs cap -> xs !! i = Some x -> xs !! j = Some y ->
  exists s', swap sz i j s = Ok tt s' /\ Post s s' (<[j := x]> (<[i := y]> xs)) cap [].
Proof.
  intros R Hx Hy. pose proof (lookup_lt_Some _ _ _ Hx) as Hi. pose proof (lookup_lt_Some _ _ _ Hy) as Hj.
  pose proof (Rep_len _ _ _ R) as HL.
  destruct (Rep_buf _ _ _ R ltac:(lia)) as (b & bk & junk & B).
  pose proof B as (E & Cl & Hb & Hc & Hl).
  assert (Hjk : length (bk_cells bk) = length xs + length junk) by (rewrite Hc, app_length, fmap_length; done).
  unfold swap. unfold bind at 1, gets at 1. unfold bind at 1. rewrite (slice_len_ok _ _ _ R).
  assert ((i <? length xs) && (j <? length xs) = true) as -> by lia. cbn [negb].
  unfold bind at 1, ret at 1. rewrite E. cbn [v_begin].
  unfold bind at 1, from_heap at 1, bind at 1, gets at 1.
  rewrite (hadd_ok _ _ _ _ _ Hb) by lia. unfold or_ub at 1, ret at 1. cbn [Nat.add].
  unfold bind at 1, from_heap at 1, bind at 1, gets at 1.
  rewrite (hadd_ok _ _ _ _ _ Hb) by lia. unfold or_ub at 1, ret at 1. cbn [Nat.add].
  unfold bind at 1, from_heap at 1, bind at 1, gets at 1.
  rewrite (hload_ok _ _ _ _ x Hb)
    by (rewrite Hc, lookup_app_l by (rewrite fmap_length; lia); by rewrite list_lookup_fmap, Hx).
  unfold or_ub at 1, ret at 1.
  unfold bind at 1, from_heap at 1, bind at 1, gets at 1.
  rewrite (hload_ok _ _ _ _ y Hb)
    by (rewrite Hc, lookup_app_l by (rewrite fmap_length; lia); by rewrite list_lookup_fmap, Hy).
  unfold or_ub at 1, ret at 1.
  unfold bind at 1, on_heap at 1, bind at 1, gets at 1.
  unfold hstore at 1. rewrite (hput_ok _ _ _ _ _ Hb) by (cbn [length]; lia).
  unfold or_ub at 1, bind at 1, ret at 1, set_h at 1, modify at 1. cbn [length].
  rewrite Hc, put_one by done.
  unfold on_heap at 1, bind at 1, gets at 1. cbn [st_h].
  unfold hstore. erewrite hput_ok;
    [|apply hset_lookup|cbn [length bk_cells]; rewrite app_length, fmap_length, insert_length; lia].
  unfold or_ub at 1, bind at 1, ret at 1, set_h at 1, modify at 1.
  cbn [st_v st_a st_h st_drops length bk_cells bk_bytes bk_align].
  rewrite put_one by (rewrite insert_length; lia). rewrite hset_hset, E.
  eexists. split; [reflexivity|].
  replace (st_drops s) with (st_drops s ++ ran []) by (by rewrite ran_nil, app_nil_r).
  replace (length xs) with (length (<[j := x]> (<[i := y]> xs))) by (by rewrite !insert_length).
  eapply (Post_hset s xs cap b bk junk); try done.
  - lia.
  - cbn [bk_cells]. rewrite Hjk, app_length, fmap_length, !insert_length. lia.
  - by rewrite !insert_length.
Qed.

(** ** One call *)
Theorem step_modest c s xs cap a d xs' cap' :
  Rep s xs cap -> nd = false \/ is_move c = true ->
  spec_call (as_fits AS) cl c (SVec xs cap) = (a, d, SVec xs' cap') ->
  chk = true \/ modest sz c = true ->
  exists s', step AI sz al chk nd clone c s = Some (a, s') /\ Post s s' xs' cap' d.
Proof.
  intros R Hnd HS HK. unfold step.
  assert (HK' : chk = true \/ (Z.of_nat (named c) * sz <= isize_max)%Z).
  { destruct HK as [HK|HK]; [by left|right]. unfold modest in HK. lia. }
  clear HK. destruct c; cbn [spec_call items room exec is_move named] in *; try rewrite Z.mul_1_l in HK'; unfold with_room, room_for_one in HS; cbn [items room] in HS.
  - (* push *)
    change (if length xs =? cap then if cap =? 0 then 1 else 2 * cap else cap) with (need_one xs cap) in HS.
    destruct ((need_one xs cap =? cap) || as_fits AS (need_one xs cap)) eqn:F; injection HS as <- <- <- <-.
    + destruct (push_ok s xs cap x R F) as (s' & E & P). exists s'. unfold bind. by rewrite E.
    + unfold bind. rewrite (push_panic s xs cap x R F HK').
      eexists; split; [reflexivity|]. by apply Post_log.
  - injection HS as <- <- <- <-. destruct (pop_ok s xs cap R) as (s' & E & P).
    exists s'. unfold bind. by rewrite E.
  - destruct (Nat.leb_spec i (length xs)) as [Hi|Hi].
    + change (if length xs =? cap then if cap =? 0 then 1 else 2 * cap else cap) with (need_one xs cap) in HS.
      destruct ((need_one xs cap =? cap) || as_fits AS (need_one xs cap)) eqn:F; injection HS as <- <- <- <-.
      * destruct (insert_ok s xs cap i x R Hi F) as (s' & E & P). exists s'. unfold bind. by rewrite E.
      * unfold bind. rewrite (insert_panic s xs cap i x R Hi F HK').
        eexists; split; [reflexivity|]. by apply Post_log.
    + injection HS as <- <- <- <-. unfold bind. rewrite (insert_oob s xs cap i x R Hi).
      eexists; split; [reflexivity|]. by apply Post_log.
  - injection HS as <- <- <- <-. destruct (xs !! i) as [x|] eqn:Hx.
    + destruct (remove_ok s xs cap i x R Hx) as (s' & E & P). exists s'. unfold bind. by rewrite E.
    + apply lookup_ge_None in Hx. unfold bind. rewrite (remove_none s xs cap i R Hx).
      eexists; split; [reflexivity|]. rewrite take_ge, drop_ge by lia. rewrite app_nil_r. by apply Post_refl.
  - destruct (Nat.eqb_spec n 0) as [->|Hn].
    + rewrite Nat.add_0_r, Nat.eqb_refl in HS. cbn in HS. injection HS as <- <- <- <-.
      unfold bind. rewrite reserve_0. eexists; split; [reflexivity|]. by apply Post_refl.
    + destruct (Nat.eqb_spec (cap + n) cap); [lia|]. cbn [orb] in HS.
      destruct (as_fits AS (cap + n)) eqn:F; injection HS as <- <- <- <-.
      * destruct (reserve_ok s xs cap n R ltac:(lia) F) as (s' & E & P). exists s'. unfold bind. by rewrite E.
      * unfold bind. rewrite (reserve_panic s xs cap n R ltac:(lia) F HK').
        eexists; split; [reflexivity|]. by apply Post_refl.
  - injection HS as <- <- <- <-. destruct (clear_ok s xs cap R) as (s' & E & P).
    exists s'. unfold bind. by rewrite E.
  - destruct Hnd as [Hnd|?]; [|done].
    destruct (_ || _) eqn:F; injection HS as <- <- <- <-.
    + destruct (append_ok s xs cap buf R Hnd F) as (s' & E & P). exists s'. unfold bind. by rewrite E.
    + unfold bind. rewrite (append_panic s xs cap buf R F HK').
      eexists; split; [reflexivity|]. by apply Post_refl.
  - destruct Hnd as [Hnd|?]; [|done].
    destruct (_ || _) eqn:F; injection HS as <- <- <- <-.
    + destruct (assign_ok s xs cap buf R ltac:(by left) F) as (s' & E & P). exists s'. unfold bind. by rewrite E.
    + unfold bind. rewrite (assign_panic s xs cap buf R F HK').
      eexists; split; [reflexivity|]. by apply Post_refl.
  - destruct (xs !! i) as [old|] eqn:Hx; injection HS as <- <- <- <-.
    + destruct (index_set_ok s xs cap i x old R Hx) as (s' & E & P). exists s'. unfold bind. by rewrite E.
    + unfold bind. rewrite (index_set_oob s xs cap i x R Hx).
      eexists; split; [reflexivity|]. by apply Post_log.
  - destruct (xs !! i) as [x|] eqn:Hx; [destruct (xs !! j) as [y|] eqn:Hy|]; injection HS as <- <- <- <-.
    + destruct (swap_ok s xs cap i j x y R Hx Hy) as (s' & E & P). exists s'. unfold bind. by rewrite E.
    + unfold bind. rewrite (swap_oob s xs cap i j R) by (by right).
      eexists; split; [reflexivity|]. by apply Post_refl.
    + unfold bind. rewrite (swap_oob s xs cap i j R) by (by left).
      eexists; split; [reflexivity|]. by apply Post_refl.
  - injection HS as <- <- <- <-. unfold bind. rewrite (len_ok _ _ _ R).
    eexists; split; [reflexivity|]. by apply Post_refl.
  - injection HS as <- <- <- <-. unfold bind. rewrite (capacity_ok _ _ _ R).
    eexists; split; [reflexivity|]. by apply Post_refl.
  - injection HS as <- <- <- <-. unfold bind. rewrite (is_empty_ok _ _ _ R).
    eexists; split; [reflexivity|]. by apply Post_refl.
  - injection HS as <- <- <- <-. unfold bind. rewrite (is_full_ok _ _ _ R).
    eexists; split; [reflexivity|]. by apply Post_refl.
  - injection HS as <- <- <- <-. unfold bind. rewrite (as_slice_ok _ _ _ R).
    eexists; split; [reflexivity|]. by apply Post_refl.
Qed.

(** ** All histories *)
Theorem run_modest cs : forall s xs cap l d xs' cap',
  Rep s xs cap -> nd = false \/ forallb is_move cs = true ->
  spec_calls (as_fits AS) cl cs (SVec xs cap) = (l, d, SVec xs' cap') ->
  chk = true \/ forallb (modest sz) cs = true ->
  exists s', run_calls AI sz al chk nd clone cs s = Some (l, s') /\ Post s s' xs' cap' d.
Proof.
  induction cs as [|c cs IH]; intros s xs cap l d xs' cap' R Hnd HS HK.
  - cbn in HS. injection HS as <- <- <- <-. exists s. split; [done|]. by apply Post_refl.
  - cbn [spec_calls] in HS. destruct (spec_call _ cl c (SVec xs cap)) as [[a d1] [xs1 cap1]] eqn:E1.
    destruct (spec_calls _ cl cs (SVec xs1 cap1)) as [[l2 d2] [xs2 cap2]] eqn:E2.
    injection HS as <- <- <- <-.
    destruct (step_modest c s xs cap a d1 xs1 cap1 R) as (s1 & Es & P1); [|done| |].
    + destruct Hnd as [->|Hnd]; [by left|right]. cbn in Hnd. by apply andb_prop in Hnd as [? _].
    + destruct HK as [->|HK]; [by left|right]. cbn in HK. by apply andb_prop in HK as [? _].
    + pose proof P1 as (R1 & _).
      destruct (IH s1 xs1 cap1 l2 d2 xs2 cap2 R1) as (s2 & Er & P2); [|done| |].
      * destruct Hnd as [->|Hnd]; [by left|right]. cbn in Hnd. by apply andb_prop in Hnd as [_ ?].
      * destruct HK as [->|HK]; [by left|right]. cbn in HK. by apply andb_prop in HK as [_ ?].
      * exists s2. cbn [run_calls]. rewrite Es, Er. split; [done|].
        exact (Post_trans _ _ _ _ _ _ _ _ _ P1 P2).
Qed.

(** A history without panics names nothing too large. *)
Lemma calm_modest c s xs cap a d r :
  Rep s xs cap -> spec_call (as_fits AS) cl c (SVec xs cap) = (a, d, r) -> a <> APanic ->
  modest sz c = true.
Proof.
  intros R HS HA. pose proof (Rep_cap _ _ _ R) as HC. pose proof (Rep_len _ _ _ R) as HL.
  assert (B : forall k args ys dr, with_room (as_fits AS) k (SVec xs cap) args ys dr = (a, d, r) ->
    (Z.of_nat k * sz <= isize_max)%Z).
  { intros k args ys dr. unfold with_room. cbn [room]. destruct (_ || _) eqn:F; intros E.
    - apply orb_prop in F as [F|F]; [apply Nat.eqb_eq in F as ->; done|].
      exact (as_fits_bound AS _ F).
    - by injection E as <- _ _. }
  unfold modest. apply Z.leb_le.
  assert (N0 : (Z.of_nat 0 * sz <= isize_max)%Z) by done.
  destruct c; cbn [spec_call items room named] in *; try exact N0.
  - apply B in HS. unfold room_for_one in HS. cbn [items room] in HS.
    destruct (Nat.eqb_spec (length xs) cap), (Nat.eqb_spec cap 0); nia.
  - destruct (Nat.leb_spec i (length xs)); [|by injection HS as <- _ _].
    apply B in HS. unfold room_for_one in HS. cbn [items room] in HS.
    destruct (Nat.eqb_spec (length xs) cap), (Nat.eqb_spec cap 0); nia.
  - apply B in HS. nia.
  - apply B in HS. nia.
  - apply B in HS. nia.
Qed.

Theorem step_refines c s xs cap a d xs' cap' :
  Rep s xs cap -> nd = false \/ is_move c = true ->
  spec_call (as_fits AS) cl c (SVec xs cap) = (a, d, SVec xs' cap') ->
  chk = true \/ a <> APanic ->
  exists s', step AI sz al chk nd clone c s = Some (a, s') /\ Post s s' xs' cap' d.
Proof.
  intros R Hnd HS HK. apply (step_modest c s xs cap a d xs' cap' R Hnd HS).
  destruct HK as [HK|HK]; [by left|right]. exact (calm_modest c s xs cap a d _ R HS HK).
Qed.

Theorem run_refines cs : forall s xs cap l d xs' cap',
  Rep s xs cap -> nd = false \/ forallb is_move cs = true ->
  spec_calls (as_fits AS) cl cs (SVec xs cap) = (l, d, SVec xs' cap') ->
  chk = true \/ ~ In APanic l ->
  exists s', run_calls AI sz al chk nd clone cs s = Some (l, s') /\ Post s s' xs' cap' d.
Proof.
  induction cs as [|c cs IH]; intros s xs cap l d xs' cap' R Hnd HS HK.
  - cbn in HS. injection HS as <- <- <- <-. exists s. split; [done|]. by apply Post_refl.
  - cbn [spec_calls] in HS. destruct (spec_call _ cl c (SVec xs cap)) as [[a d1] [xs1 cap1]] eqn:E1.
    destruct (spec_calls _ cl cs (SVec xs1 cap1)) as [[l2 d2] [xs2 cap2]] eqn:E2.
    injection HS as <- <- <- <-.
    destruct (step_refines c s xs cap a d1 xs1 cap1 R) as (s1 & Es & P1); [|done| |].
    + destruct Hnd as [->|Hnd]; [by left|right]. cbn in Hnd. by apply andb_prop in Hnd as [? _].
    + destruct HK as [->|HK]; [by left|right]. intros ->. apply HK. by left.
    + pose proof P1 as (R1 & _).
      destruct (IH s1 xs1 cap1 l2 d2 xs2 cap2 R1) as (s2 & Er & P2); [|done| |].
      * destruct Hnd as [->|Hnd]; [by left|right]. cbn in Hnd. by apply andb_prop in Hnd as [_ ?].
      * destruct HK as [->|HK]; [by left|right]. intros Hin. apply HK. by right.
      * exists s2. cbn [run_calls]. rewrite Es, Er. split; [done|].
        exact (Post_trans _ _ _ _ _ _ _ _ _ P1 P2).
Qed.

(** A new vector in any well-formed heap. *)
Lemma Rep_new a h d :
  heap_wf h -> (forall p, as_pool AS a = Some p -> is_Some (h_blk h !! p)) ->
  Rep (VState new_in a h d) [] 0.
Proof. intros W P. split; [done|]. split; [done|]. by left. Qed.

End proofs.
