(** Where the vector does not keep its promises. *)
From Verif Require Import Base Heap HeapLemmas Alloc AllocContract Vector VectorSpec VectorProofs VectorMore.

Section proofs.
Context {A T : Type}.
Variable AI : AllocImpl A T.
Variables sz al : Z.
Variable chk nd : bool.
Hypothesis Hsz : (0 < sz)%Z.
Variable AS : AllocSpec AI sz al.
Variable clone : T -> option T.

(** Reserving on a new vector gives uninitialised memory. *)
Lemma reserve_new a (h : heap T) d n : heap_wf h -> 0 < n -> as_fits AS n = true ->
  exists bk, reserve AI sz al chk n (VState new_in a h d) =
      Ok tt (VState (Vec (Ptr (h_next h) 0) (Ptr (h_next h) 0) (Ptr (h_next h) n)) a (halloc h bk) d) /\
    n <= length (bk_cells bk) /\ take n (bk_cells bk) = replicate n None /\
    allocate AI sz al chk n (VState new_in a h d) = Ok (Ptr (h_next h) 0) (VState new_in a (halloc h bk) d).
Proof.
  intros W Hn F. pose proof (as_fits_bound AS _ F) as FB.
  unfold reserve. destruct (Nat.eqb_spec n 0) as [->|_]; [lia|].
  unfold bind at 1, len, bind at 1, gets at 1, offset_from at 1.
  destruct (Z.eqb_spec sz 0); [lia|]. cbn [st_v new_in v_end v_begin pdiff].
  unfold or_ub at 1, ret at 1.
  unfold bind at 1, capacity at 1, bind at 1, gets at 1, offset_from at 1.
  destruct (Z.eqb_spec sz 0); [lia|]. cbn [st_v new_in v_cap v_begin pdiff].
  unfold or_ub at 1, ret at 1.
  unfold bind at 1. rewrite (usize_ok' chk _ n) by (unfold usize_lim, isize_max in *; nia).
  unfold ret at 1. unfold bind at 1.
  destruct (allocate_ok AI sz al chk Hsz AS (VState new_in a h d) n Hn F) as (bk & tail & EA & NC & NL).
  rewrite EA. cbn [st_v st_a st_h st_drops]. unfold bind at 1, gets at 1. cbn [st_v new_in v_begin is_null negb].
  unfold bind at 1, ret at 1. unfold from_heap, bind, gets, or_ub, ret. cbn [st_h].
  assert (Hl : length (bk_cells bk) = n + length tail) by (rewrite NC, app_length, replicate_length; done).
  rewrite (hadd_ok _ _ _ _ bk); [|cbn; by rewrite lookup_insert|lia].
  rewrite (hadd_ok _ _ _ _ bk); [|cbn; by rewrite lookup_insert|lia].
  exists bk. split; [done|]. split; [lia|]. split; [|done]. rewrite NC.
  apply take_app_alt. by rewrite replicate_length.
Qed.

(** The reported reservation in front of a copy into a new vector. *)
Lemma assign_head a (h : heap T) d buf : heap_wf h -> buf <> [] -> as_fits AS (length buf) = true ->
  exists bk,
    assign AI sz al chk nd clone buf (VState new_in a h d) =
      clone_from_slice nd clone (Ptr (h_next h) 0) buf
        (VState (Vec (Ptr (h_next h) 0) (Ptr (h_next h) (length buf)) (Ptr (h_next h) (length buf))) a (halloc h bk) d) /\
    length buf <= length (bk_cells bk) /\ take (length buf) (bk_cells bk) = replicate (length buf) None /\
    allocate AI sz al chk (length buf) (VState new_in a h d) = Ok (Ptr (h_next h) 0) (VState new_in a (halloc h bk) d).
Proof.
  intros W NE F. pose proof (as_fits_bound AS _ F) as FB.
  assert (0 < length buf) by (destruct buf; [done|cbn; lia]).
  destruct (reserve_new a h d (length buf) W ltac:(done) F) as (bk & ER & Hl & Ht & HAl).
  exists bk. split; [|done]. unfold assign.
  unfold bind at 1, capacity at 1, bind at 1, gets at 1, offset_from at 1.
  destruct (Z.eqb_spec sz 0); [lia|]. cbn [st_v new_in v_cap v_begin pdiff]. unfold or_ub at 1, ret at 1.
  destruct (Nat.ltb_spec 0 (length buf)); [|lia]. unfold bind at 1.
  unfold bind at 1, capacity at 1, bind at 1, gets at 1, offset_from at 1.
  destruct (Z.eqb_spec sz 0); [lia|]. cbn [st_v new_in v_cap v_begin pdiff]. unfold or_ub at 1, ret at 1.
  unfold bind at 1. rewrite (usize_ok' chk _ (length buf)) by (unfold usize_lim, isize_max in *; nia).
  unfold ret at 1. change (Vec Null Null Null) with new_in. rewrite ER.
  unfold bind at 1, gets at 1. cbn [st_v v_begin]. unfold bind at 1, from_heap at 1, bind at 1, gets at 1. cbn [st_h].
  rewrite (hadd_ok _ _ _ _ bk); [|cbn; by rewrite lookup_insert|lia]. unfold or_ub at 1, ret at 1.
  done.
Qed.

(** Copying any non-empty slice of elements with destructors into a new vector
    drops uninitialised memory. *)
Lemma from_in_ub v a (h : heap T) d buf : nd = true -> heap_wf h -> buf <> [] ->
  (forall x, clone x <> None) ->
  as_fits AS (length buf) = true ->
  from_in AI sz al chk nd clone buf (VState v a h d) = UB.
Proof.
  intros Hnd W NE HC F. unfold from_in, build. cbn [st_a st_h st_drops st_v].
  destruct (assign_head a h d buf W NE F) as (bk & E & Hl & Ht & _). rewrite E.
  destruct buf as [|x buf]; [done|]. cbn [clone_from_slice].
  destruct (clone x) as [y|] eqn:EC; [|by destruct (HC x)].
  unfold bind at 1, drop_place. rewrite Hnd. unfold bind at 1, from_heap, bind at 1, gets at 1. cbn [st_h].
  unfold hload, cells_of. cbn [halloc h_blk]. rewrite lookup_insert. cbn [fmap option_fmap option_map].
  cbn [length] in *. destruct (bk_cells bk) as [|c cs]; [done|]. cbn in Ht. injection Ht as -> _. done.
Qed.

(** The same for [append] on a new vector when the first clone panics: the
    length already counts the new elements, so dropping the vector afterwards
    drops uninitialised memory. *)
Lemma append_panic_unsafe a (h : heap T) d x rest : nd = true -> heap_wf h -> clone x = None ->
  as_fits AS (length (x :: rest)) = true ->
  exists s', append AI sz al chk nd clone (x :: rest) (VState new_in a h d) = Panic s' /\
    clear AI sz al chk nd s' = UB.
Proof.
  intros Hnd W HC F. pose proof (as_fits_bound AS _ F) as FB.
  set (n := length (x :: rest)) in *. assert (0 < n) by (cbn; lia).
  destruct (reserve_new a h d n W ltac:(done) F) as (bk & ER & Hl & Ht & HAl).
  unfold append. fold n.
  unfold bind at 1, len at 1, bind at 1, gets at 1, offset_from at 1.
  destruct (Z.eqb_spec sz 0); [lia|]. cbn [st_v new_in v_end v_begin pdiff]. unfold or_ub at 1, ret at 1.
  unfold bind at 1. rewrite (usize_ok' chk _ n) by (unfold usize_lim, isize_max in *; nia). unfold ret at 1.
  unfold bind at 1, capacity at 1, bind at 1, gets at 1, offset_from at 1.
  destruct (Z.eqb_spec sz 0); [lia|]. cbn [st_v new_in v_cap v_begin pdiff]. unfold or_ub at 1, ret at 1.
  destruct (Nat.ltb_spec 0 n); [|lia]. unfold bind at 1.
  unfold bind at 1, capacity at 1, bind at 1, gets at 1, offset_from at 1.
  destruct (Z.eqb_spec sz 0); [lia|]. cbn [st_v new_in v_cap v_begin pdiff]. unfold or_ub at 1, ret at 1.
  unfold bind at 1. rewrite (usize_ok' chk _ n) by (unfold usize_lim, isize_max in *; nia).
  unfold ret at 1. change (Vec Null Null Null) with new_in. rewrite ER.
  unfold bind at 1, gets at 1. cbn [st_v v_begin v_end]. unfold bind at 1, from_heap at 1, bind at 1, gets at 1. cbn [st_h].
  rewrite (hadd_ok _ _ _ _ bk); [|cbn; by rewrite lookup_insert|lia]. unfold or_ub at 1, ret at 1.
  unfold bind at 1, set_v at 1, modify at 1. cbn [is_null].
  unfold bind at 1, from_heap at 1, bind at 1, gets at 1. cbn [st_h].
  rewrite (hadd_ok _ _ _ _ bk); [|cbn; by rewrite lookup_insert|lia]. unfold or_ub at 1, ret at 1.
  cbn [clone_from_slice]. rewrite HC. unfold panic. eexists. split; [reflexivity|].
  unfold clear, bind at 1, gets at 1. cbn [st_v v_begin v_end v_cap is_null negb].
  unfold bind at 1, bind at 1, len at 1, bind at 1, gets at 1, offset_from at 1.
  destruct (Z.eqb_spec sz 0); [lia|]. cbn [st_v v_end v_begin]. rewrite pdiff_ok by lia. unfold or_ub at 1, ret at 1.
  rewrite Nat.sub_0_r. cbn [Nat.add].
  assert (Hn : exists k, n = S k) by (by exists (length rest)). destruct Hn as [k Hk]. rewrite Hk in *.
  cbn [drop_places]. unfold bind at 1, bind at 1, drop_place. rewrite Hnd. unfold bind at 1, from_heap, bind at 1, gets at 1.
  cbn [st_h]. unfold hload, cells_of. cbn [halloc h_blk]. rewrite lookup_insert. cbn [fmap option_fmap option_map].
  destruct (bk_cells bk) as [|c cs]; [done|]. cbn in Ht. injection Ht as -> _. done.
Qed.

End proofs.

(** Without overflow checks a huge reservation wraps to a small allocation and
    the capacity pointer leaves it. *)
Lemma reserve_wraps_ub {T : Type} (sz al : Z) (h : heap T) d n :
  (0 < sz)%Z -> (0 < al)%Z -> heap_wf h ->
  (Z.of_nat n < usize_lim)%Z -> (usize_lim <= Z.of_nat n * sz)%Z ->
  let m := (Z.of_nat n * sz mod usize_lim)%Z in
  (0 < m)%Z -> (m <= isize_max + 1 - al)%Z ->
  reserve (DefaultAllocator T) sz al false n (VState new_in tt h d) = UB.
Proof.
  intros Hsz Hal W Hn Hbig m Hm Hfit.
  assert (Hl : (0 < usize_lim)%Z) by (unfold usize_lim; lia).
  assert (0 < n) by nia.
  unfold reserve. destruct (Nat.eqb_spec n 0) as [->|_]; [lia|].
  unfold bind at 1, len, bind at 1, gets at 1, offset_from at 1.
  destruct (Z.eqb_spec sz 0); [lia|]. cbn [st_v new_in v_end v_begin pdiff].
  unfold or_ub at 1, ret at 1.
  unfold bind at 1, capacity at 1, bind at 1, gets at 1, offset_from at 1.
  destruct (Z.eqb_spec sz 0); [lia|]. cbn [st_v new_in v_cap v_begin pdiff].
  unfold or_ub at 1, ret at 1.
  unfold bind at 1. rewrite (usize_ok' false _ n) by lia. unfold ret at 1.
  unfold bind at 1, allocate, bind at 1, usize at 1.
  replace ((0 <=? Z.of_nat n * sz) && (Z.of_nat n * sz <? usize_lim))%Z with false by lia.
  unfold ret at 1, lift_alloc. cbn [ai_alloc DefaultAllocator st_a st_h]. fold m.
  rewrite Z2Nat.id by lia. unfold default_alloc, layout_ok.
  destruct (Z.eqb_spec m 0); [lia|]. destruct (Z.leb_spec m (isize_max + 1 - al)); [|lia].
  cbn [fst snd st_v st_drops]. unfold bind at 1, gets at 1. cbn [st_v new_in v_begin is_null negb].
  unfold bind at 1, ret at 1. unfold bind at 1, from_heap at 1, bind at 1, gets at 1. cbn [st_h].
  set (bk := Block m al _).
  rewrite (hadd_ok _ _ _ _ bk); [|cbn; by rewrite lookup_insert|cbn; lia]. unfold or_ub at 1, ret at 1.
  unfold bind at 1, from_heap at 1, bind at 1, gets at 1. cbn [st_h hadd].
  unfold cells_of. cbn [halloc h_blk]. rewrite lookup_insert. cbn [fmap option_fmap option_map bk bk_cells].
  rewrite replicate_length.
  destruct (Nat.leb_spec (0 + n) (Z.to_nat (m / sz))) as [L|L]; [|done].
  exfalso. assert (Z.of_nat n <= m / sz)%Z by (pose proof (Z.div_pos m sz); lia).
  assert (m / sz * sz <= m)%Z by (pose proof (Z.mul_div_le m sz); lia).
  assert (m < usize_lim)%Z by (apply Z.mod_pos_bound; lia). nia.
Qed.
