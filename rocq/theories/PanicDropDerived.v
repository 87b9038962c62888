(** Proofs of the properties stated in PanicDropProps.v. *)
From Verif Require Import Base Heap HeapLemmas Alloc AllocContract AddrMem Vector VectorSpec FixedPool FixedPoolSpec LinkedList LinkedListSpec HashTable HashTableSpec PanicDrop PanicRestSpec.
Local Open Scope nat_scope.

From Verif Require Import RBTreeCalls VectorProofs VectorMore VectorDerived LinkedListProofs LinkedListCalls LinkedListRuns LinkedListDerived HashTableProofs HashTableMore HashTableDerived.
Local Open Scope nat_scope.

Definition panics {T} (bad : T -> bool) (xs : list T) : nat := length (List.filter bad xs).
Lemma panics_0 {T} (bad : T -> bool) xs : (forall x, x ∈ xs -> bad x = false) -> panics bad xs = 0.
Proof.
  unfold panics. induction xs as [|x xs IH]; intros H; [done|]. cbn. rewrite (H x) by left. apply IH. intros y Hy. apply H. by right.
Qed.

(** ** Vectors *)
Section vector.
Context {T : Type}.
Variables (sz al : Z) (chk : bool) (bad : T -> bool).
Hypothesis Hsz : (0 < sz)%Z.
Hypothesis Hal : (0 < al)%Z.
Notation st := (vstate unit T).

Lemma from_heap_ok {A X} (f : heap T -> option X) (s : vstate A T) x : f (st_h s) = Some x -> from_heap f s = Ok x s.
Proof using. intros E. unfold from_heap, bind, gets, or_ub. by rewrite E. Qed.
Lemma on_heap_ok {A} (f : heap T -> option (heap T)) (s : vstate A T) h : f (st_h s) = Some h ->
  on_heap f s = Ok tt (VState (st_v s) (st_a s) h (st_drops s)).
Proof using. intros E. unfold on_heap, bind, gets, or_ub, ret. by rewrite E. Qed.

Lemma glue_slice_ok xs : forall (s : st) b o bk,
  h_blk (st_h s) !! b = Some bk -> o + length xs <= length (bk_cells bk) ->
  take (length xs) (drop o (bk_cells bk)) = Some <$> xs ->
  exists bk', glue_slice bad (Ptr b o) (length xs) s
      = Ok (panics bad xs) (VState (st_v s) (st_a s) (hset (st_h s) b bk') (st_drops s ++ xs)) /\
    drop_places true (Ptr b o) (length xs) s = Ok tt (VState (st_v s) (st_a s) (hset (st_h s) b bk') (st_drops s ++ xs)) /\
    bk_bytes bk' = bk_bytes bk /\ bk_align bk' = bk_align bk /\
    length (bk_cells bk') = length (bk_cells bk) /\ take o (bk_cells bk') = take o (bk_cells bk) /\
    (xs <> [] -> bk_cells bk' !! o = Some None).
Proof using.
  induction xs as [|x xs IH]; intros s b o bk Hb Hl Ht.
  - exists bk. cbn [length glue_slice drop_places]. rewrite app_nil_r, hset_same by done.
    split; [by destruct s|]. split; [by destruct s|done].
  - cbn [length] in *. cbn [glue_slice drop_places].
    assert (Hx : bk_cells bk !! o = Some (Some x)).
    { assert (E : take (S (length xs)) (drop o (bk_cells bk)) !! 0 = Some (Some x)) by (by rewrite Ht).
      rewrite lookup_take in E by lia. rewrite lookup_drop, Nat.add_0_r in E. done. }
    assert (Hd : take (length xs) (drop (o + 1) (bk_cells bk)) = Some <$> xs).
    { rewrite <- drop_drop. rewrite fmap_cons in Ht.
      destruct (drop o (bk_cells bk)) as [|c cs]; [done|]. cbn in *. by injection Ht. }
    set (bk1 := Block (bk_bytes bk) (bk_align bk) (take o (bk_cells bk) ++ [None] ++ drop (o + 1) (bk_cells bk))).
    set (s1 := VState (st_v s) (st_a s) (hset (st_h s) b bk1) (st_drops s ++ [x])).
    assert (Lc1 : length (bk_cells bk1) = length (bk_cells bk)).
    { unfold bk1. cbn [bk_cells]. rewrite !app_length, take_length, drop_length. cbn [length]. lia. }
    edestruct (IH s1 b (o + 1) bk1) as (bk' & E & E' & EB & EA & EL & ET & _).
    + apply hset_lookup.
    + lia.
    + rewrite <- Hd. f_equal. unfold bk1. cbn [bk_cells].
      rewrite app_assoc. rewrite drop_app_alt; [done|].
      rewrite app_length, take_length. cbn [length]. lia.
    + exists bk'.
      assert (PUT : hput (st_h s) (Ptr b o) [None] = Some (hset (st_h s) b bk1)) by (rewrite (hput_ok _ _ _ _ _ Hb) by (cbn [length]; lia); done).
      assert (ADD : hadd (hset (st_h s) b bk1) (Ptr b o) 1 = Some (Ptr b (o + 1))) by (apply (hadd_ok _ _ _ _ bk1); [apply hset_lookup|lia]).
      unfold s1 in E, E'. cbn [st_v st_a st_h st_drops] in E, E'. rewrite hset_hset in E, E'. rewrite <- !app_assoc in E, E'.
      assert (Q1 : from_heap (fun h => hload h (Ptr b o)) s = Ok x s) by (apply from_heap_ok; by apply (hload_ok _ _ _ _ _ Hb Hx)).
      set (sa := VState (st_v s) (st_a s) (st_h s) (st_drops s ++ [x])).
      assert (Q2 : modify (log_drop true x) s = Ok tt sa) by done.
      assert (Q3 : on_heap (fun h => hput h (Ptr b o) [None]) sa = Ok tt s1) by (rewrite (on_heap_ok _ sa _ PUT); done).
      assert (Q4 : from_heap (fun h => hadd h (Ptr b o) 1) s1 = Ok (Ptr b (o + 1)) s1) by (by apply from_heap_ok).
      split; [|split; [|split; [exact EB|split; [exact EA|split; [by rewrite EL|split]]]]].
      * rewrite (bind_ok _ _ _ _ _ Q1), (bind_ok _ _ _ _ _ Q2), (bind_ok _ _ _ _ _ Q3), (bind_ok _ _ _ _ _ Q4).
        unfold bind. unfold s1. rewrite E. unfold panics. cbn [List.filter]. by destruct (bad x).
      * assert (QD : drop_place true (Ptr b o) s = Ok tt s1).
        { unfold drop_place. by rewrite (bind_ok _ _ _ _ _ Q1), (bind_ok _ _ _ _ _ Q2). }
        rewrite (bind_ok _ _ _ _ _ QD), (bind_ok _ _ _ _ _ Q4). exact E'.
      * apply (f_equal (take o)) in ET. rewrite !take_take, Nat.min_l in ET by lia. rewrite ET. unfold bk1. cbn [bk_cells].
        rewrite take_app_alt; [done|]. rewrite take_length. lia.
      * intros _. apply (f_equal (fun l => l !! o)) in ET. rewrite !lookup_take in ET by lia. rewrite ET. unfold bk1. cbn [bk_cells].
        rewrite lookup_app_r by (rewrite take_length; lia). rewrite take_length, Nat.min_l by lia. by rewrite Nat.sub_diag.
Qed.

Local Notation AS := (DefaultSpec (C := T) sz al Hsz Hal).
Local Notation Rep := (VectorProofs.Rep (DefaultAllocator T) sz al AS).

Lemma vec_clear_pd_ok (s : st) xs cap : Rep s xs cap ->
  exists s', vec_clear_pd (DefaultAllocator T) sz al chk bad s =
      match panics bad xs with 0 => Ok Done s' | 1 => Panic s' | _ => Ok Aborted s' end /\
    st_drops s' = st_drops s ++ xs /\
    (panics bad xs = 0 -> Vector.clear (DefaultAllocator T) sz al chk true s = Ok tt s') /\
    (panics bad xs = 1 -> vec_clear_pd (DefaultAllocator T) sz al chk bad s' = UB) /\
    (forall b, v_begin (st_v s) <> Ptr b 0 -> h_blk (st_h s') !! b = h_blk (st_h s) !! b).
Proof using Hsz Hal.
  intros R. pose proof (VectorProofs.len_ok _ _ _ Hsz _ _ _ _ R) as EL.
  destruct (VectorProofs.clear_ok (DefaultAllocator T) sz al chk true Hsz AS s xs cap R) as (s0 & EC & _ & F0 & _ & D0).
  destruct R as (W & P & R). destruct R as [(E & -> & ->)|(b & bk & j & E & C0 & Cl & Cz & Hb & Hc & Hl & HO)].
  - exists s0. pose proof EC as EC0. unfold Vector.clear in EC0. unfold bind at 1, gets at 1 in EC0. rewrite E in EC0.
    cbn [v_begin is_null negb] in EC0. unfold bind, ret, set_v, modify in EC0. injection EC0 as EC0.
    split; [|split; [|split; [|split]]].
    + unfold vec_clear_pd. unfold bind at 1, gets at 1. rewrite E. cbn [v_begin is_null]. unfold bind, ret, set_v, modify. by rewrite EC0.
    + by rewrite app_nil_r, <- EC0.
    + done.
    + done.
    + intros b _. by rewrite <- EC0.
  - destruct (glue_slice_ok xs s b 0 bk Hb) as (bk' & EG & ED & EB & EA & ELc & _ & HN); [lia|rewrite drop_0, Hc; apply take_fmap_app|].
    assert (EQ : vec_clear_pd (DefaultAllocator T) sz al chk bad s =
      after_glue (panics bad xs) (do c <- Vector.capacity sz; run Vector.deallocate (DefaultAllocator T) sz al chk (Ptr b 0) c; run set_v (Vec Null Null Null); ret Done)
        (VState (st_v s) (st_a s) (hset (st_h s) b bk') (st_drops s ++ xs))).
    { unfold vec_clear_pd. unfold bind at 1, gets at 1. rewrite E. cbn [v_begin is_null]. unfold bind at 1. rewrite EL. unfold bind at 1. by rewrite EG, E. }
    unfold Vector.clear in EC. unfold bind at 1, gets at 1 in EC. rewrite E in EC. cbn [v_begin is_null negb] in EC.
    unfold bind at 1 in EC. unfold bind at 1 in EC. rewrite EL in EC. unfold bind at 1 in EC. rewrite ED in EC.
    set (s1 := VState (st_v s) (st_a s) (hset (st_h s) b bk') (st_drops s ++ xs)) in *.
    assert (OUT : forall b', v_begin (st_v s) <> Ptr b' 0 -> h_blk (st_h s1) !! b' = h_blk (st_h s) !! b').
    { intros b' N. rewrite E in N. cbn [v_begin] in N. unfold s1. cbn [st_h hset h_blk]. apply lookup_insert_ne. congruence. }
    destruct (panics bad xs) as [|[|n]] eqn:EP; cbn [after_glue] in EQ.
    + exists s0. split; [|split; [|split; [|split; [done|]]]].
      * rewrite EQ. unfold bind in EC |- *. destruct (Vector.capacity sz s1) as [c s2|s2|] eqn:E2; try done.
        destruct (Vector.deallocate (DefaultAllocator T) sz al chk (Ptr b 0) c s2) as [u s3|s3|] eqn:E3; try done.
        destruct (set_v (Vec Null Null Null) s3) as [u' s4|s4|] eqn:E4; try done. by injection EC as ? <-.
      * exact D0.
      * intros _. unfold Vector.clear. unfold bind at 1, gets at 1. rewrite E. cbn [v_begin is_null negb].
        unfold bind at 1. unfold bind at 1. rewrite EL. unfold bind at 1. rewrite ED. exact EC.
      * intros b' N. rewrite E in N. cbn in N. unfold VectorProofs.frame in F0. rewrite E in F0. cbn [own_block v_begin drop_opt] in F0.
        cbn [as_pool] in F0.
        assert (NV : st_v s0 = Vec Null Null Null).
        { unfold bind in EC. destruct (Vector.capacity sz s1) as [c s2|s2|]; try done. destruct (Vector.deallocate _ _ _ _ _ _ s2) as [u s3|s3|]; try done.
          unfold set_v, modify in EC. by injection EC as <-. }
        rewrite NV in F0. cbn in F0. rewrite F0. apply lookup_delete_ne. congruence.
    + exists s1. split; [done|]. split; [done|]. split; [done|]. split; [|exact OUT]. intros _.
      assert (xs <> []) as NE by (by intros ->).
      unfold vec_clear_pd. unfold bind at 1, gets at 1. cbn [st_v s1]. rewrite E. cbn [v_begin is_null]. unfold bind at 1.
      assert (EL' : Vector.len sz s1 = Ok (length xs) s1).
      { unfold Vector.len, bind, gets, offset_from. destruct (Z.eqb_spec sz 0); [lia|]. cbn [st_v s1]. rewrite E. cbn [v_end v_begin].
        rewrite pdiff_ok by lia. by rewrite Nat.sub_0_r. }
      rewrite EL'. destruct xs as [|x xs]; [done|]. cbn [length glue_slice]. unfold bind at 1, bind at 1, from_heap at 1, bind at 1, gets at 1.
      assert (HL : hload (st_h s1) (Ptr b 0) = None).
      { unfold hload, cells_of, s1. cbn [st_h hset h_blk]. rewrite lookup_insert. cbn. by rewrite HN. }
      by rewrite HL.
    + exists s1. split; [done|]. split; [done|]. split; [done|]. split; [done|]. exact OUT.
Qed.
End vector.

Lemma L_C86_vector_clear_refuted :
forall (T : Type) (sz al : Z) (chk : bool) (clone : T -> option T) (bad : T -> bool) (h : heap T) (cs : list (call T)) l s xs,
  (0 < sz)%Z -> (0 < al)%Z -> (forall x, clone x = Some x) -> heap_wf h -> forallb is_move cs = true ->
  chk = true \/ forallb (modest sz) cs = true ->
  run_calls (DefaultAllocator T) sz al chk true clone cs (VState new_in tt h []) = Some (l, s) ->
  as_slice sz s = Ok xs s -> length (List.filter bad xs) = 1 ->
  exists s', vec_clear_pd (DefaultAllocator T) sz al chk bad s = Panic s' /\ st_drops s' = st_drops s ++ xs /\
    vec_clear_pd (DefaultAllocator T) sz al chk bad s' = UB.
Proof.
  intros T sz al chk clone bad h cs l s xs Hsz Hal Hcl Hh M K E EX EP.
  destruct (reached sz al Hsz Hal chk true clone id Hcl h Hh cs l s K ltac:(by right) E) as (d & xs' & cap & S & R & _).
  erewrite as_slice_ok in EX by done. simplify_eq.
  destruct (vec_clear_pd_ok sz al chk bad Hsz Hal s xs cap R) as (s' & EQ & D & _ & U & _). unfold panics in *. rewrite EP in EQ.
  exists s'. split; [done|]. split; [done|]. by apply U.
Qed.

Lemma L_C86_vector_drop_partial :
forall (T : Type) (sz al : Z) (chk : bool) (clone : T -> option T) (bad : T -> bool) (h : heap T) (cs : list (call T)) l s xs,
  (0 < sz)%Z -> (0 < al)%Z -> (forall x, clone x = Some x) -> heap_wf h -> forallb is_move cs = true ->
  chk = true \/ forallb (modest sz) cs = true ->
  run_calls (DefaultAllocator T) sz al chk true clone cs (VState new_in tt h []) = Some (l, s) ->
  as_slice sz s = Ok xs s ->
  exists s', vec_clear_pd (DefaultAllocator T) sz al chk bad s =
      match length (List.filter bad xs) with 0 => Ok Done s' | 1 => Panic s' | _ => Ok Aborted s' end /\
    st_drops s' = st_drops s ++ xs /\
    (forall b bk, h_blk h !! b = Some bk -> h_blk (st_h s') !! b = Some bk) /\
    (length (List.filter bad xs) = 0 -> Vector.clear (DefaultAllocator T) sz al chk true s = Ok tt s').
Proof.
  intros T sz al chk clone bad h cs l s xs Hsz Hal Hcl Hh M K E EX.
  destruct (reached sz al Hsz Hal chk true clone id Hcl h Hh cs l s K ltac:(by right) E) as (d & xs' & cap & S & R & F & _).
  erewrite as_slice_ok in EX by done. simplify_eq.
  destruct (vec_clear_pd_ok sz al chk bad Hsz Hal s xs cap R) as (s' & EQ & D & C & U & O). unfold panics in *.
  exists s'. split; [done|]. split; [done|]. split; [|done]. intros b bk Hb.
  assert (NB : own_block (st_v s) <> Some b).
  { intros OB. unfold VectorProofs.frame in F. rewrite OB in F. cbn [drop_opt] in F. rewrite <- F, lookup_delete in Hb. done. }
  rewrite O; [|intros EV; apply NB; unfold own_block; by rewrite EV].
  unfold VectorProofs.frame in F. apply (f_equal (lookup b)) in F. rewrite Hb in F. rewrite <- F.
  change (as_pool _ _) with (None (A := nat)). cbn [drop_opt].
  destruct (own_block (st_v s)) as [ob|]; [|done]. cbn [drop_opt]. rewrite lookup_delete_ne; [done|]. congruence.
Qed.

(** ** Lists *)
Section list.
Context {A T : Type}.
Variables (aa : AddrAlloc A T) (chk : bool) (nsz nal s B : Z) (nul : bool) (I : A -> mem T -> list Z -> Prop) (bad : T -> bool).
Hypothesis Hsz : (16 <= nsz)%Z.
Hypothesis Hs : (8 | s)%Z.
Hypothesis HB : (B < u32_lim)%Z.
Hypothesis AO : AllocOK aa chk nsz nal s B nul I.
Hypothesis FR : FreeOK aa chk nsz s I.
(** Freeing leaves the values alone. *)
Hypothesis FV : forall a m p a' m', AddrMem.deallocate aa chk 16 8 p nsz (a, m) = Ok tt (a', m') -> m_val m' = m_val m.
Local Notation lstate := (lstate A T).

(** How a run over the elements [xs] ends: after the first bad one, or not. *)
Fixpoint upto (xs : list T) : list T :=
  match xs with [] => [] | x :: xs' => if bad x then [x] else x :: upto xs' end.

Lemma list_loop_pd_ok fuel : forall (st : lstate) ps (xs : list T) next, l_node st = s -> I (l_alloc st) (l_mem st) ps ->
  match ps with [] => next = s | p :: ps' => next = p /\ fwd (m_word (l_mem st)) p ps' s end ->
  Forall2 (fun p x => m_val (l_mem st) !! p = Some x) ps xs -> (length ps <= fuel)%nat ->
  exists st', list_loop_pd aa chk nsz bad fuel next st = (if existsb bad xs then Panic st' else Ok Done st') /\
    l_drops st' = l_drops st ++ upto xs /\
    (existsb bad xs = false -> clear_loop aa chk nsz fuel next st = Ok tt st') /\
    l_node st' = s /\ l_size st' = l_size st /\ m_word (l_mem st') !! s = m_word (l_mem st) !! s /\ (exists L, I (l_alloc st') (l_mem st') L) /\
    (forall p, m_val (l_mem st) !! p = None -> m_val (l_mem st') !! p = None) /\
    (existsb bad xs = true -> match ps with [] => True | p :: _ => m_val (l_mem st') !! p = None end).
Proof using All.
  induction fuel as [|fuel IH]; intros st ps xs next EN HI F V LE.
  - destruct ps; [|cbn in LE; lia]. apply Forall2_nil_inv_l in V as ->. cbn [list_loop_pd clear_loop existsb upto]. unfold bind at 1, gets. rewrite EN, F, Z.eqb_refl.
    exists st. rewrite app_nil_r. split; [done|]. split; [done|]. split; [intros _; unfold bind at 1; by rewrite EN, Z.eqb_refl|].
    split; [done|]. split; [done|]. split; [done|]. split; [by eexists|]. done.
  - cbn [list_loop_pd clear_loop]. unfold bind at 1, gets at 1. destruct V as [|p x ps xs VP V].
    + rewrite EN, F, Z.eqb_refl. exists st. cbn [existsb upto]. rewrite app_nil_r. split; [done|]. split; [done|]. split; [intros _; unfold bind at 1, gets at 1; by rewrite EN, Z.eqb_refl|].
      split; [done|]. split; [done|]. split; [done|]. split; [by eexists|]. done.
    + destruct F as [-> F]. assert (NE : (p =? s)%Z = false) by (apply Z.eqb_neq; eapply alloc_ne; [done|exact AO|done|constructor]). rewrite EN, NE.
      destruct (alloc_words aa chk nsz nal s B nul I Hsz Hs AO _ _ _ p HI ltac:(apply elem_of_cons; right; constructor)) as [W1 _].
      set (nx := match ps with [] => s | q :: _ => q end).
      assert (EP : m_word (l_mem st) !! p = Some nx) by (destruct ps; apply F).
      assert (Q1 : get_next p st = Ok nx st) by (unfold get_next; by rewrite (get_word_ok _ _ _ W1 EP)).
      pose proof (move_val_ok aa chk nsz nal s B nul I AO st _ _ _ p x HI eq_refl ltac:(constructor) VP) as Q2.
      set (sa := setv st (delete p (m_val (l_mem st)))) in *.
      set (st1 := LinkedList.logged [x] sa).
      assert (Q3 : modify (LinkedList.logged [x]) sa = Ok tt st1) by done.
      assert (I1 : I (l_alloc st1) (l_mem st1) (p :: ps)) by (eapply ao_write; [exact AO|exact HI|apply (relinks_delete s st); constructor]).
      rewrite (bind_ok _ _ _ _ _ Q1), (bind_ok _ _ _ _ _ Q2), (bind_ok _ _ _ _ _ Q3). cbn [existsb upto].
      assert (DV : forall q, m_val (l_mem st) !! q = None -> m_val (l_mem st1) !! q = None).
      { intros q Hq. cbn. apply lookup_delete_None. by right. }
      assert (DP : m_val (l_mem st1) !! p = None) by (cbn; apply lookup_delete).
      destruct (bad x) eqn:EB; cbn [orb].
      * exists st1. split; [done|]. split; [done|]. split; [done|]. split; [done|]. split; [done|]. split; [done|]. split; [by eexists|]. done.
      * destruct (FR _ _ _ _ I1) as (a2 & m2 & E2 & [KW KV] & I2).
        pose proof (in_alloc_ok _ _ _ _ _ E2) as Q4. set (st2 := LState _ _ _ _ _) in Q4.
        rewrite (bind_ok _ _ _ _ _ Q4).
        assert (ND := ao_nodup _ _ _ _ _ _ _ _ AO _ _ _ HI). apply NoDup_cons in ND as [NI ND].
        assert (EV2 : m_val m2 = m_val (l_mem st1)) by (by eapply FV).
        destruct (IH st2 ps xs nx) as (st3 & E3 & D3 & C3 & EN3 & ES3 & EW3 & I3 & V3 & P3); [done|exact I2| | |cbn in LE; lia|].
        -- destruct ps as [|q ps]; [done|]. split; [done|]. cbn in F. eapply fwd_frame; [exact (proj2 F)|].
           intros y Hy. cbn. apply KW. by constructor.
        -- cbn. eapply vals_keep; [exact KV|]. cbn.
           assert (FF : forall q, q ∈ ps -> delete p (m_val (l_mem st)) !! q = m_val (l_mem st) !! q).
           { intros q Hq. apply lookup_delete_ne. by intros ->. }
           clear -V FF. induction V; constructor; [by rewrite FF by constructor|]. apply IHV. intros q Hq. apply FF. by constructor.
        -- exists st3. split; [exact E3|]. split; [rewrite D3; cbn; by rewrite <- app_assoc|]. split.
           { intros EX. unfold bind at 1, gets at 1. rewrite EN, NE.
             rewrite (bind_ok _ _ _ _ _ Q1), (bind_ok _ _ _ _ _ Q2), (bind_ok _ _ _ _ _ Q3), (bind_ok _ _ _ _ _ Q4). by apply C3. }
           split; [done|]. split; [done|]. split; [rewrite EW3; cbn; apply KW; constructor|]. split; [done|].
           split; [intros q Hq; apply V3; cbn; rewrite EV2; by apply DV|]. intros _. apply V3. cbn. by rewrite EV2.
Qed.

Lemma list_clear_pd_ok (st : lstate) xs ps : LRep s B I st xs ps ->
  exists st', list_clear_pd aa chk nsz bad st = (if existsb bad xs then Panic st' else Ok Done st') /\
    l_drops st' = l_drops st ++ upto xs /\
    (existsb bad xs = false -> LinkedList.clear aa chk nsz st = Ok tt st') /\
    (existsb bad xs = true -> list_clear_pd aa chk nsz bad st' = UB).
Proof using All.
  intros H. pose proof H as [EN ES HI R V LB].
  pose proof (proj1 (ends aa chk nsz nal s B nul I Hsz Hs AO _ _ _ H)) as Q1.
  destruct (list_loop_pd_ok (size (m_word (l_mem st))) st ps xs (first_of s ps) EN HI) as (st1 & E1 & D1 & C1 & EN1 & ES1 & EW1 & (L & I1) & _ & P1).
  { destruct ps as [|p ps]; [done|]. split; [done|]. apply seg_fwd. unfold ring in R. cbn in R. apply Forall_cons in R as [_ R]. exact R. }
  { exact V. }
  { by eapply (rep_fuel aa chk nsz nal s B nul I). }
  assert (EQ : list_clear_pd aa chk nsz bad st = (if existsb bad xs then Panic st1 else (run init_sentinel_node; run set_size 0; ret Done) st1)).
  { unfold list_clear_pd. unfold bind at 1, gets at 1. rewrite EN, (bind_ok _ _ _ _ _ Q1). unfold bind at 1, gets at 1. unfold bind at 1. rewrite E1. by destruct (existsb bad xs). }
  destruct (existsb bad xs) eqn:EX.
  - exists st1. split; [done|]. split; [done|]. split; [done|]. intros _.
    destruct ps as [|p ps]; [apply Forall2_nil_inv_l in V; by subst|]. cbn [first_of hd] in *. specialize (P1 eq_refl). cbn in P1.
    assert (EW : m_word (l_mem st) !! s = Some p) by (by destruct (ring_ends _ _ _ R)).
    destruct (alloc_words aa chk nsz nal s B nul I Hsz Hs AO _ _ _ s I1 ltac:(constructor)) as [W1 _].
    rewrite EW in EW1. assert (Q2 : get_next s st1 = Ok p st1) by (unfold get_next; by rewrite (get_word_ok _ _ _ W1 EW1)).
    unfold list_clear_pd. unfold bind at 1, gets at 1. rewrite EN1, (bind_ok _ _ _ _ _ Q2). unfold bind at 1, gets at 1.
    destruct (size (m_word (l_mem st1))) as [|f] eqn:ESZ.
    { apply map_size_empty_iff in ESZ. by rewrite ESZ, lookup_empty in EW1. }
    cbn [list_loop_pd]. unfold bind at 1, bind at 1, gets at 1. rewrite EN1.
    assert (NE : (p =? s)%Z = false) by (apply Z.eqb_neq; eapply alloc_ne; [done|exact AO|exact HI|constructor]). rewrite NE.
    unfold bind at 1, get_next, get_word at 1. unfold bind at 1, gets at 1, or_ub. destruct (load_word _ _) as [w|]; [|done]. unfold ret at 1.
    unfold bind at 1, move_val at 1. unfold bind at 1, gets at 1. unfold take_val, load_val. rewrite P1. by destruct (accessible _ _ _).
  - destruct (LinkedListCalls.clear_ok aa chk nsz nal s B nul I Hsz Hs HB AO st xs ps FR H) as (st2 & EC & _ & DC).
    assert (EC2 : LinkedList.clear aa chk nsz st = (run init_sentinel_node; set_size 0) st1).
    { unfold LinkedList.clear. unfold bind at 1, gets at 1. rewrite EN, (bind_ok _ _ _ _ _ Q1). unfold bind at 1, gets at 1. unfold bind at 1. by rewrite C1. }
    assert (U : upto xs = xs).
    { clear -EX. induction xs as [|x xs IH]; [done|]. cbn in *. apply orb_false_iff in EX as [-> EX]. by rewrite IH. }
    rewrite EC in EC2. exists st2. split; [|split; [by rewrite DC, U|split; [done|done]]].
    rewrite EQ. unfold bind in EC2 |- *. destruct (init_sentinel_node st1) as [? st3|?|]; try done.
    unfold set_size, modify in *. by injection EC2 as ->.
Qed.
End list.

Lemma upto_split {T} (bad : T -> bool) pre x post : existsb bad pre = false -> bad x = true -> upto bad (pre ++ x :: post) = pre ++ [x].
Proof.
  intros H E. induction pre as [|y pre IH]; cbn in *; [by rewrite E|]. apply orb_false_iff in H as [-> H]. by rewrite IH.
Qed.
Lemma default_free_val {T} (pick : mem T -> Z -> Z -> Z) strict chk nsz a m p a' m' :
  AddrMem.deallocate (DefaultAddrAlloc pick strict) chk 16 8 p nsz (a, m) = Ok tt (a', m') -> m_val m' = m_val m.
Proof.
  unfold AddrMem.deallocate, bind, usizeZ. destruct (_ && _); [|destruct chk; [done|]]; cbn; unfold default_free_raw; (destruct (layout_ok _ _); [|done]);
  unfold mem_free; cbn; (destruct (remove_block _ _) as [[? ?]|]; [|done]); (destruct (_ && _); [done|]); intros E; by injection E as <- <-.
Qed.

Lemma L_C86_list_clear_refuted :
forall (T : Type) (pick : mem T -> Z -> Z -> Z) (chk : bool) (bad : T -> bool) (nsz nal obj : Z) (m0 : mem T) (prog : list (lcall T)) l s pre x post,
  ListSetup m0 obj 24 nsz nal -> honest pick -> short prog -> LinkedListSpec.built pick false chk nsz nal obj m0 prog l s ->
  contents chk nsz s (pre ++ x :: post) -> existsb bad pre = false -> bad x = true ->
  exists s', list_clear_pd (DefaultAddrAlloc pick false) chk nsz bad s = Panic s' /\ l_drops s' = l_drops s ++ pre ++ [x] /\
    list_clear_pd (DefaultAddrAlloc pick false) chk nsz bad s' = UB.
Proof.
  intros T pick chk bad nsz nal obj m0 prog l s pre x post LS HP SH BU CO NB BX.
  destruct (def_built pick false chk nsz nal obj m0 prog LS HP SH (or_introl eq_refl) l s BU) as (xs & ps & R & _).
  assert (contents chk nsz s xs) as CO' by (by eapply (rep_contents (DefaultAddrAlloc pick false) chk nsz nal obj _ true _ (def_sz _ _ _ _ LS) (ls_align _ _ _ _ _ LS) SH (def_ao' pick false chk nsz nal obj m0 prog LS HP))).
  unfold contents in *. rewrite CO in CO'. injection CO' as <-.
  destruct (list_clear_pd_ok (DefaultAddrAlloc pick false) chk nsz nal obj _ true _ bad (def_sz _ _ _ _ LS) (ls_align _ _ _ _ _ LS) SH
    (def_ao' pick false chk nsz nal obj m0 prog LS HP) (default_frees pick false chk nsz nal obj 24 m0 true (peak prog 0) LS ltac:(done) eq_refl)
    (fun a m p a' m' => default_free_val pick false chk nsz a m p a' m') s _ _ R) as (s' & E & D & _ & U).
  assert (EX : existsb bad (pre ++ x :: post) = true) by (rewrite existsb_app; cbn; rewrite BX; by rewrite orb_true_r).
  rewrite EX in *. exists s'. split; [done|]. split; [by rewrite D, upto_split|]. by apply U.
Qed.

Lemma L_C86_list_clear_partial :
forall (T : Type) (pick : mem T -> Z -> Z -> Z) (chk : bool) (bad : T -> bool) (nsz nal obj : Z) (m0 : mem T) (prog : list (lcall T)) l s xs,
  ListSetup m0 obj 24 nsz nal -> honest pick -> short prog -> LinkedListSpec.built pick false chk nsz nal obj m0 prog l s ->
  contents chk nsz s xs ->
  exists s', list_clear_pd (DefaultAddrAlloc pick false) chk nsz bad s = (if existsb bad xs then Panic s' else Ok Done s') /\
    l_drops s' = l_drops s ++ up_to_bad bad xs /\
    (existsb bad xs = false -> up_to_bad bad xs = xs /\ LinkedList.clear (DefaultAddrAlloc pick false) chk nsz s = Ok tt s').
Proof.
  intros T pick chk bad nsz nal obj m0 prog l s xs LS HP SH BU CO.
  destruct (def_built pick false chk nsz nal obj m0 prog LS HP SH (or_introl eq_refl) l s BU) as (xs' & ps & R & _).
  assert (contents chk nsz s xs') as CO' by (by eapply (rep_contents (DefaultAddrAlloc pick false) chk nsz nal obj _ true _ (def_sz _ _ _ _ LS) (ls_align _ _ _ _ _ LS) SH (def_ao' pick false chk nsz nal obj m0 prog LS HP))).
  unfold contents in *. rewrite CO in CO'. injection CO' as <-.
  destruct (list_clear_pd_ok (DefaultAddrAlloc pick false) chk nsz nal obj _ true _ bad (def_sz _ _ _ _ LS) (ls_align _ _ _ _ _ LS) SH
    (def_ao' pick false chk nsz nal obj m0 prog LS HP) (default_frees pick false chk nsz nal obj 24 m0 true (peak prog 0) LS ltac:(done) eq_refl)
    (fun a m p a' m' => default_free_val pick false chk nsz a m p a' m') s _ _ R) as (s' & E & D & C & _).
  assert (UP : upto bad xs = up_to_bad bad xs /\ (existsb bad xs = false -> up_to_bad bad xs = xs)).
  { clear. induction xs as [|x xs [IH1 IH2]]; [done|]. cbn. destruct (bad x); cbn; [done|]. split; [by rewrite <- IH1|]. intros H. by rewrite IH2. }
  exists s'. split; [done|]. split; [by rewrite D, (proj1 UP)|]. intros N. split; [by apply UP|]. by apply C.
Qed.

(** ** Hash tables *)
Section hash.
Context {K V : Type}.
Variables (nsz nal : Z) (eb : nat) (badk : K -> bool) (badv : V -> bool).
Hypothesis Hnsz : (0 < nsz)%Z.
Hypothesis Hlay : layout_ok nsz nal = true.
Local Notation tstate := (tstate K V).
Local Notation thp := (heap (tcell K V)).
Local Notation enode := (nat * (K * V))%type.
Local Notation chain := (HashTableProofs.chain nsz nal).

(** One of the destructors of the entry panics; both do. *)
Definition kills (e : K * V) : bool := badk (fst e) || badv (snd e).
Definition aborts (e : K * V) : bool := badk (fst e) && badv (snd e).
Definition calm (es : list (K * V)) : Prop := existsb kills es = false.

Definition ends_at (e : K * V) (s' : tstate) : outcome tstate ending := if aborts e then Ok Aborted s' else Panic s'.
Definition dead_blk : block (tcell K V) := Block nsz nal [None].

Lemma glue_count (e : K * V) : kills e = false -> (if badk (fst e) then 1 else 0) + (if badv (snd e) then 1 else 0) = 0.
Proof using All. unfold kills. by destruct (badk _), (badv _). Qed.
Lemma glue_count_bad (e : K * V) (k : M tstate ending) s : kills e = true ->
  after_glue ((if badk (fst e) then 1 else 0) + (if badv (snd e) then 1 else 0)) k s = ends_at e s.
Proof using All. unfold kills, ends_at, aborts. by destruct (badk _), (badv _). Qed.

Lemma forget_ok (s : tstate) b k v nx : h_blk (t_h s) !! b = Some (nodeblk nsz nal k v nx) ->
  forget (Ptr b 0) s = Ok tt (with_h s (hset (t_h s) b dead_blk)).
Proof using All. intros E. unfold forget. rewrite (hput_ok _ _ _ _ _ E) by (cbn; lia). done. Qed.
Lemma free_forgot (s : tstate) b : HashTable.deallocate (Ptr b 0) nsz nal 1 (with_h s (hset (t_h s) b dead_blk)) = Ok tt (with_h s (hdel (t_h s) b)).
Proof using All.
  unfold HashTable.deallocate, default_free. rewrite Z.mul_1_l, Hlay. unfold hfree, with_h. cbn [snd t_h hset h_blk]. rewrite lookup_insert.
  cbn [bk_bytes bk_align dead_blk]. rewrite !Z.eqb_refl. cbn. unfold hdel, hset. cbn. by rewrite delete_insert_delete.
Qed.

(** Freeing the node [e], whose successors are already freed in [s]. *)
Lemma node_tail (s : tstate) (e : enode) nx : h_blk (t_h s) !! fst e = Some (nodeblk nsz nal (fst (snd e)) (snd (snd e)) nx) ->
  (run HashTable.drop_all [inl (fst (snd e)); inr (snd (snd e))];
   run forget (Ptr (fst e) 0);
   after_glue ((if badk (fst (snd e)) then 1 else 0) + (if badv (snd (snd e)) then 1 else 0)) (
     run HashTable.deallocate (Ptr (fst e) 0) nsz nal 1; ret Done)) s =
  if kills (snd e) then ends_at (snd e) (with_hd s (hset (t_h s) (fst e) dead_blk) (t_drops s ++ parts [snd e]))
  else Ok Done (with_hd s (hdel (t_h s) (fst e)) (t_drops s ++ parts [snd e])).
Proof using All.
  intros E. unfold bind at 1, HashTable.drop_all, modify. set (s1 := HashTable.logged _ s).
  rewrite (bind_ok _ _ _ _ _ (forget_ok s1 _ _ _ _ (E : h_blk (t_h s1) !! _ = _))).
  destruct (kills (snd e)) eqn:EK; [by rewrite glue_count_bad|]. rewrite glue_count by done. cbn [after_glue].
  rewrite (bind_ok _ _ _ _ _ (free_forgot s1 (fst e))). done.
Qed.

Lemma free_bucket_pd_ok l : forall f (s : tstate) p, chain (t_h s) p l -> l <> [] -> NoDup (map fst l) -> length l <= f ->
  (calm (map snd l) -> free_bucket_pd nsz nal badk badv f p s = Ok Done (with_hd s (hdels (t_h s) (map fst l)) (t_drops s ++ parts (map snd (rev l))))) /\
  (forall pre e post, l = pre ++ e :: post -> calm (map snd post) -> kills (snd e) = true ->
    free_bucket_pd nsz nal badk badv f p s =
      ends_at (snd e) (with_hd s (hset (hdels (t_h s) (map fst post)) (fst e) dead_blk) (t_drops s ++ parts (map snd (rev (e :: post)))))).
Proof using All.
  induction l as [|e l IH]; intros f s p C N ND L; [done|].
  destruct f as [|f]; [cbn in L; lia|].
  destruct C as (nx & -> & E & C). cbn [free_bucket_pd]. rewrite (bind_ok _ _ _ _ _ (node_at_ok _ _ _ _ _ _ _ E)).
  cbn [map] in ND. apply NoDup_cons in ND as [NI ND].
  assert (NX : l = [] /\ is_null nx = true \/ l <> [] /\ is_null nx = false).
  { destruct l; [left; cbn in C; by subst|right]. destruct C as (? & -> & _). done. }
  assert (STEP : calm (map snd l) -> exists s2, (if is_null nx then ret Done else free_bucket_pd nsz nal badk badv f nx) s = Ok Done s2 /\
    s2 = with_hd s (hdels (t_h s) (map fst l)) (t_drops s ++ parts (map snd (rev l)))).
  { intros CL. destruct NX as [[-> ->]|[NN ->]].
    - exists s. cbn. rewrite app_nil_r. split; [done|]. by destruct s.
    - eexists. split; [|reflexivity]. by apply (IH f s nx C NN ND ltac:(cbn in L; lia)). }
  assert (TAIL : calm (map snd l) -> exists s2, s2 = with_hd s (hdels (t_h s) (map fst l)) (t_drops s ++ parts (map snd (rev l))) /\
     h_blk (t_h s2) !! fst e = Some (nodeblk nsz nal (fst (snd e)) (snd (snd e)) nx)).
  { intros _. eexists. split; [reflexivity|]. cbn. rewrite <- E. by apply hdels_out. }
  assert (PA : forall d, (d ++ parts (map snd (rev l))) ++ parts [snd e] = d ++ parts (map snd (rev (e :: l)))).
  { intros d. cbn [rev]. rewrite map_app, parts_app, <- app_assoc. done. }
  split.
  - intros CA. unfold calm in CA. cbn [map existsb] in CA. apply orb_false_iff in CA as [CE CL].
    destruct (STEP CL) as (s2 & Q & ->). rewrite (bind_ok _ _ _ _ _ Q).
    destruct (TAIL CL) as (s2 & ES & E2). rewrite <- ES. rewrite (node_tail s2 e nx E2), CE. subst s2. unfold with_hd. cbn [t_arr t_bc t_ec t_nr t_h t_drops]. by rewrite PA.
  - intros pre e0 post EL CL BAD. destruct pre as [|e1 pre]; cbn in EL; injection EL as <- ->.
    + destruct (STEP CL) as (s2 & Q & ->). rewrite (bind_ok _ _ _ _ _ Q).
      destruct (TAIL CL) as (s2 & ES & E2). rewrite <- ES. rewrite (node_tail s2 e nx E2), BAD. subst s2. unfold with_hd. cbn [t_arr t_bc t_ec t_nr t_h t_drops]. by rewrite PA.
    + destruct NX as [[NN _]|[NN ->]]; [by destruct pre|].
      destruct (IH f s nx C NN ND ltac:(cbn in L; lia)) as [_ R]. specialize (R pre e0 post eq_refl CL BAD).
      unfold bind at 1. rewrite R. unfold ends_at. by destruct (aborts (snd e0)).
Qed.

(** A bucket that leads to a dead node. *)
Lemma free_dead (h : thp) pre : forall f (s : tstate) p e post, chain h p (pre ++ e :: post) -> length pre < f ->
  (forall b, b ∈ map fst pre -> h_blk (t_h s) !! b = h_blk h !! b) -> hload (t_h s) (Ptr (fst e) 0) = None ->
  free_bucket_pd nsz nal badk badv f p s = UB.
Proof using All.
  induction pre as [|e1 pre IH]; intros f s p e post C L F D; (destruct f as [|f]; [cbn in L; lia|]).
  - destruct C as (nx & -> & E & C). cbn [free_bucket_pd]. unfold bind at 1, node_at. unfold bind at 1, gets at 1. by rewrite D.
  - destruct C as (nx & -> & E & C). cbn [free_bucket_pd].
    assert (E1 : h_blk (t_h s) !! fst e1 = Some (nodeblk nsz nal (fst (snd e1)) (snd (snd e1)) nx)) by (rewrite F; [done|left]).
    rewrite (bind_ok _ _ _ _ _ (node_at_ok _ _ _ _ _ _ _ E1)).
    assert (is_null nx = false) as -> by (destruct pre; destruct C as (? & -> & _); done).
    unfold bind at 1. rewrite (IH f s nx e post C); [done|cbn in L; lia| |done]. intros b Hb. apply F. by right.
Qed.

Lemma free_all_calm by_ (h0 : thp) a : forall cs' ps' i ps psb (s : tstate),
  (forall j, j <= length ps -> hadd h0 (Ptr a 0) j = Some (Ptr a j)) ->
  heap_wf (t_h s) -> Slots by_ (t_h s) a ps -> drop i ps = ps' ++ psb -> i <= length ps -> Forall2 (chain (t_h s)) ps' cs' ->
  NoDup (map fst (concat cs')) -> a ∉ map fst (concat cs') -> calm (map snd (concat cs')) ->
  forall is_, exists s1, free_all_pd nsz nal badk badv h0 (Ptr a 0) (seq i (length ps') ++ is_) s = free_all_pd nsz nal badk badv h0 (Ptr a 0) is_ s1 /\
    for_each (seq i (length ps')) (fun i =>
      do slot <- or_ub (hadd h0 (Ptr a 0) i);
      do p <- read_slot slot;
      if is_null p then ret tt
      else do f <- gets fuel; free_bucket nsz nal f p) s = Ok tt s1 /\
    (exists h', s1 = with_hd s h' (t_drops s ++ dropped cs') /\ HashTableProofs.frame (map fst (concat cs')) (t_h s) h' /\
      (forall b, b ∈ map fst (concat cs') -> h_blk h' !! b = None)).
Proof using All.
  induction cs' as [|c cs IH]; intros ps' i ps psb s A W E D Li F ND Na CA is_.
  - apply Forall2_nil_inv_r in F as ->. exists s. split; [done|]. split; [done|]. exists (t_h s). cbn. rewrite app_nil_r. split; [by destruct s|]. split; [done|].
    intros b Hb. by apply elem_of_nil in Hb.
  - apply Forall2_cons_inv_r in F as (p & ps2 & C & F & ->).
    cbn [concat] in *. rewrite !map_app in *. apply NoDup_app in ND as (ND1 & ND12 & ND2).
    apply not_elem_of_app in Na as [Na1 Na2]. unfold calm in CA. rewrite existsb_app in CA. apply orb_false_iff in CA as [CA1 CA2].
    assert (Hp : ps !! i = Some p).
    { rewrite <- (Nat.add_0_r i), <- lookup_drop, D. done. }
    assert (D' : drop (S i) ps = ps2 ++ psb).
    { rewrite <- Nat.add_1_r, <- drop_drop, D. done. }
    assert (Li' : S i <= length ps) by (apply lookup_lt_Some in Hp; lia).
    cbn [length seq for_each app free_all_pd].
    assert (Q1 : or_ub (hadd h0 (Ptr a 0) i) s = Ok (Ptr a i) s) by (rewrite A by lia; done).
    pose proof (read_slot_ok _ _ _ _ _ _ E Hp) as Q2.
    rewrite (bind_ok _ _ _ _ _ Q1), (bind_ok _ _ _ _ _ Q2).
    assert (FE : forall s1, (if is_null p then ret tt else do f <- gets fuel; free_bucket nsz nal f p) s = Ok tt s1 ->
      (do slot <- or_ub (hadd h0 (Ptr a 0) i); do p <- read_slot slot;
       if is_null p then ret tt else do f <- gets fuel; free_bucket nsz nal f p) s = Ok tt s1).
    { intros s1 H1. rewrite (bind_ok _ _ _ _ _ Q1), (bind_ok _ _ _ _ _ Q2). done. }
    destruct c as [|e c].
    + cbn in C. subst p. cbn [is_null] in *. specialize (FE s eq_refl). unfold bind at 1, ret at 1.
      destruct (IH ps2 (S i) ps psb s A W E D' Li' F ND2 Na2 CA2 is_) as (s2 & R1 & R2 & R3). exists s2. split; [exact R1|]. split; [|exact R3].
      rewrite (bind_ok _ _ _ _ _ FE). exact R2.
    + assert (NN : is_null p = false) by (destruct C as (? & -> & _); done). rewrite NN in *.
      pose proof (chain_fuel _ _ Hlay _ _ _ W C ND1) as FU.
      destruct (free_bucket_pd_ok (e :: c) (fuel s) s p C) as [FB _]; [done|done|unfold fuel; lia|]. specialize (FB CA1).
      set (s1 := with_hd _ _ _) in FB.
      assert (Q3 : (do f <- gets fuel; free_bucket_pd nsz nal badk badv f p) s = Ok Done s1) by exact FB.
      rewrite (bind_ok _ _ _ _ _ Q3). cbn match.
      assert (Q4 : (do f <- gets fuel; free_bucket nsz nal f p) s = Ok tt s1).
      { unfold bind at 1, gets at 1. by rewrite (free_bucket_ok nsz nal eb Hlay (e :: c) _ _ _ C) by (done || (unfold fuel; lia)). }
      assert (F1 : HashTableProofs.frame (map fst (e :: c) ++ map fst (concat cs)) (t_h s) (t_h s1)).
      { split; [apply hdels_next|]. intros b Hb. apply hdels_out. set_solver. }
      destruct (IH ps2 (S i) ps psb s1 A) with (is_ := is_) as (s2 & R1 & R2 & h' & R3 & FR & DE).
      * eapply frame_wf; [exact W|exact F1|]. intros b [Hb|Hb]%elem_of_app.
        -- by eapply chain_live.
        -- by eapply chains_live.
      * unfold Slots. rewrite <- E. by apply hdels_out.
      * done.
      * done.
      * eapply chains_frame; [exact F|]. intros b Hb. apply hdels_out. intros Hb'. by apply (ND12 b).
      * done.
      * done.
      * done.
      * exists s2. split; [exact R1|]. split; [rewrite (bind_ok _ _ _ _ _ (FE s1 Q4)); exact R2|]. exists h'. split; [|split].
        -- rewrite R3. unfold s1, with_hd. cbn [t_arr t_bc t_ec t_nr t_h t_drops]. f_equal.
           unfold dropped. cbn [flat_map]. by rewrite <- app_assoc.
        -- eapply frame_trans; [exact F1|]. eapply frame_mono; [exact FR|]. set_solver.
        -- intros b Hb. destruct (decide (b ∈ map fst (concat cs))) as [I|I]; [by apply DE|].
           apply elem_of_app in Hb as [Hb|Hb]; [|done].
           rewrite (proj2 FR b I). by apply hdels_in.
Qed.

(** A pass over buckets of which one that is not empty is dead, the first such. *)
Lemma free_all_dead by_ (h0 h : thp) a : forall cs' ps' i ps (s : tstate),
  (forall j, j <= length ps -> hadd h0 (Ptr a 0) j = Some (Ptr a j)) ->
  Slots by_ (t_h s) a ps -> drop i ps = ps' -> Forall2 (chain h) ps' cs' ->
  h_next (t_h s) = h_next h -> (forall c, c ∈ cs' -> length c < S (h_next h)) ->
  (exists cs1 pre e post cs2, cs' = cs1 ++ (pre ++ e :: post) :: cs2 /\ 
    (forall b, b ∈ map fst pre -> h_blk (t_h s) !! b = h_blk h !! b) /\ hload (t_h s) (Ptr (fst e) 0) = None /\
    (forall b, b ∈ map fst (concat cs1) -> h_blk (t_h s) !! b = None)) ->
  free_all_pd nsz nal badk badv h0 (Ptr a 0) (seq i (length ps')) s = UB.
Proof using All.
  induction cs' as [|c cs IH]; intros ps' i ps s A E D F EN FU (cs1 & pre & e & post & cs2 & EQ & FP & DE & DD).
  - by destruct cs1.
  - apply Forall2_cons_inv_r in F as (p & ps2 & C & F & ->).
    assert (Hp : ps !! i = Some p).
    { rewrite <- (Nat.add_0_r i), <- lookup_drop, D. done. }
    assert (D' : drop (S i) ps = ps2).
    { rewrite <- Nat.add_1_r, <- drop_drop, D. done. }
    assert (Li' : S i <= length ps) by (apply lookup_lt_Some in Hp; lia).
    cbn [length seq free_all_pd].
    assert (Q1 : or_ub (hadd h0 (Ptr a 0) i) s = Ok (Ptr a i) s) by (rewrite A by lia; done).
    pose proof (read_slot_ok _ _ _ _ _ _ E Hp) as Q2.
    rewrite (bind_ok _ _ _ _ _ Q1), (bind_ok _ _ _ _ _ Q2).
    destruct c as [|e1 c].
    + cbn in C. subst p. cbn [is_null]. unfold bind at 1, ret at 1. destruct cs1 as [|c1 cs1]; [by destruct pre|]. cbn in EQ. injection EQ as <- EQ.
      apply (IH ps2 (S i) ps s A E D' F EN).
      * intros c Hc. apply FU. by right.
      * exists cs1, pre, e, post, cs2. done.
    + assert (is_null p = false) as -> by (destruct C as (? & -> & _); done).
      assert (LC : length (e1 :: c) < fuel s) by (unfold fuel; rewrite EN; apply FU; left).
      assert (free_bucket_pd nsz nal badk badv (fuel s) p s = UB) as QU.
      { destruct cs1 as [|c1 cs1]; cbn in EQ; injection EQ as EC _.
        - rewrite EC in C, LC. apply (free_dead h pre (fuel s) s p e post C); [|done|done]. rewrite app_length in LC. cbn in LC. lia.
        - subst c1. apply (free_dead h [] (fuel s) s p e1 c C); [cbn in *; lia|intros b Hb; by apply elem_of_nil in Hb|].
          unfold hload, cells_of. rewrite DD; [done|]. left. }
      unfold bind at 1, bind at 1, gets at 1. by rewrite QU.
Qed.

Lemma calm_split (es : list enode) : ~ calm (map snd es) -> exists pre e post, es = pre ++ e :: post /\ calm (map snd post) /\ kills (snd e) = true.
Proof using.
  induction es as [|e es IH]; intros H; [by destruct H|]. destruct (existsb kills (map snd es)) eqn:E.
  - destruct IH as (pre & e0 & post & -> & C & B); [unfold calm; congruence|]. by exists (e :: pre), e0, post.
  - exists [], e, es. split; [done|]. split; [done|]. unfold calm in H. cbn in H. destruct (kills (snd e)); [done|]. by destruct H.
Qed.
Lemma calms_split (cs : list (list enode)) : ~ calm (map snd (concat cs)) -> exists cs1 c cs2, cs = cs1 ++ c :: cs2 /\ calm (map snd (concat cs1)) /\ ~ calm (map snd c).
Proof using.
  induction cs as [|c cs IH]; intros H; [by destruct H|]. destruct (existsb kills (map snd c)) eqn:E.
  - exists [], c, cs. split; [done|]. split; [done|]. unfold calm. congruence.
  - destruct IH as (cs1 & c0 & cs2 & -> & C & B).
    + intros C. apply H. unfold calm in *. cbn [concat]. by rewrite map_app, existsb_app, E, C.
    + exists (c :: cs1), c0, cs2. split; [done|]. split; [|done]. unfold calm in *. cbn [concat]. by rewrite map_app, existsb_app, E, C.
Qed.

Lemma dropped_in_order (cs : list (list enode)) : exists d, dropped cs = parts d /\ d ≡ₚ map snd (concat cs).
Proof using.
  induction cs as [|c cs (d & D & P)]; [by exists []|]. exists (map snd (rev c) ++ d). unfold dropped in *. cbn [flat_map concat].
  rewrite parts_app, D. split; [done|]. rewrite map_app, P. f_equiv. apply Permutation_map. symmetry. apply Permutation_rev.
Qed.
Lemma calm_perm (l l' : list (K * V)) : l ≡ₚ l' -> calm l -> calm l'.
Proof using.
  unfold calm. intros P C. destruct (existsb kills l') eqn:E; [|done]. apply existsb_exists in E as (x & I & B). rewrite <- C. symmetry.
  apply existsb_exists. exists x. split; [|done]. apply elem_of_list_In. rewrite P. by apply elem_of_list_In.
Qed.

Lemma table_clear_pd_ok by_ a ps cs (s : tstate) :
  t_arr s = Ptr a 0 -> t_bc s = Z.of_nat (length ps) -> 1 < length ps -> a <> eb ->
  heap_wf (t_h s) -> Slots by_ (t_h s) a ps -> Forall2 (chain (t_h s)) ps cs ->
  NoDup (map fst (concat cs)) -> a ∉ map fst (concat cs) ->
  exists s' d rest, t_drops s' = t_drops s ++ parts d /\ d ++ rest ≡ₚ map snd (concat cs) /\
    HashTableProofs.frame (a :: map fst (concat cs)) (t_h s) (t_h s') /\
    ((calm (map snd (concat cs)) /\ table_clear_pd nsz nal eb badk badv s = Ok Done s' /\ HashTable.clear nsz nal eb s = Ok tt s' /\ rest = []) \/
     (exists d0 e, d = d0 ++ [e] /\ calm d0 /\ kills e = true /\ table_clear_pd nsz nal eb badk badv s = ends_at e s' /\
        table_clear_pd nsz nal eb badk badv s' = UB)).
Proof using All.
  intros EA EB L Na W E F ND NI.
  assert (A : forall j, j <= length ps -> hadd (t_h s) (Ptr a 0) j = Some (Ptr a j)).
  { intros j Hj. eapply (hadd_slots nsz nal Hlay); [exact E|lia]. }
  destruct (decide (existsb kills (map snd (concat cs)) = false)) as [CA|NC].
  - destruct (free_buckets_ok nsz nal eb Hnsz Hlay by_ a ps cs s EA EB L Na W E F ND NI) as (h' & FB & FR & _).
    set (s1 := with_hd s h' (t_drops s ++ dropped cs)) in FB.
    destruct (dropped_in_order cs) as (d & DD & DP).
    exists (TState (t_arr s) (t_bc s) 0 (t_nr s) h' (t_drops s ++ dropped cs)), d, []. split; [by rewrite <- DD|]. split; [by rewrite app_nil_r|].
    split; [done|]. left. split; [done|].
    destruct (free_all_calm by_ (t_h s) a cs ps 0 ps [] s A W E) with (is_ := @nil nat) as (s2 & R1 & R2 & _); [by rewrite app_nil_r|lia|done|done|done|done|].
    rewrite app_nil_r in R1. cbn [free_all_pd] in R1.
    assert (R3 : (for_each (seq 0 (length ps)) (fun i => do slot <- or_ub (hadd (t_h s) (t_arr s) i); write_slot eb slot Null)) s2 = Ok tt s1).
    { unfold free_buckets in FB. unfold bind at 1, gets at 1 in FB. cbn [id] in FB. rewrite (proj2 (Z.ltb_lt _ _)) in FB by lia.
      rewrite EB, Nat2Z.id, EA in FB. unfold bind at 1 in FB. rewrite R2 in FB. rewrite EA. exact FB. }
    split; [|split; [|done]].
    + assert (Q : free_buckets_pd nsz nal eb badk badv s = Ok Done s1).
      { unfold free_buckets_pd. unfold bind at 1, gets at 1. cbn [id]. rewrite (proj2 (Z.ltb_lt _ _)) by lia. rewrite EB, Nat2Z.id.
        rewrite <- EA in R1. rewrite (bind_ok _ _ _ _ _ R1). by rewrite (bind_ok _ _ _ _ _ R3). }
      unfold table_clear_pd. by rewrite (bind_ok _ _ _ _ _ Q).
    + unfold HashTable.clear. by rewrite (bind_ok _ _ _ _ _ FB).
  - destruct (calms_split cs) as (cs1 & c & cs2 & -> & C1 & NC2); [done|].
    destruct (calm_split c NC2) as (pre & e & post & -> & CP & BE).
    apply Forall2_app_inv_r in F as (ps1 & ps2 & F1 & F2 & ->). apply Forall2_cons_inv_r in F2 as (p & ps3 & C & F3 & ->).
    rewrite concat_app in *. cbn [concat] in *. rewrite (map_app fst (concat cs1)), (map_app fst (pre ++ e :: post)) in ND, NI.
    apply not_elem_of_app in NI as [NI1 NI]. apply not_elem_of_app in NI as [NI2 NI3].
    pose proof ND as ND0. apply NoDup_app in ND as (ND1 & ND12 & ND2). apply NoDup_app in ND2 as (ND2 & ND23 & ND3).
    assert (NIp : fst e ∉ map fst post /\ (forall b, b ∈ map fst pre -> b <> fst e /\ b ∉ map fst post)).
    { pose proof ND2 as ND4. rewrite map_app in ND4. cbn [map] in ND4. apply NoDup_app in ND4 as (_ & N1 & N2). apply NoDup_cons in N2 as [N2 _]. split; [done|].
      intros b Hb. specialize (N1 b Hb). clear -N1; set_solver. }
    destruct NIp as [NIp PRE].
    destruct (free_all_calm by_ (t_h s) a cs1 ps1 0 (ps1 ++ p :: ps3) (p :: ps3) s A W E) with (is_ := seq (length ps1) (S (length ps3)))
      as (s1 & R1 & _ & h1 & R3 & FR1 & DE1); [done|lia|done|done|done|done|].
    assert (W1 : heap_wf h1) by (eapply frame_wf; [exact W|exact FR1|]; intros b Hb; exact (chains_live nsz nal _ _ _ _ F1 Hb)).
    assert (E1 : Slots by_ (t_h s1) a (ps1 ++ p :: ps3)).
    { unfold Slots. rewrite R3. cbn. rewrite (proj2 FR1) by done. exact E. }
    assert (CC : chain (t_h s1) p (pre ++ e :: post)).
    { eapply chain_frame; [exact C|]. intros b Hb. rewrite R3. cbn. apply FR1. intros Hb'. apply (ND12 b Hb'). apply elem_of_app. left. exact Hb. }
    assert (FUL : length (pre ++ e :: post) < S (h_next (t_h s1))).
    { eapply (chain_fuel nsz nal Hlay); [|exact CC|done]. by rewrite R3. }
    assert (NNL : pre ++ e :: post <> []) by (by destruct pre).
    destruct (free_bucket_pd_ok (pre ++ e :: post) (fuel s1) s1 p CC NNL ND2) as [_ FB]; [unfold fuel; lia|].
    specialize (FB pre e post eq_refl CP BE). set (s2 := with_hd s1 _ _) in FB.
    assert (NP : is_null p = false) by (destruct pre; destruct C as (? & -> & _); done).
    assert (TOP : free_all_pd nsz nal badk badv (t_h s) (t_arr s) (seq 0 (length (ps1 ++ p :: ps3))) s = ends_at (snd e) s2).
    { rewrite app_length. cbn [length]. rewrite seq_app, EA. cbn [Nat.add]. rewrite R1. cbn [seq free_all_pd].
      assert (Q1 : or_ub (hadd (t_h s) (Ptr a 0) (length ps1)) s1 = Ok (Ptr a (length ps1)) s1) by (rewrite A by (rewrite app_length; lia); done).
      assert (Q2 : read_slot (Ptr a (length ps1)) s1 = Ok p s1) by (apply (read_slot_ok _ _ _ _ _ _ E1); by apply list_lookup_middle).
      rewrite (bind_ok _ _ _ _ _ Q1), (bind_ok _ _ _ _ _ Q2), NP. unfold bind at 1, bind at 1, gets at 1. rewrite FB.
      unfold ends_at. by destruct (aborts (snd e)). }
    assert (LT : (1 <? t_bc s)%Z = true) by (apply Z.ltb_lt; lia).
    assert (F2 : HashTableProofs.frame (map fst (pre ++ e :: post)) (t_h s1) (t_h s2)).
    { split; [unfold s2; cbn; apply hdels_next|]. intros b Hb. unfold s2. cbn. rewrite map_app in Hb. cbn in Hb.
      rewrite lookup_insert_ne by (clear -Hb; set_solver). apply hdels_out. clear -Hb; set_solver. }
    destruct (dropped_in_order cs1) as (d1 & DD & DP).
    exists s2, (d1 ++ map snd (rev (e :: post))), (map snd pre ++ map snd (concat cs2)).
    split; [unfold s2; rewrite R3; cbn [with_hd t_drops]; by rewrite parts_app, <- DD, <- app_assoc|]. split; [|split].
    + assert (PP : map snd (rev (e :: post)) ≡ₚ map snd (e :: post)) by (apply Permutation_map; symmetry; apply Permutation_rev).
      rewrite DP, PP, !map_app. solve_Permutation.
    + rewrite R3 in F2. cbn in F2. rewrite (map_app fst (concat cs1)), (map_app fst (pre ++ e :: post)). eapply frame_trans; [eapply frame_mono; [exact FR1|]|eapply frame_mono; [exact F2|]]; clear; set_solver.
    + right. exists (d1 ++ map snd (rev post)), (snd e). split; [cbn [rev]; by rewrite map_app, app_assoc|]. split.
      { unfold calm. rewrite existsb_app. rewrite (calm_perm _ _ (symmetry DP) C1). cbn [orb].
        apply (calm_perm (map snd post)); [|exact CP]. apply Permutation_map, Permutation_rev. }
      split; [done|]. split.
      * unfold table_clear_pd, free_buckets_pd. unfold bind at 1, bind at 1, gets at 1. cbn [id]. rewrite LT, EB, Nat2Z.id.
        unfold bind at 1. rewrite TOP. unfold ends_at. by destruct (aborts (snd e)).
      * assert (S2 : t_arr s2 = Ptr a 0 /\ t_bc s2 = t_bc s) by (unfold s2; rewrite R3; done). destruct S2 as [EA2 EB2].
        assert (E2 : Slots by_ (t_h s2) a (ps1 ++ p :: ps3)) by (unfold Slots; rewrite (proj2 F2) by done; exact E1).
        unfold table_clear_pd, free_buckets_pd. unfold bind at 1, bind at 1, gets at 1. cbn [id]. rewrite EB2, LT, EB, Nat2Z.id, EA2.
        unfold bind at 1. rewrite (free_all_dead by_ (t_h s2) (t_h s) a (cs1 ++ (pre ++ e :: post) :: cs2) (ps1 ++ p :: ps3) 0 (ps1 ++ p :: ps3) s2); try done.
        -- intros j Hj. eapply (hadd_slots nsz nal Hlay); [exact E2|lia].
        -- apply Forall2_app; [done|]. by constructor.
        -- rewrite (proj1 F2), R3. apply FR1.
        -- intros c Hc. assert (HC : exists q, chain (t_h s) q c /\ NoDup (map fst c)).
           { apply elem_of_app in Hc as [Hc|Hc]; [|apply elem_of_cons in Hc as [->|Hc]].
             - apply elem_of_list_lookup in Hc as (i & Hi). destruct (Forall2_lookup_r _ _ _ _ _ F1 Hi) as (q & _ & Cq). exists q. split; [done|].
               rewrite <- (take_drop_middle cs1 i c Hi), concat_app, map_app in ND1. cbn [concat] in ND1. rewrite map_app in ND1.
               apply NoDup_app in ND1 as (_ & _ & ND1). by apply NoDup_app in ND1 as (? & _ & _).
             - by exists p.
             - apply elem_of_list_lookup in Hc as (i & Hi). destruct (Forall2_lookup_r _ _ _ _ _ F3 Hi) as (q & _ & Cq). exists q. split; [done|].
               rewrite <- (take_drop_middle cs2 i c Hi), concat_app, map_app in ND3. cbn [concat] in ND3. rewrite map_app in ND3.
               apply NoDup_app in ND3 as (_ & _ & ND3). by apply NoDup_app in ND3 as (? & _ & _). }
           destruct HC as (q & Cq & NDq). by eapply (chain_fuel nsz nal Hlay).
        -- exists cs1, pre, e, post, cs2. split; [done|]. split; [|split].
           ++ intros b Hb. destruct (PRE b Hb) as [N1 N2]. unfold s2. cbn. rewrite lookup_insert_ne by done. rewrite hdels_out by done. rewrite R3. cbn.
              apply FR1. intros Hb'. apply (ND12 b Hb'). rewrite map_app. clear -Hb; set_solver.
           ++ unfold hload, cells_of, s2. cbn. by rewrite lookup_insert.
           ++ intros b Hb. rewrite (proj2 F2); [rewrite R3; by apply DE1|]. intros Hb'. apply (ND12 b Hb). clear -Hb'; set_solver.
Qed.

End hash.

Lemma table_built (K V : Type) nsz nal eb chk hash eqb (h0 : heap (tcell K V)) badk badv : Setup nsz nal eb hash eqb h0 ->
  forall prog l s es, built nsz nal eb chk hash eqb h0 prog l s -> h_call nsz nal eb chk hash eqb HIter s = Ok (HPairs es) s ->
  exists s' d rest, t_drops s' = t_drops s ++ parts d /\ d ++ rest ≡ₚ es /\
    (forall b bk, h_blk h0 !! b = Some bk -> h_blk (t_h s') !! b = Some bk) /\
    ((existsb (kills badk badv) es = false /\ table_clear_pd nsz nal eb badk badv s = Ok Done s' /\ HashTable.clear nsz nal eb s = Ok tt s' /\ rest = []) \/
     (exists d0 e, d = d0 ++ [e] /\ existsb (kills badk badv) d0 = false /\ kills badk badv e = true /\ table_clear_pd nsz nal eb badk badv s = ends_at badk badv e s' /\
        table_clear_pd nsz nal eb badk badv s' = UB)).
Proof.
  intros SU prog l s es B IT. destruct (built_rep _ _ _ _ _ _ _ SU _ _ _ B) as (cs & arrs & R & _).
  rewrite (iter_call _ _ _ _ _ _ _ SU _ _ _ _ R) in IT. injection IT as IT. 
  destruct (tr_arr _ _ _ _ _ _ _ _ _ _ R) as (a & ps & by_ & EA & E & F & AR).
  pose proof (tr_bc _ _ _ _ _ _ _ _ _ _ R) as EB. pose proof (TRep_eb _ _ _ _ _ _ _ _ _ _ R) as NEB.
  pose proof (tr_frame _ _ _ _ _ _ _ _ _ _ R) as FR. pose proof (tr_fresh _ _ _ _ _ _ _ _ _ _ R) as FS.
  destruct AR as [(-> & -> & B1)|(old & -> & B1)].
  - assert (cs = [[]]) as ->.
    { pose proof (tr_static _ _ _ _ _ _ _ _ _ _ R) as ST. unfold static_ok in ST. unfold Slots in E. rewrite FR, ST in E by done.
      injection E as _ E. destruct ps as [|p [|p2 ps]]; [done| |done]. injection E as <-. apply Forall2_cons_inv_l in F as (c & cs' & C & F & ->).
      apply Forall2_nil_inv_l in F as ->. destruct c as [|? ?]; [done|]. by destruct C as (? & ? & _). }
    subst es. exists (TState (t_arr s) (t_bc s) 0 (t_nr s) (t_h s) (t_drops s)), [], []. cbn [t_drops t_h]. rewrite app_nil_r. split; [done|]. split; [done|]. split.
    { intros b bk Hb. rewrite FR; [done|]. intros Hb2. by apply elem_of_nil in Hb2. }
    left. split; [done|]. unfold table_clear_pd, free_buckets_pd, HashTable.clear, free_buckets, bind, gets. cbn [id].
    assert ((1 <? t_bc s)%Z = false) as -> by (by rewrite B1). done.
  - pose proof (tr_nodup _ _ _ _ _ _ _ _ _ _ R) as ND. apply NoDup_app in ND as (ND & ND2 & _).
    destruct (table_clear_pd_ok nsz nal eb badk badv (su_size _ _ _ _ _ _ SU) (su_layout _ _ _ _ _ _ SU) by_ a ps cs s EA)
      as (s' & d & rest & D & P & FR2 & C); try done.
    + rewrite EB. by rewrite (Forall2_length _ _ _ F).
    + rewrite (Forall2_length _ _ _ F). lia.
    + intros ->. apply NEB. apply elem_of_app. right. left.
    + by apply (tr_wf _ _ _ _ _ _ _ _ _ _ R).
    + intros Ha. apply (ND2 a Ha). left.
    + subst es. exists s', d, rest. split; [done|]. split; [done|]. split; [|exact C].
      intros b bk Hb. rewrite (proj2 FR2), FR; [done| |].
      * intros Hb'. rewrite (FS _ Hb') in Hb. done.
      * intros Hb'. rewrite FS in Hb; [done|]. apply elem_of_app. apply elem_of_cons in Hb' as [->|Hb']; [right; left|by left].
Qed.

Lemma L_C86_table_clear_refuted :
forall (K V : Type) nsz nal eb chk hash eqb (h0 : heap (tcell K V)) (badk : K -> bool) (badv : V -> bool), Setup nsz nal eb hash eqb h0 ->
  forall prog l s es, HashTableSpec.built nsz nal eb chk hash eqb h0 prog l s -> h_call nsz nal eb chk hash eqb HIter s = Ok (HPairs es) s ->
  (exists k v, (k, v) ∈ es /\ (badk k || badv v) = true) -> (forall k v, (k, v) ∈ es -> (badk k && badv v) = false) ->
  exists s' ds rest, table_clear_pd nsz nal eb badk badv s = Panic s' /\
    t_drops s' = t_drops s ++ flat_map (fun e => [inl (fst e); inr (snd e)]) ds /\ ds ++ rest ≡ₚ es /\
    table_clear_pd nsz nal eb badk badv s' = UB.
Proof.
  intros K V nsz nal eb chk hash eqb h0 badk badv SU prog l s es B IT (k & v & Hk & BK) NA.
  destruct (table_built _ _ _ _ _ _ _ _ _ badk badv SU _ _ _ _ B IT) as (s' & d & rest & D & P & _ & [(C & _)|(d0 & e & ED & _ & _ & Q & U)]).
  - exfalso. assert (existsb (kills badk badv) es = true) as X; [|congruence]. apply existsb_exists. exists (k, v). split; [by apply elem_of_list_In|done].
  - exists s', d, rest. split; [|done]. rewrite Q. unfold ends_at, aborts. destruct e as [k' v']. rewrite NA; [done|].
    rewrite <- P, ED. apply elem_of_app. left. apply elem_of_app. right. left.
Qed.

Lemma L_C86_table_clear_partial :
forall (K V : Type) nsz nal eb chk hash eqb (h0 : heap (tcell K V)) (badk : K -> bool) (badv : V -> bool), Setup nsz nal eb hash eqb h0 ->
  forall prog l s es, HashTableSpec.built nsz nal eb chk hash eqb h0 prog l s -> h_call nsz nal eb chk hash eqb HIter s = Ok (HPairs es) s ->
  exists s' ds rest,
    t_drops s' = t_drops s ++ flat_map (fun e => [inl (fst e); inr (snd e)]) ds /\ ds ++ rest ≡ₚ es /\
    (forall b bk, h_blk h0 !! b = Some bk -> h_blk (t_h s') !! b = Some bk) /\
    (((forall k v, (k, v) ∈ es -> badk k = false /\ badv v = false) /\ rest = [] /\
      table_clear_pd nsz nal eb badk badv s = Ok Done s' /\ HashTable.clear nsz nal eb s = Ok tt s') \/
     (exists ds0 k v, ds = ds0 ++ [(k, v)] /\ (badk k || badv v) = true /\
      (forall k' v', (k', v') ∈ ds0 -> badk k' = false /\ badv v' = false) /\
      table_clear_pd nsz nal eb badk badv s = if badk k && badv v then Ok Aborted s' else Panic s')).
Proof.
  intros K V nsz nal eb chk hash eqb h0 badk badv SU prog l s es B IT.
  assert (QT : forall l, existsb (kills badk badv) l = false -> forall k v, (k, v) ∈ l -> badk k = false /\ badv v = false).
  { intros l0 N k v I. apply orb_false_iff. destruct (badk k || badv v) eqn:X; [|done]. rewrite <- N. symmetry. apply existsb_exists.
    exists (k, v). split; [by apply elem_of_list_In|done]. }
  destruct (table_built _ _ _ _ _ _ _ _ _ badk badv SU _ _ _ _ B IT) as (s' & d & rest & D & P & FR & [(C & Q & QC & R)|(d0 & [k v] & ED & C0 & KE & Q & U)]);
    exists s', d, rest; (split; [done|]); (split; [done|]); (split; [done|]).
  - left. split; [by apply QT|]. done.
  - right. exists d0, k, v. split; [done|]. split; [exact KE|]. split; [by apply QT|]. exact Q.
Qed.
