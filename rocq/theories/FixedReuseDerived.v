(** Proofs of the properties stated in FixedReuseProps.v. *)
From Verif Require Import Base Heap HeapLemmas Alloc Vector FixedVector FixedReuse.

Section reuse.
Context {T : Type}.
Variables sz al : Z.
Hypothesis Hsz : (0 < sz)%Z.
Hypothesis Hal : (0 < al)%Z.
Variables chk nd : bool.
Variable clone : T -> option T.
Variable place : heap T -> nat.
Notation AI := (FixedAllocAt T place).

Lemma usize_fits (r : Z) (s : vstate ptr T) : (0 <= r)%Z -> (r <= isize_max + 1)%Z -> usize chk r s = Ok (Z.to_nat r) s.
Proof.
  intros H1 H2. unfold usize. unfold isize_max in H2. unfold usize_lim.
  destruct (Z.leb_spec 0 r); [|lia]. destruct (Z.ltb_spec r (2 ^ 64)); [done|lia].
Qed.

(** Reserving room for one more element in an empty vector. *)
Lemma reserve_at b c bk pool h d :
  h_blk h !! b = Some bk -> length (bk_cells bk) = c -> h_blk h !! place h = None ->
  (Z.of_nat (c + 1) * sz <= isize_max + 1 - al)%Z ->
  pool = Ptr b 0 \/ (bk_bytes bk = (Z.of_nat c * sz)%Z /\ bk_align bk = al /\ pool <> Ptr b 0) ->
  exists h', reserve AI sz al chk 1 (VState (Vec (Ptr b 0) (Ptr b 0) (Ptr b c)) pool h d)
      = Ok tt (VState (Vec (Ptr (place h) 0) (Ptr (place h) 0) (Ptr (place h) (c + 1))) pool h' d) /\
    h_next h' = Nat.max (h_next h) (S (place h)) /\
    h_blk h' !! place h = Some (Block (Z.of_nat (c + 1) * sz) al (replicate (c + 1) None)) /\
    h_blk h' !! b = (if decide (pool = Ptr b 0) then Some bk else None) /\
    (forall x, x <> place h -> x <> b -> h_blk h' !! x = h_blk h !! x).
Proof.
  intros Hb Hc Hp Hfit HP. set (q := place h) in *.
  assert (Nq : b <> q) by congruence.
  assert (Hc1 : (Z.of_nat c * sz <= isize_max + 1)%Z) by nia.
  assert (S1 : (1 <= sz)%Z) by lia.
  unfold reserve. cbn [Nat.eqb].
  unfold bind at 1, len at 1. unfold bind at 1, gets at 1. cbn [st_v v_end v_begin].
  unfold offset_from at 1. destruct (Z.eqb_spec sz 0) as [?|_]; [lia|]. rewrite pdiff_ok by lia. cbn [or_ub]. unfold ret at 1.
  unfold bind at 1, capacity at 1. unfold bind at 1, gets at 1. cbn [st_v v_cap v_begin].
  unfold offset_from at 1. destruct (Z.eqb_spec sz 0) as [?|_]; [lia|]. rewrite pdiff_ok by lia. cbn [or_ub]. unfold ret at 1.
  rewrite Nat.sub_0_r. cbn [Nat.sub].
  unfold bind at 1. rewrite usize_fits by (unfold isize_max in *; nia). replace (Z.to_nat (Z.of_nat c + Z.of_nat 1)) with (c + 1) by lia.
  unfold bind at 1, allocate. unfold bind at 1. rewrite usize_fits by nia. rewrite Z2Nat.id by nia.
  unfold lift_alloc at 1. cbn [ai_alloc FixedAllocAt st_a st_h]. unfold placed_alloc. cbn [fst snd].
  destruct (Z.eqb_spec (Z.of_nat (c + 1) * sz) 0) as [?|_]; [nia|].
  unfold layout_ok at 1. rewrite (proj2 (Z.leb_le _ _) Hfit). fold q.
  rewrite Z.div_mul by lia. rewrite Nat2Z.id.
  set (nb := Block (Z.of_nat (c + 1) * sz) al (replicate (c + 1) None)).
  set (h1 := Heap (Nat.max (h_next h) (S q)) (<[q := nb]> (h_blk h))).
  cbn [fst snd st_v st_drops]. unfold bind at 1, gets at 1. cbn [st_v v_begin is_null negb].
  assert (B1 : h_blk h1 !! b = Some bk) by (cbn; by rewrite lookup_insert_ne).
  assert (Q1 : h_blk h1 !! q = Some nb) by (cbn; by rewrite lookup_insert).
  set (h2 := hset h1 q (Block (bk_bytes nb) (bk_align nb) (take 0 (bk_cells nb) ++ [] ++ drop (0 + length (@nil (option T))) (bk_cells nb)))).
  assert (CP : hcopy h1 (Ptr b 0) (Ptr q 0) 0 = Some h2).
  { unfold hcopy. rewrite (hraw_ok _ _ _ _ bk) by (try done; lia). rewrite take_0. apply (hput_ok _ _ _ [] nb); [done|cbn; lia]. }
  assert (Q2 : h_blk h2 !! q = Some nb).
  { unfold h2. cbn. rewrite lookup_insert. unfold nb. cbn. by rewrite drop_0. }
  assert (B2 : h_blk h2 !! b = Some bk) by (unfold h2; cbn; rewrite !lookup_insert_ne by done; done).
  assert (O2 : forall x, x <> q -> x <> b -> h_blk h2 !! x = h_blk h !! x).
  { intros x X1 X2. unfold h2. cbn. by rewrite !lookup_insert_ne by done. }
  unfold bind at 1. unfold bind at 1, on_heap at 1. unfold bind at 1, gets at 1. cbn [st_h]. rewrite CP. cbn [or_ub].
  unfold bind at 1, ret at 1. unfold set_h at 1, modify at 1. cbn [st_v st_a st_drops].
  unfold bind at 1, capacity at 1. unfold bind at 1, gets at 1. cbn [st_v v_cap v_begin].
  unfold offset_from at 1. destruct (Z.eqb_spec sz 0) as [?|_]; [lia|]. rewrite pdiff_ok by lia. cbn [or_ub]. unfold ret at 1.
  rewrite Nat.sub_0_r. unfold deallocate. unfold bind at 1. rewrite usize_fits by nia. rewrite Z2Nat.id by nia.
  unfold lift_alloc at 1. cbn [ai_free FixedAllocAt FixedAlloc st_a st_h fst snd].
  assert (exists h3, (if decide (Ptr b 0 = pool) then Ok tt (pool, h2)
      else match default_free (Ptr b 0) (Z.of_nat c * sz) al (tt, h2) with
           | Ok _ (_, h) => Ok tt (pool, h) | Panic (_, h) => Panic (pool, h) | UB => UB end) = Ok tt (pool, h3) /\
     h_next h3 = h_next h2 /\ h_blk h3 !! q = Some nb /\ h_blk h3 !! b = (if decide (pool = Ptr b 0) then Some bk else None) /\
     (forall x, x <> q -> x <> b -> h_blk h3 !! x = h_blk h !! x)) as (h3 & E3 & N3 & Q3 & B3 & O3).
  { destruct HP as [->|(Hby & Hali & Hpl)].
    - exists h2. rewrite !decide_True by done. done.
    - exists (hdel h2 b). rewrite !decide_False by congruence. unfold default_free, layout_ok.
      rewrite (proj2 (Z.leb_le _ _)) by nia. cbn [hfree snd fst]. rewrite B2, Hby, Hali, !Z.eqb_refl. cbn [andb].
      split; [done|]. split; [done|]. cbn. rewrite lookup_delete_ne by done. split; [done|]. rewrite lookup_delete. split; [done|].
      intros x X1 X2. rewrite lookup_delete_ne by done. by apply O2. }
  rewrite E3. cbn [fst snd st_v st_drops].
  unfold bind at 1, from_heap at 1. unfold bind at 1, gets at 1. cbn [st_h].
  rewrite (hadd_ok _ _ _ _ nb) by (try done; cbn; lia). cbn [or_ub]. unfold ret at 1.
  unfold bind at 1, from_heap at 1. unfold bind at 1, gets at 1. cbn [st_h].
  rewrite (hadd_ok _ _ _ _ nb) by (try done; cbn; rewrite replicate_length; lia). cbn [or_ub]. unfold ret at 1.
  unfold set_v, modify. cbn [st_a st_h st_drops Nat.add]. exists h3. split; [done|]. split; [done|]. done.
Qed.
End reuse.

(** Hands out address 0 when it is free, else a new address. *)
Definition low_first {T} (h : heap T) : nat :=
  if decide (h_blk h !! 0 = None) then 0
  else if decide (h_blk h !! h_next h = None) then h_next h else fresh (dom (h_blk h)).

Lemma low_first_free {T} (h : heap T) : h_blk h !! low_first h = None.
Proof.
  unfold low_first. destruct (decide _) as [|_]; [done|]. destruct (decide _) as [|_]; [done|].
  apply not_elem_of_dom. apply is_fresh.
Qed.

Lemma L_C106_moved_overflow_freed_refuted :
  forall (T : Type) (sz al : Z) (N : nat) (chk nd : bool) clone (g : vec) (gp : ptr),
  (0 < sz)%Z -> (0 < al)%Z -> 0 < N -> (Z.of_nat (N + 2) * sz <= isize_max + 1 - al)%Z ->
  exists (place : heap T -> nat), (forall h, h_blk h !! place h = None) /\
  exists l w old f b bk,
    g_run sz al N chk nd clone place
      [GOp FNew; GOp (FCall 0 (CReserve 1)); GOp (FMove 0 g gp); GEnd 0; GOp (FCall 1 (CReserve 1)); GOp (FCall 1 CClear)]
      (FWorld [] (Heap 0 ∅) []) = Some (l, w) /\
    fw_objs w = [old; f] /\ f_moved old = true /\ f_vec f = Vec Null Null Null /\
    h_blk (fw_h w) !! b = Some bk /\ bk_bytes bk = (Z.of_nat (N + 2) * sz)%Z /\ b <> f_buf f.
Proof.
  intros T sz al N chk nd clone g gp Hsz Hal HN Hfit. exists low_first. split; [apply low_first_free|].
  assert (N0 : (N =? 0) = false) by (apply Nat.eqb_neq; lia).
  set (B0 := @inline_block T al N).
  set (w1 := FWorld [Fixed (Vec (Ptr 0 0) (Ptr 0 0) (Ptr 0 N)) (Ptr 0 0) 0 false] (Heap 1 {[0 := B0]}) []).
  assert (E1 : g_step sz al N chk nd clone low_first (GOp FNew) (FWorld [] (Heap 0 ∅) []) = Some (AUnit, w1)).
  { cbn [g_step f_step f_new]. unfold f_new, init_base_vec. rewrite N0. reflexivity. }
  cbn [g_run]. rewrite E1.
  (* the first reserve leaves the inline buffer for block 1 *)
  destruct (reserve_at sz al Hsz Hal chk low_first 0 N B0 (Ptr 0 0) (fw_h w1) []) as (h2 & R2 & X2 & Q2 & P2 & O2).
  { cbn. apply lookup_singleton. }
  { apply replicate_length. }
  { apply low_first_free. }
  { lia. }
  { by left. }
  assert (L2 : low_first (fw_h w1) = 1).
  { unfold low_first. cbn [fw_h w1 h_blk h_next]. rewrite lookup_singleton, decide_False by done.
    rewrite lookup_singleton_ne by done. by rewrite decide_True. }
  rewrite L2 in *. rewrite decide_True in P2 by done. cbn [fw_h w1 h_next Nat.max] in X2.
  set (w2 := FWorld [Fixed (Vec (Ptr 1 0) (Ptr 1 0) (Ptr 1 (N + 1))) (Ptr 0 0) 0 false] h2 []).
  assert (E2 : g_step sz al N chk nd clone low_first (GOp (FCall 0 (CReserve 1))) w1 = Some (AUnit, w2)).
  { cbn [g_step w1 fw_objs]. cbn [lookup list_lookup f_moved]. unfold step, exec, f_state. cbn [f_vec f_pool fw_h fw_drops].
    unfold bind. change (fw_drops w1) with (@nil T). rewrite R2. reflexivity. }
  rewrite E2.
  (* the move leaves [pool_begin] at the old buffer *)
  set (w3 := FWorld [Fixed (Vec Null Null Null) gp 0 true; Fixed (Vec (Ptr 1 0) (Ptr 1 0) (Ptr 1 (N + 1))) (Ptr 0 0) 2 false] (halloc h2 B0) []).
  assert (E3 : g_step sz al N chk nd clone low_first (GOp (FMove 0 g gp)) w2 = Some (AUnit, w3)).
  { cbn [g_step f_step w2 fw_objs]. cbn [lookup list_lookup f_moved]. unfold f_move, has_overflowed. rewrite N0.
    cbn [f_vec v_begin f_buf]. rewrite bool_decide_false by done. cbn [negb]. unfold clear. unfold bind at 1, gets at 1.
    cbn [st_v v_begin v_end v_cap is_null negb f_vec f_pool]. unfold bind at 1, ret at 1. unfold set_v, modify.
    cbn [st_a st_h st_drops fw_drops fw_h fw_objs f_buf f_pool f_vec app].
    change (fw_h w2) with h2. rewrite X2. reflexivity. }
  rewrite E3.
  set (h4 := hdel (halloc h2 B0) 0).
  set (w4 := FWorld (fw_objs w3) h4 []).
  assert (E4 : g_step sz al N chk nd clone low_first (GEnd 0) w3 = Some (AUnit, w4)) by reflexivity.
  rewrite E4.
  assert (Z4 : h_blk h4 !! 0 = None) by (cbn; apply lookup_delete).
  assert (F4 : h_blk h4 !! 1 = Some (Block (Z.of_nat (N + 1) * sz) al (replicate (N + 1) None))).
  { cbn. rewrite lookup_delete_ne by done. rewrite X2, lookup_insert_ne by done. exact Q2. }
  assert (L4 : low_first h4 = 0) by (unfold low_first; by rewrite decide_True).
  destruct (reserve_at sz al Hsz Hal chk low_first 1 (N + 1) (Block (Z.of_nat (N + 1) * sz) al (replicate (N + 1) None)) (Ptr 0 0) h4 []) as (h5 & R5 & X5 & Q5 & P5 & O5).
  { exact F4. }
  { apply replicate_length. }
  { apply low_first_free. }
  { replace (N + 1 + 1) with (N + 2) by lia. done. }
  { by right. }
  rewrite L4 in *.
  set (w5 := FWorld [Fixed (Vec Null Null Null) gp 0 true; Fixed (Vec (Ptr 0 0) (Ptr 0 0) (Ptr 0 (N + 1 + 1))) (Ptr 0 0) 2 false] h5 []).
  assert (E5 : g_step sz al N chk nd clone low_first (GOp (FCall 1 (CReserve 1))) w4 = Some (AUnit, w5)).
  { cbn [g_step w4 w3 fw_objs]. cbn [lookup list_lookup f_moved]. unfold step, exec, f_state. cbn [f_vec f_pool fw_h fw_drops].
    unfold bind. change (fw_drops w4) with (@nil T). change (fw_h w4) with h4. rewrite R5. reflexivity. }
  rewrite E5.
  set (w6 := FWorld [Fixed (Vec Null Null Null) gp 0 true; Fixed (Vec Null Null Null) (Ptr 0 0) 2 false] h5 []).
  assert (E6 : g_step sz al N chk nd clone low_first (GOp (FCall 1 CClear)) w5 = Some (AUnit, w6)).
  { cbn [g_step w5 fw_objs]. cbn [lookup list_lookup f_moved]. unfold step, exec, f_state. cbn [f_vec f_pool fw_h fw_drops].
    unfold clear. unfold bind at 1. unfold bind at 1, gets at 1. cbn [st_v v_begin is_null negb].
    unfold bind at 1. unfold bind at 1, len. unfold bind at 1, gets at 1. cbn [st_v v_end v_begin].
    unfold offset_from at 1. destruct (Z.eqb_spec sz 0) as [?|_]; [lia|]. rewrite pdiff_ok by lia. cbn [or_ub Nat.sub]. unfold ret at 1.
    unfold bind at 1. cbn [drop_places]. unfold ret at 1.
    unfold bind at 1, capacity at 1. unfold bind at 1, gets at 1. cbn [st_v v_cap v_begin].
    unfold offset_from at 1. destruct (Z.eqb_spec sz 0) as [?|_]; [lia|]. rewrite pdiff_ok by lia. cbn [or_ub]. unfold ret at 1.
    rewrite Nat.sub_0_r. unfold deallocate. unfold bind at 1. rewrite usize_fits by nia.
    unfold lift_alloc. cbn [ai_free FixedAllocAt FixedAlloc st_a st_h fst snd]. rewrite decide_True by done. reflexivity. }
  rewrite E6.
  eexists _, w6, _, _, 0, _. split; [reflexivity|]. split; [reflexivity|]. split; [done|]. split; [done|]. split; [exact Q5|].
  split; [|done]. cbn. replace (N + 1 + 1) with (N + 2) by lia. done.
Qed.
