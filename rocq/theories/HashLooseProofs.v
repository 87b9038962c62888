(** Hash tables whose size at which to grow may be stale, as after a refusal of the
    allocator: the representation invariant without the growth stages, and the effect of
    each function.  The proofs follow HashTableProofs.v. *)
From Verif Require Import Base Heap Alloc HeapLemmas VectorMapProofs RehashPolicy RehashPolicyProofs Vector HashTable HashTableSpec OutOfMemory Refusal RefusalSpec.
From Verif Require HashTableProofs.

Section proofs.
Context {K V : Type}.
Variables nsz nal : Z.
Variable eb : nat.
Variable chk : bool.
Variable hash : K -> Z.
Variable eqb : K -> K -> bool.
Hypothesis Hnsz : (0 < nsz)%Z.
Hypothesis Hlay : layout_ok nsz nal = true.
Hypothesis KH : KeyHash eqb hash.
Notation tstate := (tstate K V).
Notation thp := (heap (tcell K V)).
Notation enode := (nat * (K * V))%type.

Local Notation entries cs := (map (@snd nat (K * V)) (concat cs)).
Local Notation with_h := (@HashTableProofs.with_h K V).
Local Notation with_hd := (@HashTableProofs.with_hd K V).
Local Notation slots := (@HashTableProofs.slots K V).
Local Notation Slots := (@HashTableProofs.Slots K V).
Local Notation nodeblk := (@HashTableProofs.nodeblk K V nsz nal).
Local Notation chain := (@HashTableProofs.chain K V nsz nal).
Local Notation chain_frame := (@HashTableProofs.chain_frame K V nsz nal).
Local Notation chains_live := (@HashTableProofs.chains_live K V nsz nal).
Local Notation NoDup_below := (@HashTableProofs.NoDup_below nsz nal Hlay).
Local Notation chain_fuel := (@HashTableProofs.chain_fuel K V nsz nal Hlay).
Local Notation slots_length := (@HashTableProofs.slots_length K V nsz nal Hlay).
Local Notation hadd_slots := (@HashTableProofs.hadd_slots K V nsz nal Hlay).
Local Notation read_slot_ok := (@HashTableProofs.read_slot_ok K V).
Local Notation write_slot_ok := (@HashTableProofs.write_slot_ok K V nsz nal eb Hlay).
Local Notation node_at_ok := (@HashTableProofs.node_at_ok K V nsz nal).
Local Notation store_node_ok := (@HashTableProofs.store_node_ok K V nsz nal eb Hlay).
Local Notation alloc_node_ok := (@HashTableProofs.alloc_node_ok K V nsz nal Hnsz Hlay).
Local Notation free_node_ok := (@HashTableProofs.free_node_ok K V nsz nal Hlay).
Local Notation find_in_bucket_ok := (@HashTableProofs.find_in_bucket_ok K V nsz nal eb hash eqb Hlay).
Local Notation frame := (@HashTableProofs.frame K V).
Local Notation frame_hset := (@HashTableProofs.frame_hset K V).
Local Notation frame_wf := (@HashTableProofs.frame_wf K V).
Local Notation dropped := (@HashTableProofs.dropped K V).
Local Notation dropped_perm := (@HashTableProofs.dropped_perm K V).
Local Notation free_buckets_ok := (@HashTableProofs.free_buckets_ok K V nsz nal eb Hnsz Hlay).
Local Notation idx := (@HashTableProofs.idx K hash).
Local Notation idx_lt := (@HashTableProofs.idx_lt K nsz nal hash eqb Hlay).
Local Notation bucket_index_ok := (@HashTableProofs.bucket_index_ok K V nsz nal hash eqb Hlay).
Local Notation push_all := (@HashTableProofs.push_all K V hash).
Local Notation concat_insert_perm := HashTableProofs.concat_insert_perm.
Local Notation placed := (@HashTableProofs.placed K V hash).
Local Notation push_all_spec := (@HashTableProofs.push_all_spec K V nsz nal hash eqb Hlay).
Local Notation concat_empty := HashTableProofs.concat_empty.
Local Notation empty_chains := (@HashTableProofs.empty_chains K V nsz nal).
Local Notation rehash_ok := (@HashTableProofs.rehash_ok K V nsz nal eb chk hash eqb Hnsz Hlay).
Local Notation distinct_nil := (@HashTableProofs.distinct_nil K V eqb).
Local Notation distinct_cons := (@HashTableProofs.distinct_cons K V nsz nal hash eqb Hlay KH).
Local Notation distinct_perm := (@HashTableProofs.distinct_perm K V nsz nal hash eqb Hlay KH).
Local Notation look_in := (@HashTableProofs.look_in K V eqb).
Local Notation look_none := (@HashTableProofs.look_none K V eqb).
Local Notation look_some := (@HashTableProofs.look_some K V hash eqb KH).
Local Notation look_perm := (@HashTableProofs.look_perm K V nsz nal hash eqb Hlay KH).
Local Notation has_look := (@HashTableProofs.has_look K V eqb).
Local Notation change_split := (@HashTableProofs.change_split K V nsz nal hash eqb Hlay KH).
Local Notation without_split := (@HashTableProofs.without_split K V nsz nal hash eqb Hlay KH).
Local Notation change_none := (@HashTableProofs.change_none K V eqb).
Local Notation without_none := (@HashTableProofs.without_none K V eqb).
Local Notation without_perm := (@HashTableProofs.without_perm K V eqb).
Local Notation slot_of := (@HashTableProofs.slot_of K V hash).
Local Notation chain_in_concat := (@HashTableProofs.chain_in_concat K V).
Local Notation chain_upd := (@HashTableProofs.chain_upd K V nsz nal).
Local Notation concat_insert_mem := HashTableProofs.concat_insert_mem.
Local Notation other_bucket := (@HashTableProofs.other_bucket K V nsz nal Hlay).
Local Notation last_place := (@HashTableProofs.last_place K V).
Local Notation find_place_ok := (@HashTableProofs.find_place_ok K V nsz nal eb eqb Hlay).
Local Notation chain_unlink := (@HashTableProofs.chain_unlink K V nsz nal).
Local Notation chain_head := (@HashTableProofs.chain_head K V nsz nal).
Local Notation stage_down := (@HashTableProofs.stage_down nsz nal Hlay).
Local Notation concat_delete_perm := (@HashTableProofs.concat_delete_perm K V).
Local Notation IterAt := (@HashTableProofs.IterAt K V nsz nal).
Local Notation next_bucket_ok := (@HashTableProofs.next_bucket_ok K V nsz nal Hlay).
Local Notation iter_next_ok := (@HashTableProofs.iter_next_ok K V nsz nal Hlay).
Local Notation iter_all_ok := (@HashTableProofs.iter_all_ok K V nsz nal Hlay).
Local Notation IterAt_frame := (@HashTableProofs.IterAt_frame K V nsz nal).
Local Notation split_unique := (@HashTableProofs.split_unique K V).
Local Notation upd := (@HashTableProofs.upd K V).
Local Notation result := (@HashTableProofs.result).
Local Notation extend_perm := (@HashTableProofs.extend_perm K V nsz nal hash eqb Hlay KH).

(** As many entries as this find room whatever the size at which to grow. *)
Definition roomy : Z := 2147483648.

Record LRep (h0 : thp) (s : tstate) (cs : list (list enode)) (arrs : list nat) : Prop := {
  lr_wf : heap_wf (t_h s);
  lr_static : static_ok eb h0;
  lr_bc : t_bc s = Z.of_nat (length cs);
  lr_arr : exists a ps by_, t_arr s = Ptr a 0 /\ Slots by_ (t_h s) a ps /\ Forall2 (chain (t_h s)) ps cs /\
    ((a = eb /\ arrs = [] /\ t_bc s = 1%Z) \/ (exists old, arrs = a :: old /\ (1 < t_bc s)%Z));
  lr_arrs : forall b, b ∈ arrs -> exists ps, Slots ((Z.of_nat (length ps) + 1) * 8) (t_h s) b ps;
  lr_own : arrs <> [];
  lr_ec : t_ec s = Z.of_nat (length (concat cs));
  lr_placed : placed (t_bc s) cs;
  lr_nodup : NoDup (map fst (concat cs) ++ arrs);
  lr_fresh : forall b, b ∈ map fst (concat cs) ++ arrs -> h_blk h0 !! b = None;
  lr_frame : forall b, b ∉ map fst (concat cs) ++ arrs -> h_blk (t_h s) !! b = h_blk h0 !! b;
  lr_keys : distinct eqb (entries cs);
  lr_room : (t_ec s <= roomy)%Z
}.

Lemma LRep_eb h0 s cs arrs : LRep h0 s cs arrs -> eb ∉ map fst (concat cs) ++ arrs.
Proof. intros R H. pose proof (lr_fresh _ _ _ _ R eb H) as X. pose proof (lr_static _ _ _ _ R) as Y. unfold static_ok in Y. congruence. Qed.

Lemma LRep_pos h0 s cs arrs : LRep h0 s cs arrs -> 0 < length cs.
Proof.
  intros R. pose proof (lr_own _ _ _ _ R). pose proof (lr_bc _ _ _ _ R).
  destruct (lr_arr _ _ _ _ R) as (a & ps & by_ & _ & _ & _ & [(_ & ? & _)|(old & _ & ?)]); [done|lia].
Qed.

Lemma LRep_slot h0 s cs arrs k : LRep h0 s cs arrs ->
  exists a ps by_ p c, t_arr s = Ptr a 0 /\ Slots by_ (t_h s) a ps /\ Forall2 (chain (t_h s)) ps cs /\
    slot_of s k = Ptr a (idx (t_bc s) k) /\ ps !! idx (t_bc s) k = Some p /\ cs !! idx (t_bc s) k = Some c /\ chain (t_h s) p c /\
    bucket_for_key hash k s = Ok (slot_of s k) s /\ bucket_for_key_mut hash k s = Ok (slot_of s k) s.
Proof.
  intros R. pose proof (LRep_pos _ _ _ _ R) as Pos.
  destruct (lr_arr _ _ _ _ R) as (a & ps & by_ & EA & E & F & _).
  pose proof (Forall2_length _ _ _ F) as L.
  pose proof (lr_bc _ _ _ _ R) as EB.
  assert (Hi : idx (t_bc s) k < length ps).
  { rewrite EB, L. by apply idx_lt. }
  destruct (lookup_lt_is_Some_2 ps _ Hi) as [p Hp].
  destruct (Forall2_lookup_l _ _ _ _ _ F Hp) as (c & Hc & C).
  exists a, ps, by_, p, c. split; [done|]. split; [done|]. split; [done|].
  assert (SL : slot_of s k = Ptr a (idx (t_bc s) k)) by (unfold HashTableProofs.slot_of; by rewrite EA).
  rewrite SL. split; [done|]. split; [done|]. split; [done|]. split; [done|].
  assert (HA : hadd (t_h s) (t_arr s) (idx (t_bc s) k) = Some (Ptr a (idx (t_bc s) k))).
  { rewrite EA. apply (hadd_slots _ _ _ _ _ E). lia. }
  assert (BI : bucket_index hash (t_bc s) k s = Ok (idx (t_bc s) k) s).
  { rewrite EB. by apply bucket_index_ok. }
  split.
  - unfold bucket_for_key. unfold bind at 1, gets. cbn [id]. unfold bind at 1.
    assert (HS : hslice (t_h s) (t_arr s) (Z.to_nat (t_bc s)) = Some (map TSlot ps)).
    { rewrite EA, EB, Nat2Z.id, <- L, <- (map_length (@TSlot K V) ps). apply (hslice_ok _ _ _ _ _ E).
      - cbn. rewrite slots_length, map_length. lia.
      - rewrite drop_0. cbn [bk_cells]. unfold HashTableProofs.slots. rewrite take_app_alt by (by rewrite !map_length).
        unfold fmap, list_fmap. fold (map (@Some (tcell K V)) (map TSlot ps)). by rewrite map_map. }
    rewrite HS. cbn [or_ub]. unfold ret at 1. unfold bind at 1. rewrite BI.
    rewrite map_length, (proj2 (Nat.ltb_lt _ _) Hi), HA. done.
  - unfold bucket_for_key_mut. unfold bind at 1, gets. cbn [id]. unfold bind at 1. rewrite BI, HA. done.
Qed.

Lemma NoDup_chain h0 s cs arrs i c : LRep h0 s cs arrs -> cs !! i = Some c -> NoDup (map fst c).
Proof.
  intros R Hc. pose proof (lr_nodup _ _ _ _ R) as ND. apply NoDup_app in ND as (ND & _).
  rewrite <- (take_drop_middle cs i c Hc), concat_app in ND. cbn [concat] in ND. rewrite !map_app in ND.
  apply NoDup_app in ND as (_ & _ & ND). by apply NoDup_app in ND as (ND & _).
Qed.

Lemma find_from_ok h0 s cs arrs k : LRep h0 s cs arrs ->
  match look eqb k (entries cs) with
  | None => find_from eqb (slot_of s k) k s = Ok None s
  | Some kv => exists b c1 c2, cs !! idx (t_bc s) k = Some (c1 ++ (b, kv) :: c2) /\ eqb (fst kv) k = true /\
      (forall e, e ∈ c1 -> eqb (fst (snd e)) k = false) /\
      find_from eqb (slot_of s k) k s = Ok (Some (Ptr b 0)) s
  end.
Proof.
  intros R. destruct (LRep_slot _ _ _ _ k R) as (a & ps & by_ & p & c & EA & E & F & SL & Hp & Hc & C & _ & _).
  assert (FF : find_from eqb (slot_of s k) k s = Ok ((fun e : enode => Ptr (fst e) 0) <$> List.find (fun e : enode => eqb (fst (snd e)) k) c) s).
  { unfold find_from. rewrite SL. unfold bind at 1. rewrite (read_slot_ok _ _ _ _ _ _ E Hp). unfold bind at 1, gets.
    apply find_in_bucket_ok; [done|]. eapply chain_fuel; [apply (lr_wf _ _ _ _ R)|exact C|]. by eapply NoDup_chain. }
  destruct (List.find (fun e : enode => eqb (fst (snd e)) k) c) as [e|] eqn:EF.
  - assert (exists c1 c2, c = c1 ++ e :: c2 /\ eqb (fst (snd e)) k = true /\ (forall e, e ∈ c1 -> eqb (fst (snd e)) k = false)) as (c1 & c2 & -> & Ek & N1).
    { clear - EF. revert EF. induction c as [|x c IH]; [done|]. cbn. destruct (eqb (fst (snd x)) k) eqn:Ex.
      - intros [=->]. exists [], c. split; [done|]. split; [done|]. intros y Hy. by apply elem_of_nil in Hy.
      - intros H. destruct (IH H) as (c1 & c2 & -> & ? & N). exists (x :: c1), c2. split; [done|]. split; [done|].
        intros y [->|Hy]%elem_of_cons; [done|]. by apply N. }
    assert (LK : look eqb k (entries cs) = Some (snd e)).
    { apply look_some; [apply (lr_keys _ _ _ _ R)| |done].
      apply elem_of_list_fmap. exists e. split; [done|]. eapply chain_in_concat; [exact Hc|]. rewrite elem_of_app. right. left. }
    rewrite LK. exists (fst e), c1, c2. destruct e as [b kv]. done.
  - assert (LK : look eqb k (entries cs) = None).
    { apply look_none. intros kv Hkv. apply elem_of_list_fmap in Hkv as (e & -> & He).
      destruct (eqb (fst (snd e)) k) eqn:Ek; [|done]. exfalso.
      apply elem_of_list_In, in_concat in He as (c' & Hc' & He). rewrite <- !elem_of_list_In in *.
      apply elem_of_list_lookup in Hc' as [i Hi].
      pose proof (lr_placed _ _ _ _ R i c' e Hi He) as PL.
      unfold HashTableProofs.idx in PL. rewrite (kh_hash _ _ KH _ _ Ek) in PL. fold (idx (t_bc s) k) in PL. subst i.
      rewrite Hc in Hi. injection Hi as <-. eapply find_none in EF; [|by apply elem_of_list_In]. congruence. }
    rewrite LK. exact FF.
Qed.

Lemma LRep_logged h0 s cs arrs d : LRep h0 s cs arrs -> LRep h0 (logged d s) cs arrs.
Proof. intros []. by split. Qed.

Lemma LRep_update h0 s cs arrs i c1 b k0 v c2 : LRep h0 s cs arrs -> cs !! i = Some (c1 ++ (b, (k0, v)) :: c2) ->
  exists nx, node_at (Ptr b 0) s = Ok (k0, v, nx) s /\ h_blk (t_h s) !! b = Some (nodeblk k0 v nx) /\ forall v',
    let s' := with_h s (hset (t_h s) b (nodeblk k0 v' nx)) in
    store eb (Ptr b 0) (TNode k0 v' nx) s = Ok tt s' /\
    LRep h0 s' (<[i := c1 ++ (b, (k0, v')) :: c2]> cs) arrs /\
    concat cs = (concat (take i cs) ++ c1) ++ (b, (k0, v)) :: (c2 ++ concat (drop (S i) cs)) /\
    concat (<[i := c1 ++ (b, (k0, v')) :: c2]> cs) = (concat (take i cs) ++ c1) ++ (b, (k0, v')) :: (c2 ++ concat (drop (S i) cs)).
Proof.
  intros R Hc. set (c := c1 ++ (b, (k0, v)) :: c2) in *.
  destruct (lr_arr _ _ _ _ R) as (a & ps & by_ & EA & E & F & OR).
  destruct (Forall2_lookup_r _ _ _ _ _ F Hc) as (p & Hp & C).
  pose proof (NoDup_chain _ _ _ _ _ _ R Hc) as NDc.
  destruct (chain_upd _ _ _ _ _ _ _ C NDc) as (nx & Eb & CH).
  exists nx. split; [by apply node_at_ok|]. split; [exact Eb|]. intros v' s'.
  assert (Ib : b ∈ map fst (concat cs)).
  { apply elem_of_list_fmap. exists (b, (k0, v)). split; [done|]. eapply chain_in_concat; [exact Hc|]. unfold c. rewrite elem_of_app. right. left. }
  pose proof (LRep_eb _ _ _ _ R) as NE.
  assert (Nb : b <> eb) by (intros ->; apply NE; rewrite elem_of_app; by left).
  pose proof (lookup_lt_Some _ _ _ Hc) as Li.
  assert (C0 : concat cs = (concat (take i cs) ++ c1) ++ (b, (k0, v)) :: (c2 ++ concat (drop (S i) cs))).
  { rewrite <- (take_drop_middle cs i c Hc) at 1. rewrite concat_app. cbn [concat]. unfold c. rewrite <- !app_assoc. done. }
  assert (C1 : concat (<[i := c1 ++ (b, (k0, v')) :: c2]> cs) = (concat (take i cs) ++ c1) ++ (b, (k0, v')) :: (c2 ++ concat (drop (S i) cs))).
  { rewrite insert_take_drop by done. rewrite concat_app. cbn [concat]. rewrite <- !app_assoc. done. }
  assert (IDS : map fst (concat (<[i := c1 ++ (b, (k0, v')) :: c2]> cs)) = map fst (concat cs)).
  { rewrite C0, C1, !map_app. done. }
  pose proof (lr_nodup _ _ _ _ R) as ND.
  assert (Ndisj : forall x, x ∈ map fst (concat cs) -> x ∉ arrs).
  { apply NoDup_app in ND as (_ & N & _). exact N. }
  assert (Na : b <> a).
  { intros ->. destruct OR as [(-> & _)|(old & -> & _)]; [done|]. apply (Ndisj a Ib). left. }
  split; [by apply (store_node_ok s b _ _ _ _ Eb)|]. split; [|done].
  assert (OB : forall x, x <> b -> h_blk (t_h s') !! x = h_blk (t_h s) !! x).
  { intros x Hx. cbn. by rewrite lookup_insert_ne. }
  split.
  - cbn. apply wf_hset; [apply (lr_wf _ _ _ _ R)|by eexists].
  - apply (lr_static _ _ _ _ R).
  - rewrite insert_length. apply (lr_bc _ _ _ _ R).
  - exists a, ps, by_. split; [done|]. split; [unfold HashTableProofs.Slots; rewrite OB by done; exact E|]. split; [|exact OR].
    rewrite <- (list_insert_id ps i p Hp). apply Forall2_same_length_lookup_2.
    + rewrite !insert_length. by eapply Forall2_length.
    + intros j x y Hx Hy. destruct (decide (j = i)) as [->|Nj].
      * pose proof (lookup_lt_Some _ _ _ Hp). rewrite list_lookup_insert in Hx by done. rewrite list_lookup_insert in Hy by done. simplify_eq. apply CH.
      * rewrite list_lookup_insert_ne in Hx by done. rewrite list_lookup_insert_ne in Hy by done.
        pose proof (Forall2_lookup_lr _ _ _ _ _ _ F Hx Hy) as Cj. eapply chain_frame; [exact Cj|].
        intros x' Hx'. apply OB. intros ->.
        apply NoDup_app in ND as (ND & _).
        rewrite <- (take_drop_middle cs i c Hc), concat_app in ND. cbn [concat] in ND. rewrite !map_app in ND.
        assert (I1 : b ∈ map fst c) by (unfold c; rewrite map_app, elem_of_app; right; left).
        apply NoDup_app in ND as (_ & N1 & N2). apply NoDup_app in N2 as (_ & N2 & _).
        apply elem_of_list_fmap in Hx' as (e & Ee & He).
        destruct (decide (j < i)).
        -- apply (N1 b); [|rewrite elem_of_app; by left]. apply elem_of_list_fmap. exists e. split; [done|].
           eapply (chain_in_concat _ j); [|exact He]. by rewrite lookup_take by lia.
        -- apply (N2 b I1). apply elem_of_list_fmap. exists e. split; [done|].
           eapply (chain_in_concat _ (j - S i)); [|exact He]. rewrite lookup_drop. rewrite <- Hy. f_equal. lia.
  - intros x Hx. destruct (lr_arrs _ _ _ _ R x Hx) as [ps' S']. exists ps'. unfold HashTableProofs.Slots. rewrite OB; [exact S'|].
    intros ->. by apply (Ndisj b Ib).
  - apply (lr_own _ _ _ _ R).
  - cbn [t_ec with_h s']. rewrite (lr_ec _ _ _ _ R), C1, C0, !app_length. done.
  - intros j cj e Hj He. destruct (decide (j = i)) as [->|Nj].
    + rewrite list_lookup_insert in Hj by done. injection Hj as <-.
      apply elem_of_app in He as [He|[->|He]%elem_of_cons].
      * eapply (lr_placed _ _ _ _ R); [exact Hc|]. unfold c. rewrite elem_of_app. by left.
      * apply (lr_placed _ _ _ _ R i c (b, (k0, v)) Hc). unfold c. rewrite elem_of_app. right. left.
      * eapply (lr_placed _ _ _ _ R); [exact Hc|]. unfold c. rewrite elem_of_app. right. by right.
    + rewrite list_lookup_insert_ne in Hj by done. by eapply (lr_placed _ _ _ _ R).
  - by rewrite IDS.
  - rewrite IDS. apply (lr_fresh _ _ _ _ R).
  - rewrite IDS. intros x Hx. rewrite OB; [by apply (lr_frame _ _ _ _ R)|]. intros ->. apply Hx. rewrite elem_of_app. by left.
  - pose proof (lr_keys _ _ _ _ R) as D. rewrite C0 in D. rewrite C1. rewrite !map_app in D |- *. cbn [map snd] in D |- *. rewrite !map_app in D |- *.
    intros x y e1 e2 H1 H2 Ek. revert H1 H2.
    intros H1 H2.
    assert (G : forall z e, (((map snd (concat (take i cs)) ++ map snd c1) ++ (k0, v') :: map snd c2 ++ map snd (concat (drop (S i) cs))) !! z = Some e ->
              exists e0, fst e0 = fst e /\ ((map snd (concat (take i cs)) ++ map snd c1) ++ (k0, v) :: map snd c2 ++ map snd (concat (drop (S i) cs))) !! z = Some e0)).
    { intros z e Hz. set (L := map snd (concat (take i cs)) ++ map snd c1) in *. clearbody L.
      destruct (decide (z < length L)).
      - rewrite lookup_app_l in Hz by done. exists e. split; [done|]. by rewrite lookup_app_l.
      - rewrite lookup_app_r in Hz by lia. destruct (z - length L) as [|q] eqn:Eq; cbn in Hz.
        + injection Hz as <-. exists (k0, v). split; [done|]. rewrite lookup_app_r by lia. by rewrite Eq.
        + exists e. split; [done|]. rewrite lookup_app_r by lia. by rewrite Eq. }
    destruct (G x e1 H1) as (f1 & E1' & G1). destruct (G y e2 H2) as (f2 & E2' & G2).
    apply (D x y f1 f2 G1 G2). congruence.
  - cbn. apply (lr_room _ _ _ _ R).
Qed.

(** Within [roomy] the policy always has an answer. *)
Lemma policy_loose bc ec nr : (0 <= ec)%Z -> (ec + 1 <= roomy)%Z -> (1 < bc)%Z -> exists o nr', get_rehash_required chk bc ec 1 nr = Ok o nr' /\
  match o with Some p => (2 <= p)%Z /\ (p + 1 < u32_lim)%Z | None => True end.
Proof.
  intros P0 P1 P2. assert (exists o nr', get_rehash_required chk bc ec 1 nr = Ok o nr') as (o & nr' & E).
  { unfold get_rehash_required. pose proof least_prime as LP. assert (IN : 4294967291%Z ∈ PRIMES).
    { apply elem_of_list_In. assert (X : existsb (Z.eqb 4294967291) PRIMES = true) by (vm_compute; reflexivity).
      apply existsb_exists in X as (x & I & Q). apply Z.eqb_eq in Q. by subst x. }
    revert LP IN. generalize PRIMES. intros PR LP IN. unfold bind at 1. rewrite u32_ok by (unfold u32_lim, roomy in *; lia).
    unfold bind at 1, gets. cbn [id]. destruct (nr <? ec + 1)%Z; [|by eexists _, _].
    rewrite (proj2 (Z.eqb_neq bc 1)) by lia. destruct (f32 bc <? f32 (ec + 1))%Z eqn:FE; [|by eexists _, _].
    apply Z.ltb_lt in FE. assert (F1 : (f32 (ec + 1) <= 2147483648)%Z).
    { etransitivity; [apply (f32_mono _ 2147483648); exact P1|]. vm_compute. done. }
    assert (F2 : (f32 bc <= 2147483520)%Z).
    { destruct (Z.le_gt_cases bc 2147483583) as [L|L].
      - etransitivity; [apply (f32_mono _ _ L)|]. vm_compute. done.
      - pose proof (f32_mono 2147483584 bc ltac:(lia)) as X. change (f32 2147483584) with 2147483648%Z in X. lia. }
    unfold bind at 1. destruct (LP (as_u32 (Z.max (f32 (ec + 1)) (2 * f32 bc)))) as (i & c & -> & X). cbn [or_ub]. unfold ret at 1. cbn [fst].
    destruct (PR !! i) as [p|]; [by eexists _, _|]. specialize (X _ IN). unfold as_u32, u32_lim in X. lia. }
  exists o, nr'. split; [done|]. destruct o as [p|]; [|done]. apply policy_answers in E as [E _].
  apply elem_of_list_In in E. assert (FA : forallb (fun p => (2 <=? p) && (p <=? 4294967291))%Z PRIMES = true) by (vm_compute; reflexivity).
  eapply forallb_forall in FA; [|exact E]. unfold u32_lim. lia.
Qed.

Definition with_nr (s : tstate) (nr : Z) : tstate := TState (t_arr s) (t_bc s) (t_ec s) nr (t_h s) (t_drops s).
Lemma LRep_nr h0 s cs arrs nr : LRep h0 s cs arrs -> LRep h0 (with_nr s nr) cs arrs.
Proof. intros []. by split. Qed.
Lemma LRep_bc h0 s cs arrs : LRep h0 s cs arrs -> (1 < t_bc s)%Z.
Proof.
  intros R. pose proof (lr_own _ _ _ _ R). destruct (lr_arr _ _ _ _ R) as (a & ps & by_ & _ & _ & _ & [(_ & ? & _)|(old & _ & ?)]); [done|lia].
Qed.

(** ** Inserting a new key *)
Lemma grow_ok h0 s cs arrs : LRep h0 s cs arrs -> (t_ec s + 1 <= roomy)%Z ->
  exists o nr s1 cs1 arrs1, rehash_required chk s = Ok o (with_nr s nr) /\
    match o with None => s1 = with_nr s nr | Some n => rehash nsz nal eb chk hash n (with_nr s nr) = Ok tt s1 end /\
    LRep h0 s1 cs1 arrs1 /\
    concat cs1 ≡ₚ concat cs /\ t_drops s1 = t_drops s /\ t_ec s1 = t_ec s.
Proof.
  intros R0 RM. pose proof (LRep_bc _ _ _ _ R0) as B1. pose proof (lr_ec _ _ _ _ R0) as EC0.
  destruct (policy_loose (t_bc s) (t_ec s) (t_nr s)) as (o & nr & P & PB); [lia|done|done|].
  exists o, nr. assert (RQ : rehash_required chk s = Ok o (with_nr s nr)) by (unfold rehash_required; by rewrite P).
  pose proof (LRep_nr _ _ _ _ nr R0) as R.
  destruct o as [pn|]; [|by exists (with_nr s nr), cs, arrs].
  set (s0 := with_nr s nr) in *.
  destruct (lr_arr _ _ _ _ R) as (a & ps & by_ & EA & E & F & OR).
  set (n := Z.to_nat pn).
  assert (En : pn = Z.of_nat n) by (unfold n; lia).
  pose proof (Forall2_length _ _ _ F) as Lp. pose proof (lr_bc _ _ _ _ R) as EB.
  pose proof (lr_nodup _ _ _ _ R) as ND.
  pose proof (LRep_eb _ _ _ _ R) as NE. apply not_elem_of_app in NE as [NE1 NE2].
  assert (Ndisj : forall x, x ∈ map fst (concat cs) -> x ∉ arrs).
  { apply NoDup_app in ND as (_ & N & _). exact N. }
  assert (NDi : NoDup (map fst (concat cs))) by (by apply NoDup_app in ND as (N & _)).
  assert (NDa : NoDup arrs) by (by apply NoDup_app in ND as (_ & _ & N)).
  assert (NIa : a ∉ map fst (concat cs)).
  { intros H. destruct OR as [(-> & _)|(old & -> & _)]; [done|]. apply (Ndisj a H). left. }
  assert (LIVEEB : h_blk (t_h s) !! eb = h_blk h0 !! eb).
  { apply (lr_frame _ _ _ _ R). rewrite not_elem_of_app. done. }
  pose proof (lr_own _ _ _ _ R) as OWN.
  destruct (rehash_ok by_ a ps cs n s0) as (h' & ps' & RR & HN & HO & HS & HL & HS2 & HC).
  - exact EA.
  - cbn. cbn in EB. rewrite EB. by rewrite Lp.
  - lia.
  - unfold u32_lim in *. lia.
  - apply (lr_wf _ _ _ _ R).
  - exact E.
  - exact F.
  - done.
  - done.
  - done.
  - cbn. rewrite LIVEEB. pose proof (lr_static _ _ _ _ R) as S0. by eexists.
  - intros ->. destruct OR as [(_ & ? & _)|(old & -> & _)]; [done|]. exfalso. apply NE2. left.
  - intros Na. cbn in EB. lia.
  - set (nb := h_next (t_h s)) in *. change (h_next (t_h s0)) with nb in *. change (t_h s0) with (t_h s) in *.
    set (s1 := TState (Ptr nb 0) (Z.of_nat n) (t_ec s0) (t_nr s0) h' (t_drops s0)) in *.
    destruct (push_all_spec n (concat cs) (replicate n []) ltac:(lia)) as (LP & PP & PL); [apply replicate_length|].
    rewrite concat_empty, app_nil_r in PP.
    set (cs1 := push_all (Z.of_nat n) (concat cs) (replicate n [])) in *.
    pose proof (wf_fresh _ (lr_wf _ _ _ _ R)) as Fr. change (t_h s0) with (t_h s) in Fr. fold nb in Fr.
    assert (Nbi : nb ∉ map fst (concat cs)).
    { intros H. destruct (chains_live _ _ _ _ F H) as [? X]. congruence. }
    assert (Nba : nb ∉ arrs).
    { intros H. destruct (lr_arrs _ _ _ _ R nb H) as [? X]. unfold HashTableProofs.Slots in X. change (t_h s0) with (t_h s) in X. congruence. }
    assert (Nb0 : h_blk h0 !! nb = None).
    { rewrite <- (lr_frame _ _ _ _ R); [done|]. rewrite not_elem_of_app. done. }
    assert (PI : map fst (concat cs1) ≡ₚ map fst (concat cs)) by (by apply Permutation_map).
    assert (Eold : forall x, x <> nb -> x <> a -> x ∉ map fst (concat cs) -> h_blk h' !! x = h_blk (t_h s) !! x).
    { intros x X1 X2 X3. apply HO. rewrite !not_elem_of_cons. done. }
    exists s1, cs1, (nb :: arrs). rewrite En in *.
    split; [exact RQ|]. split; [exact RR|].
    split; [|split; [exact PP|split; done]].
    assert (Lnn : (length cs1 = n)) by exact LP.
    split.
    + cbn. intros x Hx. rewrite HN. fold nb.
      destruct (decide (x = nb)) as [->|X1]; [lia|].
      enough (x < nb) by lia. apply (lr_wf _ _ _ _ R).
      destruct (decide (x = a)) as [->|X2]; [by eexists|].
      destruct (decide (x ∈ map fst (concat cs))) as [X3|X3]; [by eapply chains_live|].
      change (t_h s0) with (t_h s). rewrite <- Eold by done. exact Hx.
    + apply (lr_static _ _ _ _ R).
    + cbn. lia.
    + exists nb, ps', ((Z.of_nat n + 1) * 8)%Z. split; [done|]. split; [exact HS2|]. split; [exact HC|]. right. exists arrs. split; [done|]. cbn. lia.
    + intros x [->|Hx]%elem_of_cons.
      { exists ps'. rewrite HL. exact HS2. }
      destruct (lr_arrs _ _ _ _ R x Hx) as [psx Sx].
      destruct (decide (x = a)) as [->|X2].
      { exists (replicate (length ps) Null). rewrite replicate_length.
        cbn. assert (by_ = (Z.of_nat (length ps) + 1) * 8)%Z as <-; [|exact HS].
        unfold HashTableProofs.Slots in E, Sx. change (t_h s0) with (t_h s) in Sx. rewrite E in Sx. injection Sx as -> Hsl.
        assert (length (slots ps) = length (slots psx)) as Q by congruence. rewrite !slots_length in Q. lia. }
      exists psx. unfold HashTableProofs.Slots. cbn. rewrite Eold; [exact Sx|congruence|done|].
      intros H. by apply (Ndisj x H).
    + done.
    + cbn. rewrite (Permutation_length PP). exact EC0.
    + cbn. apply PL. intros i c e Hi He. apply lookup_replicate in Hi as [-> _]. by apply elem_of_nil in He.
    + cbn. rewrite PI. apply NoDup_app. split; [done|]. split.
      * intros x Hx [->|Hx']%elem_of_cons; [done|]. by apply (Ndisj x Hx).
      * by constructor.
    + intros x Hx. rewrite PI in Hx. apply elem_of_app in Hx as [Hx|[->|Hx]%elem_of_cons].
      * apply (lr_fresh _ _ _ _ R). rewrite elem_of_app. by left.
      * done.
      * apply (lr_fresh _ _ _ _ R). rewrite elem_of_app. by right.
    + intros x Hx. rewrite PI in Hx. rewrite not_elem_of_app, not_elem_of_cons in Hx. destruct Hx as (X1 & X2 & X3). cbn.
      destruct (decide (x = a)) as [->|X4].
      { destruct OR as [(_ & ? & _)|(old & -> & _)]; [done|exfalso; apply X3; left]. }
      rewrite Eold by done. apply (lr_frame _ _ _ _ R). rewrite not_elem_of_app. done.
    + eapply distinct_perm; [|apply (lr_keys _ _ _ _ R)]. symmetry. by apply Permutation_map.
    + cbn. lia.
Qed.

Lemma LRep_bucket h0 s cs arrs (s' : tstate) i c c' ps ps' by_ a :
  LRep h0 s cs arrs -> cs !! i = Some c -> t_arr s = Ptr a 0 -> Slots by_ (t_h s) a ps -> Forall2 (chain (t_h s)) ps cs ->
  a ∈ arrs ->
  t_arr s' = t_arr s -> t_bc s' = t_bc s ->
  heap_wf (t_h s') -> Slots by_ (t_h s') a ps' -> length ps' = length ps -> (forall j, j <> i -> ps' !! j = ps !! j) ->
  (exists p', ps' !! i = Some p' /\ chain (t_h s') p' c') ->
  (forall b, b ∉ a :: map fst c ++ map fst c' -> h_blk (t_h s') !! b = h_blk (t_h s) !! b) ->
  (forall b, b ∈ map fst c' -> b ∉ map fst c -> h_blk h0 !! b = None /\ b ∉ arrs /\ b ∉ map fst (concat cs)) ->
  (forall b, b ∈ map fst c -> b ∉ map fst c' -> h_blk (t_h s') !! b = None) ->
  NoDup (map fst c') -> (forall e, e ∈ c' -> idx (t_bc s) (fst (snd e)) = i) ->
  distinct eqb (entries (<[i := c']> cs)) -> t_ec s' = Z.of_nat (length (concat (<[i := c']> cs))) ->
  (t_ec s' <= roomy)%Z ->
  LRep h0 s' (<[i := c']> cs) arrs.
Proof.
  intros R Hc EA E F Ia EA' EB' W' S' Lp' Op (p' & Hp' & Cp') FR NEW DEL NDc' PLC DIS EC ST.
  pose proof (lr_nodup _ _ _ _ R) as ND.
  assert (NDi : NoDup (map fst (concat cs))) by (by apply NoDup_app in ND as (N & _)).
  assert (NDa : NoDup arrs) by (by apply NoDup_app in ND as (_ & _ & N)).
  assert (Ndisj : forall x, x ∈ map fst (concat cs) -> x ∉ arrs).
  { apply NoDup_app in ND as (_ & N & _). exact N. }
  assert (INC : forall x, x ∈ map fst c -> x ∈ map fst (concat cs)).
  { intros x Hx. apply elem_of_list_fmap in Hx as (e & -> & He). apply elem_of_list_fmap. exists e. split; [done|]. by eapply chain_in_concat. }
  pose proof (lookup_lt_Some _ _ _ Hc) as Li.
  assert (CD : forall x, x ∈ map fst c' -> x ∉ arrs).
  { intros x Hx. destruct (decide (x ∈ map fst c)) as [I|I]; [by apply Ndisj, INC|]. by apply (NEW x Hx I). }
  assert (MEM : forall x, x ∈ map fst (concat (<[i := c']> cs)) -> x ∈ map fst c' \/ exists j cj, j <> i /\ cs !! j = Some cj /\ x ∈ map fst cj).
  { intros x Hx. apply elem_of_list_fmap in Hx as (e & -> & He). destruct (concat_insert_mem _ _ _ _ _ Hc He) as [H|(j & cj & N & Hj & He')].
    - left. apply elem_of_list_fmap. eauto.
    - right. exists j, cj. split; [done|]. split; [done|]. apply elem_of_list_fmap. eauto. }
  assert (OTH : forall j cj x, j <> i -> cs !! j = Some cj -> x ∈ map fst cj -> x ∈ map fst (concat cs) /\ x ∉ map fst c /\ x ∉ map fst c').
  { intros j cj x N Hj Hx. assert (X : x ∈ map fst (concat cs)).
    { apply elem_of_list_fmap in Hx as (e & -> & He). apply elem_of_list_fmap. exists e. split; [done|]. by eapply chain_in_concat. }
    assert (Y : x ∉ map fst c) by (intros H; by eapply (other_bucket cs i j)).
    split; [done|]. split; [done|]. intros H. by destruct (NEW x H Y) as (_ & _ & Z). }
  pose proof (concat_insert_perm cs i c c' Hc) as PM.
  split.
  - done.
  - apply (lr_static _ _ _ _ R).
  - rewrite EB', insert_length. apply (lr_bc _ _ _ _ R).
  - exists a, ps', by_. split; [congruence|]. split; [done|]. split.
    + apply Forall2_same_length_lookup_2.
      * rewrite insert_length, Lp'. by eapply Forall2_length.
      * intros j x y Hx Hy. destruct (decide (j = i)) as [->|Nj].
        -- rewrite list_lookup_insert in Hy by done. simplify_eq. done.
        -- rewrite list_lookup_insert_ne in Hy by done. rewrite Op in Hx by done.
           pose proof (Forall2_lookup_lr _ _ _ _ _ _ F Hx Hy) as Cj. eapply chain_frame; [exact Cj|].
           intros z Hz. destruct (OTH j y z Nj Hy Hz) as (O1 & O2 & O3). apply FR.
           rewrite not_elem_of_cons, not_elem_of_app. split; [|done]. intros ->. by apply (Ndisj a O1).
    + destruct (lr_arr _ _ _ _ R) as (a2 & _ & _ & EA2 & _ & _ & [(-> & -> & _)|(old & -> & B)]).
      * by apply elem_of_nil in Ia.
      * right. exists old. rewrite EB'. split; [|done]. rewrite EA2 in EA. by injection EA as ->.
  - intros x Hx. destruct (decide (x = a)) as [->|N].
    + exists ps'. destruct (lr_arrs _ _ _ _ R a Ia) as [psx Sx].
      assert (by_ = (Z.of_nat (length ps') + 1) * 8)%Z as <-; [|exact S'].
      unfold HashTableProofs.Slots in E, Sx. rewrite E in Sx. injection Sx as -> Hsl.
      assert (length (slots ps) = length (slots psx)) as Q by congruence. rewrite !slots_length in Q. lia.
    + destruct (lr_arrs _ _ _ _ R x Hx) as [psx Sx]. exists psx. unfold HashTableProofs.Slots. rewrite FR; [exact Sx|].
      rewrite not_elem_of_cons, not_elem_of_app. split; [done|]. split; intros H.
      * by apply (Ndisj x (INC x H)).
      * by apply (CD x H).
  - apply (lr_own _ _ _ _ R).
  - done.
  - rewrite EB'. intros j cj e Hj He. destruct (decide (j = i)) as [->|Nj].
    + rewrite list_lookup_insert in Hj by done. injection Hj as <-. by apply PLC.
    + rewrite list_lookup_insert_ne in Hj by done. by eapply (lr_placed _ _ _ _ R).
  - apply NoDup_app. split; [|split; [|done]].
    + rewrite insert_take_drop by done. rewrite concat_app. cbn [concat]. rewrite !map_app.
      assert (map fst (concat (take i cs)) ++ map fst c' ++ map fst (concat (drop (S i) cs)) ≡ₚ map fst c' ++ map fst (concat (take i cs) ++ concat (drop (S i) cs))) as ->
        by (rewrite map_app; solve_Permutation).
      rewrite <- concat_app.
      assert (SUB : forall x, x ∈ map fst (concat (take i cs ++ drop (S i) cs)) -> exists j cj, j <> i /\ cs !! j = Some cj /\ x ∈ map fst cj).
      { intros x Hx. apply elem_of_list_fmap in Hx as (e & -> & He). apply elem_of_list_In, in_concat in He as (cj & Hj & He).
        rewrite <- !elem_of_list_In in *. apply elem_of_app in Hj as [Hj|Hj]; apply elem_of_list_lookup in Hj as [j Hj].
        - assert (j < i) by (apply lookup_lt_Some in Hj; rewrite take_length in Hj; lia).
          rewrite lookup_take in Hj by done. exists j, cj. split; [lia|]. split; [done|]. apply elem_of_list_fmap. eauto.
        - rewrite lookup_drop in Hj. exists (S i + j), cj. split; [lia|]. split; [done|]. apply elem_of_list_fmap. eauto. }
      apply NoDup_app. split; [done|]. split.
      * intros x Hx Hx'. destruct (SUB x Hx') as (j & cj & Nj & Hj & Hxj). by destruct (OTH j cj x Nj Hj Hxj) as (_ & _ & ?).
      * rewrite <- (take_drop_middle cs i c Hc), concat_app in NDi. cbn [concat] in NDi. rewrite !map_app in NDi.
        rewrite concat_app, map_app.
        apply NoDup_app in NDi as (N1 & N2 & N3). apply NoDup_app in N3 as (_ & _ & N4).
        apply NoDup_app. split; [done|]. split; [|done]. intros x Hx Hx'. apply (N2 x Hx). rewrite elem_of_app. by right.
    + intros x Hx. destruct (MEM x Hx) as [H|(j & cj & Nj & Hj & H)]; [by apply CD|].
      apply Ndisj. by destruct (OTH j cj x Nj Hj H) as (? & _).
  - intros x [Hx|Hx]%elem_of_app.
    + destruct (MEM x Hx) as [H|(j & cj & Nj & Hj & H)].
      * destruct (decide (x ∈ map fst c)) as [I|I].
        -- apply (lr_fresh _ _ _ _ R). rewrite elem_of_app. left. by apply INC.
        -- by apply (NEW x H I).
      * apply (lr_fresh _ _ _ _ R). rewrite elem_of_app. left. by destruct (OTH j cj x Nj Hj H) as (? & _).
    + apply (lr_fresh _ _ _ _ R). rewrite elem_of_app. by right.
  - intros x Hx. rewrite not_elem_of_app in Hx. destruct Hx as [X1 X2].
    assert (Xc' : x ∉ map fst c').
    { intros H. apply X1. apply elem_of_list_fmap in H as (e & -> & He). apply elem_of_list_fmap. exists e. split; [done|].
      eapply (chain_in_concat _ i); [|exact He]. by rewrite list_lookup_insert. }
    assert (Xa : x <> a) by (intros ->; done).
    destruct (decide (x ∈ map fst c)) as [I|I].
    + rewrite (DEL x I Xc'). symmetry. apply (lr_fresh _ _ _ _ R). rewrite elem_of_app. left. by apply INC.
    + rewrite FR by (rewrite not_elem_of_cons, not_elem_of_app; done).
      apply (lr_frame _ _ _ _ R). rewrite not_elem_of_app. split; [|done].
      intros H. apply X1. apply elem_of_list_fmap in H as (e & -> & He).
      apply elem_of_list_In, in_concat in He as (cj & Hj & He). rewrite <- !elem_of_list_In in *.
      apply elem_of_list_lookup in Hj as [j Hj].
      assert (Nj : j <> i).
      { intros ->. rewrite Hc in Hj. injection Hj as <-. apply I. apply elem_of_list_fmap. eauto. }
      apply elem_of_list_fmap. exists e. split; [done|]. eapply (chain_in_concat _ j); [|exact He].
      by rewrite list_lookup_insert_ne.
  - done.
  - done.
Qed.

Lemma LRep_array h0 s cs arrs a ps by_ : LRep h0 s cs arrs -> t_arr s = Ptr a 0 -> arrs <> [] ->
  Slots by_ (t_h s) a ps -> a ∈ arrs /\ a <> eb /\ a ∉ map fst (concat cs).
Proof.
  intros R EA NA _. destruct (lr_arr _ _ _ _ R) as (a2 & _ & _ & EA2 & _ & _ & [(-> & -> & _)|(old & -> & B)]); [done|].
  rewrite EA in EA2. injection EA2 as <-. assert (I : a ∈ a :: old) by left. split; [done|]. split.
  - intros ->. apply (LRep_eb _ _ _ _ R). rewrite elem_of_app. by right.
  - pose proof (lr_nodup _ _ _ _ R) as ND. apply NoDup_app in ND as (_ & N & _). intros H. by apply (N a H).
Qed.

Lemma push_ok h0 s cs arrs k v : LRep h0 s cs arrs -> (t_ec s + 1 <= roomy)%Z ->
  look eqb k (entries cs) = None ->
  exists b sA s' cs', allocate nsz nal 1 s = Ok (Ptr b 0) sA /\
    (do nx <- read_slot (slot_of s k);
     run store eb (Ptr b 0) (TNode k v nx);
     run write_slot eb (slot_of s k) (Ptr b 0);
     do s <- gets id;
     do ec <- u32 chk (t_ec s + 1);
     run set_ec ec;
     ret (Ptr b 0)) sA = Ok (Ptr b 0) s' /\
    LRep h0 s' cs' arrs /\ concat cs' ≡ₚ (b, (k, v)) :: concat cs /\ t_drops s' = t_drops s /\ t_bc s' = t_bc s /\
    exists nx, node_at (Ptr b 0) s' = Ok (k, v, nx) s'.
Proof.
  intros R G LK. pose proof (lr_own _ _ _ _ R) as NA.
  destruct (LRep_slot _ _ _ _ k R) as (a & ps & by_ & p & c & EA & E & F & SL & Hp & Hc & C & _ & _).
  destruct (LRep_array _ _ _ _ _ _ _ R EA NA E) as (Ia & Na & Da).
  set (i := idx (t_bc s) k) in *. pose proof (lr_wf _ _ _ _ R) as W.
  set (b := h_next (t_h s)).
  assert (Fb : h_blk (t_h s) !! b = None).
  { destruct (h_blk (t_h s) !! b) eqn:Q; [|done]. assert (b < h_next (t_h s)) by (apply W; by rewrite Q). unfold b in *. lia. }
  assert (Nab : a <> b) by (intros ->; unfold HashTableProofs.Slots in E; congruence).
  assert (Ncb : b ∉ map fst (concat cs)).
  { intros H. destruct (chains_live _ _ _ _ F H) as [x Hx]. congruence. }
  assert (Narr : b ∉ arrs).
  { intros H. destruct (lr_arrs _ _ _ _ R b H) as [psx Sx]. unfold HashTableProofs.Slots in Sx. congruence. }
  assert (Fb0 : h_blk h0 !! b = None).
  { rewrite <- (lr_frame _ _ _ _ R b); [done|]. rewrite not_elem_of_app. done. }
  assert (Neb : b <> eb).
  { intros Q. pose proof (lr_static _ _ _ _ R) as Y. unfold static_ok in Y. rewrite <- Q in Y. congruence. }
  pose proof (lookup_lt_Some _ _ _ Hc) as Li. pose proof (lookup_lt_Some _ _ _ Hp) as Lip.
  set (h1 := halloc (t_h s) (Block nsz nal [None])).
  set (h2 := hset h1 b (nodeblk k v p)).
  set (h3 := hset h2 a (Block by_ 8 (slots (<[i := Ptr b 0]> ps)))).
  set (sA := with_h s h1).
  set (s' := TState (t_arr s) (t_bc s) (t_ec s + 1) (t_nr s) h3 (t_drops s)).
  assert (E1 : Slots by_ h1 a ps).
  { unfold HashTableProofs.Slots, h1. cbn. rewrite lookup_insert_ne by done. exact E. }
  assert (E2 : Slots by_ h2 a ps).
  { unfold HashTableProofs.Slots, h2. cbn. rewrite lookup_insert_ne by done. exact E1. }
  assert (Lb : forall x, x <> a -> x <> b -> h_blk h3 !! x = h_blk (t_h s) !! x).
  { intros x X1 X2. unfold h3, h2, h1. cbn. by rewrite !lookup_insert_ne. }
  assert (Bb : h_blk h3 !! b = Some (nodeblk k v p)).
  { unfold h3, h2. cbn. rewrite lookup_insert_ne by done. by rewrite lookup_insert. }
  exists b, sA, s', (<[i := (b, (k, v)) :: c]> cs). split; [apply alloc_node_ok|]. split.
  { rewrite SL. unfold bind at 1. rewrite (read_slot_ok by_ sA a ps i p E1 Hp).
    unfold bind at 1. rewrite (store_node_ok sA b nsz nal None (TNode k v p)); [|unfold sA, h1; cbn; by rewrite lookup_insert|done].
    unfold bind at 1. rewrite (write_slot_ok by_ _ a ps i (Ptr b 0)); [|exact E2|done|done].
    unfold bind at 1, gets at 1. cbn [id t_ec with_h]. unfold bind at 1.
    assert (t_ec sA = t_ec s) as -> by done.
    rewrite u32_ok; [done|]. pose proof (lr_ec _ _ _ _ R). unfold roomy, u32_lim in *. lia. }
  pose proof (concat_insert_perm cs i c ((b, (k, v)) :: c) Hc) as PM.
  assert (PM2 : concat (<[i := (b, (k, v)) :: c]> cs) ≡ₚ (b, (k, v)) :: concat cs).
  { rewrite <- (take_drop_middle cs i c Hc) at 2. rewrite insert_take_drop by done. rewrite !concat_app. cbn [concat app].
    solve_Permutation. }
  split.
  { eapply (LRep_bucket h0 s cs arrs s' i c ((b, (k, v)) :: c) ps (<[i := Ptr b 0]> ps) by_ a); try done.
    - intros x Hx. cbn. destruct (decide (x = b)) as [->|X1]; [unfold b; lia|].
      destruct (decide (x = a)) as [->|X2].
      + assert (a < h_next (t_h s)) by (apply W; unfold HashTableProofs.Slots in E; by rewrite E). lia.
      + unfold s' in Hx. cbn [t_h] in Hx. rewrite Lb in Hx by done. apply W in Hx. lia.
    - unfold HashTableProofs.Slots. cbn. by rewrite lookup_insert.
    - by rewrite insert_length.
    - intros j Nj. by rewrite list_lookup_insert_ne.
    - exists (Ptr b 0). split; [by rewrite list_lookup_insert|]. exists p. split; [done|]. split; [exact Bb|].
      eapply chain_frame; [exact C|]. intros x Hx. apply Lb.
      + intros ->. apply Da. apply elem_of_list_fmap in Hx as (e & -> & He). apply elem_of_list_fmap. exists e. split; [done|]. by eapply chain_in_concat.
      + intros ->. apply Ncb. apply elem_of_list_fmap in Hx as (e & Ee & He). apply elem_of_list_fmap. exists e. split; [done|]. by eapply chain_in_concat.
    - intros x Hx. rewrite not_elem_of_cons, not_elem_of_app in Hx. destruct Hx as (X1 & X2 & X3).
      cbn in X3. rewrite not_elem_of_cons in X3. apply Lb; tauto.
    - intros x Hx Hn. cbn in Hx. apply elem_of_cons in Hx as [->|Hx]; done.
    - intros x Hx Hn. exfalso. apply Hn. cbn. by right.
    - cbn. apply NoDup_cons. split; [|by eapply NoDup_chain]. intros Hx. apply Ncb.
      apply elem_of_list_fmap in Hx as (e & Ee & He). apply elem_of_list_fmap. exists e. split; [done|]. by eapply chain_in_concat.
    - intros e [->|He]%elem_of_cons; [done|]. by eapply (lr_placed _ _ _ _ R).
    - unfold entries. eapply distinct_perm; [symmetry; apply Permutation_map; exact PM2|]. cbn [map snd]. apply distinct_cons.
      split; [|apply (lr_keys _ _ _ _ R)]. rewrite look_none in LK. intros y Hy. rewrite <- (LK y Hy). cbn [fst].
      destruct (eqb (fst y) k) eqn:Q1, (eqb k (fst y)) eqn:Q2; try done.
      + apply (kh_sym _ _ KH) in Q1. congruence.
      + apply (kh_sym _ _ KH) in Q2. congruence.
    - cbn [s' t_ec]. rewrite (Permutation_length PM2). cbn [length]. rewrite (lr_ec _ _ _ _ R). lia.
    }
  split; [exact PM2|]. split; [done|]. split; [done|]. exists p. by apply node_at_ok.
Qed.

Lemma unlink_ok h0 s cs arrs i c1 b k v c2 a ps by_ : LRep h0 s cs arrs -> arrs <> [] ->
  t_arr s = Ptr a 0 -> Slots by_ (t_h s) a ps -> Forall2 (chain (t_h s)) ps cs ->
  cs !! i = Some (c1 ++ (b, (k, v)) :: c2) ->
  exists nx h1 ps1, node_at (Ptr b 0) s = Ok (k, v, nx) s /\
    write_place eb (last_place (ASlot (Ptr a i)) c1) nx s = Ok tt (with_h s h1) /\
    h_blk h1 !! b = Some (nodeblk k v nx) /\
    frame (a :: map fst c1) (t_h s) h1 /\ Slots by_ h1 a ps1 /\ length ps1 = length ps /\ (forall j, j <> i -> ps1 !! j = ps !! j) /\
    exists p1, ps1 !! i = Some p1 /\ chain h1 p1 (c1 ++ c2).
Proof.
  intros R NA EA E F Hc.
  destruct (LRep_array _ _ _ _ _ _ _ R EA NA E) as (Ia & Na & Da).
  destruct (Forall2_lookup_r _ _ _ _ _ F Hc) as (p & Hp & C).
  pose proof (NoDup_chain _ _ _ _ _ _ R Hc) as NDc.
  pose proof (lookup_lt_Some _ _ _ Hp) as Lip.
  assert (INC : forall x, x ∈ map fst (c1 ++ (b, (k, v)) :: c2) -> x ∈ map fst (concat cs)).
  { intros x Hx. apply elem_of_list_fmap in Hx as (e & -> & He). apply elem_of_list_fmap. exists e. split; [done|]. by eapply chain_in_concat. }
  destruct c1 as [|d c1' _] using rev_ind.
  - cbn [app] in *. destruct C as (nx & -> & Eb & C). cbn [fst snd] in Eb.
    exists nx, (hset (t_h s) a (Block by_ 8 (slots (<[i := nx]> ps)))), (<[i := nx]> ps).
    split; [by apply node_at_ok|]. split.
    { cbn. by apply write_slot_ok. }
    assert (Nba : b <> a) by (intros ->; apply Da, INC; left).
    split; [cbn; by rewrite lookup_insert_ne|]. split; [apply frame_hset; left|].
    split; [unfold HashTableProofs.Slots; cbn; by rewrite lookup_insert|]. split; [by rewrite insert_length|].
    split; [intros j Nj; by rewrite list_lookup_insert_ne|]. exists nx. split; [by rewrite list_lookup_insert|].
    eapply chain_frame; [exact C|]. intros x Hx. cbn. rewrite lookup_insert_ne; [done|].
    intros <-. apply Da, INC. cbn. by right.
  - rewrite <- app_assoc in C, NDc. cbn [app] in C, NDc.
    destruct (chain_unlink _ _ _ _ _ _ _ _ C NDc) as (nx & Eb & Ed & C').
    assert (Id : fst d ∈ map fst (concat cs)).
    { apply INC. rewrite map_app, map_app, !elem_of_app. left. right. left. }
    assert (Nde : fst d <> eb).
    { intros H. apply (LRep_eb _ _ _ _ R). rewrite elem_of_app. left. by rewrite <- H. }
    assert (Nda : fst d <> a) by (intros H; rewrite H in Id; done).
    assert (Ndb : fst d <> b).
    { intros H. rewrite map_app in NDc. apply NoDup_app in NDc as (_ & _ & N). cbn in N. apply NoDup_cons in N as [N _]. apply N. rewrite H. left. }
    exists nx, (hset (t_h s) (fst d) (nodeblk (fst (snd d)) (snd (snd d)) nx)), ps.
    split; [by apply node_at_ok|]. split.
    { unfold HashTableProofs.last_place. rewrite last_snoc. cbn [write_place]. unfold bind at 1. rewrite (node_at_ok _ _ _ _ _ Ed).
      by rewrite (store_node_ok _ _ _ _ _ _ Ed Nde). }
    split; [cbn; by rewrite lookup_insert_ne|]. split; [apply frame_hset; rewrite map_app; right; rewrite elem_of_app; right; left|].
    split; [unfold HashTableProofs.Slots; cbn; by rewrite lookup_insert_ne|]. split; [done|]. split; [done|]. exists p. split; [done|].
    by rewrite <- app_assoc.
Qed.

Lemma remove_entry_ok h0 s cs arrs k : LRep h0 s cs arrs ->
  match look eqb k (entries cs) with
  | None => remove_entry nsz nal eb chk hash eqb k s = Ok None s
  | Some kv => exists s' cs', remove_entry nsz nal eb chk hash eqb k s = Ok (Some kv) s' /\ LRep h0 s' cs' arrs /\
      entries cs ≡ₚ kv :: entries cs' /\ eqb (fst kv) k = true /\ t_drops s' = t_drops s /\ t_bc s' = t_bc s
  end.
Proof.
  intros R.
  destruct (LRep_slot _ _ _ _ k R) as (a & ps & by_ & p & c & EA & E & F & SL & Hp & Hc & C & _ & BK).
  set (i := idx (t_bc s) k) in *.
  destruct (find_place_ok s k c (fuel s) (ASlot (Ptr a i)) p C) as (c1 & c2 & q & FP & -> & RP & C2 & N1 & T).
  { cbn. by eapply read_slot_ok. }
  { eapply chain_fuel; [apply (lr_wf _ _ _ _ R)|exact C|]. by eapply NoDup_chain. }
  destruct c2 as [|[b [k0 v]] c2].
  - assert (look eqb k (entries cs) = None) as ->.
    { pose proof (find_from_ok _ _ _ _ k R) as FF. destruct (look eqb k (entries cs)) as [kv|]; [|done].
      destruct FF as (b & d1 & d2 & Hc' & Ek & _ & _). exfalso. fold i in Hc'. rewrite Hc in Hc'. injection Hc' as Hc'. rewrite app_nil_r in Hc'.
      specialize (N1 (b, kv)). cbn in N1. rewrite N1 in Ek; [done|]. rewrite Hc', elem_of_app. right. left. }
    cbn in C2. subst q. unfold remove_entry. unfold bind at 1. rewrite BK. unfold bind at 1, gets at 1. unfold bind at 1. rewrite SL, FP.
    unfold bind at 1. rewrite RP. done.
  - cbn [fst snd] in T.
    assert (Ie : (b, (k0, v)) ∈ concat cs).
    { eapply chain_in_concat; [exact Hc|]. rewrite elem_of_app. right. left. }
    assert (LK : look eqb k (entries cs) = Some (k0, v)).
    { apply look_some; [apply (lr_keys _ _ _ _ R)| |done]. apply elem_of_list_fmap. by exists (b, (k0, v)). }
    rewrite LK.
    assert (NA : arrs <> []).
    { apply (lr_own _ _ _ _ R). }
    destruct (unlink_ok _ _ _ _ _ _ _ _ _ _ _ _ _ R NA EA E F Hc) as (nx & h1 & ps1 & NAT & WP & Eb1 & FR & S1 & L1 & O1 & p1 & Hp1 & C1).
    destruct (LRep_array _ _ _ _ _ _ _ R EA NA E) as (Ia & Na & Da).
    pose proof (NoDup_chain _ _ _ _ _ _ R Hc) as NDc.
    assert (Ib : b ∈ map fst (concat cs)) by (apply elem_of_list_fmap; by exists (b, (k0, v))).
    assert (Nab : a <> b) by (intros ->; done).
    pose proof (concat_delete_perm _ _ _ _ _ Hc) as PM.
    assert (Nb12 : b ∉ map fst (c1 ++ c2)).
    { rewrite map_app. rewrite map_app in NDc. cbn in NDc.
      assert (map fst c1 ++ b :: map fst c2 ≡ₚ b :: map fst c1 ++ map fst c2) as X by solve_Permutation.
      rewrite X in NDc. apply NoDup_cons in NDc as [N _]. exact N. }
    set (s' := TState (t_arr s) (t_bc s) (t_ec s - 1) (t_nr s) (hdel h1 b) (t_drops s)).
    assert (EC1 : t_ec s = (Z.of_nat (length (concat (<[i := c1 ++ c2]> cs))) + 1)%Z).
    { rewrite (lr_ec _ _ _ _ R), (Permutation_length PM). cbn [length]. lia. }
    exists s', (<[i := c1 ++ c2]> cs). split.
    { unfold remove_entry. unfold bind at 1. rewrite BK. unfold bind at 1, gets at 1. unfold bind at 1. rewrite SL, FP.
      unfold bind at 1. rewrite RP. rewrite (chain_head _ _ _ _ C2) in *. cbn [fst] in *.
      unfold bind at 1. rewrite NAT. unfold bind at 1. rewrite WP. unfold bind at 1. rewrite (free_node_ok (with_h s h1) _ _ _ _ Eb1).
      unfold bind at 1, gets at 1. cbn [id]. unfold bind at 1. cbn [t_ec with_h].
      unfold on_unwind. rewrite u32_ok; [done|]. pose proof (lr_room _ _ _ _ R). unfold roomy, u32_lim in *. lia. }
    split.
    { eapply (LRep_bucket h0 s cs arrs s' i _ (c1 ++ c2) ps ps1 by_ a); try done.
      - intros x Hx. cbn. unfold s' in Hx. cbn [t_h hdel h_blk] in Hx.
        destruct (decide (x = b)) as [->|X]; [rewrite lookup_delete in Hx; by destruct Hx|]. rewrite lookup_delete_ne in Hx by done.
        assert (W1 : heap_wf h1); [|by apply W1].
        eapply frame_wf; [apply (lr_wf _ _ _ _ R)|exact FR|]. intros y [->|Hy]%elem_of_cons.
        + unfold HashTableProofs.Slots in E. rewrite E. eauto.
        + eapply chains_live; [exact F|]. apply elem_of_list_fmap in Hy as (e & -> & He). apply elem_of_list_fmap. exists e. split; [done|].
          eapply chain_in_concat; [exact Hc|]. rewrite elem_of_app. by left.
      - unfold HashTableProofs.Slots, s'. cbn. by rewrite lookup_delete_ne.
      - exists p1. split; [done|]. eapply chain_frame; [exact C1|]. intros x Hx. cbn. rewrite lookup_delete_ne; [done|]. intros <-. done.
      - intros x Hx. rewrite not_elem_of_cons, not_elem_of_app in Hx. destruct Hx as (X1 & X2 & X3). cbn.
        rewrite map_app, not_elem_of_app in X2. cbn in X2. rewrite not_elem_of_cons in X2.
        rewrite lookup_delete_ne by (intros ->; tauto). apply FR. rewrite not_elem_of_cons. tauto.
      - intros x Hx Hn. exfalso. apply Hn. rewrite map_app, elem_of_app in Hx. rewrite map_app, elem_of_app. cbn. rewrite elem_of_cons. tauto.
      - intros x Hx Hn. rewrite map_app, elem_of_app in Hx. cbn in Hx. rewrite elem_of_cons in Hx. rewrite map_app, not_elem_of_app in Hn.
        assert (x = b) as -> by tauto. cbn. by rewrite lookup_delete.
      - rewrite map_app in NDc |- *. cbn in NDc. apply NoDup_app in NDc as (A1 & A2 & A3). apply NoDup_cons in A3 as [_ A3].
        apply NoDup_app. split; [done|]. split; [|done]. intros x Hx Hx'. apply (A2 x Hx). by right.
      - intros e He. eapply (lr_placed _ _ _ _ R); [exact Hc|]. rewrite elem_of_app in He. rewrite elem_of_app, elem_of_cons. tauto.
      - assert (D : distinct eqb ((k0, v) :: entries (<[i := c1 ++ c2]> cs))).
        { eapply distinct_perm; [|apply (lr_keys _ _ _ _ R)]. unfold entries. by rewrite PM. }
        by apply distinct_cons in D as [_ D].
      - cbn [s' t_ec]. lia.
      - cbn [s' t_ec]. pose proof (lr_room _ _ _ _ R). lia. }
    split; [by rewrite PM|]. done.
Qed.

Lemma free_all_ok h0 s cs arrs : LRep h0 s cs arrs ->
  exists h', free_buckets nsz nal eb s = Ok tt (with_hd s h' (t_drops s ++ dropped cs)) /\
    LRep h0 (TState (t_arr s) (t_bc s) 0 (t_nr s) h' (t_drops s ++ dropped cs)) (replicate (length cs) []) arrs /\
    (forall b, b ∉ arrs -> h_blk h' !! b = h_blk h0 !! b).
Proof.
  intros R. destruct (lr_arr _ _ _ _ R) as (a & ps & by_ & EA & E & F & OR).
  pose proof (Forall2_length _ _ _ F) as L. pose proof (lr_bc _ _ _ _ R) as EB.
  destruct OR as [(-> & -> & B1)|(old & -> & B)].
  - by destruct (lr_own _ _ _ _ R).
  - assert (NA : a :: old <> []) by done.
    destruct (LRep_array _ _ _ _ _ _ _ R EA NA E) as (Ia & Na & Da).
    pose proof (lr_nodup _ _ _ _ R) as ND. apply NoDup_app in ND as (ND1 & ND2 & ND3).
    destruct (free_buckets_ok by_ a ps cs s) as (h' & FB & FR & DEL & S'); try done.
    { lia. } { lia. } { apply (lr_wf _ _ _ _ R). }
    exists h'. split; [exact FB|].
    assert (FRM : forall b, b ∉ a :: old -> h_blk h' !! b = h_blk h0 !! b).
    { intros b Hb. destruct (decide (b ∈ map fst (concat cs))) as [I|I].
      - rewrite (DEL b I). symmetry. apply (lr_fresh _ _ _ _ R). rewrite elem_of_app. by left.
      - destruct FR as [_ FR]. rewrite FR.
        + apply (lr_frame _ _ _ _ R). rewrite not_elem_of_app. done.
        + rewrite not_elem_of_cons in Hb |- *. tauto. }
    split; [|exact FRM].
    split; cbn [t_h t_arr t_bc t_ec t_nr].
    + eapply frame_wf; [apply (lr_wf _ _ _ _ R)|exact FR|]. intros y [->|Hy]%elem_of_cons.
      * unfold HashTableProofs.Slots in E. rewrite E. eauto.
      * by eapply chains_live.
    + apply (lr_static _ _ _ _ R).
    + by rewrite replicate_length.
    + exists a, (replicate (length ps) Null), by_. split; [done|]. split; [done|]. split; [rewrite L; apply empty_chains|].
      right. by exists old.
    + intros x Hx. destruct (decide (x = a)) as [->|Nx].
      * destruct (lr_arrs _ _ _ _ R a Ia) as [psx Sx]. exists (replicate (length ps) Null).
        assert (by_ = (Z.of_nat (length (replicate (length ps) Null)) + 1) * 8)%Z as <-; [|exact S'].
        rewrite replicate_length. unfold HashTableProofs.Slots in E, Sx. rewrite E in Sx. injection Sx as -> Hsl.
        assert (length (slots ps) = length (slots psx)) as Q by congruence. rewrite !slots_length in Q. lia.
      * destruct (lr_arrs _ _ _ _ R x Hx) as [psx Sx]. exists psx. unfold HashTableProofs.Slots. destruct FR as [_ FR]. rewrite FR; [exact Sx|].
        rewrite not_elem_of_cons. split; [done|]. intros H. by apply (ND2 x H).
    + done.
    + by rewrite concat_empty.
    + intros i c e Hc He. apply lookup_replicate in Hc as [-> _]. by apply elem_of_nil in He.
    + by rewrite concat_empty.
    + rewrite concat_empty. intros b Hb. apply (lr_fresh _ _ _ _ R). rewrite elem_of_app. by right.
    + rewrite concat_empty. done.
    + unfold entries. rewrite concat_empty. apply distinct_nil.
    + unfold roomy. lia.
Qed.

Lemma target_ok h0 s cs arrs k : LRep h0 s cs arrs ->
  bucket_for_key hash k s = Ok (slot_of s k) s /\ bucket_for_key_mut hash k s = Ok (slot_of s k) s.
Proof. intros R. by destruct (LRep_slot _ _ _ _ k R) as (? & ? & ? & ? & ? & _ & _ & _ & _ & _ & _ & _ & ? & ?). Qed.

Lemma found_ok h0 s cs arrs k k0 v : LRep h0 s cs arrs -> look eqb k (entries cs) = Some (k0, v) ->
  eqb k0 k = true /\ exists b nx, find_from eqb (slot_of s k) k s = Ok (Some (Ptr b 0)) s /\ node_at (Ptr b 0) s = Ok (k0, v, nx) s /\
  forall f, exists s' cs', store eb (Ptr b 0) (TNode k0 (f v) nx) s = Ok tt s' /\ LRep h0 s' cs' arrs /\
    entries cs' = change eqb k f (entries cs) /\ t_drops s' = t_drops s /\ t_bc s' = t_bc s /\ node_at (Ptr b 0) s' = Ok (k0, f v, nx) s'.
Proof.
  intros R LK. pose proof (find_from_ok _ _ _ _ k R) as FF. rewrite LK in FF.
  destruct FF as (b & c1 & c2 & Hc & Ek & _ & FF). cbn [fst] in Ek. split; [done|].
  destruct (LRep_update _ _ _ _ _ _ _ _ _ _ R Hc) as (nx & NAT & _ & U). exists b, nx. split; [done|]. split; [done|].
  intros f. destruct (U (f v)) as (ST & R' & C0 & C1).
  eexists _, _. split; [exact ST|]. split; [exact R'|]. split.
  - rewrite C1, C0, !map_app. cbn [map snd]. rewrite change_split; [done| |done].
    pose proof (lr_keys _ _ _ _ R) as D. rewrite C0, !map_app in D. cbn [map snd] in D. exact D.
  - split; [done|]. split; [done|]. apply node_at_ok. cbn. by rewrite lookup_insert.
Qed.

Lemma absent_ok h0 s cs arrs k : LRep h0 s cs arrs -> look eqb k (entries cs) = None ->
  find_from eqb (slot_of s k) k s = Ok None s.
Proof. intros R LK. pose proof (find_from_ok _ _ _ _ k R) as FF. by rewrite LK in FF. Qed.

Lemma get_ok h0 s cs arrs k : LRep h0 s cs arrs -> get hash eqb k s = Ok (look eqb k (entries cs)) s.
Proof.
  intros R. destruct (target_ok _ _ _ _ k R) as [B _]. unfold get. unfold bind at 1. rewrite B. unfold bind at 1.
  destruct (look eqb k (entries cs)) as [[k0 v]|] eqn:LK.
  - destruct (found_ok _ _ _ _ _ _ _ R LK) as (_ & b & nx & FF & NA & _). rewrite FF. unfold bind at 1. by rewrite NA.
  - by rewrite (absent_ok _ _ _ _ _ R LK).
Qed.

Lemma contains_ok h0 s cs arrs k : LRep h0 s cs arrs -> contains_key hash eqb k s = Ok (has eqb k (entries cs)) s.
Proof.
  intros R. unfold contains_key. unfold bind at 1. rewrite (get_ok _ _ _ _ k R). rewrite has_look.
  by destruct (look eqb k (entries cs)).
Qed.

Lemma get_mut_set_ok h0 s cs arrs k v : LRep h0 s cs arrs ->
  match look eqb k (entries cs) with
  | Some e => exists s' cs', get_mut_set eb hash eqb k v s = Ok true s' /\ LRep h0 s' cs' arrs /\
      entries cs' = change eqb k (fun _ => v) (entries cs) /\ t_drops s' = t_drops s ++ [inr (snd e)] /\ t_bc s' = t_bc s
  | None => get_mut_set eb hash eqb k v s = Ok false (logged [inr v] s)
  end.
Proof.
  intros R. destruct (target_ok _ _ _ _ k R) as [_ B]. unfold get_mut_set. 
  destruct (look eqb k (entries cs)) as [[k0 v0]|] eqn:LK.
  - destruct (found_ok _ _ _ _ _ _ _ R LK) as (_ & b & nx & FF & NA & U). destruct (U (fun _ => v)) as (s' & cs' & ST & R' & EN & DR & BC & _).
    exists (logged [inr v0] s'), cs'. unfold bind at 1. rewrite B. unfold bind at 1. rewrite FF. unfold bind at 1. rewrite NA.
    unfold bind at 1. rewrite ST. split; [done|]. split; [by apply LRep_logged|]. split; [done|]. split; [cbn; by rewrite DR|done].
  - unfold bind at 1. rewrite B. unfold bind at 1. by rewrite (absent_ok _ _ _ _ _ R LK).
Qed.

Lemma entry_mod_ok h0 s cs arrs k f : LRep h0 s cs arrs ->
  match look eqb k (changes eqb k f (entries cs)) with
  | Some e => exists b nx s' cs', entry_mod eb hash eqb k f s = Ok (inl (Ptr b 0)) s' /\ LRep h0 s' cs' arrs /\
      entries cs' = changes eqb k f (entries cs) /\ t_drops s' = t_drops s ++ [inl k] /\ has eqb k (entries cs) = true /\ t_bc s' = t_bc s /\
      node_at (Ptr b 0) s' = Ok (fst e, snd e, nx) s'
  | None => entry_mod eb hash eqb k f s = Ok (inr (slot_of s k, k)) s /\ look eqb k (entries cs) = None /\ has eqb k (entries cs) = false
  end.
Proof.
  intros R. destruct (target_ok _ _ _ _ k R) as [_ B].
  destruct (look eqb k (entries cs)) as [[k0 v0]|] eqn:LK.
  - assert (HS : has eqb k (entries cs) = true) by (by rewrite has_look, LK).
    destruct (found_ok _ _ _ _ _ _ _ R LK) as (Ek & b & nx & FF & NA & U).
    assert (EN : entry hash eqb k s = Ok (inl (Ptr b 0)) (logged [inl k] s)).
    { unfold entry, on_unwind. unfold bind at 1. rewrite B. unfold bind at 1. by rewrite FF. }
    pose proof (LRep_logged _ _ _ _ [inl k] R) as RL.
    destruct (found_ok _ _ _ _ _ _ _ RL LK) as (_ & b2 & nx2 & FF2 & NA2 & U2).
    assert (b2 = b /\ nx2 = nx) as [-> ->].
    { assert (find_from eqb (slot_of (logged [inl k] s) k) k (logged [inl k] s) = Ok (Some (Ptr b 0)) (logged [inl k] s)) as X.
      { destruct (LRep_slot _ _ _ _ k R) as (a & ps & by_ & p & c & EA & E & F & SL & Hp & Hc & C & _ & _).
        pose proof FF as FF'. unfold find_from, bind, gets in FF' |- *. rewrite SL in FF'. unfold HashTableProofs.slot_of in SL |- *. cbn [logged t_arr t_bc]. rewrite SL.
        rewrite (read_slot_ok _ _ _ _ _ _ E Hp) in FF'. rewrite (read_slot_ok by_ (logged [inl k] s) a ps _ p E Hp).
        assert (LL : length c < fuel s).
        { eapply chain_fuel; [apply (lr_wf _ _ _ _ R)|exact C|]. by eapply NoDup_chain. }
        rewrite (find_in_bucket_ok _ _ _ _ _ C LL) in FF'. injection FF' as FF'.
        rewrite (find_in_bucket_ok _ (logged [inl k] s) _ _ _ C LL). by rewrite FF'. }
      rewrite X in FF2. injection FF2 as <-. split; [done|].
      unfold node_at, bind, gets in NA, NA2. cbn [logged t_h] in NA2. destruct (hload (t_h s) (Ptr b 0)) as [[]|]; unfold ret in *; simplify_eq. done. }
    destruct f as [f|].
    + destruct (U2 f) as (s' & cs' & ST & R' & EE & DR & BC & NA'). cbn [changes].
      assert (L2 : look eqb k (change eqb k f (entries cs)) = Some (k0, f v0)).
      { rewrite <- EE. apply look_some; [apply (lr_keys _ _ _ _ R')| |done]. rewrite EE. apply elem_of_list_In, in_map_iff.
        exists (k0, v0). cbn [fst snd]. rewrite Ek. split; [done|]. apply elem_of_list_In. by apply look_in in LK as [? _]. }
      rewrite L2. exists b, nx, s', cs'. split; [|done].
      unfold entry_mod. unfold bind at 1. rewrite EN. unfold bind at 1. cbn [and_modify]. unfold bind at 1. rewrite NA2. by rewrite ST.
    + cbn [changes]. rewrite LK. exists b, nx, (logged [inl k] s), cs. split; [|split; done].
      unfold entry_mod. unfold bind at 1. by rewrite EN.
  - assert (changes eqb k f (entries cs) = entries cs) as ->.
    { destruct f; [|done]. by apply change_none. }
    rewrite LK. split; [|by rewrite has_look, LK]. unfold entry_mod, entry, on_unwind. unfold bind at 1. unfold bind at 1. rewrite B.
    unfold bind at 1. rewrite (absent_ok _ _ _ _ _ R LK). unfold ret at 1. unfold bind at 1. by destruct f.
Qed.

Lemma iter_ok h0 s cs arrs : LRep h0 s cs arrs ->
  exists a ps by_ it, t_arr s = Ptr a 0 /\ Slots by_ (t_h s) a ps /\ iter s = Ok it s /\ IterAt s a ps it (concat cs) /\
    a ∉ map fst (concat cs).
Proof.
  intros R. destruct (lr_arr _ _ _ _ R) as (a & ps & by_ & EA & E & F & OR).
  destruct (next_bucket_ok _ _ _ _ E cs 0) as (p & n & o & NB & IT); [by rewrite drop_0|lia|].
  exists a, ps, by_, (RawIter p n (or_null o)). split; [done|]. split; [done|]. split; [|split; [done|]].
  - unfold iter. unfold bind at 1, gets at 1. cbn [id]. rewrite EA. cbn [is_null]. unfold bind at 1.
    rewrite (lr_bc _ _ _ _ R), Nat2Z.id, <- (Forall2_length _ _ _ F). rewrite Nat.sub_0_r in NB. by rewrite NB.
  - intros H. destruct OR as [(-> & -> & _)|(old & -> & _)].
    + apply (LRep_eb _ _ _ _ R). rewrite elem_of_app. by left.
    + pose proof (lr_nodup _ _ _ _ R) as ND. apply NoDup_app in ND as (_ & N & _). apply (N a H). left.
Qed.

Lemma all_fuel h0 s cs arrs : LRep h0 s cs arrs -> length (concat cs) < fuel s.
Proof.
  intros R. destruct (lr_arr _ _ _ _ R) as (a & ps & by_ & EA & E & F & OR). unfold fuel.
  pose proof (lr_nodup _ _ _ _ R) as ND. apply NoDup_app in ND as (ND & _).
  pose proof (NoDup_below _ (h_next (t_h s)) ND) as B. rewrite map_length in B.
  enough (length (concat cs) <= h_next (t_h s)) by lia. apply B. intros b Hb. apply (lr_wf _ _ _ _ R). by eapply chains_live.
Qed.

Lemma iter_mut_all_ok h0 arrs g by_ a ps : forall l D f it s cs, LRep h0 s cs arrs -> concat cs = D ++ l ->
  Slots by_ (t_h s) a ps -> a ∉ map fst (concat cs) -> IterAt s a ps it l -> length l < f ->
  exists s' cs', iter_mut_all eb f g it s = Ok (map snd l) s' /\ LRep h0 s' cs' arrs /\
    entries cs' = map snd D ++ map (upd g) (map snd l) /\ t_drops s' = t_drops s /\ t_bc s' = t_bc s.
Proof.
  induction l as [|e l IH]; intros D f it s cs R EC E NI IT L; (destruct f as [|f]; [cbn in L; lia|]); cbn [iter_mut_all].
  - exists s, cs. unfold bind at 1. rewrite (iter_next_ok _ _ _ _ _ _ E IT). split; [done|]. split; [done|]. 
    rewrite EC, map_app. done.
  - destruct (iter_next_ok _ _ _ _ _ _ E IT) as (it' & nx & N & IT' & NA).
    destruct e as [b [k v]]. cbn [fst snd] in *.
    pose proof (lr_nodup _ _ _ _ R) as ND. apply NoDup_app in ND as (ND & _).
    assert (Ie : (b, (k, v)) ∈ concat cs) by (rewrite EC, elem_of_app; right; left).
    apply elem_of_list_In, in_concat in Ie as (c & Hc & He). rewrite <- !elem_of_list_In in *.
    apply elem_of_list_lookup in Hc as [i Hc]. apply elem_of_list_split in He as (c1 & c2 & ->).
    destruct (LRep_update _ _ _ _ _ _ _ _ _ _ R Hc) as (nx' & NAT & _ & U). rewrite NA in NAT. injection NAT as <-.
    destruct (U (g k v)) as (ST & R' & C0 & C1). clear U.
    rewrite C0 in EC. rewrite C0 in ND. destruct (split_unique _ _ _ _ _ ND EC) as [ED EL].
    rewrite ED, EL in C0, C1.
    set (s1 := with_h s (hset (t_h s) b (nodeblk k (g k v) nx))) in *.
    assert (Nb : b ∉ map fst l).
    { rewrite ED, EL in ND. rewrite map_app in ND. apply NoDup_app in ND as (_ & _ & ND). cbn in ND. by apply NoDup_cons in ND as [? _]. }
    assert (Nab : a <> b).
    { intros ->. apply NI. rewrite C0, map_app, elem_of_app. right. left. }
    destruct (IH (D ++ [(b, (k, g k v))]) f it' s1 _ R') as (s' & cs' & IM & R2 & EN & DR & BC).
    { rewrite C1, <- app_assoc. done. }
    { unfold HashTableProofs.Slots, s1. cbn. by rewrite lookup_insert_ne. }
    { rewrite C1, map_app. rewrite C0, map_app in NI. exact NI. }
    { eapply IterAt_frame; [exact IT'|]. intros x Hx. unfold s1. cbn. rewrite lookup_insert_ne; [done|]. intros <-. done. }
    { cbn in L. lia. }
    exists s', cs'. split; [|split; [done|split]].
    + unfold bind at 1. rewrite N. cbn [fst snd]. unfold bind at 1. rewrite NA. unfold bind at 1. rewrite ST. unfold bind at 1. by rewrite IM.
    + rewrite EN, map_app, <- app_assoc. done.
    + by rewrite DR, BC.
Qed.

Local Ltac fin := repeat match goal with |- _ /\ _ => split end;
  first [done | by rewrite app_nil_r | solve_Permutation].
Lemma not_full h0 s cs arrs : LRep h0 s cs arrs -> full (entries cs) = false.
Proof. intros R. unfold full, max_entries. rewrite map_length, <- (lr_ec _ _ _ _ R). pose proof (lr_room _ _ _ _ R). unfold roomy in *. lia. Qed.

(** ** Calls while the allocator may refuse *)
Section calls.
Variable r : thp -> Z -> bool.
Local Notation RA := (Refusing r).
Definition refuses : Prop := exists h n, r h n = true.

Lemma bind_eq {S A B} (m : Base.M S A) (k : A -> Base.M S B) s :
  bind m k s = match m s with Ok x s' => k x s' | Panic s' => Panic s' | UB => UB end.
Proof. done. Qed.
Lemma t_allocate_in csz cal n (s : tstate) :
  t_allocate RA csz cal n s = allocate csz cal n s \/ (t_allocate RA csz cal n s = Panic s /\ refuses).
Proof.
  unfold t_allocate, allocate. cbn [Refusing ai_alloc snd]. destruct (r (t_h s) (n * csz)%Z) eqn:E; [right|by left]. split; [done|]. by eexists _, _.
Qed.
Lemma rehash_in_cases bc (s : tstate) :
  rehash_in RA nsz nal eb chk hash bc s = rehash nsz nal eb chk hash bc s \/ (rehash_in RA nsz nal eb chk hash bc s = Panic s /\ refuses).
Proof.
  unfold rehash, rehash_in. rewrite !(bind_eq (u32 _ _)). destruct (u32 chk (bc + 1) s) as [n s1|s1|] eqn:U; [|by left..].
  assert (s1 = s) as -> by (unfold u32 in U; repeat case_match; unfold ret, panic in U; by simplify_eq). rewrite !(bind_eq (allocate _ _ _)), !(bind_eq (t_allocate _ _ _ _)).
  destruct (t_allocate_in 8 8 n s) as [E|[E X]]; rewrite E; [|by right]. left.
  unfold allocate, default_alloc. destruct (n * 8 =? 0)%Z; [done|]. by destruct (layout_ok (n * 8) 8).
Qed.

Lemma insert_impl_in_ok h0 s cs arrs k v : LRep h0 s cs arrs -> (t_ec s + 1 <= roomy)%Z -> look eqb k (entries cs) = None ->
  (exists b s' cs' arrs', insert_impl_in RA nsz nal eb chk hash (slot_of s k) k v s = Ok (Ptr b 0) s' /\
    LRep h0 s' cs' arrs' /\ entries cs' ≡ₚ (k, v) :: entries cs /\ t_drops s' = t_drops s /\
    exists nx, node_at (Ptr b 0) s' = Ok (k, v, nx) s') \/
  (exists s' cs' arrs', insert_impl_in RA nsz nal eb chk hash (slot_of s k) k v s = Panic s' /\ refuses /\
    LRep h0 s' cs' arrs' /\ entries cs' ≡ₚ entries cs /\ t_drops s' = t_drops s ++ [inr v; inl k]).
Proof.
  intros R RM LK. destruct (grow_ok _ _ _ _ R RM) as (o & nr & s1 & cs1 & arrs1 & Q & RH & R1 & PM & DR & EE).
  assert (PE : entries cs1 ≡ₚ entries cs) by (by apply Permutation_map).
  assert (LK1 : look eqb k (entries cs1) = None) by (rewrite <- LK; apply look_perm; [done|apply (lr_keys _ _ _ _ R1)]).
  destruct (push_ok _ _ _ _ k v R1 ltac:(lia) LK1) as (b & sA & s' & cs' & AL & REST & R' & PM' & DR' & BC' & ND).
  unfold insert_impl_in. rewrite bind_eq. unfold on_unwind. rewrite (bind_eq (rehash_required chk)), Q.
  assert (TAIL : forall t, t = slot_of s1 k ->
    (exists b s' cs' arrs', match (do node <- t_allocate RA nsz nal 1; ret (t, node)) s1 with
      | Ok x s' => (let '(target, node) := x in
         do nx <- read_slot target; run store eb node (TNode k v nx); run write_slot eb target node;
         do s <- gets id; do ec <- u32 chk (t_ec s + 1); run set_ec ec; ret node) s'
      | Panic s' => Panic (logged [inr v; inl k] s') | UB => UB end = Ok (Ptr b 0) s' /\
      LRep h0 s' cs' arrs' /\ entries cs' ≡ₚ (k, v) :: entries cs /\ t_drops s' = t_drops s /\ exists nx, node_at (Ptr b 0) s' = Ok (k, v, nx) s') \/
    (exists s' cs' arrs', match (do node <- t_allocate RA nsz nal 1; ret (t, node)) s1 with
      | Ok x s' => (let '(target, node) := x in
         do nx <- read_slot target; run store eb node (TNode k v nx); run write_slot eb target node;
         do s <- gets id; do ec <- u32 chk (t_ec s + 1); run set_ec ec; ret node) s'
      | Panic s' => Panic (logged [inr v; inl k] s') | UB => UB end = Panic s' /\ refuses /\
      LRep h0 s' cs' arrs' /\ entries cs' ≡ₚ entries cs /\ t_drops s' = t_drops s ++ [inr v; inl k])).
  { intros t ->. rewrite (bind_eq (t_allocate _ _ _ _)). destruct (t_allocate_in nsz nal 1 s1) as [E|[E X]]; rewrite E.
    - left. rewrite AL. exists b, s', cs', arrs1. split; [exact REST|]. split; [done|]. split; [by rewrite PM', <- PE|]. split; [congruence|done].
    - right. exists (logged [inr v; inl k] s1), cs1, arrs1. split; [done|]. split; [done|]. split; [by apply LRep_logged|]. split; [done|]. cbn. by rewrite DR. }
  destruct o as [n|].
  - rewrite !(bind_eq (bind _ _)), !(bind_eq (rehash_in _ _ _ _ _ _ _)).
    destruct (rehash_in_cases n (with_nr s nr)) as [E|[E X]]; rewrite E.
    + rewrite RH. destruct (LRep_slot _ _ _ _ k R1) as (? & ? & ? & ? & ? & _ & _ & _ & _ & _ & _ & _ & _ & BK). rewrite BK.
      specialize (TAIL _ eq_refl). revert TAIL. by destruct (bind (t_allocate RA nsz nal 1) _ s1).
    + right. exists (logged [inr v; inl k] (with_nr s nr)), cs, arrs. split; [done|]. split; [done|]. split; [by apply LRep_logged, LRep_nr|]. done.
  - subst s1. rewrite !(bind_eq (ret _)). specialize (TAIL (slot_of s k) eq_refl). revert TAIL.
    change (ret (slot_of s k) (with_nr s nr)) with (Ok (S := tstate) (slot_of s k) (with_nr s nr)). cbv iota beta.
    by destruct (bind (t_allocate RA nsz nal 1) _ (with_nr s nr)).
Qed.

Lemma insert_in_ok h0 s cs arrs k v : LRep h0 s cs arrs -> (t_ec s + 1 <= roomy)%Z ->
  match look eqb k (entries cs) with
  | Some e => exists s' cs', insert_in RA nsz nal eb chk hash eqb k v s = Ok (Some (snd e)) s' /\ LRep h0 s' cs' arrs /\
      entries cs' = change eqb k (fun _ => v) (entries cs) /\ t_drops s' = t_drops s ++ [inl k]
  | None => (exists s' cs' arrs', insert_in RA nsz nal eb chk hash eqb k v s = Ok None s' /\ LRep h0 s' cs' arrs' /\
      entries cs' ≡ₚ (k, v) :: entries cs /\ t_drops s' = t_drops s) \/
    (exists s' cs' arrs', insert_in RA nsz nal eb chk hash eqb k v s = Panic s' /\ refuses /\ LRep h0 s' cs' arrs' /\
      entries cs' ≡ₚ entries cs /\ t_drops s' = t_drops s ++ [inr v; inl k])
  end.
Proof.
  intros R RM. destruct (target_ok _ _ _ _ k R) as [_ B].
  destruct (look eqb k (entries cs)) as [[k0 v0]|] eqn:LK.
  - destruct (found_ok _ _ _ _ _ _ _ R LK) as (_ & b & nx & FF & NA & U). destruct (U (fun _ => v)) as (s' & cs' & ST & R' & EN & DR & BC & _).
    exists (logged [inl k] s'), cs'. unfold insert_in, on_unwind. unfold bind at 1. rewrite B. unfold bind at 1. rewrite FF. unfold bind at 1. rewrite NA.
    unfold bind at 1. rewrite ST. split; [done|]. split; [by apply LRep_logged|]. split; [done|]. cbn. by rewrite DR.
  - assert (HD : insert_in RA nsz nal eb chk hash eqb k v s = (run insert_impl_in RA nsz nal eb chk hash (slot_of s k) k v; ret None) s).
    { unfold insert_in, on_unwind. unfold bind at 1. rewrite B. unfold bind at 1. by rewrite (absent_ok _ _ _ _ _ R LK). }
    rewrite HD, bind_eq.
    destruct (insert_impl_in_ok _ _ _ _ k v R RM LK) as [(b & s' & cs' & arrs' & P & R' & PM & DR & _)|(s' & cs' & arrs' & P & X & R' & PM & DR)]; rewrite P.
    + left. by exists s', cs', arrs'.
    + right. by exists s', cs', arrs'.
Qed.

(** What a call made of the entries [m]. *)
Definition did (c : hcall K V) (m : list (K * V)) (a : option (hanswer K V)) (d : list (K + V)) (m' : list (K * V)) : Prop :=
  (exists a0, spec_call eqb c m = (a0, d, m') /\ same_answer a a0) \/ (a = None /\ refused eqb c m d m' /\ refuses).

Lemma insert_all_in_ok kvs : forall h0 s cs arrs, LRep h0 s cs arrs -> (t_ec s + Z.of_nat (length kvs) <= roomy)%Z ->
  exists o s' cs' arrs' d' d m', HashTableProofs.result (insert_all_in RA nsz nal eb chk hash eqb kvs s) = Some (o, s') /\ LRep h0 s' cs' arrs' /\
    entries cs' ≡ₚ m' /\ t_drops s' = t_drops s ++ d' /\ d' ≡ₚ d /\
    ((o = Some tt /\ spec_extend eqb kvs (entries cs) = (true, d, m')) \/
     (o = None /\ refuses /\ exists kvs1 k v kvs2 d1 m1, kvs = kvs1 ++ (k, v) :: kvs2 /\ spec_extend eqb kvs1 (entries cs) = (true, d1, m1) /\
       look eqb k m1 = None /\ d ≡ₚ d1 ++ [inl k; inr v] ++ parts kvs2 /\ m' ≡ₚ m1)).
Proof.
  induction kvs as [|[k v] kvs IH]; intros h0 s cs arrs R RM; cbn [insert_all_in].
  - exists (Some tt), s, cs, arrs, [], [], (entries cs). split; [done|]. split; [done|]. split; [done|]. split; [by rewrite app_nil_r|]. split; [done|]. by left.
  - cbn [length] in RM. pose proof (insert_in_ok _ _ _ _ k v R ltac:(lia)) as IN. rewrite (bind_eq (on_unwind _ _)). unfold on_unwind.
    destruct (look eqb k (entries cs)) as [e|] eqn:LK.
    + destruct IN as (s1 & cs1 & IN & R1 & E1 & D1). rewrite IN, bind_eq.
      pose proof (LRep_logged _ _ _ _ [inr (snd e)] R1) as R1'. change (drop_all [inr (snd e)] s1) with (Ok tt (logged [inr (snd e)] s1)).
      assert (EC : t_ec s1 = t_ec s).
      { rewrite (lr_ec _ _ _ _ R1), (lr_ec _ _ _ _ R). rewrite <- !(map_length (@snd nat (K * V))), E1. unfold change. by rewrite map_length. }
      destruct (IH _ _ _ _ R1') as (o & s' & cs' & arrs' & d' & d & m' & RS & R' & EN & DD & PD & OUT).
      { cbn [logged t_ec]. lia. }
      exists o, s', cs', arrs', (inl k :: inr (snd e) :: d'), (inl k :: inr (snd e) :: d), m'. split; [exact RS|]. split; [done|]. split; [done|].
      split; [rewrite DD; cbn; rewrite D1, <- !app_assoc; done|]. split; [by rewrite PD|]. rewrite E1 in OUT.
      destruct OUT as [[-> SP]|(-> & X & kvs1 & k1 & v1 & kvs2 & d1 & m1 & -> & SP & LK1 & P1 & P2)].
      * left. split; [done|]. cbn [spec_extend]. by rewrite LK, SP.
      * right. split; [done|]. split; [done|]. exists ((k, v) :: kvs1), k1, v1, kvs2, (inl k :: inr (snd e) :: d1), m1.
        split; [done|]. cbn [spec_extend]. rewrite LK, SP. split; [done|]. split; [done|]. split; [by rewrite P1|done].
    + destruct IN as [(s1 & cs1 & arrs1 & IN & R1 & E1 & D1)|(s1 & cs1 & arrs1 & IN & X & R1 & E1 & D1)]; rewrite IN.
      * rewrite (bind_eq (ret tt)). unfold ret at 1.
        destruct (IH _ _ _ _ R1) as (o & s' & cs' & arrs' & d' & d & m' & RS & R' & EN & DD & PD & OUT).
        { rewrite (lr_ec _ _ _ _ R1), <- (map_length (@snd nat (K * V))), (Permutation_length E1). cbn [length]. rewrite map_length. pose proof (lr_ec _ _ _ _ R). lia. }
        pose proof (lr_keys _ _ _ _ R1) as DI1.
        assert (XP : forall l b dd mm, spec_extend eqb l (entries cs1) = (b, dd, mm) -> exists mm2, spec_extend eqb l ((k, v) :: entries cs) = (b, dd, mm2) /\ mm ≡ₚ mm2).
        { intros l b dd mm SP. pose proof (extend_perm l _ _ E1 DI1) as XP. rewrite SP in XP.
          destruct (spec_extend eqb l ((k, v) :: entries cs)) as [[b2 d2] m2]. destruct XP as (<- & <- & PM). by exists m2. }
        destruct OUT as [[-> SP]|(-> & X & kvs1 & k1 & v1 & kvs2 & d1 & m1 & -> & SP & LK1 & P1 & P2)].
        -- destruct (XP _ _ _ _ SP) as (m2 & SP2 & PM). exists (Some tt), s', cs', arrs', d', d, m2. split; [exact RS|]. split; [done|].
           split; [by rewrite EN|]. split; [congruence|]. split; [done|]. left. split; [done|]. cbn [spec_extend]. rewrite LK, (not_full _ _ _ _ R). exact SP2.
        -- destruct (XP _ _ _ _ SP) as (m2 & SP2 & PM). exists None, s', cs', arrs', d', d, m'. split; [exact RS|]. split; [done|].
           split; [done|]. split; [congruence|]. split; [done|]. right. split; [done|]. split; [done|].
           exists ((k, v) :: kvs1), k1, v1, kvs2, d1, m2. split; [done|]. cbn [spec_extend]. rewrite LK, (not_full _ _ _ _ R). split; [exact SP2|].
           split; [|split; [done|by rewrite P2]]. rewrite <- LK1. apply look_perm; [by rewrite PM|]. apply (distinct_perm (entries cs')); [by rewrite EN, P2, PM|apply (lr_keys _ _ _ _ R')].
      * exists None, (logged (pair_parts kvs) s1), cs1, arrs1, ([inr v; inl k] ++ pair_parts kvs), ([inl k; inr v] ++ parts kvs), (entries cs).
        split; [done|]. split; [by apply LRep_logged|]. split; [done|]. split; [cbn; by rewrite D1, <- app_assoc|].
        split; [change (pair_parts kvs) with (parts kvs); fin|]. right. split; [done|]. split; [done|]. by exists [], k, v, kvs, [], (entries cs).
Qed.

Lemma h_call_in_ok c h0 s cs arrs : LRep h0 s cs arrs -> (t_ec s + Z.of_nat (keys_in c) <= roomy)%Z ->
  exists a s' cs' arrs' d' d m', HashTableProofs.result (h_call_in RA nsz nal eb chk hash eqb c s) = Some (a, s') /\
    LRep h0 s' cs' arrs' /\ entries cs' ≡ₚ m' /\ t_drops s' = t_drops s ++ d' /\ d' ≡ₚ d /\ did c (entries cs) a d m'.
Proof.
  intros R RM. unfold did. destruct c; cbn [h_call_in keys_in spec_call h_call refused] in *.
  - rewrite bind_eq. pose proof (insert_in_ok _ _ _ _ k v R ltac:(lia)) as IN. destruct (look eqb k (entries cs)) as [e|] eqn:LK.
    + destruct IN as (s1 & cs1 & IN & R1 & E1 & D1). rewrite IN. eexists _, s1, cs1, arrs, _, _, _. split; [done|]. split; [done|]. split; [by rewrite E1|].
      split; [exact D1|]. split; [done|]. left. by eexists.
    + destruct IN as [(s1 & cs1 & arrs1 & IN & R1 & E1 & D1)|(s1 & cs1 & arrs1 & IN & X & R1 & E1 & D1)]; rewrite IN.
      * eexists _, s1, cs1, arrs1, [], [], _. split; [done|]. split; [done|]. split; [exact E1|]. split; [by rewrite app_nil_r|]. split; [done|].
        left. rewrite (not_full _ _ _ _ R). by eexists.
      * eexists _, s1, cs1, arrs1, _, _, (entries cs). split; [done|]. split; [done|]. split; [exact E1|]. split; [exact D1|]. split; [apply Permutation_swap|].
        right. done.
  - rewrite bind_eq, (get_ok _ _ _ _ k R). eexists _, s, cs, arrs, [], _, _. split; [done|]. split; [done|]. split; [done|]. split; [by rewrite app_nil_r|]. split; [done|]. left. by eexists.
  - rewrite bind_eq, (contains_ok _ _ _ _ k R). eexists _, s, cs, arrs, [], _, _. split; [done|]. split; [done|]. split; [done|]. split; [by rewrite app_nil_r|]. split; [done|]. left. by eexists.
  - rewrite bind_eq. pose proof (get_mut_set_ok _ _ _ _ k v R) as IN. destruct (look eqb k (entries cs)) as [e|] eqn:LK.
    + destruct IN as (s1 & cs1 & IN & R1 & E1 & D1 & BC1). rewrite IN. eexists _, s1, cs1, arrs, _, _, _. split; [done|]. split; [done|]. split; [by rewrite E1|].
      split; [exact D1|]. split; [done|]. left. by eexists.
    + rewrite IN. eexists _, _, cs, arrs, _, _, _. split; [done|]. split; [by apply LRep_logged|]. split; [done|]. split; [done|]. split; [done|]. left. by eexists.
  - rewrite bind_eq. unfold remove. rewrite bind_eq. pose proof (remove_entry_ok _ _ _ _ k R) as IN. destruct (look eqb k (entries cs)) as [[k0 v]|] eqn:LK.
    + destruct IN as (s1 & cs1 & IN & R1 & E1 & Ek & D1 & BC1). rewrite IN. exists (Some (HVal (Some v))), (logged [inl k0] s1), cs1, arrs, [inl k0], [inl k0], (without eqb k (entries cs)).
      split; [done|]. split; [by apply LRep_logged|]. split; [|split; [cbn; by rewrite D1|split; [done|left; by eexists]]].
      rewrite (without_perm k _ _ E1). pose proof (without_split k [] (entries cs1) k0 v) as WS. cbn [app] in WS. rewrite WS; [done| |done].
      eapply distinct_perm; [exact E1|apply (lr_keys _ _ _ _ R)].
    + rewrite IN. eexists _, s, cs, arrs, [], _, _. split; [done|]. split; [done|]. split; [done|]. split; [by rewrite app_nil_r|]. split; [done|]. left. by eexists.
  - rewrite bind_eq. pose proof (remove_entry_ok _ _ _ _ k R) as IN. destruct (look eqb k (entries cs)) as [[k0 v]|] eqn:LK.
    + destruct IN as (s1 & cs1 & IN & R1 & E1 & Ek & D1 & BC1). rewrite IN. eexists _, s1, cs1, arrs, [], _, (without eqb k (entries cs)).
      split; [done|]. split; [done|]. split; [|split; [by rewrite app_nil_r|split; [done|left; by eexists]]].
      rewrite (without_perm k _ _ E1). pose proof (without_split k [] (entries cs1) k0 v) as WS. cbn [app] in WS. rewrite WS; [done| |done].
      eapply distinct_perm; [exact E1|apply (lr_keys _ _ _ _ R)].
    + rewrite IN. eexists _, s, cs, arrs, [], _, _. split; [done|]. split; [done|]. split; [|split; [by rewrite app_nil_r|split; [done|left; by eexists]]]. by rewrite without_none.
  - rewrite bind_eq. pose proof (entry_mod_ok _ _ _ _ k f R) as EN. destruct (look eqb k (changes eqb k f (entries cs))) as [e|] eqn:LC.
    + destruct EN as (b & nx & s1 & cs1 & EN & R1 & E1 & D1 & HS & BC1 & NA). rewrite EN.
      eexists _, (logged [inr v] s1), cs1, arrs, [inl k; inr v], _, _.
      unfold bind at 1. unfold or_insert_in. unfold bind at 1. cbn [or_insert_with_in]. unfold bind at 1. rewrite NA.
      split; [done|]. split; [by apply LRep_logged|]. split; [by rewrite E1|].
      split; [cbn; by rewrite D1, <- app_assoc|]. split; [done|]. left. by eexists.
    + destruct EN as (EN & LK & HS). rewrite EN.
      destruct (insert_impl_in_ok _ _ _ _ k v R ltac:(lia) LK) as [(b & s' & cs' & arrs' & P & R' & PM & DR & nx & NA)|(s' & cs' & arrs' & P & X & R' & PM & DR)].
      * eexists _, s', cs', arrs', [], _, _. unfold bind at 1, or_insert_in.
        unfold bind at 1. cbn [or_insert_with_in]. unfold bind at 1. rewrite P. unfold bind at 1. rewrite NA.
        split; [done|]. split; [done|]. split; [exact PM|]. split; [by rewrite app_nil_r|]. split; [done|]. left. rewrite (not_full _ _ _ _ R). by eexists.
      * eexists _, s', cs', arrs', _, _, (entries cs). unfold bind at 1, or_insert_in.
        unfold bind at 1. cbn [or_insert_with_in]. unfold bind at 1. rewrite P.
        split; [done|]. split; [done|]. split; [exact PM|]. split; [exact DR|]. split; [apply Permutation_swap|]. right. done.
  - rewrite bind_eq. pose proof (entry_mod_ok _ _ _ _ k f R) as EN. destruct (look eqb k (changes eqb k f (entries cs))) as [e|] eqn:LC.
    + destruct EN as (b & nx & s1 & cs1 & EN & R1 & E1 & D1 & HS & BC1 & NA). rewrite EN.
      eexists _, s1, cs1, arrs, [inl k], _, _.
      unfold bind at 1. cbn [or_insert_with_in]. unfold bind at 1. rewrite NA.
      split; [done|]. split; [done|]. split; [by rewrite E1|].
      split; [exact D1|]. split; [done|]. left. by eexists.
    + destruct EN as (EN & LK & HS). rewrite EN.
      destruct (insert_impl_in_ok _ _ _ _ k v R ltac:(lia) LK) as [(b & s' & cs' & arrs' & P & R' & PM & DR & nx & NA)|(s' & cs' & arrs' & P & X & R' & PM & DR)].
      * eexists _, s', cs', arrs', [], _, _. unfold bind at 1.
        cbn [or_insert_with_in]. unfold bind at 1. rewrite P. unfold bind at 1. rewrite NA.
        split; [done|]. split; [done|]. split; [exact PM|]. split; [by rewrite app_nil_r|]. split; [done|]. left. rewrite (not_full _ _ _ _ R). by eexists.
      * eexists _, s', cs', arrs', _, _, (entries cs). unfold bind at 1.
        cbn [or_insert_with_in]. unfold bind at 1. rewrite P.
        split; [done|]. split; [done|]. split; [exact PM|]. split; [exact DR|]. split; [apply Permutation_swap|]. right. done.
  - rewrite bind_eq. pose proof (entry_mod_ok _ _ _ _ k f R) as EN. destruct (look eqb k (changes eqb k f (entries cs))) as [e|] eqn:LC.
    + destruct EN as (b & nx & s1 & cs1 & EN & R1 & E1 & D1 & HS & BC1 & NA). rewrite EN. eexists _, s1, cs1, arrs, [inl k], _, _. cbn [drop_entry]. rewrite HS.
      split; [done|]. split; [done|]. split; [by rewrite E1|]. split; [exact D1|]. split; [done|]. left. by eexists.
    + destruct EN as (EN & LK & HS). rewrite EN. eexists _, (logged [inl k] s), cs, arrs, [inl k], _, (changes eqb k f (entries cs)). cbn [drop_entry]. rewrite HS.
      split; [done|]. split; [by apply LRep_logged|]. split; [|split; [done|split; [done|left; by eexists]]].
      destruct f; cbn [changes]; [by rewrite change_none|done].
  - rewrite bind_eq. destruct (insert_all_in_ok kvs _ _ _ _ R RM) as (o & s' & cs' & arrs' & d' & d & m' & RS & R' & EN & DD & PD & OUT).
    exists (match o with Some _ => Some HUnit | None => None end), s', cs', arrs', d', d, m'.
    split.
    { destruct (insert_all_in RA nsz nal eb chk hash eqb kvs s) as [[] s''|s''|]; cbn in RS; [| |done]; by injection RS as <- ->. }
    split; [done|]. split; [done|]. split; [done|]. split; [done|].
    destruct OUT as [[-> SP]|(-> & X & Y)]; [left; rewrite SP; by eexists|right; done].
  - eexists _, s, cs, arrs, [], _, _. unfold bind at 1, len, gets. split; [done|]. split; [done|]. split; [done|]. split; [by rewrite app_nil_r|]. split; [done|].
    left. eexists. split; [done|]. cbn. by rewrite (lr_ec _ _ _ _ R), map_length.
  - eexists _, s, cs, arrs, [], _, _. unfold bind at 1, is_empty, gets. split; [done|]. split; [done|]. split; [done|]. split; [by rewrite app_nil_r|]. split; [done|].
    left. eexists. split; [done|]. cbn. rewrite (lr_ec _ _ _ _ R). by destruct (concat cs).
  - destruct (free_all_ok _ _ _ _ R) as (h' & FB & R' & _). eexists _, _, _, arrs, _, _, [].
    unfold bind at 1, clear. unfold bind at 1. rewrite FB. split; [done|]. split; [exact R'|]. split; [by rewrite concat_empty|]. split; [done|].
    split; [apply dropped_perm|]. left. by eexists.
  - destruct (iter_ok _ _ _ _ R) as (a & ps & by_ & it & EA & E & IT & IA & _). eexists _, s, cs, arrs, [], _, _.
    unfold bind at 1. rewrite IT. unfold bind at 1, gets. unfold bind at 1. rewrite (iter_all_ok _ _ _ _ E _ _ _ IA) by (by eapply all_fuel).
    split; [done|]. split; [done|]. split; [done|]. split; [by rewrite app_nil_r|]. split; [done|]. left. eexists. split; [done|]. by cbn.
  - destruct (iter_ok _ _ _ _ R) as (a & ps & by_ & it & EA & E & IT & IA & NI).
    destruct (iter_mut_all_ok _ _ g _ _ _ (concat cs) [] (fuel s) it s cs R eq_refl E NI IA) as (s' & cs' & IM & R' & EN & DR & BC).
    { by eapply all_fuel. }
    eexists _, s', cs', arrs, [], _, _. unfold bind at 1. rewrite IT. unfold bind at 1, gets. unfold bind at 1. rewrite IM.
    split; [done|]. split; [done|]. split; [by rewrite EN|]. split; [by rewrite app_nil_r|]. split; [done|]. left. eexists. split; [done|]. by cbn.
Qed.
End calls.


Lemma ht_drop_ok h0 s cs arrs : LRep h0 s cs arrs ->
  exists s', ht_drop nsz nal eb s = Ok tt s' /\ t_drops s' = t_drops s ++ dropped cs /\
    (forall b, b ∉ arrs -> h_blk (t_h s') !! b = h_blk h0 !! b) /\
    (forall b, b ∈ arrs -> h_blk h0 !! b = None /\ exists ps, Slots ((Z.of_nat (length ps) + 1) * 8) (t_h s') b ps) /\
    NoDup arrs.
Proof.
  intros R. destruct (free_all_ok _ _ _ _ R) as (h' & FB & R' & FR). eexists. split; [exact FB|]. split; [done|]. split; [exact FR|].
  split.
  - intros b Hb. split; [apply (lr_fresh _ _ _ _ R); rewrite elem_of_app; by right|].
    apply (lr_arrs _ _ _ _ R' b Hb).
  - pose proof (lr_nodup _ _ _ _ R) as ND. by apply NoDup_app in ND as (_ & _ & ?).
Qed.

End proofs.
