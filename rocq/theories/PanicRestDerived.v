(** Proofs of the properties stated in PanicRestProps.v. *)
From Verif Require Import Base Heap HeapLemmas Alloc AllocContract AddrMem Vector VectorSpec IterSpec FixedPool FixedPoolSpec LinkedList LinkedListSpec HashTable HashTableSpec Deque DequeSpec PanicDrop PanicRest PanicRestSpec.
Local Open Scope nat_scope.

From Verif Require Import VectorProofs VectorMore VectorIter VectorDerived DequeProofs DequeDerived PanicDropDerived.
From Verif Require HashTableDerived.
Local Open Scope nat_scope.

(** ** Deques *)
Section deque.
Context {T : Type}.
Variables (sz al : Z) (chk : bool).
Hypothesis Hlay : layout_ok (Z.of_nat (subarray_size sz) * sz) al = true.
Variable h0 : heap (dcell T).
Notation dstate := (dstate T).

Lemma logged_logged (l1 l2 : list T) (s : dstate) : Deque.logged l2 (Deque.logged l1 s) = Deque.logged (l1 ++ l2) s.
Proof using. unfold Deque.logged. cbn. by rewrite app_assoc. Qed.
Lemma logged_nil (s : dstate) : Deque.logged [] s = s.
Proof using. unfold Deque.logged. rewrite app_nil_r. by destruct s. Qed.

Lemma drop_loop (bad : T -> bool) (body : ptr -> M dstate unit) s0 pa start subs leak bo xs :
  DRep sz al h0 s0 pa start subs leak bo xs ->
  (forall p x s, hload (d_h s) p = Some (DElem x) -> body p s = if bad x then Panic (Deque.logged [x] s) else Ok tt (Deque.logged [x] s)) ->
  forall k i s fu, i + k = length xs -> k < fu -> d_h s = d_h s0 ->
  for_iter chk fu (iter_at sz pa start subs (bo + i) (bo + length xs)) body s =
    if existsb bad (drop i xs) then Panic (Deque.logged (up_to_bad bad (drop i xs)) s)
    else Ok (map (fun _ => tt) (seq i k)) (Deque.logged (drop i xs) s).
Proof using Hlay.
  intros R BD. pose proof (R_bound sz al Hlay R) as LB.
  induction k as [|k IH]; intros i s fu L Lf HI; (destruct fu as [|fu]; [lia|]); cbn [for_iter].
  - replace (length xs) with i by lia. rewrite drop_ge by lia. cbn [existsb map seq].
    unfold bind at 1. rewrite raw_next_end. cbn [fst]. by rewrite logged_nil.
  - assert (Shape sz al h0 (d_h s) (d_size s0) pa start subs leak) as SH by (rewrite HI; apply (dr_shape _ _ _ _ _ _ _ _ _ _ R)).
    unfold bind at 1. rewrite (raw_next_ok sz al chk Hlay _ SH) by lia. cbn [fst snd].
    destruct (lookup_lt_is_Some_2 xs i) as [x Hx]; [lia|].
    rewrite (drop_S _ _ _ Hx). cbn [existsb up_to_bad map seq].
    unfold bind at 1. rewrite (BD _ x) by (rewrite HI; by apply (dr_elems _ _ _ _ _ _ _ _ _ _ R)).
    destruct (bad x); cbn [orb]; [done|].
    replace (bo + i + 1) with (bo + S i) by lia.
    unfold bind at 1. rewrite (IH (S i) (Deque.logged [x] s) fu) by (try done; lia).
    destruct (existsb bad (drop (S i) xs)); by rewrite !logged_logged.
Qed.

Lemma up_to_none (bad : T -> bool) xs : existsb bad xs = false -> up_to_bad bad xs = xs.
Proof using. induction xs as [|x xs IH]; cbn; [done|]. intros [E1 E2]%orb_false_iff. rewrite E1. by rewrite IH. Qed.
Lemma existsb_never (xs : list T) : existsb (fun _ => false) xs = false.
Proof using. by induction xs. Qed.

Lemma deque_drop_pd_ok bad s pa start subs leak bo xs : DRep sz al h0 s pa start subs leak bo xs ->
  deque_drop_pd sz al chk bad s =
    if existsb bad xs then Panic (Deque.logged (up_to_bad bad xs) s) else deque_drop sz al chk s.
Proof using Hlay.
  intros R.
  set (tail := (run (if is_null (di_arr (d_b s)) then ret tt
       else
         do n <- or_ub (pdiff (di_arr (d_e s)) (di_arr (d_b s)));
         do h <- gets d_h;
         do ps <- or_ub (hslice h (di_arr (d_b s)) n);
         free_subarrays sz al ps);
    Deque.free_ptr_array) : M dstate unit).
  assert (deque_drop sz al chk s = tail (Deque.logged xs s)) as E1.
  { unfold deque_drop. unfold bind at 1, gets at 1. cbn [id]. unfold bind at 1. rewrite (iter_ok sz al Hlay _ _ _ _ _ _ _ _ R).
    unfold bind at 1. rewrite <- (Nat.add_0_r bo) at 1.
    rewrite (drop_loop (fun _ => false) _ _ _ _ _ _ _ _ R) with (k := length xs);
      [|intros p x s1 E; unfold bind; by rewrite (read_elem_ok _ _ _ E)|done|by eapply R_fuel|done].
    by rewrite existsb_never, drop_0. }
  rewrite E1. unfold deque_drop_pd. unfold bind at 1, gets at 1. cbn [id]. unfold bind at 1. rewrite (iter_ok sz al Hlay _ _ _ _ _ _ _ _ R).
  unfold bind at 1. rewrite <- (Nat.add_0_r bo) at 1.
  rewrite (drop_loop bad _ _ _ _ _ _ _ _ R) with (k := length xs);
    [|intros p x s1 E; unfold drop_elem_pd, bind; rewrite (read_elem_ok _ _ _ E); unfold modify; by destruct (bad x)|done|by eapply R_fuel|done].
  rewrite drop_0. by destruct (existsb bad xs).
Qed.
End deque.

Lemma witness {L S A B} (o : option (L * S)) (f : M S A) (g : M S B) (Q : A -> S -> Prop) :
  match o with Some (l, s) => match f s, g s with Ok a _, Panic s' => Q a s' | _, _ => False end | None => False end ->
  exists l s a s1 s', o = Some (l, s) /\ f s = Ok a s1 /\ g s = Panic s' /\ Q a s'.
Proof.
  destruct o as [[l s]|]; [|done]. destruct (f s) as [a s1| |] eqn:EF; try done. destruct (g s) as [|s'|] eqn:EG; try done.
  intros H. by exists l, s, a, s1, s'.
Qed.

(** ** The consuming iterator *)
Section into_iter.
Context {T : Type}.
Variables (sz al : Z) (chk : bool) (bad : T -> bool).
Hypothesis Hsz : (0 < sz)%Z.
Hypothesis Hal : (0 < al)%Z.
Local Notation AS := (DefaultSpec (C := T) sz al Hsz Hal).
Local Notation IRep := (IRep (DefaultAllocator T) sz al AS).

Lemma ii_drop_pd_ok s0 cap s xs : IRep s0 cap s xs ->
  exists s', ii_drop_pd (DefaultAllocator T) sz al chk bad s =
      match panics bad xs with 0 => Ok Done s' | 1 => Panic s' | _ => Ok Aborted s' end /\
    st_drops (is_st s') = st_drops s0 ++ xs /\
    (panics bad xs = 0 -> ii_drop (DefaultAllocator T) sz al chk true s = Ok tt s') /\
    (forall b, own_block (st_v s0) <> Some b -> h_blk (st_h (is_st s')) !! b = h_blk (st_h s0) !! b).
Proof using Hsz Hal.
  intros R. pose proof (ii_len_ok _ _ _ Hsz _ _ _ _ _ R) as EL.
  destruct R as (ES & R). destruct s as [it s]. cbn [is_it is_st] in *.
  unfold ii_drop_pd, ii_drop. unfold bind at 1, gets at 1. cbn [is_it].
  destruct R as [(-> & -> & -> & HO)|(b & bk & f & HO & -> & C0 & Cl & Cz & Hb & Hl & Ht & HP)]; cbn [ii_begin ii_front is_null].
  - eexists. split; [reflexivity|]. subst s. cbn. rewrite app_nil_r. by split.
  - unfold bind at 1. rewrite EL.
    destruct (glue_slice_ok bad xs s b f bk) as (bk' & EG & ED & EB & EA & ELc & _).
    { by rewrite ES. } { lia. } { done. }
    unfold bind at 1, on_st at 1. cbn [is_st]. rewrite EG.
    assert (OUT : forall h b', hset (st_h s) b bk' = h -> own_block (st_v s0) <> Some b' -> h_blk h !! b' = h_blk (st_h s0) !! b').
    { intros h b' <- N. unfold hset. cbn [h_blk]. rewrite lookup_insert_ne by congruence. by rewrite ES. }
    destruct (panics bad xs) as [|[|n]]; cbn [after_glue].
    + unfold bind at 1. unfold ii_capacity, bind at 1, gets at 1. cbn [is_it ii_cap ii_begin].
      unfold on_st at 1, offset_from. destruct (Z.eqb_spec sz 0); [lia|]. cbn [is_st].
      rewrite pdiff_ok by lia. unfold or_ub at 1, ret at 1.
      unfold bind at 1, on_st at 1. cbn [is_st]. rewrite Nat.sub_0_r.
      assert (ED2 : exists h, Vector.deallocate (DefaultAllocator T) sz al chk (Ptr b 0) cap (VState (st_v s) (st_a s) (hset (st_h s) b bk') (st_drops s ++ xs)) =
        Ok tt (VState (st_v s) (st_a s) h (st_drops s ++ xs)) /\ forall b', b' <> b -> h_blk h !! b' = h_blk (st_h s) !! b').
      { erewrite (deallocate_ok (DefaultAllocator T) sz al chk Hsz AS _ b cap bk').
        - cbn [st_a st_v st_h st_drops]. destruct (decide _); eexists; (split; [reflexivity|]); intros b' N.
          + done.
          + cbn. rewrite lookup_delete_ne by congruence. by rewrite lookup_insert_ne by congruence.
        - apply hset_lookup.
        - done.
        - destruct HP as [HP|HP]; [by left|right].
          apply (as_layout_cells AS _ _ (bk_cells bk')) in HP; [|lia]. rewrite <- EB, <- EA in HP. by destruct bk'. }
      destruct ED2 as (h & ED2 & FR). rewrite ED2. eexists. split; [reflexivity|]. cbn [is_st st_drops st_h].
      split; [by rewrite ES|]. split.
      * intros _. unfold bind at 1, gets at 1. cbn [is_it ii_begin ii_front is_null]. unfold bind at 1. rewrite EL.
        unfold bind at 1, on_st at 1. cbn [is_st]. rewrite ED.
        unfold bind at 1. unfold ii_capacity, bind at 1, gets at 1. cbn [is_it ii_cap ii_begin].
        unfold on_st at 1, offset_from. destruct (Z.eqb_spec sz 0); [lia|]. cbn [is_st].
        rewrite pdiff_ok by lia. unfold or_ub at 1, ret at 1. unfold on_st at 1. cbn [is_st]. by rewrite Nat.sub_0_r, ED2.
      * intros b' N. rewrite FR by congruence. by rewrite ES.
    + eexists. split; [reflexivity|]. cbn [is_st st_drops st_h]. split; [by rewrite ES|]. split; [done|]. intros b' N. by eapply OUT.
    + eexists. split; [reflexivity|]. cbn [is_st st_drops st_h]. split; [by rewrite ES|]. split; [done|]. intros b' N. by eapply OUT.
Qed.
End into_iter.

Lemma L_C105_deque_drop_partial :
forall (T : Type) (sz al : Z) (chk : bool) (bad : T -> bool) (h0 : heap (dcell T)) prog l s xs, DequeSpec.Setup sz al h0 ->
  DequeSpec.built sz al chk h0 prog l s -> DequeSpec.contents sz chk s xs ->
  exists s', deque_drop_pd sz al chk bad s = (if existsb bad xs then Panic s' else Ok tt s') /\
    d_drops s' = d_drops s ++ up_to_bad bad xs /\
    (forall b bk, h_blk h0 !! b = Some bk -> h_blk (d_h s') !! b = Some bk) /\
    (existsb bad xs = true -> d_h s' = d_h s) /\
    (existsb bad xs = false -> deque_drop sz al chk s = Ok tt s').
Proof.
  intros T sz al chk bad h0 prog l s xs SU B C.
  destruct (built_rep sz al chk h0 SU _ _ _ B) as (pa & st & subs & lk & bo & xs' & d & R & _).
  rewrite (contents_eq sz al chk h0 SU _ _ _ _ _ _ _ _ R C). clear xs C. rename xs' into xs.
  rewrite (deque_drop_pd_ok sz al chk (DequeSpec.su_layout _ _ _ SU) h0 bad _ _ _ _ _ _ _ R).
  pose proof (dr_shape _ _ _ _ _ _ _ _ _ _ R) as SH.
  destruct (existsb bad xs) eqn:EB.
  - eexists. split; [done|]. split; [done|]. split; [|by split].
    intros b bk Hb. cbn [Deque.logged d_h]. rewrite (sh_frame _ _ _ _ _ _ _ _ _ SH); [done|].
    intros I. destruct (sh_own _ _ _ _ _ _ _ _ _ SH b I). congruence.
  - destruct (deque_drop_ok sz al chk (DequeSpec.su_layout _ _ _ SU) h0 _ _ _ _ _ _ _ R) as (s3 & b3 & E3 & D3 & _ & _ & OW & FR).
    exists s3. rewrite (up_to_none _ _ EB). split; [done|]. split; [done|]. split; [|done].
    intros b bk Hb. rewrite FR; [done|]. intros I. destruct (OW b I). congruence.
Qed.

Lemma L_C105_deque_drop_refuted :
forall (T : Type) (sz al : Z) (chk : bool) (bad : T -> bool) (h0 : heap (dcell T)) prog l s pre x y post, DequeSpec.Setup sz al h0 ->
  DequeSpec.built sz al chk h0 prog l s -> DequeSpec.contents sz chk s (pre ++ x :: y :: post) -> existsb bad pre = false -> bad x = true ->
  exists s', deque_drop_pd sz al chk bad s = Panic s' /\ d_drops s' = d_drops s ++ pre ++ [x] /\ d_h s' = d_h s.
Proof.
  intros T sz al chk bad h0 prog l s pre x y post SU B C NB BX.
  destruct (L_C105_deque_drop_partial T sz al chk bad h0 prog l s _ SU B C) as (s' & E & D & _ & F & _).
  assert (existsb bad (pre ++ x :: y :: post) = true) as EB.
  { rewrite existsb_app. cbn. rewrite BX. cbn. by rewrite orb_true_r. }
  rewrite EB in E. exists s'. split; [done|]. split; [|by apply F]. rewrite D. f_equal.
  clear -NB BX. induction pre as [|z pre IH]; cbn; [by rewrite BX|].
  cbn in NB. apply orb_false_iff in NB as [N1 N2]. rewrite N1. by rewrite IH.
Qed.

Lemma L_C105_into_iter :
forall (T : Type) (sz al : Z) (chk : bool) (clone : T -> option T) (cl : T -> T) (bad : T -> bool) (h : heap T)
  (cs : list (call T)) l s xs k (ics : list icall) la rest,
  (0 < sz)%Z -> (0 < al)%Z -> (forall x, clone x = Some (cl x)) -> heap_wf h -> forallb is_move cs = true ->
  chk = true \/ forallb (modest sz) cs = true ->
  run_calls (DefaultAllocator T) sz al chk true clone cs (VState Vector.new_in tt h []) = Some (l, s) ->
  as_slice sz s = Ok xs s -> Vector.capacity sz s = Ok k s -> ispec_calls k ics xs = (la, rest) ->
  exists s1 s2, irun sz ics (vec_into_iter s) = Ok la s1 /\
    ii_drop_pd (DefaultAllocator T) sz al chk bad s1 =
      match length (List.filter bad rest) with 0 => Ok Done s2 | 1 => Panic s2 | _ => Ok Aborted s2 end /\
    st_drops (is_st s2) = st_drops s ++ rest /\
    (forall b bk, h_blk h !! b = Some bk -> h_blk (st_h (is_st s2)) !! b = Some bk) /\
    (length (List.filter bad rest) = 0 -> ii_drop (DefaultAllocator T) sz al chk true s1 = Ok tt s2).
Proof.
  intros T sz al chk clone cl bad h cs l s xs k ics la rest Hsz Hal Hcl Hh M K E EX EC HI.
  destruct (reached sz al Hsz Hal chk true clone cl Hcl h Hh cs l s K (or_intror M) E) as (d & xs' & cap & S & R & F & D).
  erewrite as_slice_ok in EX by done. erewrite capacity_ok in EC by done. simplify_eq.
  destruct (irun_refines (DefaultAllocator T) sz al Hsz (DefaultSpec sz al Hsz Hal) ics s k _ xs la rest
    (IRep_start _ _ _ _ _ _ _ R) HI) as (s1 & E1 & R1).
  destruct (ii_drop_pd_ok sz al chk bad Hsz Hal s k s1 rest R1) as (s2 & E2 & D2 & N2 & F2).
  exists s1, s2. split; [done|]. split; [done|]. split; [done|]. split; [|done].
  intros b bk Hb. rewrite <- F in Hb. unfold VectorProofs.frame in Hb.
  destruct (own_block (st_v s)) as [b'|] eqn:EO; cbn in Hb.
  - apply lookup_delete_Some in Hb as [N Hb]. rewrite F2 by congruence. done.
  - by rewrite F2.
Qed.

Lemma L_C105_list_drop_refuted :
forall (T : Type) (pick : mem T -> Z -> Z -> Z) (chk : bool) (bad : T -> bool) (nsz nal obj : Z) (m0 : mem T) (prog : list (lcall T)) l s pre x y post,
  ListSetup m0 obj 24 nsz nal -> honest pick -> short prog -> LinkedListSpec.built pick false chk nsz nal obj m0 prog l s ->
  LinkedListSpec.contents chk nsz s (pre ++ x :: y :: post) -> existsb bad pre = false -> bad x = true ->
  exists s', list_clear_pd (DefaultAddrAlloc pick false) chk nsz bad s = Panic s' /\ l_drops s' = l_drops s ++ pre ++ [x].
Proof.
  intros T pick chk bad nsz nal obj m0 prog l s pre x y post S H P B C NB BX.
  destruct (L_C86_list_clear_refuted T pick chk bad nsz nal obj m0 prog l s pre x (y :: post) S H P B C NB BX) as (s' & E & D & _).
  by exists s'.
Qed.

Lemma L_C105_table_drop_refuted :
exists (h0 : heap (tcell Z Z)) prog l s s' s1 es, HashTableSpec.Setup 24 8 0 hx_hash Z.eqb h0 /\
  HashTableSpec.built 24 8 0 true hx_hash Z.eqb h0 prog l s /\ h_call 24 8 0 true hx_hash Z.eqb HIter s = Ok (HPairs es) s1 /\
  free_buckets_pd 24 8 0 (fun _ => false) (Z.eqb 20) s = Panic s' /\ In (3, 30)%Z es /\ ~ In (inl 3%Z) (t_drops s') /\ ~ In (inr 30%Z) (t_drops s').
Proof.
  set (prog := [HInsert 1 10; HInsert 2 20; HInsert 3 30]%Z).
  destruct (witness (hx_run prog) (h_call 24 8 0 true hx_hash Z.eqb HIter) (free_buckets_pd 24 8 0 (fun _ => false) (Z.eqb 20))
    (fun a s' => a = HPairs [(1, 10); (2, 20); (3, 30)]%Z /\ t_drops s' = [inl 1; inr 10; inl 2; inr 20]%Z)) as (l & s & a & s1 & s' & E & EI & EF & -> & D).
  { vm_compute. done. }
  exists hx_heap, prog, l, s, s', s1, [(1, 10); (2, 20); (3, 30)]%Z.
  split; [apply (HashTableDerived.hx_setup Z)|]. split; [exact E|]. split; [done|]. split; [done|]. rewrite D.
  split; [by right; right; left|]. split; intros I; cbn in I; decompose [or] I; done.
Qed.
