(** Proofs of the properties stated in StayProps.v. *)
From Verif Require Import Base Heap HeapLemmas Alloc AllocContract AddrMem Vector VectorSpec Deque DequeSpec DequeCpp
  HashTable HashTableSpec FixedPool FixedPoolSpec LinkedList LinkedListSpec HandoverSpec.

From Verif Require Import VectorProofs DequeProofs HashTableProofs FixedPoolProofs
  LinkedListProofs LinkedListCalls LinkedListRuns LinkedListDerived HandoverDerived VectorStill.

Lemma L_C98_vector_stays :
forall (T : Type) (sz al : Z) (chk nd : bool) (clone : T -> option T) (cl : T -> T) (h : heap T) v xs cap (cs : list (call T)) l d ys,
  (0 < sz)%Z -> (0 < al)%Z -> (forall x, clone x = Some (cl x)) -> heap_wf h -> vector_in_memory sz al v h xs cap ->
  nd = false \/ forallb is_move cs = true -> CClear ∉ cs ->
  spec_calls (default_fits sz al) cl cs (SVec xs cap) = (l, d, SVec ys cap) -> chk = true \/ forallb (modest sz) cs = true ->
  exists s, run_calls (DefaultAllocator T) sz al chk nd clone cs (VState v tt h []) = Some (l, s) /\
    as_slice sz s = Ok ys s /\ v_begin (st_v s) = v_begin v /\ vector_in_memory sz al (st_v s) (st_h s) ys cap.
Proof.
  intros T sz al chk nd clone cl h v xs cap cs l d ys Hsz Hal Hcl Hh M ND NC S K.
  pose proof (vim_rep sz al Hsz Hal v h xs cap [] Hh M) as R0.
  destruct (run_modest (DefaultAllocator T) sz al chk nd Hsz (DefaultSpec sz al Hsz Hal) clone cl Hcl cs (VState v tt h []) xs cap l d ys cap R0 ND S K)
    as (s & E & R & _).
  exists s. split; [done|]. split; [by eapply (as_slice_ok (DefaultAllocator T) sz al Hsz)|]. split; [|by eapply rep_vim].
  refine (run_still (DefaultAllocator T) sz al chk nd Hsz (DefaultSpec sz al Hsz Hal) clone cl Hcl cs (VState v tt h []) xs cap l d ys s R0 ND K _ S E).
  apply not_true_is_false. intros X. apply existsb_exists in X as (c & I & C). apply NC. destruct c; try done. by apply elem_of_list_In.
Qed.

Lemma L_C98_deque_stays :
forall (T : Type) (sz al : Z) (chk : bool) (N : nat) (s : dstate T) xs own (prog : list (dcall T)),
  (0 < sz)%Z -> layout_ok (Z.of_nat N * sz) al = true -> heap_wf (d_h s) -> deque_in_memory sz al N s xs own ->
  (Z.of_nat (length xs + DequeSpec.pushes prog) <= max_len sz)%Z ->
  let '(answers, _, ys) := DequeSpec.spec_run prog xs in
  exists s' before after, d_run sz al chk prog s = Some (map Some answers, s') /\
    (exists it, Deque.iter s = Ok it s /\ step_places chk (repeat true (length xs)) it s = Ok (map Some before) s) /\
    (exists it, Deque.iter s' = Ok it s' /\ step_places chk (repeat true (length ys)) it s' = Ok (map Some after) s') /\
    (forall i x, xs !! i = Some x -> exists p, before !! i = Some p /\ hload (d_h s) p = Some (DElem x)) /\
    (forall j y, ys !! j = Some y -> exists p, after !! j = Some p /\ hload (d_h s') p = Some (DElem y)) /\
    forall i j, i < length xs -> DequeSpec.ends_at prog (length xs) i = Some j -> j < length ys /\ after !! j = before !! i.
Proof.
  intros T sz al chk N s xs own prog Hsz Hlay W M B.
  destruct (dim_rep sz al Hsz s N xs own W M) as (-> & pa & st & subs & bo & -> & R).
  set (h0 := wipe (pa :: subs) (d_h s)) in *.
  destruct (DequeProofs.run_at sz al chk Hsz Hlay h0 prog s pa st subs [] bo xs R B) as (s' & pa' & st' & subs' & bo' & E & R' & _ & ST).
  destruct (DequeSpec.spec_run prog xs) as [[answers dr] ys]. cbn [fst snd] in *.
  assert (SP : forall A (l : list A), (spec_steps (repeat true (length l)) l).1 = map Some l).
  { clear. intros A l. induction l as [|x l IH]; [done|]. cbn [length repeat spec_steps]. change (tail (x :: l)) with l. destruct (spec_steps (repeat true (length l)) l) as [a b]. cbn in *. by rewrite IH. }
  assert (PL : forall s pa st subs bo (xs : list T), DRep sz al h0 s pa st subs [] bo xs ->
    exists it, Deque.iter s = Ok it s /\ step_places chk (repeat true (length xs)) it s = Ok (map Some (map (fun i => loc sz subs (bo + i)) (seq 0 (length xs)))) s).
  { clear -Hsz Hlay SP. intros s1 pa1 st1 subs1 bo1 xs1 R. eexists. split; [by eapply (DequeProofs.iter_ok sz al)|].
    destruct (DequeProofs.steps_ok sz al chk Hlay h0 s1 pa1 st1 subs1 [] bo1 xs1 (repeat true (length xs1)) R [] xs1 []) as (_ & _ & _ & _ & X); [by rewrite app_nil_r|].
    cbn [length] in X. rewrite Nat.add_0_r in X. rewrite X. rewrite <- SP, map_length, seq_length. done. }
  assert (LK : forall (f : nat -> ptr) n i, i < n -> map f (seq 0 n) !! i = Some (f i)).
  { clear. intros f n i L. rewrite list_lookup_fmap, lookup_seq_lt by done. done. }
  assert (EL : forall s pa st subs bo (xs : list T), DRep sz al h0 s pa st subs [] bo xs -> forall i x, xs !! i = Some x ->
    exists p, map (fun i => loc sz subs (bo + i)) (seq 0 (length xs)) !! i = Some p /\ hload (d_h s) p = Some (DElem x)).
  { clear -LK. intros s1 pa1 st1 subs1 bo1 xs1 R i x Hx. pose proof (lookup_lt_Some _ _ _ Hx). rewrite LK by done. eexists. split; [done|]. by apply (dr_elems _ _ _ _ _ _ _ _ _ _ R). }
  exists s', (map (fun i => loc sz subs (bo + i)) (seq 0 (length xs))), (map (fun i => loc sz subs' (bo' + i)) (seq 0 (length ys))).
  split; [done|]. split; [by eapply PL|]. split; [by eapply PL|]. split; [by eapply EL|]. split; [by eapply EL|].
  intros i j Hi EJ. destruct (ST i j Hi EJ) as [L X]. split; [done|]. rewrite !LK by done. by rewrite X.
Qed.

Lemma L_C98_list_stays :
forall (T : Type) (pick : mem T -> Z -> Z -> Z) (chk : bool) (nsz nal obj : Z) (m0 : mem T) (s : lstate unit T) ps xs (prog : list (lcall T)),
  ListSetup m0 obj 24 nsz nal -> honest pick -> list_in_memory nsz nal obj s m0 ps xs ->
  room pick (m_live m0) nsz nal (LinkedListSpec.peak prog (length xs)) -> (Z.of_nat (LinkedListSpec.peak prog (length xs)) < u32_lim)%Z ->
  let '(answers, _, ys) := LinkedListSpec.spec_run prog xs in
  exists s' ps', l_run (DefaultAddrAlloc pick false) chk nsz nal prog s = Some (map Some answers, s') /\
    list_in_memory nsz nal obj s' m0 ps' ys /\
    forall i j p, LinkedListSpec.ends_at prog (length xs) i = Some j -> ps !! i = Some p -> ps' !! j = Some p.
Proof.
  intros T pick chk nsz nal obj m0 s ps xs prog LS HP M RM SH.
  set (B := LinkedListSpec.peak prog (length xs)) in *.
  assert (LB : (Z.of_nat (length xs) <= Z.of_nat B)%Z) by (pose proof (peak_ge prog (length xs)); lia).
  assert (R := lim_rep nsz nal obj s m0 ps xs _ M LB).
  assert (AO := default_ok pick false chk nsz nal obj 24 m0 false B LS HP (fun _ => RM) ltac:(lia)).
  assert (FO := default_frees pick false chk nsz nal obj 24 m0 false B LS (fun _ => RM) eq_refl).
  assert (H16 : (16 <= nsz)%Z) by apply (ls_node _ _ _ _ _ LS).
  destruct (LinkedListRuns.run_at (DefaultAddrAlloc pick false) chk nsz nal obj _ false _ H16 (ls_align _ _ _ _ _ LS) SH AO prog s xs ps R (fun _ => FO) ltac:(done))
    as (l & s' & ps' & ys & d & E & R' & X & D & SP).
  destruct (SP eq_refl) as (S2 & NN & ST). rewrite S2. exists s', ps'. rewrite <- (none_free l NN). split; [done|].
  pose proof R' as [EN ES HI RG V LBB]. destruct HI as [DL DP DN DA].
  split; [|done]. split; try done. by eapply (rep_ring (DefaultAddrAlloc pick false) chk nsz nal obj _ false _ H16 (ls_align _ _ _ _ _ LS) SH AO).
Qed.

Lemma L_C98_hash_map_stays :
forall (K V : Type) nsz nal eb chk hash eqb (s : tstate K V) buckets own (prog : list (hcall K V)),
  (0 < nsz)%Z -> layout_ok nsz nal = true -> KeyHash eqb hash -> heap_wf (t_h s) ->
  table_in_memory nsz nal eb hash eqb s buckets own ->
  exists l s' buckets' own', h_run nsz nal eb chk hash eqb prog s = Some (l, s') /\
    table_in_memory nsz nal eb hash eqb s' buckets' own' /\
    forall b k v, (b, (k, v)) ∈ concat buckets -> (forall c, c ∈ prog -> HashTableSpec.keeps eqb c k = true) ->
      exists v' next, (b, (k, v')) ∈ concat buckets' /\ h_blk (t_h s') !! b = Some (Block nsz nal [Some (TNode k v' next)]).
Proof.
  intros K V nsz nal eb chk hash eqb s bs own prog Hnsz Hlay KH W M.
  destruct (tim_rep nsz nal eb hash eqb s bs own W M) as (arrs & EO & R).
  set (h0 := wipe own (t_h s)) in *.
  pose proof (h_run_keeps nsz nal eb chk hash eqb Hnsz Hlay KH prog h0 s bs arrs _ _ R (Permutation_refl _)) as H.
  destruct (HashTableSpec.spec_run eqb prog _) as [[answers dr] m].
  destruct H as (l & s' & cs' & arrs' & d' & E & SA & R' & KP & _).
  destruct (rep_tim nsz nal eb hash eqb h0 s' cs' arrs' _ R') as (own' & M' & _).
  exists l, s', cs', own'. split; [done|]. split; [done|]. intros b k v Hb Hc.
  destruct (KP b k v Hb) as (v' & I).
  { apply forallb_forall. intros c Ic. apply Hc. by apply elem_of_list_In. }
  destruct M' as [(a & hs & by_ & _ & _ & _ & F & _) _ _ _ _ _ _].
  assert (NF : forall l (p : ptr), nodes_from nsz nal (t_h s') p l -> (b, (k, v')) ∈ l -> exists next, h_blk (t_h s') !! b = Some (Block nsz nal [Some (TNode k v' next)])).
  { clear. induction l as [|[b1 [k1 v1]] l IH]; intros p N I; [by apply elem_of_nil in I|]. cbn in N. destruct N as (_ & nx & EB & N).
    apply elem_of_cons in I as [I|I]; [injection I as <- <- <-; by exists nx|]. by eapply IH. }
  assert (X : exists next, h_blk (t_h s') !! b = Some (Block nsz nal [Some (TNode k v' next)])).
  { clear -I F NF. induction F as [|p c hs cs N F IH]; [by apply elem_of_nil in I|]. cbn in I. apply elem_of_app in I as [I|I]; [by eapply NF|by apply IH]. }
  destruct X as (nx & X). by exists v', nx.
Qed.
