(** Proofs of the properties stated in ReadersProps.v. *)
From Verif Require Import Base Heap Alloc AddrMem Vector String VectorMap Deque HashTable LinkedList RBTree ReadersSpec.
From Verif Require AllocContract VectorSpec VectorMapSpec DequeSpec HashTableSpec FixedPoolSpec LinkedListSpec RBTreeSpec.
Local Open Scope nat_scope.

From Verif Require Import ReadersProofs.
From Verif Require VectorDerived StringDerived VectorMapDerived DequeDerived HashTableDerived LinkedListDerived RBTreeDerived.

Section last.
Context {S C R : Type} (step : C -> S -> option (R * S)) (go : list C -> S -> option (list R * S)).
Hypothesis same : forall cs s, go cs s = in_turn step cs s.
Lemma in_turn_app cs cs' : forall s, in_turn step (cs ++ cs') s =
  match in_turn step cs s with
  | Some (l, s') => match in_turn step cs' s' with Some (l', s'') => Some (l ++ l', s'') | None => None end
  | None => None
  end.
Proof using.
  induction cs as [|c cs IH]; intros s; cbn [in_turn app].
  - by destruct (in_turn step cs' s) as [[]|].
  - destruct (step c s) as [[a s']|]; [|done]. rewrite IH. destruct (in_turn step cs s') as [[l s'']|]; [|done].
    by destruct (in_turn step cs' s'') as [[]|].
Qed.
Lemma last_step cs c s l s' : go cs s = Some (l, s') -> go (cs ++ [c]) s <> None -> exists a s'', step c s' = Some (a, s'').
Proof using same.
  rewrite !same, in_turn_app. intros ->. cbn [in_turn]. destruct (step c s') as [[a s'']|]; [eauto|done].
Qed.
End last.

Lemma quiet_step {S C R} (call : C -> M S R) c s a s' : ro (call c) -> answers call c s = Some (a, s') -> exists a, answers call c s = Some (a, s).
Proof. intros H E. apply quiet_call; [done|]. unfold answers in E. by destruct (call c s). Qed.

Lemma L_C95_vector_readers :
forall (T : Type) (sz al : Z) (chk nd : bool) (clone : T -> option T) (cl : T -> T) (h : heap T) (cs : list (call T)) l s threads,
  (0 < sz)%Z -> (0 < al)%Z -> (forall x, clone x = Some (cl x)) -> heap_wf h ->
  nd = false \/ forallb VectorSpec.is_move cs = true ->
  chk = true \/ forallb (VectorSpec.modest sz) cs = true ->
  run_calls (DefaultAllocator T) sz al chk nd clone cs (VState new_in tt h []) = Some (l, s) ->
  forallb (forallb shares_vector) threads = true ->
  undisturbed (step (DefaultAllocator T) sz al chk nd clone) threads s.
Proof.
intros T sz al chk nd clone cl h cs l s threads Hs Ha Hc Hh Hm HK E. apply undisturbed_quiet. intros c H.
destruct (last_step (step (DefaultAllocator T) sz al chk nd clone) (run_calls (DefaultAllocator T) sz al chk nd clone)) with (cs := cs) (c := c) (s := VState new_in tt h []) (l := l) (s' := s) as (a & s' & ST); [|done| |].
{ induction cs0 as [|c0 cs0 IH]; intros s0; cbn [run_calls in_turn]; [done|]. destruct (step _ _ _ _ _ _ c0 s0) as [[]|]; [|done]. by rewrite IH. }
{ eapply VectorDerived.L_C03_vector_is_memory_safe; try done.
  - destruct Hm as [Hm|Hm]; [by left|right]. rewrite forallb_app, Hm. cbn. by destruct c.
  - destruct HK as [HK|HK]; [by left|right]. rewrite forallb_app, HK. cbn. by destruct c. }
pose proof (ro_exec (A := unit) sz (DefaultAllocator T) al chk nd clone c H s) as RO. unfold step in *.
destruct (exec _ _ _ _ _ _ c s); simplify_eq; eauto.
Qed.

Lemma L_C95_string_readers :
forall (chk : bool) (h : heap Z) (os : list sop) l w threads, heap_wf h ->
  chk = true \/ forallb StringSpec.o_modest os = true ->
  s_wrun (DefaultAllocator Z) chk os (World [] tt h []) = Some (l, w) ->
  forallb (forallb (fun o => shares_string o && on_strings (length (w_vecs w)) o)) threads = true ->
  undisturbed (s_wstep (DefaultAllocator Z) chk) threads w.
Proof.
intros chk h os l w threads Hh HK E. apply (undisturbed_quiet _ (fun o => shares_string o && on_strings (length (w_vecs w)) o)). intros o H.
apply andb_prop in H as [H ON]. destruct (StringDerived.L_C17_terminator_stays_inside chk h os l w Hh HK E) as (SAFE & _).
assert (N : s_wstep (DefaultAllocator Z) chk o w <> None).
{ apply SAFE; [|right; destruct o as [| | | | |? []]; by inversion H]. intros i Hi. destruct o; cbn in *; try done; try (apply andb_prop in ON as [O1 O2]; apply Nat.ltb_lt in O1, O2); try apply Nat.ltb_lt in ON;
    repeat (apply elem_of_cons in Hi as [->|Hi]; [lia|]); by apply elem_of_nil in Hi. }
destruct o as [| | | |i j|i c]; try done; cbn [s_wstep] in *.
- repeat case_match; try done. eauto.
- destruct (w_vecs w !! i) as [v|] eqn:V; [|done].
  pose proof (ro_s_exec (A := unit) (DefaultAllocator Z) chk c H (VState v (w_a w) (w_h w) (w_drops w))) as RO. unfold s_step in *.
  destruct (s_exec _ _ c _) as [a s'|s'|]; try done; subst s'; cbn; rewrite list_insert_id by done; destruct w; eauto.
Qed.

Lemma L_C95_vector_map_readers :
forall (K V : Type) (sz al : Z) (chk nd : bool) (cmp eqb : K -> K -> bool) (h : heap (K * V)) (cs : list (mcall K V)) l s threads,
  (0 < sz)%Z -> (0 < al)%Z -> VectorMapSpec.KeyOrder cmp eqb -> heap_wf h ->
  chk = true \/ forallb (VectorMapSpec.m_modest sz) cs = true ->
  m_run (DefaultAllocator (K * V)) sz al chk nd cmp eqb cs (new_map h) = Some (l, s) ->
  forallb (forallb shares_vector_map) threads = true ->
  undisturbed (m_step (DefaultAllocator (K * V)) sz al chk nd cmp eqb) threads s.
Proof.
intros K V sz al chk nd cmp eqb h cs l s threads Hs Ha Ho Hh HK E. apply undisturbed_quiet. intros c H.
destruct (last_step (m_step (DefaultAllocator (K * V)) sz al chk nd cmp eqb) (m_run (DefaultAllocator (K * V)) sz al chk nd cmp eqb)) with (cs := cs) (c := c) (s := new_map h) (l := l) (s' := s) as (a & s' & ST); [|done| |].
{ induction cs0 as [|c0 cs0 IH]; intros s0; cbn [m_run in_turn]; [done|]. destruct (m_step _ _ _ _ _ _ _ c0 s0) as [[]|]; [|done]. by rewrite IH. }
{ destruct (VectorMapSpec.spec_mcalls eqb (AllocContract.default_fits sz al) (cs ++ [c]) (VectorMapSpec.SMap [] 0)) as [[[l1 d1] e1] m1] eqn:SP.
  assert (HK2 : chk = true \/ forallb (VectorMapSpec.m_modest sz) (cs ++ [c]) = true).
  { destruct HK as [HK|HK]; [by left|right]. rewrite forallb_app, HK. cbn. by destruct c. }
  destruct (VectorMapDerived.L_C25_map_refinement K V sz al chk nd cmp eqb h (cs ++ [c]) l1 d1 e1 m1 Hs Ha Ho Hh SP HK2) as (s1 & xs & -> & _). done. }
pose proof (ro_m_exec (A := unit) sz (DefaultAllocator (K * V)) al chk nd cmp eqb c H s) as RO. unfold m_step in *.
destruct (m_exec _ _ _ _ _ _ _ c s); simplify_eq; eauto.
Qed.

Lemma L_C95_deque_readers :
forall (T : Type) (sz al : Z) (chk : bool) (h0 : heap (dcell T)) (prog : list (dcall T)) l s threads, DequeSpec.Setup sz al h0 ->
  DequeSpec.built sz al chk h0 prog l s ->
  forallb (forallb shares_deque) threads = true -> undisturbed (answers (d_call sz al chk)) threads s.
Proof.
intros T sz al chk h0 prog l s threads Hs (s0 & N & E). apply undisturbed_quiet. intros c H.
destruct (last_step (answers (d_call (T := T) sz al chk)) (d_run sz al chk)) with (cs := prog) (c := c) (s := s0) (l := l) (s' := s) as (a & s' & ST); [|done| |].
{ induction cs as [|c0 cs0 IH]; intros s1; cbn [d_run in_turn]; [done|]. unfold answers. destruct (d_call _ _ _ c0 s1) as [? s2|s2|]; try done; rewrite IH; by destruct (in_turn _ _ s2) as [[]|]. }
{ destruct (DequeDerived.L_C31_deque_refines_list T sz al chk h0 (prog ++ [c]) Hs) as (l1 & s1 & xs & (s0' & N' & E') & _).
  rewrite N in N'. injection N' as <-. by rewrite E'. }
eapply quiet_step; [by apply ro_d_call|done].
Qed.

Lemma L_C95_queue_readers :
forall (T : Type) (sz al : Z) (chk : bool) (h0 : heap (dcell T)) (prog : list (qcall T)) s0 l s threads, DequeSpec.Setup sz al h0 ->
  (Z.of_nat (DequeSpec.q_pushes prog) <= DequeSpec.max_len sz)%Z ->
  deque_new sz al h0 [] = Ok tt s0 -> q_run sz al chk prog s0 = Some (l, s) ->
  forallb (forallb shares_queue) threads = true -> undisturbed (answers (q_call sz al chk)) threads s.
Proof.
intros T sz al chk h0 prog s0 l s threads Hs B N E. apply undisturbed_quiet. intros c H.
destruct (last_step (answers (q_call (T := T) sz al chk)) (q_run sz al chk)) with (cs := prog) (c := c) (s := s0) (l := l) (s' := s) as (a & s' & ST); [|done| |].
{ induction cs as [|c0 cs0 IH]; intros s1; cbn [q_run in_turn]; [done|]. unfold answers. destruct (q_call _ _ _ c0 s1) as [? s2|s2|]; try done; rewrite IH; by destruct (in_turn _ _ s2) as [[]|]. }
{ destruct (DequeDerived.L_C38_queue_answers T sz al chk h0 (prog ++ [c]) Hs) as (s0' & s1 & N' & E' & _).
  { unfold DequeSpec.q_pushes in *. rewrite List.filter_app, app_length. destruct c; try done; cbn; lia. }
  rewrite N in N'. injection N' as <-. by rewrite E'. }
eapply quiet_step; [by apply ro_q_call|done].
Qed.

Lemma L_C95_hash_map_readers :
forall (K V : Type) nsz nal eb chk hash eqb (h0 : heap (tcell K V)) prog l s threads, HashTableSpec.Setup nsz nal eb hash eqb h0 ->
  HashTableSpec.built nsz nal eb chk hash eqb h0 prog l s ->
  forallb (forallb shares_hash) threads = true -> undisturbed (answers (h_call nsz nal eb chk hash eqb)) threads s.
Proof.
intros K V nsz nal eb chk hash eqb h0 prog l s threads Hs E. apply undisturbed_quiet. intros c H. unfold HashTableSpec.built in E.
destruct (last_step (answers (h_call (V := V) nsz nal eb chk hash eqb)) (h_run nsz nal eb chk hash eqb)) with (cs := prog) (c := c) (s := ht_new (K := K) (V := V) eb h0 []) (l := l) (s' := s) as (a & s' & ST); [|done| |].
{ induction cs as [|c0 cs0 IH]; intros s1; cbn [h_run in_turn]; [done|]. unfold answers. by destruct (h_call _ _ _ _ _ _ c0 s1) as [? s2|s2|]; rewrite ?IH. }
{ pose proof (HashTableDerived.L_C39_hash_map_refines_finite_map K V nsz nal eb chk hash eqb h0 Hs (prog ++ [c])) as R.
  destruct (HashTableSpec.spec_run eqb (prog ++ [c]) []) as [[? ?] ?]. destruct R as (l9 & s9 & E' & _). unfold HashTableSpec.built in E'. by rewrite E'. }
eapply quiet_step; [by apply ro_h_call|done].
Qed.

Lemma L_C95_hash_set_readers :
forall (K : Type) nsz nal eb chk hash eqb (h0 : heap (tcell K unit)) (prog : list (HashTable.scall K)) l s threads, HashTableSpec.Setup nsz nal eb hash eqb h0 ->
  set_run nsz nal eb chk hash eqb prog (ht_new eb h0 []) = Some (l, s) ->
  forallb (forallb shares_set) threads = true -> undisturbed (answers (set_call nsz nal eb chk hash eqb)) threads s.
Proof.
intros K nsz nal eb chk hash eqb h0 prog l s threads Hs E. apply undisturbed_quiet. intros c H.
destruct (last_step (answers (set_call nsz nal eb chk hash eqb)) (set_run nsz nal eb chk hash eqb)) with (cs := prog) (c := c) (s := ht_new (K := K) (V := unit) eb h0 []) (l := l) (s' := s) as (a & s' & ST); [|done| |].
{ induction cs as [|c0 cs0 IH]; intros s1; cbn [set_run in_turn]; [done|]. unfold answers. by destruct (set_call _ _ _ _ _ _ c0 s1) as [? s2|s2|]; rewrite ?IH. }
{ destruct (HashTableDerived.L_C51_hash_set_refines_set K nsz nal eb chk hash eqb h0 Hs (prog ++ [c])) as (l1 & s1 & -> & _). done. }
eapply quiet_step; [by apply ro_set_call|done].
Qed.

Lemma L_C95_list_readers :
forall (T : Type) (pick : mem T -> Z -> Z -> Z) (chk : bool) (nsz nal obj : Z) (m0 : mem T) (prog : list (lcall T)) l s threads,
  LinkedListSpec.ListSetup m0 obj 24 nsz nal -> FixedPoolSpec.honest pick -> LinkedListSpec.short prog ->
  LinkedListSpec.built pick false chk nsz nal obj m0 prog l s ->
  forallb (forallb shares_list) threads = true -> undisturbed (answers (l_call (DefaultAddrAlloc pick false) chk nsz nal)) threads s.
Proof.
intros T pick chk nsz nal obj m0 prog l s threads Hs Hp SH (s0 & N & E). apply undisturbed_quiet. intros c H.
destruct (last_step (answers (l_call (DefaultAddrAlloc pick false) chk nsz nal)) (l_run (DefaultAddrAlloc pick false) chk nsz nal)) with (cs := prog) (c := c) (s := s0) (l := l) (s' := s) as (a & s' & ST); [|done| |].
{ induction cs as [|c0 cs0 IH]; intros s1; cbn [l_run in_turn]; [done|]. unfold answers. by destruct (l_call _ _ _ _ c0 s1) as [? s2|s2|]; rewrite ?IH. }
{ assert (SH' : LinkedListSpec.short (prog ++ [c])).
  { revert SH. unfold LinkedListSpec.short. intros SH. eapply Z.le_lt_trans; [|exact SH]. apply inj_le. generalize 0 as n. clear -H.
    induction prog as [|c0 prog IH]; intros n; cbn [LinkedListSpec.peak app]; [|specialize (IH (LinkedListSpec.len_call c0 n)); lia].
    destruct c; try done; cbn; lia. }
  destruct (LinkedListDerived.L_C53_list_after_refusals T pick chk nsz nal obj m0 (prog ++ [c]) Hs Hp SH') as (l1 & s1 & xs & (s0' & N' & E') & _).
  rewrite N in N'. injection N' as <-. by rewrite E'. }
eapply quiet_step; [by apply ro_l_call|done].
Qed.

Lemma L_C95_tree_readers :
forall (A K V : Type) (lt : K -> K -> bool) (nsz : Z) (s : tstate A K V) (t : RBTreeSpec.tree K V) threads,
  RBTreeSpec.strict_weak_order lt -> (24 <= nsz)%Z -> RBTreeSpec.holds nsz s t -> RBTreeSpec.sorted lt t ->
  forallb (forallb shares_tree) threads = true -> undisturbed (answers (t_call nsz lt)) threads s.
Proof.
intros A K V lt nsz s t threads Ho Hn Hh Hs. apply undisturbed_quiet. intros c H.
pose proof (RBTreeDerived.L_C66_programs_match_sorted_entries A K V lt nsz s t [c] Ho Hn Hh Hs) as R.
destruct (RBTreeSpec.tspec_run lt [c] (RBTreeSpec.entries t)) as [[l d] es]. destruct R as (s' & t' & R & _). cbn [t_run] in R.
apply quiet_call; [by apply ro_t_call|]. by destruct (t_call nsz lt c s).
Qed.
