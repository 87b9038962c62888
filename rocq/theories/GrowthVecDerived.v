(** Proofs of the properties stated in GrowthVecProps.v. *)
From Verif Require Import Base Heap Alloc AllocContract Vector VectorSpec HandoverSpec GrowthSpec.

From Verif Require Import HeapLemmas VectorProofs HandoverDerived GrowthProofs.

Lemma L_C101_vector_one_by_one_partial :
forall (T : Type) (sz al : Z) (chk nd : bool) (h : heap T) v xs cap (cs : list (call T)) l d ys cap',
  (0 < sz)%Z -> (0 < al)%Z -> heap_wf h -> vector_in_memory sz al v h xs cap -> forallb one_by_one cs = true ->
  spec_calls (default_fits sz al) id cs (SVec xs cap) = (l, d, SVec ys cap') -> chk = true \/ forallb (modest sz) cs = true ->
  (exists s, run_calls (DefaultAllocator T) sz al chk nd Some cs (VState v tt h []) = Some (l, s)) /\
  relocated (DefaultAllocator T) sz al chk nd Some cs (VState v tt h []) <= length xs + 2 * added cs.
Proof.
  intros T sz al chk nd h v xs cap cs l d ys cap' Hsz Hal Hh M O S K.
  pose proof (vim_rep sz al Hsz Hal v h xs cap [] Hh M) as R0.
  assert (Hcl : forall x : T, Some x = Some (id x)) by done.
  assert (MV : forallb is_move cs = true).
  { clear -O. induction cs as [|c cs IH]; [done|]. cbn [forallb] in *. apply andb_prop in O as [O1 O2]. rewrite IH by done. by destruct c. }
  split.
  - destruct (run_modest (DefaultAllocator T) sz al chk nd Hsz (DefaultSpec sz al Hsz Hal) Some id Hcl cs (VState v tt h []) xs cap l d ys cap' R0 (or_intror MV) S K)
      as (s & E & _). by exists s.
  - pose proof (relocated_ok (DefaultAllocator T) sz al chk nd Hsz (DefaultSpec sz al Hsz Hal) Some id Hcl cs (VState v tt h []) xs cap l d ys cap' R0 O S K) as B.
    pose proof (Rep_len _ _ _ _ _ _ _ R0). lia.
Qed.

Lemma L_C101_vector_capacity_follows :
forall (T : Type) (sz al : Z) (chk nd : bool) (h : heap T) (cs : list (call T)) l d ys cap,
  (0 < sz)%Z -> (0 < al)%Z -> heap_wf h -> forallb one_by_one cs = true ->
  spec_calls (default_fits sz al) id cs (SVec [] 0) = (l, d, SVec ys cap) -> chk = true \/ forallb (modest sz) cs = true ->
  exists s, run_calls (DefaultAllocator T) sz al chk nd Some cs (VState (Vec Null Null Null) tt h []) = Some (l, s) /\
    capacity sz s = Ok cap s /\ (cap = 0 \/ exists k, cap = 2 ^ k /\ 2 ^ k <= 2 * added cs).
Proof.
  intros T sz al chk nd h cs l d ys cap Hsz Hal Hh O E K.
  assert (Hcl : forall x : T, Some x = Some (id x)) by done.
  assert (MV : forallb is_move cs = true).
  { clear -O. induction cs as [|c cs IH]; [done|]. cbn [forallb] in *. apply andb_prop in O as [O1 O2]. rewrite IH by done. by destruct c. }
  assert (R0 : Rep (DefaultAllocator T) sz al (DefaultSpec sz al Hsz Hal) (VState (Vec Null Null Null) tt h []) [] 0).
  { apply (vim_rep sz al Hsz Hal); [done|by left]. }
  destruct (run_modest (DefaultAllocator T) sz al chk nd Hsz (DefaultSpec sz al Hsz Hal) Some id Hcl cs _ [] 0 l d ys cap R0 (or_intror MV) E K)
      as (s & ER & R & _). exists s. split; [done|]. split; [by eapply (capacity_ok (DefaultAllocator T) sz al Hsz)|].
  clear -O E. revert O E. generalize (default_fits sz al). intros fits O E.
  assert (G : forall (cs : list (call T)) n (xs : list T) c l d ys cap, length xs <= n -> c = 0 \/ (exists k, c = 2 ^ k /\ 2 ^ k <= 2 * n) -> forallb one_by_one cs = true ->
    spec_calls fits id cs (SVec xs c) = (l, d, SVec ys cap) -> cap = 0 \/ exists k, cap = 2 ^ k /\ 2 ^ k <= 2 * (n + added cs)).
  { clear. induction cs as [|c cs IH]; intros n xs k0 l d ys cap L H O E; cbn [spec_calls forallb] in *.
    - injection E as <- <- <- <-. cbn [added]. by rewrite Nat.add_0_r.
    - apply andb_prop in O as [O1 O2]. destruct (spec_call fits id c (SVec xs k0)) as [[a d1] [xs1 k1]] eqn:E1.
      destruct (spec_calls fits id cs (SVec xs1 k1)) as [[l2 d2] [xs2 k2]] eqn:E2. injection E as <- <- <- <-.
      assert (X : length xs1 <= n + adds c /\ (k1 = 0 \/ exists k, k1 = 2 ^ k /\ 2 ^ k <= 2 * (n + adds c))).
      { destruct (spec_same_room fits id c xs k0 a d1 xs1 k1 O1 E1) as [(-> & _ & L1)|[(C & -> & ->)|(F & L1 & A1 & ->)]].
        - split; [lia|]. destruct H as [->|(k & -> & B)]; [by left|right]. exists k. split; [done|lia].
        - split; [cbn; lia|by left].
        - split; [lia|]. right. rewrite A1. destruct H as [->|(k & -> & B)]; [exists 0; cbn; lia|].
          destruct (Nat.eqb_spec (2 ^ k) 0) as [Z|Z]; [exists 0; cbn; lia|]. exists (S k). cbn [Nat.pow]. lia. }
      destruct X as [X1 X2]. destruct (IH (n + adds c) xs1 k1 _ _ _ _ X1 X2 O2 E2) as [->|(k & -> & B)]; [by left|].
      right. exists k. split; [done|]. rewrite (added_cons c cs). lia. }
  destruct (G cs 0 [] 0 l d ys cap ltac:(cbn; lia) ltac:(by left) O E) as [->|(k & -> & B)]; [by left|right; by exists k].
Qed.

Lemma L_C101_vector_growth_refuted :
forall (T : Type) (sz al : Z) (chk nd : bool) (h : heap T) (x : T) (n : nat),
  (0 < sz)%Z -> (0 < al)%Z -> heap_wf h -> default_fits sz al n = true ->
  let s0 := VState (Vec Null Null Null) tt h [] in
  let appends := replicate n (CAppend [x]) in
  let reserves := concat (replicate n [CReserve 1; CPush x]) in
  (2 * relocated (DefaultAllocator T) sz al chk false Some appends s0 = n * (n - 1)) /\
  (2 * relocated (DefaultAllocator T) sz al chk nd Some reserves s0 = n * (n - 1)).
Proof.
  intros T sz al chk nd h x n Hsz Hal Hh F s0 appends reserves.
  assert (Hcl : forall x : T, Some x = Some (id x)) by done.
  assert (R0 : Rep (DefaultAllocator T) sz al (DefaultSpec sz al Hsz Hal) s0 [] (length (@nil T))).
  { apply (vim_rep sz al Hsz Hal); [done|by left]. }
  pose proof (appends_cost sz al chk false Hsz Hal Some id Hcl n x eq_refl s0 [] R0 F) as B1.
  pose proof (reserves_cost sz al chk nd Hsz Hal Some id Hcl n x s0 [] R0 F) as B2.
  cbn [length] in B1, B2. rewrite Nat.mul_sub_distr_l. unfold appends, reserves. nia.
Qed.
