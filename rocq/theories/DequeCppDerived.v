(** Proofs of the properties stated in DequeCppProps.v. *)
From Verif Require Import Base Heap Alloc Deque DequeSpec DequeCpp.
Local Open Scope nat_scope.

From Verif Require Import HeapLemmas DequeProofs DequeDerived.
Local Open Scope nat_scope.

Lemma eastl_block_size sz N : (0 < sz)%Z -> eastl_block sz N -> N = subarray_size sz.
Proof.
  intros P (IN & A & B). unfold subarray_size. rewrite !elem_of_cons, elem_of_nil in IN.
  repeat case_match; destruct IN as [->|[->|[->|[->|[->|[]]]]]]; lia.
Qed.

Section cpp.
Context {T : Type}.
Variables sz al : Z.
Variable chk : bool.
Notation n := (subarray_size sz).
Hypothesis Hlay : layout_ok (Z.of_nat n * sz) al = true.
Notation dstate := (dstate T).
Notation dhp := (heap (dcell T)).
Notation dv := (dv sz).
Notation md := (md sz).
Notation loc := (loc sz).
Notation dit_at := (dit_at sz).

Section shape.
Context {h0 : dhp} {s : dstate} {pa start : nat} {subs leak : list nat}.
Hypothesis SH : Shape sz al h0 (d_h s) (d_size s) pa start subs leak.

Lemma slot_add i k : i + k < length subs -> add (Ptr pa (start + i)) k s = Ok (Ptr pa (start + (i + k))) s.
Proof using SH Hlay.
  intros L. destruct (sh_pa _ _ _ _ _ _ _ _ _ SH) as (cs & E & Lc). pose proof (sh_start _ _ _ _ _ _ _ _ _ SH).
  rewrite (add_ok _ _ _ _ _ E) by (cbn; lia). do 2 f_equal. lia.
Qed.
Lemma slot_sub i k : i < length subs -> k <= i -> sub (Ptr pa (start + i)) k s = Ok (Ptr pa (start + (i - k))) s.
Proof using SH Hlay.
  intros L Lk. destruct (sh_pa _ _ _ _ _ _ _ _ _ SH) as (cs & E & Lc).
  rewrite (sub_ok _ _ _ _ _ E) by lia. do 2 f_equal. lia.
Qed.
Lemma slot_move i (z : Z) : i < length subs -> (0 <= Z.of_nat i + z < Z.of_nat (length subs))%Z ->
  move (Ptr pa (start + i)) z s = Ok (Ptr pa (start + Z.to_nat (Z.of_nat i + z))) s.
Proof using SH Hlay.
  intros L B. unfold move. destruct (Z.leb_spec 0 z).
  - rewrite slot_add by lia. do 3 f_equal. lia.
  - rewrite slot_sub by lia. do 3 f_equal. lia.
Qed.

Lemma elem_add i o k : i < length subs -> o + k <= n -> add (Ptr (subs !!! i) o) k s = Ok (Ptr (subs !!! i) (o + k)) s.
Proof using SH Hlay.
  intros L Lo. destruct (sh_subs _ _ _ _ _ _ _ _ _ SH _ (elem_of_list_lookup_total_2 subs i L)) as (cs & E & Lc).
  by rewrite (add_ok _ _ _ _ _ E) by (cbn; lia).
Qed.
Lemma elem_sub i o k : i < length subs -> k <= o -> sub (Ptr (subs !!! i) o) k s = Ok (Ptr (subs !!! i) (o - k)) s.
Proof using SH Hlay.
  intros L Lo. destruct (sh_subs _ _ _ _ _ _ _ _ _ SH _ (elem_of_list_lookup_total_2 subs i L)) as (cs & E & Lc).
  by rewrite (sub_ok _ _ _ _ _ E) by (cbn; lia).
Qed.
Lemma elem_move i o (z : Z) : i < length subs -> o <= n -> (0 <= Z.of_nat o + z <= Z.of_nat n)%Z ->
  move (Ptr (subs !!! i) o) z s = Ok (Ptr (subs !!! i) (Z.to_nat (Z.of_nat o + z))) s.
Proof using SH Hlay.
  intros L Lo B. unfold move. destruct (Z.leb_spec 0 z).
  - rewrite elem_add by lia. do 3 f_equal. lia.
  - rewrite elem_sub by lia. do 3 f_equal. lia.
Qed.

Lemma cpp_set_ok it i : i < length subs ->
  cpp_set_subarray n it (Ptr pa (start + i)) s = Ok (DIt (di_cur it) (Ptr (subs !!! i) 0) (Ptr (subs !!! i) n) (Ptr pa (start + i))) s.
Proof using SH Hlay.
  intros L. unfold cpp_set_subarray, bind. rewrite (read_ptr_ok _ _ _ (slot_read sz al SH i L)). rewrite elem_add by lia. done.
Qed.

Lemma dv_lt' j : j < n * length subs -> dv j < length subs.
Proof using Hlay. apply (dv_lt sz al Hlay). Qed.

Lemma incr_ok j : S j < n * length subs -> cpp_incr n (dit_at pa start subs j) s = Ok (dit_at pa start subs (S j)) s.
Proof using SH Hlay.
  intros L. assert (L0 : j < n * length subs) by lia. pose proof (dv_lt' _ L0) as LD. pose proof (md_lt sz al Hlay j) as LM. pose proof (dv_md sz al Hlay j) as DM.
  unfold cpp_incr, dit_at, loc. cbn [di_cur di_begin di_end di_arr]. unfold bind at 1. rewrite elem_add by lia. case_decide as E.
  - injection E as E. destruct (dvmd_unique sz (S j) (S (dv j)) 0) as [D M]; [apply (n_pos sz al Hlay)|lia|].
    pose proof (dv_lt' _ L) as LS. rewrite D in LS.
    unfold bind at 1. rewrite slot_add by lia. unfold bind at 1. rewrite Nat.add_1_r, cpp_set_ok by lia. cbn. rewrite D, M. done.
  - assert (md j + 1 <> n) by (intros Q; apply E; by rewrite Q).
    destruct (dvmd_unique sz (S j) (dv j) (S (md j))) as [D M]; [lia|lia|]. rewrite D, M, Nat.add_1_r. done.
Qed.

Lemma decr_ok j : S j < n * length subs -> cpp_decr n (dit_at pa start subs (S j)) s = Ok (dit_at pa start subs j) s.
Proof using SH Hlay.
  intros L. assert (L0 : j < n * length subs) by lia. pose proof (dv_lt' _ L0) as LD. pose proof (dv_lt' _ L) as LS.
  pose proof (md_lt sz al Hlay j) as LM. pose proof (dv_md sz al Hlay j) as DM. pose proof (md_lt sz al Hlay (S j)) as LM1. pose proof (dv_md sz al Hlay (S j)) as DM1.
  unfold cpp_decr, dit_at, loc. cbn [di_cur di_begin di_end di_arr]. pose proof (n_pos sz al Hlay). case_decide as E.
  - injection E as E. destruct (dvmd_unique sz j (dv (S j) - 1) (n - 1)) as [D M]; [lia| |].
    { assert (dv (S j) <> 0) by lia. assert (X : dv (S j) = S (dv (S j) - 1)) by lia. rewrite X in DM1. lia. }
    assert (dv (S j) = S (dv j)) as DD by lia. rewrite DD in *.
    unfold bind at 1. rewrite slot_sub by lia. unfold bind at 1. replace (S (dv j) - 1) with (dv j) by lia. rewrite cpp_set_ok by lia. cbn [di_end di_begin di_arr].
    unfold bind at 1. rewrite elem_sub by lia. rewrite M. done.
  - assert (md (S j) <> 0) by (intros Q; apply E; by rewrite Q).
    destruct (dvmd_unique sz j (dv (S j)) (md (S j) - 1)) as [D M]; [lia|lia|]. unfold bind at 1. rewrite elem_sub by lia. rewrite D, M. done.
Qed.

Lemma distance_ok b i j : distance (Ptr b i) (Ptr b j) s = Ok (Z.of_nat i - Z.of_nat j)%Z s.
Proof using. unfold distance. by rewrite Nat.eqb_refl. Qed.

Lemma big_div : exists q, (16777216 = q * Z.of_nat n)%Z.
Proof using.
  clear Hlay. unfold subarray_size. repeat case_match; [exists 262144%Z|exists 524288%Z|exists 1048576%Z|exists 2097152%Z|exists 4194304%Z]; lia.
Qed.

Lemma jump_ok i j : i < n * length subs -> j < n * length subs -> (Z.of_nat i - Z.of_nat j <= 16777216)%Z ->
  cpp_jump n (dit_at pa start subs i) (Z.of_nat j - Z.of_nat i) s = Ok (dit_at pa start subs j) s.
Proof using SH Hlay.
  intros Li Lj B. pose proof (dv_lt' _ Li) as LDi. pose proof (dv_lt' _ Lj) as LDj.
  pose proof (md_lt sz al Hlay i) as LMi. pose proof (dv_md sz al Hlay i) as DMi. pose proof (md_lt sz al Hlay j) as LMj. pose proof (dv_md sz al Hlay j) as DMj.
  pose proof (n_pos sz al Hlay) as NP.
  unfold cpp_jump, dit_at, loc. cbn [di_cur di_begin di_end di_arr]. unfold bind at 1. rewrite distance_ok. cbn [Z.of_nat]. rewrite Z.sub_0_r.
  destruct (_ && _) eqn:E.
  - apply andb_prop in E as [E1 E2]. apply Z.leb_le in E1. apply Z.ltb_lt in E2.
    destruct (dvmd_unique sz j (dv i) (Z.to_nat (Z.of_nat (md i) + (Z.of_nat j - Z.of_nat i)))) as [D M]; [lia|lia|].
    unfold bind at 1. rewrite elem_move by lia. rewrite D, M. done.
  - set (pos := (Z.of_nat (md i) + (Z.of_nat j - Z.of_nat i))%Z) in *.
    assert (IDX : (Z.quot (16777216 + pos) (Z.of_nat n) - Z.quot 16777216 (Z.of_nat n) = Z.of_nat (dv j) - Z.of_nat (dv i))%Z).
    { destruct big_div as [q Q]. rewrite !Z.quot_div_nonneg by lia.
      assert (PE : (16777216 + pos = Z.of_nat n * (q + (Z.of_nat (dv j) - Z.of_nat (dv i))) + Z.of_nat (md j))%Z).
      { unfold pos. rewrite Q. apply (f_equal Z.of_nat) in DMi, DMj. rewrite Nat2Z.inj_add, Nat2Z.inj_mul in DMi, DMj. lia. }
      rewrite PE, Z.mul_comm, Z.div_add_l by lia. rewrite (Z.div_small (Z.of_nat (md j))) by lia. rewrite Q, Z.div_mul by lia. lia. }
    rewrite IDX. unfold bind at 1. rewrite slot_move by lia. replace (Z.to_nat (Z.of_nat (dv i) + (Z.of_nat (dv j) - Z.of_nat (dv i)))) with (dv j) by lia.
    unfold bind at 1. rewrite cpp_set_ok by lia. cbn [di_begin di_end di_arr].
    assert (PJ : (pos - (Z.of_nat (dv j) - Z.of_nat (dv i)) * Z.of_nat n = Z.of_nat (md j))%Z).
    { unfold pos. apply (f_equal Z.of_nat) in DMi, DMj. rewrite Nat2Z.inj_add, Nat2Z.inj_mul in DMi, DMj. lia. }
    rewrite PJ. unfold bind at 1. rewrite elem_move by lia. cbn [Z.of_nat]. rewrite Z.add_0_l, Nat2Z.id. done.
Qed.

Lemma minus_ok i j : cpp_minus n (dit_at pa start subs j) (dit_at pa start subs i) s = Ok (Z.of_nat j - Z.of_nat i)%Z s.
Proof using Hlay.
  pose proof (dv_md sz al Hlay i) as DMi. pose proof (dv_md sz al Hlay j) as DMj. pose proof (md_lt sz al Hlay i).
  unfold cpp_minus, dit_at, loc. cbn [di_cur di_begin di_end di_arr]. unfold bind. rewrite !distance_ok. unfold ret. f_equal.
  apply (f_equal Z.of_nat) in DMi, DMj. rewrite Nat2Z.inj_add, Nat2Z.inj_mul in DMi, DMj. lia.
Qed.
End shape.

Context {h0 : dhp} {s : dstate} {pa start : nat} {subs leak : list nat} {bo : nat} {xs : list T}.
Hypothesis R : DRep sz al h0 s pa start subs leak bo xs.

Lemma collect_ok : forall ys pre f, xs = pre ++ ys -> length ys < f ->
  cpp_collect n f (dit_at pa start subs (bo + length pre)) (d_e s) s = Ok (Some ys) s.
Proof using R Hlay.
  pose proof (dr_shape _ _ _ _ _ _ _ _ _ _ R) as SH. pose proof (dr_len _ _ _ _ _ _ _ _ _ _ R) as LEN.
  pose proof (dv_gt sz al Hlay (bo + length xs)) as LB. rewrite LEN in LB. pose proof (dr_e _ _ _ _ _ _ _ _ _ _ R) as EE.
  induction ys as [|y ys IH]; intros pre f E L; (destruct f as [|f]; [lia|]); cbn [cpp_collect].
  - rewrite app_nil_r in E. subst pre. rewrite EE. by rewrite decide_True.
  - assert (LX : length xs = length pre + S (length ys)) by (rewrite E, app_length; done). cbn [length] in L.
    cbn [DequeProofs.dit_at di_cur]. rewrite decide_False.
    2:{ rewrite EE. cbn [DequeProofs.dit_at di_cur]. intros Q. apply (loc_inj sz al Hlay SH) in Q; lia. }
    unfold bind at 1. rewrite (R_read sz al R (length pre) y).
    2:{ rewrite E, lookup_app_r, Nat.sub_diag by lia. done. }
    unfold bind at 1. rewrite (incr_ok SH) by lia. specialize (IH (pre ++ [y]) f).
    rewrite app_length in IH. cbn [length] in IH. rewrite Nat.add_assoc, Nat.add_1_r in IH.
    unfold bind at 1. rewrite IH; [done| |lia]. by rewrite <- app_assoc.
Qed.

Lemma collect_back_ok : forall ys post f, xs = rev ys ++ post -> length ys < f ->
  cpp_collect_back n f (d_b s) (dit_at pa start subs (bo + length ys)) s = Ok (Some ys) s.
Proof using R Hlay.
  pose proof (dr_shape _ _ _ _ _ _ _ _ _ _ R) as SH. pose proof (dr_len _ _ _ _ _ _ _ _ _ _ R) as LEN.
  pose proof (dv_gt sz al Hlay (bo + length xs)) as LB. rewrite LEN in LB. pose proof (dr_b _ _ _ _ _ _ _ _ _ _ R) as EB.
  induction ys as [|y ys IH]; intros post f E L; (destruct f as [|f]; [lia|]); cbn [cpp_collect_back].
  - rewrite EB. cbn [length]. rewrite Nat.add_0_r. by rewrite decide_True.
  - assert (LX : length xs = S (length ys) + length post) by (rewrite E, app_length, rev_length; done). cbn [length] in L |- *.
    cbn [DequeProofs.dit_at di_cur]. rewrite decide_False.
    2:{ rewrite EB. cbn [DequeProofs.dit_at di_cur]. intros Q. apply (loc_inj sz al Hlay SH) in Q; lia. }
    rewrite Nat.add_succ_r. unfold bind at 1. rewrite (decr_ok SH) by lia. cbn [DequeProofs.dit_at di_cur].
    unfold bind at 1. rewrite (R_read sz al R (length ys) y).
    2:{ rewrite E. cbn [rev]. rewrite <- app_assoc, lookup_app_r; rewrite rev_length; [|lia]. by rewrite Nat.sub_diag. }
    unfold bind at 1. rewrite (IH ([y] ++ post) f); [done| |lia]. rewrite E. cbn [rev]. by rewrite <- app_assoc.
Qed.
End cpp.

Lemma L_C90_cpp_iteration :
forall (T : Type) (sz al : Z) (chk : bool) (h0 : heap (dcell T)) prog l s xs (N f : nat), Setup sz al h0 ->
  built sz al chk h0 prog l s -> contents sz chk s xs -> eastl_block sz N -> length xs < f ->
  cpp_collect N f (d_b s) (d_e s) s = Ok (Some xs) s /\
  cpp_collect_back N f (d_b s) (d_e s) s = Ok (Some (rev xs)) s /\
  cpp_minus N (d_e s) (d_b s) s = Ok (Z.of_nat (length xs)) s.
Proof.
  intros T sz al chk h0 prog l s xs N f SU B C EB Lf. rewrite (eastl_block_size sz N (su_size _ _ _ SU) EB).
  destruct (built_rep sz al chk h0 SU _ _ _ B) as (pa & st & subs & lk & bo & xs' & d & R & _).
  assert (xs' = xs) as -> by (symmetry; by eapply (contents_eq sz al chk h0 SU)).
  split; [|split].
  - rewrite (dr_b _ _ _ _ _ _ _ _ _ _ R). pose proof (collect_ok sz al (su_layout _ _ _ SU) R xs [] f eq_refl Lf) as Q. cbn [length] in Q. by rewrite Nat.add_0_r in Q.
  - rewrite (dr_e _ _ _ _ _ _ _ _ _ _ R). rewrite <- (rev_length xs). apply (collect_back_ok sz al (su_layout _ _ _ SU) R (rev xs) []).
    + by rewrite rev_involutive, app_nil_r.
    + by rewrite rev_length.
  - rewrite (dr_e _ _ _ _ _ _ _ _ _ _ R), (dr_b _ _ _ _ _ _ _ _ _ _ R). rewrite (minus_ok sz al (su_layout _ _ _ SU)). f_equal. lia.
Qed.

Lemma L_C90_block_choice :
forall (sz : Z) (N : nat), (0 < sz)%Z -> eastl_block sz N <-> N = subarray_size sz.
Proof.
  intros sz N Hsz. split; [by apply eastl_block_size|]. intros ->. unfold subarray_size, eastl_block.
  repeat case_match; (split; [set_solver|lia]).
Qed.

Lemma L_C90_block_sizes :
forall (T : Type) (sz al : Z) (chk : bool) (h0 : heap (dcell T)) prog l s xs (N : nat) i, Setup sz al h0 ->
  built sz al chk h0 prog l s -> contents sz chk s xs -> eastl_block sz N -> i < length xs ->
  exists it b cs, cpp_jump N (d_b s) (Z.of_nat i) s = Ok it s /\ di_begin it = Ptr b 0 /\
    h_blk (d_h s) !! b = Some (Block (Z.of_nat N * sz) al cs) /\ length cs = N /\ h_blk h0 !! b = None.
Proof.
  intros T sz al chk h0 prog l s xs N i SU B C EB Li. rewrite (eastl_block_size sz N (su_size _ _ _ SU) EB).
  destruct (built_rep sz al chk h0 SU _ _ _ B) as (pa & st & subs & lk & bo & xs' & d & R & _).
  assert (xs' = xs) as -> by (symmetry; by eapply (contents_eq sz al chk h0 SU)).
  pose proof (dr_shape _ _ _ _ _ _ _ _ _ _ R) as SH. pose proof (R_bound sz al (su_layout _ _ _ SU) R) as LB.
  pose proof (jump_ok sz al (su_layout _ _ _ SU) SH bo (bo + i) ltac:(lia) ltac:(lia) ltac:(lia)) as J. replace (Z.of_nat (bo + i) - Z.of_nat bo)%Z with (Z.of_nat i) in J by lia.
  assert (LD : bo + i < subarray_size sz * length subs) by lia.
  destruct (sh_loc sz al (su_layout _ _ _ SU) SH _ LD) as (cs & E & Lc).
  eexists _, _, cs. split; [by rewrite (dr_b _ _ _ _ _ _ _ _ _ _ R)|]. split; [done|]. split; [exact E|]. split; [done|].
  destruct (sh_own _ _ _ _ _ _ _ _ _ SH (subs !!! (dv sz (bo + i)))) as [LO _]; [|done].
  { right. apply elem_of_app. left. apply elem_of_list_lookup_total_2, (dv_lt sz al (su_layout _ _ _ SU)), LD. }
Qed.

Lemma L_C91_cpp_random_access :
forall (T : Type) (sz al : Z) (chk : bool) (h0 : heap (dcell T)) prog l s xs (N i j : nat), Setup sz al h0 ->
  built sz al chk h0 prog l s -> contents sz chk s xs -> eastl_block sz N ->
  i <= length xs -> j <= length xs -> (Z.of_nat i - Z.of_nat j <= 16777216)%Z ->
  exists it it', cpp_jump N (d_b s) (Z.of_nat i) s = Ok it s /\
    cpp_jump N it (Z.of_nat j - Z.of_nat i) s = Ok it' s /\ cpp_jump N (d_b s) (Z.of_nat j) s = Ok it' s /\
    cpp_minus N it' it s = Ok (Z.of_nat j - Z.of_nat i)%Z s /\
    (j = length xs -> it' = d_e s) /\
    forall x, xs !! j = Some x -> read_elem (di_cur it') s = Ok x s.
Proof.
  intros T sz al chk h0 prog l s xs N i j SU B C EB Li Lj D. rewrite (eastl_block_size sz N (su_size _ _ _ SU) EB).
  destruct (built_rep sz al chk h0 SU _ _ _ B) as (pa & st & subs & lk & bo & xs' & d & R & _).
  assert (xs' = xs) as -> by (symmetry; by eapply (contents_eq sz al chk h0 SU)).
  pose proof (dr_shape _ _ _ _ _ _ _ _ _ _ R) as SH. pose proof (R_bound sz al (su_layout _ _ _ SU) R) as LB.
  exists (dit_at sz pa st subs (bo + i)), (dit_at sz pa st subs (bo + j)). rewrite (dr_b _ _ _ _ _ _ _ _ _ _ R).
  split. { pose proof (jump_ok sz al (su_layout _ _ _ SU) SH bo (bo + i) ltac:(lia) ltac:(lia) ltac:(lia)) as J. by replace (Z.of_nat (bo + i) - Z.of_nat bo)%Z with (Z.of_nat i) in J by lia. }
  split. { pose proof (jump_ok sz al (su_layout _ _ _ SU) SH (bo + i) (bo + j) ltac:(lia) ltac:(lia) ltac:(lia)) as J. by replace (Z.of_nat (bo + j) - Z.of_nat (bo + i))%Z with (Z.of_nat j - Z.of_nat i)%Z in J by lia. }
  split. { pose proof (jump_ok sz al (su_layout _ _ _ SU) SH bo (bo + j) ltac:(lia) ltac:(lia) ltac:(lia)) as J. by replace (Z.of_nat (bo + j) - Z.of_nat bo)%Z with (Z.of_nat j) in J by lia. }
  split. { rewrite (minus_ok sz al (su_layout _ _ _ SU)). f_equal. lia. }
  split. { intros ->. by rewrite (dr_e _ _ _ _ _ _ _ _ _ _ R). }
  intros x Hx. apply (R_read sz al R _ _ Hx).
Qed.
