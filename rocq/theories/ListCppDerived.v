(** Proofs of the properties stated in ListCppProps.v. *)
From Verif Require Import Base Alloc AddrMem FixedPool FixedPoolSpec LinkedList LinkedListSpec ListCpp ListCppSpec.
Local Open Scope Z_scope.

From Verif Require Import FixedPoolProofs LinkedListProofs LinkedListCalls LinkedListRuns LinkedListFixed LinkedListDerived ListCppProofs.

Lemma mixed_conserve {T} (c : mcall T) xs a d xs' : m_no_rewrite c = true -> in_range c (length xs) -> mixed_call c xs = (a, d, xs') ->
  m_given c ++ xs ≡ₚ m_taken c a ++ d ++ xs'.
Proof.
  assert (CUT : forall i, (i < length xs)%nat -> exists x, xs = take i xs ++ x :: drop (S i) xs /\ take 1 (drop i xs) = [x]).
  { intros i Li. destruct (lookup_lt_is_Some_2 xs i Li) as (x & Hx). exists x. rewrite (drop_S _ _ _ Hx). split; [|done]. by rewrite take_drop_middle. }
  destruct c as [c|i x|i|i x| | | |]; cbn [m_no_rewrite in_range mixed_call m_given m_taken]; intros N RG E; simplify_eq; cbn [app]; try done.
  - by apply spec_conserve.
  - rewrite <- (take_drop i xs) at 1. solve_Permutation.
  - destruct (CUT i RG) as (x & E1 & ->). rewrite E1 at 1. solve_Permutation.
  - destruct (CUT i RG) as (y & E1 & ->). rewrite E1. rewrite insert_app_r_alt by (rewrite take_length; lia). rewrite take_length.
    replace (i - i `min` length xs)%nat with 0%nat by lia. cbn. solve_Permutation.
  - apply Permutation_rev.
Qed.
Lemma mixed_run_conserve {T} B (cs : list (mcall T)) : forall xs l d xs', forallb m_no_rewrite cs = true -> proper B cs xs -> mixed_run cs xs = (l, d, xs') ->
  concat (map m_given cs) ++ xs ≡ₚ m_all_taken cs l ++ d ++ xs'.
Proof.
  induction cs as [|c cs IH]; intros xs l d xs' N PR E; cbn in *; [by simplify_eq|].
  destruct (mixed_call c xs) as [[a d1] xs1] eqn:E1. destruct (mixed_run cs xs1) as [[l2 d2] xs2] eqn:E2. simplify_eq. cbn in PR.
  destruct PR as (RG & _ & PR). apply andb_prop in N as [N1 N2]. pose proof (mixed_conserve _ _ _ _ _ N1 RG E1) as P1. pose proof (IH _ _ _ _ N2 PR E2) as P2. cbn.
  transitivity (m_taken c a ++ d1 ++ concat (map m_given cs) ++ xs1); [|rewrite P2; solve_Permutation].
  transitivity (concat (map m_given cs) ++ m_given c ++ xs); [solve_Permutation|]. rewrite P1. solve_Permutation.
Qed.

Section def.
Context {T : Type}.
Variables (pick : mem T -> Z -> Z -> Z) (chk : bool) (nsz nal obj : Z) (m0 : mem T) (prog : list (mcall T)) (B : nat).
Hypothesis LS : ListSetup m0 obj 24 nsz nal.
Hypothesis HP : honest pick.
Hypothesis HR : room pick (m_live m0) nsz nal B.
Hypothesis HB : Z.of_nat B < u32_lim.
Hypothesis PR : proper B prog [].
Local Notation aa := (DefaultAddrAlloc pick false).

Lemma dl_ao : AllocOK aa chk nsz nal obj (Z.of_nat B) false (DI nsz nal m0).
Proof using LS HP HR. by apply (default_ok pick false chk nsz nal obj 24 m0 false B LS HP (fun _ => HR)). Qed.
Lemma dl_free : FreeOK aa chk nsz obj (DI nsz nal m0).
Proof using LS HR. by apply (default_frees pick false chk nsz nal obj 24 m0 false B LS (fun _ => HR)). Qed.
Lemma dl_sz : 16 <= nsz.
Proof using LS. apply (ls_node _ _ _ _ _ LS). Qed.
Lemma dl_run : exists answers s ps xs, shared pick chk nsz nal obj m0 prog (map Some answers) s /\ LRep obj (Z.of_nat B) (DI nsz nal m0) s xs ps /\
  mixed_run prog [] = (answers, l_drops s, xs).
Proof using All.
  destruct (new_ok pick nsz nal obj 24 m0 false B LS (fun _ => HR) ltac:(lia)) as (s0 & E0 & R0 & D0).
  destruct (m_run_ok aa chk nsz nal obj (Z.of_nat B) (DI nsz nal m0) dl_sz (ls_align _ _ _ _ _ LS) HB dl_ao dl_free (default_frees_x pick false chk nsz nal obj 24 m0 LS)
    B prog eq_refl s0 [] [] R0 PR) as (answers & s & ps & xs & d & E1 & R1 & S1 & D1).
  rewrite D0 in D1. cbn in D1. subst d. exists answers, s, ps, xs. split; [by exists s0|]. done.
Qed.
Lemma dl_all : exists l s, shared pick chk nsz nal obj m0 prog l s /\ as_a_shared_list chk nsz obj prog l s.
Proof using All.
  destruct dl_run as (answers & s & ps & xs & E & R & S1). exists (map Some answers), s. split; [done|]. exists answers, xs, ps.
  split; [done|]. split; [done|]. split.
  - by eapply (rep_contents aa chk nsz nal obj _ false _ dl_sz (ls_align _ _ _ _ _ LS) HB dl_ao).
  - by eapply (rep_ring aa chk nsz nal obj _ false _ dl_sz (ls_align _ _ _ _ _ LS) HB dl_ao).
Qed.
Lemma dl_drop l s : forallb m_no_rewrite prog = true -> shared pick chk nsz nal obj m0 prog l s ->
  exists s' answers, list_drop aa chk nsz s = Ok tt s' /\ l = map Some answers /\
    concat (map m_given prog) ≡ₚ m_all_taken prog answers ++ l_drops s' /\ m_live (l_mem s') ≡ₚ m_live m0.
Proof using All.
  intros NR (s0 & E0 & E1). destruct dl_run as (answers & s1 & ps & xs & (s0' & E0' & E1') & R & S1).
  rewrite E0 in E0'. injection E0' as <-. rewrite E1 in E1'. injection E1' as -> <-.
  destruct (drop_ok aa chk nsz nal obj _ false _ dl_sz (ls_align _ _ _ _ _ LS) HB dl_ao s xs ps dl_free R) as (s' & E2 & I2 & D2).
  exists s', answers. split; [done|]. split; [done|]. split.
  - rewrite D2. pose proof (mixed_run_conserve B prog [] _ _ _ NR PR S1) as P. by rewrite app_nil_r in P.
  - pose proof (di_live _ _ _ _ _ I2) as P. cbn in P. by rewrite app_nil_r in P.
Qed.
End def.

Section fixd.
Context {T : Type}.
Variables (pick : mem T -> Z -> Z -> Z) (chk : bool) (nsz nal obj : Z) (n : nat) (m0 : mem T) (prog : list (mcall T)) (B : nat).
Hypothesis H : FixedSetup m0 obj nsz nal n.
Hypothesis HP : honest pick.
Hypothesis HR : room pick (m_live m0) nsz nal B.
Hypothesis HB : Z.of_nat B < u32_lim.
Hypothesis PR : proper B prog [].
Local Notation aa := (FixedListAlloc pick false chk nsz nal).

Lemma fl_all : exists l s, fixed_shared pick chk nsz nal n obj m0 prog l s /\ as_a_shared_list chk nsz obj prog l s.
Proof using All.
  pose proof (fixed_fx _ _ _ _ _ H) as F. set (bytes := fixed_list_bytes nsz nal (Z.of_nat n)) in F. set (base := obj + fixed_buffer_off nal) in F. set (len := Z.of_nat n * nsz) in F.
  destruct (fx_exists chk nsz nal obj n bytes base len m0 F) as (s0 & E0).
  destruct (fx_new chk nsz nal obj n bytes base len m0 F s0 E0) as (D0 & EL & ET & (LS & PS & HO & H16 & HC & PAD) & _ & R0).
  specialize (R0 (Z.of_nat B) ltac:(lia)). assert (HR' : false = false -> room pick (m_live (l_mem s0)) nsz nal B) by (intros _; by rewrite EL).
  assert (SZ : 16 <= nsz) by apply (ls_node _ _ _ _ _ LS). assert (AL := ls_align _ _ _ _ _ LS).
  assert (AO := general_ok pick false chk nsz nal obj bytes base len (l_mem s0) LS PS H16 HO HP PAD false B HR').
  assert (FR := general_frees pick false chk nsz nal obj bytes base len (l_mem s0) LS PS H16 HO HP PAD false B HR' eq_refl).
  assert (FX := fixed_frees_x pick false chk nsz nal obj bytes base len (l_mem s0) LS PS H16 HO HP PAD).
  destruct (m_run_ok aa chk nsz nal obj (Z.of_nat B) _ SZ AL HB AO FR FX B prog eq_refl s0 [] [] R0 PR) as (answers & s & ps & xs & d & E1 & R1 & S1 & D1).
  rewrite D0 in D1. cbn in D1. subst d. exists (map Some answers), s. split; [by exists s0|]. exists answers, xs, ps. split; [done|]. split; [done|]. split.
  - by eapply (rep_contents aa chk nsz nal obj _ false _ SZ AL HB AO).
  - by eapply (rep_ring aa chk nsz nal obj _ false _ SZ AL HB AO).
Qed.
End fixd.

Lemma L_C94_shared_list :
forall (T : Type) (pick : mem T -> Z -> Z -> Z) (chk : bool) (nsz nal obj : Z) (m0 : mem T) (prog : list (mcall T)) (B : nat),
  ListSetup m0 obj 24 nsz nal -> honest pick -> room pick (m_live m0) nsz nal B -> Z.of_nat B < u32_lim -> proper B prog [] ->
  exists l s, shared pick chk nsz nal obj m0 prog l s /\ as_a_shared_list chk nsz obj prog l s.
Proof.
intros T pick chk nsz nal obj m0 prog B LS HP HR HB PR. by apply (dl_all pick chk nsz nal obj m0 prog B).
Qed.

Lemma L_C94_shared_fixed_list :
forall (T : Type) (pick : mem T -> Z -> Z -> Z) (chk : bool) (nsz nal obj : Z) (n : nat) (m0 : mem T) (prog : list (mcall T)) (B : nat),
  FixedSetup m0 obj nsz nal n -> honest pick -> room pick (m_live m0) nsz nal B -> Z.of_nat B < u32_lim -> proper B prog [] ->
  exists l s, fixed_shared pick chk nsz nal n obj m0 prog l s /\ as_a_shared_list chk nsz obj prog l s.
Proof.
intros T pick chk nsz nal obj n m0 prog B H HP HR HB PR. by apply (fl_all pick chk nsz nal obj n m0 prog B).
Qed.

Lemma L_C94_shared_list_drop :
forall (T : Type) (pick : mem T -> Z -> Z -> Z) (chk : bool) (nsz nal obj : Z) (m0 : mem T) (prog : list (mcall T)) (B : nat) l s,
  ListSetup m0 obj 24 nsz nal -> honest pick -> room pick (m_live m0) nsz nal B -> Z.of_nat B < u32_lim -> proper B prog [] ->
  forallb m_no_rewrite prog = true -> shared pick chk nsz nal obj m0 prog l s ->
  exists s' answers, list_drop (DefaultAddrAlloc pick false) chk nsz s = Ok tt s' /\ l = map Some answers /\
    concat (map m_given prog) ≡ₚ m_all_taken prog answers ++ l_drops s' /\ m_live (l_mem s') ≡ₚ m_live m0.
Proof.
intros T pick chk nsz nal obj m0 prog B l s LS HP HR HB PR NR. by apply (dl_drop pick chk nsz nal obj m0 prog B).
Qed.
