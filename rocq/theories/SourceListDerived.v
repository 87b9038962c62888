(** Proofs of the properties stated in SourceListProps.v. *)
(** C100, linked lists: a panic of the iterator by which they are extended. *)
From Verif Require Import Base Alloc AddrMem Source.
From Verif Require Import FixedPool FixedPoolSpec LinkedList LinkedListSpec.

From Verif Require Import FixedPoolProofs LinkedListProofs LinkedListCalls LinkedListRuns LinkedListDerived SourceProofs.

Lemma l_run_cons {A T} (aa : AddrAlloc A T) chk nsz nal (c : lcall T) cs s :
  l_run aa chk nsz nal (c :: cs) s =
  match (match l_call aa chk nsz nal c s with Ok a s' => Some (Some a, s') | Panic s' => Some (None, s') | UB => None end) with
  | None => None
  | Some (a, s') => match l_run aa chk nsz nal cs s' with None => None | Some (l, s'') => Some (a :: l, s'') end
  end.
Proof. cbn [l_run]. by destruct (l_call aa chk nsz nal c s) as [a s'|s'|]. Qed.
Lemma l_run_app {A T} (aa : AddrAlloc A T) chk nsz nal (cs1 cs2 : list (lcall T)) : forall s l s' l2 s2,
  l_run aa chk nsz nal cs1 s = Some (l, s') -> l_run aa chk nsz nal cs2 s' = Some (l2, s2) ->
  l_run aa chk nsz nal (cs1 ++ cs2) s = Some (l ++ l2, s2).
Proof.
  induction cs1 as [|c cs1 IH]; intros s l s' l2 s2 E E2; cbn [app l_run] in *; [by simplify_eq|].
  destruct (l_call aa chk nsz nal c s) as [a s1|s1|]; [| |done];
    destruct (l_run aa chk nsz nal cs1 s1) as [[l1 s3]|] eqn:E1; try done; injection E as <- <-; by rewrite (IH _ _ _ _ _ E1 E2).
Qed.
Lemma push_list_nofree {T} (xs : list T) : forallb (fun c => negb (frees c)) (map LPushBack xs) = true.
Proof. induction xs; by cbn. Qed.
Lemma push_list_pushed {T} (xs : list T) : concat (map pushed (map LPushBack xs)) = xs.
Proof. induction xs; cbn; [done|by f_equal]. Qed.
Lemma push_list_peak {T} (xs : list T) k : peak (map LPushBack xs) k = k + length xs.
Proof. by rewrite peak_pushes, push_list_pushed by apply push_list_nofree. Qed.
Lemma push_list_all {T} (xs : list T) : forall ys l d zs, explains (map LPushBack xs) l d ys zs ->
  Forall (fun a => ~ a = None) l -> d = [] /\ zs = ys ++ xs.
Proof.
  induction xs as [|x xs IH]; intros ys l d zs EX F; inversion EX as [|c cs a l2 d1 d2 ys1 ys2 zs1 SP EX2|c cs k l2 d2 ys1 zs1 LT EX2]; subst.
  - split; [done|]. by rewrite app_nil_r.
  - cbn in SP. simplify_eq. apply Forall_cons in F as (_ & F). destruct (IH _ _ _ _ EX2 F) as (-> & ->).
    split; [done|]. by rewrite <- app_assoc.
  - by apply Forall_cons in F as (F & _).
Qed.
Lemma push_list_last {T} (xs : list T) : forall ys l d zs, explains (map LPushBack xs) (l ++ [None]) d ys zs ->
  Forall (fun a => ~ a = None) l -> exists us x, xs = us ++ [x] /\ d = [x] /\ zs = ys ++ us.
Proof.
  induction xs as [|x xs IH]; intros ys l d zs EX F; inversion EX as [E1 E2|c cs a l2 d1 d2 ys1 ys2 zs1 SP EX2 E1 E2|c cs k l2 d2 ys1 zs1 LT EX2 E1 E2]; subst.
  - by destruct l.
  - cbn in SP. simplify_eq. destruct l as [|a1 l]; [done|]. cbn in E2. injection E2 as <- ->. apply Forall_cons in F as (_ & F).
    destruct (IH _ _ _ _ EX2 F) as (us & y & -> & -> & ->). exists (x :: us), y. split; [done|]. split; [done|]. by rewrite <- app_assoc.
  - destruct l as [|a1 l]; cbn in E2; [|injection E2 as E2 _; apply Forall_cons in F as (F & _); by destruct F].
    injection E2 as E2. subst. cbn in LT. assert (k = 0) as -> by lia. rewrite take_0, drop_0, app_nil_r in *. cbn [pushed app].
    destruct xs as [|x' xs]; [|by inversion EX2]. inversion EX2; subst. exists [], x. by rewrite app_nil_r.
Qed.

Lemma L_C100_list_extend :
forall (T : Type) (pick : mem T -> Z -> Z -> Z) (chk : bool) (nsz nal obj : Z) (m0 : mem T) (prog : list (lcall T)) l s xs (src : source T),
  ListSetup m0 obj 24 nsz nal -> honest pick -> short prog -> built pick false chk nsz nal obj m0 prog l s -> contents chk nsz s xs ->
  (Z.of_nat (length xs + length (yields src)) < u32_lim)%Z ->
  match list_extend (DefaultAddrAlloc pick false) chk nsz nal src s with
  | (Ok _ s', n) => panics src = false /\ contents chk nsz s' (xs ++ yields src) /\ l_drops s' = l_drops s /\
      exists prog' l', built pick false chk nsz nal obj m0 prog' l' s'
  | (Panic s', n) =>
    ((panics src = true /\ contents chk nsz s' (xs ++ yields src) /\ l_drops s' = l_drops s) \/
     (exists ys x, take n (yields src) = ys ++ [x] /\ contents chk nsz s' (xs ++ ys) /\ l_drops s' = l_drops s ++ [x])) /\
    exists prog' l', built pick false chk nsz nal obj m0 prog' l' s'
  | (UB, _) => False
  end.
Proof.
  intros T pick chk nsz nal obj m0 prog l s xs src LS HP SH HB HC HL. unfold list_extend.
  destruct (def_built pick false chk nsz nal obj m0 prog LS HP SH (or_introl eq_refl) l s HB) as (xs' & ps & R & X).
  assert (xs' = xs) as ->.
  { pose proof (rep_contents (DefaultAddrAlloc pick false) chk nsz nal obj _ true _ (def_sz _ _ _ _ LS) (ls_align _ _ _ _ _ LS) SH (def_ao' pick false chk nsz nal obj m0 prog LS HP) _ _ _ R) as RC.
    unfold contents in *. rewrite HC in RC. by injection RC. }
  assert (R2 : LRep obj (Z.of_nat (peak (map LPushBack (xs ++ yields src)) 0)) (DI nsz nal m0) s xs ps).
  { rewrite push_list_peak, app_length. destruct R. split; try done. lia. }
  assert (B2 : (Z.of_nat (peak (map LPushBack (xs ++ yields src)) 0) < u32_lim)%Z) by (rewrite push_list_peak, app_length; lia).
  pose proof (def_ao' pick false chk nsz nal obj m0 (map LPushBack (xs ++ yields src)) LS HP) as AO.
  assert (RUN : forall ys, length ys <= length (yields src) ->
    exists l st' ps' xs' d, l_run (DefaultAddrAlloc pick false) chk nsz nal (map LPushBack ys) s = Some (l, st') /\
      contents chk nsz st' xs' /\ explains (map LPushBack ys) l d xs xs' /\ l_drops st' = l_drops s ++ d /\ LRep obj (Z.of_nat (peak (map LPushBack (xs ++ yields src)) 0)) (DI nsz nal m0) st' xs' ps').
  { intros ys Hys.
    destruct (run_ok (DefaultAddrAlloc pick false) chk nsz nal obj _ true _ (def_sz _ _ _ _ LS) (ls_align _ _ _ _ _ LS) B2 AO (map LPushBack ys) s xs ps R2)
      as (l1 & st' & ps' & xs' & d & E1 & R1 & X1 & D1 & _).
    - intros (c & Hc & Fc). apply elem_of_list_In in Hc. pose proof (push_list_nofree ys) as NF. rewrite forallb_forall in NF.
      specialize (NF c Hc). by rewrite Fc in NF.
    - rewrite !push_list_peak, app_length. lia.
    - exists l1, st', ps', xs', d. split; [done|]. split; [|done].
      by eapply (rep_contents (DefaultAddrAlloc pick false) chk nsz nal obj _ true _ (def_sz _ _ _ _ LS) (ls_align _ _ _ _ _ LS) B2 AO). }
  assert (BU : forall ys l2 s2, l_run (DefaultAddrAlloc pick false) chk nsz nal (map LPushBack ys) s = Some (l2, s2) ->
    exists prog' l', built pick false chk nsz nal obj m0 prog' l' s2).
  { intros ys l2 s2 E2. destruct HB as (s0 & E0 & E1). exists (prog ++ map LPushBack ys), (l ++ l2), s0. split; [done|].
    by eapply l_run_app. }
  pose proof (drain_run (push_back (DefaultAddrAlloc pick false) chk nsz nal) LPushBack
    (fun c s => match l_call (DefaultAddrAlloc pick false) chk nsz nal c s with Ok a s' => Some (Some a, s') | Panic s' => Some (None, s') | UB => None end)
    (fun a => a = None) (l_run (DefaultAddrAlloc pick false) chk nsz nal) ltac:(done) (l_run_cons _ chk nsz nal)
    (list_sim _ chk nsz nal) (yields src) (panics src) s) as DR.
  destruct (drain _ _ _ s) as [[u' s2|s2|] n].
  - destruct DR as (B & -> & l1 & El & F). split; [done|].
    destruct (RUN (yields src) ltac:(done)) as (l2 & st' & ps' & xs' & d & E2 & C2 & X2 & D2 & _).
    rewrite El in E2. injection E2 as <- <-. destruct (push_list_all _ _ _ _ _ X2 F) as (-> & ->). rewrite app_nil_r in D2.
    split; [done|]. split; [done|]. by eapply BU.
  - destruct DR as (L & l1 & El & H). split; [|by eapply BU].
    destruct (RUN (take n (yields src)) ltac:(rewrite take_length; lia)) as (l2 & st' & ps' & xs' & d & E2 & C2 & X2 & D2 & _).
    rewrite El in E2. injection E2 as <- <-.
    destruct H as [(-> & -> & F)|(l0 & a & -> & -> & F)]; [left|right].
    + destruct (push_list_all _ _ _ _ _ X2 F) as (-> & ->). rewrite app_nil_r in D2. rewrite take_ge in C2 by done. done.
    + destruct (push_list_last _ _ _ _ _ X2 F) as (us & x & E & -> & ->). by exists us, x.
  - destruct (RUN (take n (yields src)) ltac:(rewrite take_length; lia)) as (l2 & st' & ps' & xs' & d & E2 & _).
    by rewrite DR in E2.
Qed.
