(** Proofs of the properties stated in SourceHashProps.v. *)
(** C100, hash maps and sets: a panic of the iterator they are filled from, and of the closures
    of an entry. *)
From Verif Require Import Base Heap Alloc Source.
From Verif Require Import HashTable HashTableSpec.

From Verif Require Import HeapLemmas HashTableProofs HashTableMore HashTableDerived SourceProofs.

Lemma h_run_cons {K V} nsz nal eb chk hash eqb (c : hcall K V) cs s :
  h_run nsz nal eb chk hash eqb (c :: cs) s =
  match (match h_call nsz nal eb chk hash eqb c s with Ok a s' => Some (Some a, s') | Panic s' => Some (None, s') | UB => None end) with
  | None => None
  | Some (a, s') => match h_run nsz nal eb chk hash eqb cs s' with None => None | Some (l, s'') => Some (a :: l, s'') end
  end.
Proof. cbn [h_run]. by destruct (h_call nsz nal eb chk hash eqb c s) as [a s'|s'|]. Qed.
Lemma h_run_app {K V} nsz nal eb chk hash eqb (cs1 cs2 : list (hcall K V)) : forall s l s',
  h_run nsz nal eb chk hash eqb cs1 s = Some (l, s') ->
  h_run nsz nal eb chk hash eqb (cs1 ++ cs2) s =
  match h_run nsz nal eb chk hash eqb cs2 s' with None => None | Some (l2, s'') => Some (l ++ l2, s'') end.
Proof.
  induction cs1 as [|c cs1 IH]; intros s l s' E; cbn [app h_run] in *.
  - simplify_eq. by destruct (h_run _ _ _ _ _ _ cs2 s') as [[]|].
  - destruct (h_call nsz nal eb chk hash eqb c s) as [a s1|s1|]; [| |done];
      destruct (h_run _ _ _ _ _ _ cs1 s1) as [[l1 s2]|] eqn:E1; try done; injection E as <- <-;
      rewrite (IH _ _ _ E1); by destruct (h_run _ _ _ _ _ _ cs2 s2) as [[]|].
Qed.

Lemma extends_given {K V} (xs : list (K * V)) : forall l, length l = length xs ->
  all_given (map (fun kv => HExtend [kv]) xs) l = parts xs.
Proof. induction xs as [|x xs IH]; intros [|a l] E; try done. cbn [map all_given with_given given]. rewrite IH by (cbn in E; lia). done. Qed.
Lemma extends_taken {K V} (xs : list (K * V)) : forall l, all_taken (map (fun kv => HExtend [kv]) xs) l = [].
Proof. induction xs as [|x xs IH]; intros [|a l]; try done. cbn [map all_taken taken app]. apply IH. Qed.
Lemma extends_move {K V} (xs : list (K * V)) : forallb no_rewrite (map (fun kv => HExtend [kv]) xs) = true.
Proof. induction xs; by cbn. Qed.
Lemma change_length {K V} eqb k f (m : list (K * V)) : length (change eqb k f m) = length m.
Proof. unfold change. by rewrite map_length. Qed.
Lemma extends_all {K V} eqb (xs : list (K * V)) : forall m l d m',
  spec_run eqb (map (fun kv => HExtend [kv]) xs) m = (l, d, m') -> (Z.of_nat (length m + length xs) <= max_entries)%Z ->
  Forall (fun a => ~ a = None) l.
Proof.
  induction xs as [|[k v] xs IH]; intros m l d m' E L; cbn [map spec_run] in E; [by simplify_eq|].
  cbn [spec_call spec_extend] in E. destruct (look eqb k m).
  - destruct (spec_run _ _ _) as [[l2 d2] m2] eqn:E2. simplify_eq. constructor; [done|].
    eapply IH; [exact E2|]. rewrite change_length. cbn in L. lia.
  - destruct (full m) eqn:FU; [unfold full in FU; cbn [length] in L; lia|].
    destruct (spec_run _ _ _) as [[l2 d2] m2] eqn:E2. simplify_eq. constructor; [done|].
    eapply IH; [exact E2|]. cbn in *. lia.
Qed.
Lemma h_run_length {K V} nsz nal eb chk hash eqb (cs : list (hcall K V)) : forall s l s',
  h_run nsz nal eb chk hash eqb cs s = Some (l, s') -> length l = length cs.
Proof.
  induction cs as [|c cs IH]; intros s l s' E; cbn [h_run] in E; [by simplify_eq|].
  destruct (h_call nsz nal eb chk hash eqb c s) as [a s1|s1|]; [| |done];
    destruct (h_run _ _ _ _ _ _ cs s1) as [[l1 s2]|] eqn:E1; try done; simplify_eq; cbn; f_equal; by eapply IH.
Qed.

Section look.
Context {K V : Type}.
Variables (nsz nal : Z) (eb : nat) (chk : bool) (hash : K -> Z) (eqb : K -> K -> bool) (h0 : heap (tcell K V)).
Hypothesis SU : Setup nsz nal eb hash eqb h0.
Lemma extends_look k (xs : list (K * V)) : forall m l d m',
  spec_run eqb (map (fun kv => HExtend [kv]) xs) m = (l, d, m') -> Forall (fun a => ~ a = None) l ->
  option_map snd (look eqb k m') =
    match List.find (fun e => eqb (fst e) k) (rev xs) with Some e => Some (snd e) | None => option_map snd (look eqb k m) end.
Proof using All.
  induction xs as [|[k1 v1] xs IH]; intros m l d m' E F; cbn [map spec_run] in E; [by simplify_eq|].
  cbn [rev].
  assert (FA : forall l1 l2 : list (K * V), List.find (fun e => eqb (fst e) k) (l1 ++ l2) =
    match List.find (fun e => eqb (fst e) k) l1 with Some x => Some x | None => List.find (fun e => eqb (fst e) k) l2 end).
  { intros l1 l2. clear. induction l1 as [|x l1 IH]; [done|]. cbn. by destruct (eqb _ k). }
  rewrite FA. clear FA. cbn [List.find fst].
  cbn [spec_call spec_extend] in E. destruct (look eqb k1 m) as [e|] eqn:LK.
  - destruct (spec_run _ _ _) as [[l2 d2] m2] eqn:E2. simplify_eq. apply Forall_cons in F as (_ & F).
    rewrite (IH _ _ _ _ E2 F). destruct (List.find _ (rev xs)); [done|].
    rewrite (look_change _ _ _ _ _ _ SU). destruct (eqb k1 k) eqn:E1; [|done].
    assert (LK2 : exists e', look eqb k m = Some e').
    { destruct (look eqb k m) as [e'|] eqn:LN; [by eexists|]. exfalso.
      apply look_in in LK as [I EE]. rewrite (look_none eqb) in LN. specialize (LN _ I).
      by rewrite (kh_trans _ _ (su_keys _ _ _ _ _ _ SU) _ _ _ EE E1) in LN. }
    destruct LK2 as (e' & ->). done.
  - destruct (full m).
    { destruct (spec_run _ _ _) as [[l2 d2] m2] eqn:E2. simplify_eq. by apply Forall_cons in F as (F & _). }
    destruct (spec_run _ _ _) as [[l2 d2] m2] eqn:E2. simplify_eq. apply Forall_cons in F as (_ & F).
    rewrite (IH _ _ _ _ E2 F). destruct (List.find _ (rev xs)); [done|].
    rewrite look_cons. by destruct (eqb k1 k).
Qed.
End look.
Lemma same_refused {K V} (l l' : list (option (hanswer K V))) : Forall2 same_answer l l' ->
  Forall (fun a => ~ a = None) l <-> Forall (fun a => ~ a = None) l'.
Proof.
  induction 1 as [|a b l l' H _ IH]; [done|]. rewrite !Forall_cons, IH.
  assert (a = None <-> b = None) as E; [|by rewrite E].
  destruct a as [[]|], b as [[]|]; cbn in H; split; intros; try done; congruence.
Qed.

Lemma L_C100_hash_from_iter :
forall (K V : Type) nsz nal eb chk hash eqb (h0 : heap (tcell K V)) (src : source (K * V)), Setup nsz nal eb hash eqb h0 ->
  match table_collect nsz nal eb chk hash eqb src h0 with
  | (Ok _ s, n) =>
    panics src = false /\ n = length (yields src) /\
    (forall k, exists o, get hash eqb k s = Ok o s /\
       option_map snd o = option_map snd (List.find (fun e => eqb (fst e) k) (rev (yields src)))) /\
    exists s', ht_drop nsz nal eb s = Ok tt s' /\ t_drops s' ≡ₚ parts (yields src)
  | (Panic s, n) =>
    t_drops s ≡ₚ parts (take n (yields src)) /\
    ((Z.of_nat (length (yields src)) <= max_entries)%Z -> panics src = true /\ n = length (yields src)) /\
    exists leaked, NoDup leaked /\ (forall b, b ∉ leaked -> h_blk (t_h s) !! b = h_blk h0 !! b) /\
      (forall b, b ∈ leaked -> h_blk h0 !! b = None /\ exists bk, h_blk (t_h s) !! b = Some bk /\
         last (bk_cells bk) = Some (Some TOnes))
  | (UB, _) => False
  end.
Proof.
  intros K V nsz nal eb chk hash eqb h0 src SU. unfold table_collect, collect.
  pose proof (drain_run (table_put nsz nal eb chk hash eqb) (fun kv => HExtend [kv])
    (fun c s => match h_call nsz nal eb chk hash eqb c s with Ok a s' => Some (Some a, s') | Panic s' => Some (None, s') | UB => None end)
    (fun a => a = None) (h_run nsz nal eb chk hash eqb) ltac:(done) (h_run_cons nsz nal eb chk hash eqb)
    (table_sim nsz nal eb chk hash eqb) (yields src) (panics src) (ht_new eb h0 [])) as DR.
  destruct (drain _ _ _ (ht_new eb h0 [])) as [[u' s2|s2|] n]; cbn [unwinding].
  - destruct DR as (B & -> & l & El & F). split; [done|]. split; [done|]. split.
    + intros k. pose proof (L_C39_hash_map_refines_finite_map K V nsz nal eb chk hash eqb h0 SU (map (fun kv => HExtend [kv]) (yields src))) as H.
      destruct (spec_run eqb _ []) as [[l0 d] m] eqn:SP. destruct H as (l' & s' & B' & SA & _ & HO).
      unfold built in B'. rewrite El in B'. injection B' as <- <-.
      exists (look eqb k m). split; [apply HO|].
      rewrite (extends_look nsz nal eb chk hash eqb h0 SU k _ _ _ _ _ SP); [by destruct (List.find _ (rev _))|].
      by apply (same_refused _ _ SA).
    + destruct (L_C48_conservation K V nsz nal eb chk hash eqb h0 SU _ l s2 El (extends_move _)) as (s' & E' & P).
      exists s'. split; [done|]. rewrite extends_taken, app_nil_r, extends_given in P; [done|].
      by rewrite (h_run_length _ _ _ _ _ _ _ _ _ _ El), map_length.
  - destruct DR as (L & l & El & H).
    destruct (L_C48_conservation K V nsz nal eb chk hash eqb h0 SU _ l s2 El (extends_move _)) as (s' & E' & P).
    rewrite extends_taken, app_nil_r, extends_given in P; [|by rewrite (h_run_length _ _ _ _ _ _ _ _ _ _ El), map_length].
    rewrite E'. split; [done|]. split.
    + intros ML. destruct H as [(-> & -> & _)|(l1 & a & -> & -> & _)]; [done|exfalso].
      pose proof (L_C39_hash_map_refines_finite_map K V nsz nal eb chk hash eqb h0 SU (map (fun kv => HExtend [kv]) (take n (yields src)))) as H.
      destruct (spec_run eqb _ []) as [[l0 d] m] eqn:SP. destruct H as (l' & s1 & B' & SA & _).
      unfold built in B'. rewrite El in B'. injection B' as <- _.
      assert (F : Forall (fun a => ~ a = None) (l1 ++ [@None (hanswer K V)])).
      { apply (same_refused _ _ SA). eapply extends_all; [exact SP|]. cbn [length]. rewrite take_length. lia. }
      apply Forall_app in F as (_ & F). by apply Forall_cons in F as (F & _).
    + destruct (L_C49_drop_leaks_bucket_arrays K V nsz nal eb chk hash eqb h0 SU _ l s2 El) as (s1 & lk & E1 & ND & FR & AR & _).
      rewrite E' in E1. injection E1 as <-. exists lk. split; [done|]. split; [done|].
      intros b Hb. destruct (AR b Hb) as (N & bk & EB & LA & _). split; [done|]. by exists bk.
  - pose proof (L_C39_hash_map_refines_finite_map K V nsz nal eb chk hash eqb h0 SU (map (fun kv => HExtend [kv]) (take n (yields src)))) as H.
    destruct (spec_run eqb _ []) as [[l0 d] m] eqn:SP. destruct H as (l' & s1 & B' & _).
    unfold built in B'. by rewrite DR in B'.
Qed.

Lemma L_C100_entry_closures :
forall (K V : Type) nsz nal eb chk hash eqb (h0 : heap (tcell K V)), Setup nsz nal eb hash eqb h0 ->
  forall prog l s m k (f : V -> V) (bad : bool) (d : option V), built nsz nal eb chk hash eqb h0 prog l s -> holds hash eqb s m ->
  match m k with Some _ => bad = true | None => d = None end ->
  exists s', entry_chain nsz nal eb chk hash eqb k f bad d s = Panic s' /\
    t_drops s' = t_drops s ++ [inl k] /\
    holds hash eqb s' (fun k' => if eqb k k' then option_map (fun e => (fst e, f (snd e))) (m k') else m k') /\
    exists prog' l', built nsz nal eb chk hash eqb h0 prog' l' s'.
Proof.
  intros K V nsz nal eb chk hash eqb h0 SU prog l s m k f bad d B HM HP.
  destruct (L_C43_entry_occupied_exactly_when_present K V nsz nal eb chk hash eqb h0 SU prog l s m k (Some f) B HM) as (s' & E & HO).
  exists s'. split; [|split; [|split; [exact HO|]]].
  - cbn [h_call] in E. unfold entry_mod, entry_chain, modify_entry, insert_entry in *.
    destruct (entry hash eqb k s) as [e s1|s1|] eqn:E1; unfold bind in *; rewrite E1 in *; cbn in E; try done.
    destruct (and_modify eb e f s1) as [u s2|s2|] eqn:E2; cbn in E; try done.
    destruct e as [p|[t k']]; cbn [drop_entry ret] in E.
    + cbn in E. injection E as E3 <-. destruct (m k); [|done]. rewrite HP. done.
    + destruct (drop_all [inl k'] s2) as [u' s3|s3|] eqn:E3; cbn in E; try done. injection E as E4 <-.
      destruct (m k); [done|]. rewrite HP. cbn [ret drop_entry]. by rewrite E3.
  - destruct (built_rep _ _ _ _ _ _ _ SU _ _ _ B) as (cs & arrs & R & _).
    pose proof (call_rep _ _ _ chk _ _ _ SU (HEntryDrop k (Some f)) _ _ _ _ R) as C. cbn [spec_call] in C.
    destruct C as (a & s1 & cs' & arrs' & dd & RS & _ & _ & _ & D & PD & _). rewrite E in RS. cbn in RS. injection RS as _ <-.
    rewrite D. f_equal. by apply Permutation_singleton_r in PD.
  - exists (prog ++ [HEntryDrop k (Some f)]). eexists. unfold built in *. rewrite (h_run_app _ _ _ _ _ _ _ _ _ _ _ B).
    cbn [h_run]. rewrite E. done.
Qed.

Lemma L_C100_entry_closures_return :
forall (K V : Type) nsz nal eb chk hash eqb (h0 : heap (tcell K V)), Setup nsz nal eb hash eqb h0 ->
  forall prog l s m k (f : V -> V) (bad : bool) (d : option V), built nsz nal eb chk hash eqb h0 prog l s -> holds hash eqb s m ->
  match m k with
  | Some e => bad = false ->
    exists s', entry_chain nsz nal eb chk hash eqb k f bad d s = Ok (false, f (snd e)) s' /\ t_drops s' = t_drops s ++ [inl k] /\
      holds hash eqb s' (fun k' => if eqb k k' then Some (fst e, f (snd e)) else m k')
  | None => forall v, d = Some v ->
    match entry_chain nsz nal eb chk hash eqb k f bad d s with
    | Ok r s' => r = (true, v) /\ t_drops s' = t_drops s /\ holds hash eqb s' (fun k' => if eqb k k' then Some (k, v) else m k')
    | Panic s' => t_ec s = max_entries /\ t_drops s' ≡ₚ t_drops s ++ [inl k; inr v] /\ holds hash eqb s' m
    | UB => False
    end
  end.
Proof.
  intros K V nsz nal eb chk hash eqb h0 SU prog l s m k f bad d B HM.
  destruct (built_rep _ _ _ _ _ _ _ SU _ _ _ B) as (cs & arrs & R & _).
  pose proof (holds_get _ _ _ _ _ _ SU _ _ _ _ _ k HM R) as MK.
  destruct (m k) as [e|] eqn:E.
  - intros ->. pose proof (L_C43_entry_or_insert_with K V nsz nal eb chk hash eqb h0 SU prog l s m k (Some f) (snd e) B HM) as H.
    rewrite E in H. destruct H as (s' & EC & HO). exists s'. split; [|split; [|done]].
    + cbn [h_call] in EC. unfold entry_mod, entry_chain, modify_entry, insert_entry, or_insert_with in *. unfold bind in *.
      destruct (entry hash eqb k s) as [e' s1|s1|]; cbn [ret] in EC; try done.
      destruct (and_modify eb e' f s1) as [u s2|s2|]; cbn [ret] in EC; try done.
      destruct e' as [p|[t k']]; cbn [ret] in *.
      * destruct (node_at p s2) as [[[k1 v1] nx] s3|s3|]; try done. cbn in EC |- *. by injection EC as -> <-.
      * exfalso. destruct (insert_impl _ _ _ _ _ _ _ _ s2) as [p s3|s3|]; try done.
        destruct (node_at p s3) as [[[k1 v1] nx] s4|s4|]; cbn in EC; done.
    + pose proof (call_rep _ _ _ chk _ _ _ SU (HEntryWith k (Some f) (snd e)) _ _ _ _ R) as C. cbn [spec_call changes] in C.
      rewrite (look_change _ _ _ _ _ _ SU), (kh_refl _ _ (su_keys _ _ _ _ _ _ SU)), <- MK in C. cbn [option_map] in C.
      destruct C as (a & s1 & cs' & arrs' & dd & RS & _ & _ & _ & D & PD & _). rewrite EC in RS. cbn in RS. injection RS as _ <-.
      rewrite D. f_equal. by apply Permutation_singleton_r in PD.
  - intros v ->.
    destruct (L_C43_entry_occupied_exactly_when_present K V nsz nal eb chk hash eqb h0 SU prog l s m k (Some f) B HM) as (s1 & EC & _).
    rewrite E in EC.
    assert (EQ : h_call nsz nal eb chk hash eqb (HEntryWith k (Some f) v) s =
      match entry_chain nsz nal eb chk hash eqb k f bad (Some v) s with
      | Ok r s' => Ok (HRef (fst r) (snd r)) s' | Panic s' => Panic s' | UB => UB end).
    { cbn [h_call] in EC |- *. unfold entry_mod, entry_chain, modify_entry, insert_entry in *. unfold bind in *.
      destruct (entry hash eqb k s) as [e' s2|s2|]; cbn [ret] in EC; try done.
      destruct (and_modify eb e' f s2) as [u s3|s3|] eqn:EA; cbn [ret] in EC; try done.
      destruct e' as [p|[t k']]; cbn [drop_entry ret] in EC; [done|].
      cbn [ret]. by destruct (or_insert_with nsz nal eb chk hash (inr (t, k')) v s3). }
    pose proof (call_rep _ _ _ chk _ _ _ SU (HEntryWith k (Some f) v) _ _ _ _ R) as C. cbn [spec_call changes] in C.
    rewrite (look_change _ _ _ _ _ _ SU), (kh_refl _ _ (su_keys _ _ _ _ _ _ SU)), <- MK in C. cbn [option_map] in C.
    rewrite EQ in C. clear EQ.
    destruct (full (map snd (concat cs))) eqn:FU.
    + destruct C as (a & s' & cs' & arrs' & dd & RS & SA & R' & P & D & PD & _). apply same_exact in SA; [|done]. subst a.
      destruct (entry_chain nsz nal eb chk hash eqb k f bad (Some v) s) as [r s2|s2|]; cbn in RS; try done. injection RS as <-.
      split; [|split].
      * rewrite (tr_ec _ _ _ _ _ _ _ _ _ _ R). unfold full in FU. rewrite map_length in FU. lia.
      * by rewrite D, PD.
      * intros k'. rewrite (holds_perm _ _ _ _ _ _ SU _ _ _ _ _ R' P k'). f_equal. by rewrite (holds_get _ _ _ _ _ _ SU _ _ _ _ _ k' HM R).
    + destruct C as (a & s' & cs' & arrs' & dd & RS & SA & R' & P & D & PD & _). apply same_exact in SA; [|done]. subst a.
      destruct (entry_chain nsz nal eb chk hash eqb k f bad (Some v) s) as [[b1 v1] s2|s2|]; cbn in RS; try done. injection RS as -> -> <-.
      split; [done|]. split; [symmetry in PD; apply Permutation_nil in PD as ->; by rewrite D, app_nil_r|].
      intros k'. rewrite (holds_perm _ _ _ _ _ _ SU _ _ _ _ _ R' P k'). f_equal. rewrite look_cons.
      destruct (eqb k k'); [done|]. by rewrite (holds_get _ _ _ _ _ _ SU _ _ _ _ _ k' HM R).
Qed.
