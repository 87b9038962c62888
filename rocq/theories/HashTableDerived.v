(** Proofs of the properties stated in HashTableProps.v. *)
From Coq Require Import Znumtheory Sorted.
From Verif Require Import Base Heap Alloc RehashPolicy HashTable HashTableSpec.
Local Open Scope nat_scope.

From Verif Require Import HeapLemmas RehashPolicyProofs HashTableProofs HashTableMore.
Local Open Scope nat_scope.

Lemma hx_setup V : Setup (V := V) 24 8 0 hx_hash Z.eqb hx_heap.
Proof.
  split; [lia|done| | |done].
  - split; intros; try lia. assert (a = b) as -> by lia. done.
  - intros b [bk H]. cbn in *. apply lookup_singleton_Some in H as [<- _]. lia.
Qed.

(** ** The program of n inserts *)
Lemma inserts_spec n : forall a (m : list (Z * Z)), (forall e, e ∈ m -> (fst e < Z.of_nat a)%Z) ->
  (Z.of_nat (length m + n) <= max_entries)%Z ->
  exists m1, spec_run Z.eqb (map (fun i => HInsert (Z.of_nat i) (Z.of_nat i)) (seq a n)) m = (replicate n (Some (HVal None)), [], m1) /\
    length m1 = length m + n /\ (forall e, e ∈ m1 -> (fst e < Z.of_nat (a + n))%Z).
Proof.
  induction n as [|n IH]; intros a m H L.
  - exists m. split; [done|]. split; [lia|]. intros e He. specialize (H e He). lia.
  - cbn [seq map spec_run spec_call].
    assert (look Z.eqb (Z.of_nat a) m = None) as ->.
    { apply look_none. intros e He. specialize (H e He). lia. }
    assert (full m = false) as -> by (unfold full; lia).
    destruct (IH (S a) ((Z.of_nat a, Z.of_nat a) :: m)) as (m1 & -> & L1 & H1).
    + intros e [->|He]%elem_of_cons; [cbn; lia|]. specialize (H e He). lia.
    + cbn. lia.
    + exists m1. split; [done|]. split; [cbn in L1; lia|]. intros e He. specialize (H1 e He). lia.
Qed.

Lemma spec_run_app {K V} eqb (p1 p2 : list (hcall K V)) : forall m,
  spec_run eqb (p1 ++ p2) m = let '(l1, d1, m1) := spec_run eqb p1 m in let '(l2, d2, m2) := spec_run eqb p2 m1 in (l1 ++ l2, d1 ++ d2, m2).
Proof.
  induction p1 as [|c p1 IH]; intros m; cbn [app spec_run].
  - by destruct (spec_run eqb p2 m) as [[??]?].
  - destruct (spec_call eqb c m) as [[a d] m1]. rewrite IH. destruct (spec_run eqb p1 m1) as [[l1 d1] m2].
    destruct (spec_run eqb p2 m2) as [[??]?]. by rewrite app_assoc.
Qed.

Lemma inserts_S n : inserts (S n) = inserts n ++ [HInsert (Z.of_nat n) (Z.of_nat n)].
Proof. unfold inserts. rewrite seq_S, map_app. done. Qed.

Lemma inserts_keys n : keys_given (inserts n) = n.
Proof.
  induction n as [|n IH]; [done|]. rewrite inserts_S. unfold keys_given in *. rewrite map_app.
  assert (A : forall l1 l2, sum_list (l1 ++ l2) = sum_list l1 + sum_list l2).
  { induction l1 as [|x l1 IH1]; intros l2; cbn; [done|]. rewrite IH1. lia. }
  rewrite A, IH. cbn. lia.
Qed.

(** ** Sets as maps to unit *)
Section sets.
Context {K : Type}.
Variables (nsz nal : Z) (eb : nat) (chk : bool) (hash : K -> Z) (eqb : K -> K -> bool).

Definition h_of (c : scall K) : hcall K unit :=
  match c with
  | SInsert k => HInsert k tt
  | SContains k => HContains k
  | SGet k => HGet k
  | SRemove k => HRemoveEntry k
  | SExtend ks => HExtend (map (fun k => (k, tt)) ks)
  | SLen => HLen
  | SIsEmpty => HIsEmpty
  | SClear => HClear
  | SIter => HIter
  end.

Definition conv (a : hanswer K unit) : sanswer K :=
  match a with
  | HUnit | HRef _ _ => SUnit
  | HVal o => SBool (match o with Some _ => true | None => false end)
  | HPair o => SKey (option_map fst o)
  | HBool b => SBool b
  | HNat n => SNat n
  | HPairs l => SKeys (map fst l)
  end.

Definition omap_out {S A B} (f : A -> B) (o : outcome S A) : outcome S B :=
  match o with Ok a s => Ok (f a) s | Panic s => Panic s | UB => UB end.

Lemma set_call_h c s : set_call nsz nal eb chk hash eqb c s = omap_out conv (h_call nsz nal eb chk hash eqb (h_of c) s).
Proof.
  destruct c; cbn [set_call h_of h_call].
  - unfold set_insert. unfold bind. by destruct (insert _ _ _ _ _ _ _ _ _).
  - unfold bind. by destruct (contains_key _ _ _ _).
  - unfold set_get, bind. by destruct (get _ _ _ _).
  - unfold set_remove, bind. by destruct (remove_entry _ _ _ _ _ _ _ _).
  - unfold set_extend, bind. by destruct (insert_all _ _ _ _ _ _ _ _).
  - done.
  - done.
  - unfold bind. by destruct (clear _ _ _ _).
  - unfold set_iter, bind, gets. destruct (iter s) as [it s'| |]; [|done..]. by destruct (iter_all _ _ _).
Qed.

Lemma set_run_h cs : forall s, set_run nsz nal eb chk hash eqb cs s =
  option_map (fun r => (map (option_map conv) (fst r), snd r)) (h_run nsz nal eb chk hash eqb (map h_of cs) s).
Proof.
  induction cs as [|c cs IH]; intros s; [done|]. cbn [map set_run h_run]. rewrite set_call_h.
  destruct (h_call nsz nal eb chk hash eqb (h_of c) s) as [a s'|s'|]; cbn [omap_out]; [| |done].
  - rewrite IH. by destruct (h_run nsz nal eb chk hash eqb (map h_of cs) s') as [[??]|].
  - rewrite IH. by destruct (h_run nsz nal eb chk hash eqb (map h_of cs) s') as [[??]|].
Qed.

Notation un := (map (fun k : K => (k, tt))).

Lemma un_look k ks : look eqb k (un ks) = option_map (fun k => (k, tt)) (sfind eqb k ks).
Proof. induction ks as [|k' ks IH]; [done|]. cbn. destruct (eqb k' k); [done|]. exact IH. Qed.
Lemma un_has k ks : has eqb k (un ks) = smem eqb k ks.
Proof. induction ks as [|k' ks IH]; [done|]. cbn. f_equal. exact IH. Qed.
Lemma sfind_smem k ks : smem eqb k ks = match sfind eqb k ks with Some _ => true | None => false end.
Proof. induction ks as [|k' ks IH]; [done|]. cbn. destruct (eqb k' k); [done|]. exact IH. Qed.
Lemma un_change k f ks : change eqb k f (un ks) = un ks.
Proof. induction ks as [|k' ks IH]; [done|]. cbn. destruct (f tt). destruct (eqb k' k); f_equal; exact IH. Qed.
Lemma un_without k ks : without eqb k (un ks) = un (List.filter (fun k' => negb (eqb k' k)) ks).
Proof. induction ks as [|k' ks IH]; [done|]. cbn. destruct (eqb k' k); cbn; [exact IH|]. f_equal. exact IH. Qed.
Lemma un_full ks : full (un ks) = sfull ks.
Proof. unfold full, sfull. by rewrite map_length. Qed.
Lemma un_fst ks : map fst (un ks) = ks.
Proof. induction ks as [|k ks IH]; [done|]. cbn. by f_equal. Qed.

Lemma un_extend new : forall ks, exists d, spec_extend eqb (un new) (un ks) = (fst (sset_extend eqb new ks), d, un (snd (sset_extend eqb new ks))).
Proof.
  induction new as [|k new IH]; intros ks; cbn [map spec_extend sset_extend]; [eauto|].
  rewrite un_look, sfind_smem, un_full, un_change. destruct (sfind eqb k ks); cbn [option_map].
  - destruct (IH ks) as (d & ->). eauto.
  - destruct (sfull ks); [eauto|]. destruct (IH (k :: ks)) as (d & E). cbn [map] in E. rewrite E. eauto.
Qed.

Lemma un_call c ks : exists a d, spec_call eqb (h_of c) (un ks) = (a, d, un (snd (sset_call eqb c ks))) /\
  option_map conv a = fst (sset_call eqb c ks).
Proof.
  destruct c; cbn [h_of spec_call sset_call].
  - rewrite un_look, sfind_smem, un_full, un_change. destruct (sfind eqb k ks); cbn [option_map]; [eauto|].
    destruct (sfull ks); eauto.
  - rewrite un_has. eauto.
  - rewrite un_look. do 2 eexists. split; [done|]. cbn. by destruct (sfind eqb k ks).
  - rewrite un_look, un_without. do 2 eexists. split; [done|]. cbn. by destruct (sfind eqb k ks).
  - destruct (un_extend ks0 ks) as (d & ->). destruct (sset_extend eqb ks0 ks) as [b ks']. cbn. destruct b; eauto.
  - rewrite map_length. eauto.
  - do 2 eexists. split; [done|]. by destruct ks.
  - eauto.
  - do 2 eexists. split; [done|]. cbn. by rewrite un_fst.
Qed.

Lemma un_run cs : forall ks, exists l d, spec_run eqb (map h_of cs) (un ks) = (l, d, un (snd (sset_run eqb cs ks))) /\
  map (option_map conv) l = fst (sset_run eqb cs ks).
Proof.
  induction cs as [|c cs IH]; intros ks; cbn [map spec_run sset_run]; [eauto|].
  destruct (un_call c ks) as (a & d & -> & E). destruct (sset_call eqb c ks) as [a' ks1]. cbn [fst snd] in *.
  destruct (IH ks1) as (l & d' & -> & E'). destruct (sset_run eqb cs ks1) as [l' ks2]. cbn [fst snd] in *.
  do 2 eexists. split; [done|]. cbn. by f_equal.
Qed.

Lemma same_conv a b : same_answer (K := K) (V := unit) a b -> same_sanswer (option_map conv a) (option_map conv b).
Proof.
  destruct a as [[]|], b as [[]|]; cbn; try done; try congruence; intros P; (injection P as -> || rewrite P); done.
Qed.
End sets.

Lemma L_C39_hash_map_refines_finite_map :
  forall (K V : Type) nsz nal eb chk hash eqb (h0 : heap (tcell K V)), Setup nsz nal eb hash eqb h0 ->
  forall prog : list (hcall K V),
  let '(answers, dropped, m) := spec_run eqb prog [] in
  exists l s, built nsz nal eb chk hash eqb h0 prog l s /\ Forall2 same_answer l answers /\
    t_drops s ≡ₚ dropped /\ holds hash eqb s (fun k => look eqb k m).
Proof.
  intros K V nsz nal eb chk hash eqb h0 SU prog. pose proof (run_start _ _ _ chk _ _ _ SU prog) as H.
  destruct (spec_run eqb prog []) as [[a d] m]. destruct H as (l & s & cs & arrs & B & F & R & P & D).
  exists l, s. split; [done|]. split; [done|]. split; [done|]. eapply holds_perm; eauto.
Qed.

Lemma L_C40_iteration_yields_each_once :
  forall (K V : Type) nsz nal eb chk hash eqb (h0 : heap (tcell K V)), Setup nsz nal eb hash eqb h0 ->
  forall prog l s, built nsz nal eb chk hash eqb h0 prog l s ->
  exists es, h_call nsz nal eb chk hash eqb HIter s = Ok (HPairs es) s /\
    distinct eqb es /\
    (forall k e, (e ∈ es /\ eqb (fst e) k = true) <-> get hash eqb k s = Ok (Some e) s) /\
    h_call nsz nal eb chk hash eqb HLen s = Ok (HNat (Z.of_nat (length es))) s.
Proof.
  intros K V nsz nal eb chk hash eqb h0 SU prog l s B. destruct (built_rep _ _ _ _ _ _ _ SU _ _ _ B) as (cs & arrs & R & _).
  exists (map snd (concat cs)). split; [eapply iter_call; eauto|]. split; [by eapply distinct_of|]. split.
  - intros k e. rewrite (look_iff _ _ _ _ _ _ SU) by (by eapply distinct_of). rewrite (TR_get _ _ _ _ _ _ SU _ _ _ _ _ R).
    split; [by intros ->|]. intros E. by injection E.
  - cbn. unfold bind, len, gets, ret. rewrite (tr_ec _ _ _ _ _ _ _ _ _ _ R), map_length. done.
Qed.

Lemma L_C40_iter_mut_visits_each_once :
  forall (K V : Type) nsz nal eb chk hash eqb (h0 : heap (tcell K V)), Setup nsz nal eb hash eqb h0 ->
  forall prog l s (g : K -> V -> V) m, built nsz nal eb chk hash eqb h0 prog l s -> holds hash eqb s m ->
  exists es es' s', h_call nsz nal eb chk hash eqb HIter s = Ok (HPairs es) s /\
    h_call nsz nal eb chk hash eqb (HIterMut g) s = Ok (HPairs es') s' /\ es' ≡ₚ es /\
    holds hash eqb s' (fun k => option_map (fun e => (fst e, g (fst e) (snd e))) (m k)) /\ t_ec s' = t_ec s.
Proof.
  intros K V nsz nal eb chk hash eqb h0 SU prog l s g m B HM. destruct (built_rep _ _ _ _ _ _ _ SU _ _ _ B) as (cs & arrs & R & _).
  pose proof (call_rep _ _ _ chk _ _ _ SU (HIterMut g) _ _ _ _ R) as C. cbn [spec_call] in C.
  destruct C as (a & s' & cs' & arrs' & d & RS & SA & R' & P & _). destruct a as [[]|]; cbn in SA; try done.
  exists (map snd (concat cs)), l0, s'. split; [eapply iter_call; eauto|]. split; [by apply result_ok|]. split; [done|]. split.
  - intros k. rewrite (TR_get _ _ _ _ _ _ SU _ _ _ _ _ R'). f_equal.
    rewrite (look_perm nsz nal hash eqb (su_layout _ _ _ _ _ _ SU) (su_keys _ _ _ _ _ _ SU) k _ _ P) by (by eapply distinct_of).
    rewrite (holds_get _ _ _ _ _ _ SU _ _ _ _ _ k HM R).
    clear. induction (map snd (concat cs)) as [|e es IH]; [done|]. cbn. destruct (eqb (fst e) k); [done|]. exact IH.
  - rewrite (tr_ec _ _ _ _ _ _ _ _ _ _ R), (tr_ec _ _ _ _ _ _ _ _ _ _ R'). apply Permutation_length in P. rewrite !map_length in P. lia.
Qed.

Lemma L_C41_insert_keeps_the_others :
  forall (K V : Type) nsz nal eb chk hash eqb (h0 : heap (tcell K V)), Setup nsz nal eb hash eqb h0 ->
  forall prog l s m k v, built nsz nal eb chk hash eqb h0 prog l s -> holds hash eqb s m ->
  match h_call nsz nal eb chk hash eqb (HInsert k v) s with
  | Ok a s' => a = HVal (option_map snd (m k)) /\
      holds hash eqb s' (fun k' => if eqb k k' then Some (match m k with Some e => fst e | None => k end, v) else m k') /\
      t_ec s' = (if m k then t_ec s else t_ec s + 1)%Z
  | Panic s' => holds hash eqb s' m /\ t_ec s' = t_ec s /\ t_ec s = max_entries
  | UB => False
  end.
Proof.
  intros K V nsz nal eb chk hash eqb h0 SU prog l s m k v B HM. destruct (built_rep _ _ _ _ _ _ _ SU _ _ _ B) as (cs & arrs & R & _).
  pose proof (call_rep _ _ _ chk _ _ _ SU (HInsert k v) _ _ _ _ R) as C. cbn [spec_call] in C.
  assert (LK : m k = look eqb k (map snd (concat cs))) by (eapply holds_get; eauto). rewrite LK.
  assert (EC : forall s' cs' arrs' cnt', TRep nsz nal eb hash eqb h0 s' cs' arrs' cnt' -> t_ec s' = Z.of_nat (length (map snd (concat cs')))).
  { intros s' cs' arrs' cnt' R'. rewrite map_length. apply (tr_ec _ _ _ _ _ _ _ _ _ _ R'). }
  destruct (look eqb k (map snd (concat cs))) as [e|] eqn:E; [|destruct (full (map snd (concat cs))) eqn:F].
  - destruct C as (a & s' & cs' & arrs' & d & RS & SA & R' & P & _). apply same_exact in SA; [|done]. subst a. apply result_ok in RS. rewrite RS.
    split; [done|]. split.
    + intros k'. rewrite (holds_perm _ _ _ _ _ _ SU _ _ _ _ _ R' P k'). f_equal. rewrite (look_change _ _ _ _ _ _ SU).
      rewrite (holds_get _ _ _ _ _ _ SU _ _ _ _ _ k' HM R).
      destruct (eqb k k') eqn:Q; [|done].
      assert (look eqb k' (map snd (concat cs)) = Some e) as ->; [|done].
      destruct (look_in _ _ _ _ E) as [Hi Hq]. eapply look_some; [by eapply su_keys|by eapply distinct_of|done|].
      by apply (kh_trans _ _ (su_keys _ _ _ _ _ _ SU)) with k.
    + rewrite (EC _ _ _ _ R), (EC _ _ _ _ R'), P. unfold change. by rewrite map_length.
  - destruct C as (a & s' & cs' & arrs' & d & RS & SA & R' & P & _). apply same_exact in SA; [|done]. subst a. apply result_panic in RS. rewrite RS.
    split.
    + intros k'. rewrite (holds_perm _ _ _ _ _ _ SU _ _ _ _ _ R' P k'). f_equal. by rewrite (holds_get _ _ _ _ _ _ SU _ _ _ _ _ k' HM R).
    + rewrite (EC _ _ _ _ R), (EC _ _ _ _ R'), P. unfold full in F. lia.
  - destruct C as (a & s' & cs' & arrs' & d & RS & SA & R' & P & _). apply same_exact in SA; [|done]. subst a. apply result_ok in RS. rewrite RS.
    split; [done|]. split.
    + intros k'. rewrite (holds_perm _ _ _ _ _ _ SU _ _ _ _ _ R' P k'). f_equal. rewrite look_cons.
      by rewrite (holds_get _ _ _ _ _ _ SU _ _ _ _ _ k' HM R).
    + rewrite (EC _ _ _ _ R), (EC _ _ _ _ R'), P. cbn [length]. lia.
Qed.

Lemma L_C42_bucket_array_shape :
  forall (K V : Type) nsz nal eb chk hash eqb (h0 : heap (tcell K V)), Setup nsz nal eb hash eqb h0 ->
  forall prog l s, built nsz nal eb chk hash eqb h0 prog l s ->
  exists b bk, t_arr s = Ptr b 0 /\ h_blk (t_h s) !! b = Some bk /\
    Z.of_nat (length (bk_cells bk)) = (t_bc s + 1)%Z /\ last (bk_cells bk) = Some (Some TOnes) /\
    (forall i, (Z.of_nat i < t_bc s)%Z -> exists p, bk_cells bk !! i = Some (Some (TSlot p))).
Proof.
  intros K V nsz nal eb chk hash eqb h0 SU prog l s B. destruct (built_rep _ _ _ _ _ _ _ SU _ _ _ B) as (cs & arrs & R & _).
  destruct (tr_arr _ _ _ _ _ _ _ _ _ _ R) as (a & ps & by_ & EA & E & F & _). unfold Slots in E.
  exists a. eexists. split; [done|]. split; [exact E|]. cbn [bk_cells]. pose proof (tr_bc _ _ _ _ _ _ _ _ _ _ R) as EB.
  rewrite (slots_length nsz nal (su_layout _ _ _ _ _ _ SU)), (Forall2_length _ _ _ F), EB. split; [lia|]. split; [by unfold slots; rewrite last_snoc|].
  intros i Hi. destruct (lookup_lt_is_Some_2 ps i) as [p Hp]; [rewrite (Forall2_length _ _ _ F); lia|].
  exists p. by apply slots_lookup.
Qed.

Lemma L_C42_static_array_never_written :
  forall (K V : Type) nsz nal eb chk hash eqb (h0 : heap (tcell K V)), Setup nsz nal eb hash eqb h0 ->
  forall prog l s, built nsz nal eb chk hash eqb h0 prog l s ->
  h_blk (t_h s) !! eb = Some (Block (-1) 8 [Some (TSlot Null); Some TOnes]) /\
  forall b bk, h_blk h0 !! b = Some bk -> h_blk (t_h s) !! b = Some bk.
Proof.
  intros K V nsz nal eb chk hash eqb h0 SU prog l s B. destruct (built_rep _ _ _ _ _ _ _ SU _ _ _ B) as (cs & arrs & R & _).
  assert (H : forall b bk, h_blk h0 !! b = Some bk -> h_blk (t_h s) !! b = Some bk).
  { intros b bk E. rewrite (tr_frame _ _ _ _ _ _ _ _ _ _ R); [done|]. intros Hb. rewrite (tr_fresh _ _ _ _ _ _ _ _ _ _ R b Hb) in E. done. }
  split; [|exact H]. apply H. exact (su_static _ _ _ _ _ _ SU).
Qed.

Lemma L_C43_entry_occupied_exactly_when_present :
  forall (K V : Type) nsz nal eb chk hash eqb (h0 : heap (tcell K V)), Setup nsz nal eb hash eqb h0 ->
  forall prog l s m k (f : option (V -> V)), built nsz nal eb chk hash eqb h0 prog l s -> holds hash eqb s m ->
  exists s', h_call nsz nal eb chk hash eqb (HEntryDrop k f) s = Ok (HBool (if m k then true else false)) s' /\
    holds hash eqb s' (fun k' => if eqb k k' then option_map (fun e => (fst e, match f with Some f => f (snd e) | None => snd e end)) (m k') else m k').
Proof.
  intros K V nsz nal eb chk hash eqb h0 SU prog l s m k f B HM. destruct (built_rep _ _ _ _ _ _ _ SU _ _ _ B) as (cs & arrs & R & _).
  pose proof (call_rep _ _ _ chk _ _ _ SU (HEntryDrop k f) _ _ _ _ R) as C. cbn [spec_call] in C.
  destruct C as (a & s' & cs' & arrs' & d & RS & SA & R' & P & _). apply same_exact in SA; [|done]. subst a. apply result_ok in RS.
  exists s'. rewrite RS, (has_look eqb), (holds_get _ _ _ _ _ _ SU _ _ _ _ _ k HM R). split; [by destruct (look eqb k (map snd (concat cs)))|].
  intros k'. rewrite (holds_perm _ _ _ _ _ _ SU _ _ _ _ _ R' P k'). f_equal. rewrite (holds_get _ _ _ _ _ _ SU _ _ _ _ _ k' HM R).
  destruct f as [f|]; cbn [changes].
  - by rewrite (look_change _ _ _ _ _ _ SU).
  - destruct (eqb k k'); [|done]. by destruct (look eqb k' (map snd (concat cs))) as [[]|].
Qed.

Lemma entry_insert_effect (K V : Type) nsz nal eb chk hash eqb (h0 : heap (tcell K V)) (b : bool) :
  Setup nsz nal eb hash eqb h0 ->
  forall prog l s m k (f : option (V -> V)) v, built nsz nal eb chk hash eqb h0 prog l s -> holds hash eqb s m ->
  match m k with
  | Some e => let v' := match f with Some f => f (snd e) | None => snd e end in
    exists s', h_call nsz nal eb chk hash eqb (if b then HEntryOr k f v else HEntryWith k f v) s = Ok (HRef b v') s' /\
      holds hash eqb s' (fun k' => if eqb k k' then Some (fst e, v') else m k')
  | None => t_ec s <> max_entries ->
    exists s', h_call nsz nal eb chk hash eqb (if b then HEntryOr k f v else HEntryWith k f v) s = Ok (HRef true v) s' /\
      holds hash eqb s' (fun k' => if eqb k k' then Some (k, v) else m k')
  end.
Proof.
  intros SU prog l s m k f v B HM. destruct (built_rep _ _ _ _ _ _ _ SU _ _ _ B) as (cs & arrs & R & _).
  pose proof (call_rep _ _ _ chk _ _ _ SU (if b then HEntryOr k f v else HEntryWith k f v) _ _ _ _ R) as C.
  rewrite (holds_get _ _ _ _ _ _ SU _ _ _ _ _ k HM R).
  set (es := map snd (concat cs)) in *. pose proof (su_keys _ _ _ _ _ _ SU) as KH.
  assert (LC : look eqb k (changes eqb k f es) = option_map (fun e => (fst e, match f with Some f => f (snd e) | None => snd e end)) (look eqb k es)).
  { destruct f as [f|]; cbn [changes]; [|by destruct (look eqb k es) as [[]|]]. by rewrite (look_change _ _ _ _ _ _ SU), (kh_refl _ _ KH). }
  destruct (look eqb k es) as [e|] eqn:LK; cbn [option_map] in LC.
  - cbn zeta. set (v' := match f with Some f => f (snd e) | None => snd e end) in *.
    assert (HH : forall k', look eqb k' (changes eqb k f es) = if eqb k k' then Some (fst e, v') else m k').
    { intros k'. rewrite (holds_get _ _ _ _ _ _ SU _ _ _ _ _ k' HM R). fold es.
      assert (Q : eqb k k' = true -> look eqb k' es = Some e).
      { intros Q. destruct (look_in _ _ _ _ LK) as [Hi Hq]. eapply look_some; [done|by eapply distinct_of|done|].
        by apply (kh_trans _ _ KH) with k. }
      destruct f as [f|]; cbn [changes].
      - rewrite (look_change _ _ _ _ _ _ SU). destruct (eqb k k'); [|done]. by rewrite Q.
      - destruct (eqb k k'); [|done]. rewrite Q by done. by destruct e. }
    destruct b; cbn [spec_call] in C; rewrite LC in C;
      destruct C as (a & s' & cs' & arrs' & d & RS & SA & R' & P & _); apply same_exact in SA; try done; subst a; apply result_ok in RS;
      exists s'; (split; [exact RS|]); intros k'; rewrite (holds_perm _ _ _ _ _ _ SU _ _ _ _ _ R' P k'); f_equal; apply HH.
  - intros NE. assert (F : full es = false).
    { unfold full. subst es. rewrite map_length. pose proof (tr_ec _ _ _ _ _ _ _ _ _ _ R). lia. }
    destruct b; cbn [spec_call] in C; rewrite LC, F in C;
      destruct C as (a & s' & cs' & arrs' & d & RS & SA & R' & P & _); apply same_exact in SA; try done; subst a; apply result_ok in RS;
      exists s'; (split; [exact RS|]); intros k'; rewrite (holds_perm _ _ _ _ _ _ SU _ _ _ _ _ R' P k'); f_equal;
      by rewrite look_cons, (holds_get _ _ _ _ _ _ SU _ _ _ _ _ k' HM R).
Qed.

Lemma L_C43_entry_or_insert :
  forall (K V : Type) nsz nal eb chk hash eqb (h0 : heap (tcell K V)), Setup nsz nal eb hash eqb h0 ->
  forall prog l s m k (f : option (V -> V)) v, built nsz nal eb chk hash eqb h0 prog l s -> holds hash eqb s m ->
  match m k with
  | Some e => let v' := match f with Some f => f (snd e) | None => snd e end in
    exists s', h_call nsz nal eb chk hash eqb (HEntryOr k f v) s = Ok (HRef true v') s' /\
      holds hash eqb s' (fun k' => if eqb k k' then Some (fst e, v') else m k')
  | None => t_ec s <> max_entries ->
    exists s', h_call nsz nal eb chk hash eqb (HEntryOr k f v) s = Ok (HRef true v) s' /\
      holds hash eqb s' (fun k' => if eqb k k' then Some (k, v) else m k')
  end.
Proof.
  intros K V nsz nal eb chk hash eqb h0 SU prog l s m k f v B HM. exact (entry_insert_effect _ _ _ _ _ _ _ _ _ true SU _ _ _ _ _ _ _ B HM).
Qed.

Lemma L_C43_entry_or_insert_with :
  forall (K V : Type) nsz nal eb chk hash eqb (h0 : heap (tcell K V)), Setup nsz nal eb hash eqb h0 ->
  forall prog l s m k (f : option (V -> V)) v, built nsz nal eb chk hash eqb h0 prog l s -> holds hash eqb s m ->
  match m k with
  | Some e => let v' := match f with Some f => f (snd e) | None => snd e end in
    exists s', h_call nsz nal eb chk hash eqb (HEntryWith k f v) s = Ok (HRef false v') s' /\
      holds hash eqb s' (fun k' => if eqb k k' then Some (fst e, v') else m k')
  | None => t_ec s <> max_entries ->
    exists s', h_call nsz nal eb chk hash eqb (HEntryWith k f v) s = Ok (HRef true v) s' /\
      holds hash eqb s' (fun k' => if eqb k k' then Some (k, v) else m k')
  end.
Proof.
  intros K V nsz nal eb chk hash eqb h0 SU prog l s m k f v B HM. exact (entry_insert_effect _ _ _ _ _ _ _ _ _ false SU _ _ _ _ _ _ _ B HM).
Qed.

Lemma L_C44_load_at_most_one_partial :
  forall (K V : Type) nsz nal eb chk hash eqb (h0 : heap (tcell K V)), Setup nsz nal eb hash eqb h0 ->
  forall prog l s, built nsz nal eb chk hash eqb h0 prog l s -> (t_ec s <= 17961079 -> t_ec s <= t_bc s)%Z.
Proof.
  intros K V nsz nal eb chk hash eqb h0 SU prog l s B L. destruct (built_rep _ _ _ _ _ _ _ SU _ _ _ B) as (cs & arrs & R & _).
  destruct (tr_stage _ _ _ _ _ _ _ _ _ _ R) as (g & G). destruct (decide (t_bc s = 1%Z)) as [E|N].
  - destruct (stage_range _ _ _ _ G) as [? Q]. specialize (Q E). lia.
  - by eapply stage_small.
Qed.

Lemma L_C44_load_slack :
  forall (K V : Type) nsz nal eb chk hash eqb (h0 : heap (tcell K V)), Setup nsz nal eb hash eqb h0 ->
  forall prog l s, built nsz nal eb chk hash eqb h0 prog l s -> (t_ec s <= t_bc s + 195)%Z.
Proof.
  intros K V nsz nal eb chk hash eqb h0 SU prog l s B. destruct (built_rep _ _ _ _ _ _ _ SU _ _ _ B) as (cs & arrs & R & _).
  destruct (tr_stage _ _ _ _ _ _ _ _ _ _ R) as (g & G). by eapply stage_over.
Qed.

Lemma L_C44_load_refuted :
  forall chk, exists prog l (s : tstate Z Z), built 24 8 0 chk hx_hash Z.eqb hx_heap prog l s /\ (t_bc s < t_ec s)%Z.
Proof.
  intros chk. assert (exists n, Z.of_nat n = 17961080%Z) as [n Hn] by (exists (Z.to_nat 17961080); apply Z2Nat.id; lia). pose proof (run_start _ _ _ chk _ _ _ (hx_setup Z) (inserts n)) as H.
  destruct (inserts_spec n 0 []) as (m & E & L & _).
  { intros e He. by apply elem_of_nil in He. }
  { unfold max_entries. cbn [length]. lia. }
  fold (inserts n) in E. rewrite E in H. destruct H as (l & s & cs & arrs & B & _ & R & P & _).
  exists (inserts n), l, s. split; [exact B|]. rewrite inserts_keys in R.
  assert (EC : t_ec s = 17961080%Z).
  { rewrite (tr_ec _ _ _ _ _ _ _ _ _ _ R). apply Permutation_length in P. rewrite map_length, L in P. cbn [length] in P. rewrite P. lia. }
  destruct (decide (t_bc s <= 17961079)%Z) as [LE|GT]; [lia|].
  assert (IN : Stage 17961079 17961080 17961081 ∈ stages).
  { unfold stages. repeat first [left | right]. }
  pose proof (tr_grown _ _ _ _ _ _ _ _ _ _ R _ IN) as Q. cbn in Q. lia.
Qed.

Lemma L_C45_policy_chooses_primes :
  (forall chk bc ec add nr p nr', get_rehash_required chk bc ec add nr = Ok (Some p) nr' -> p ∈ PRIMES /\ prime p) /\
  StronglySorted Z.le PRIMES.
Proof.
  split.
  - intros chk bc ec add nr p nr' E. destruct (policy_answers _ _ _ _ _ _ _ E) as [Hp _]. split; [done|].
    pose proof primes_prime as F. rewrite Forall_forall in F. by apply F.
  - assert (Q : (fix go (l : list Z) := match l with [] => true | x :: l' => forallb (Z.leb x) l' && go l' end) PRIMES = true) by (vm_compute; reflexivity).
    induction PRIMES as [|x l IH]; [constructor|]. apply andb_prop in Q as [Q1 Q2]. constructor; [by apply IH|].
    apply Forall_forall. intros y Hy. eapply forallb_forall in Q1; [|by apply elem_of_list_In]. lia.
Qed.

Lemma L_C45_bucket_count_prime :
  forall (K V : Type) nsz nal eb chk hash eqb (h0 : heap (tcell K V)), Setup nsz nal eb hash eqb h0 ->
  forall prog l s, built nsz nal eb chk hash eqb h0 prog l s -> t_bc s = 1%Z \/ (t_bc s ∈ PRIMES /\ prime (t_bc s)).
Proof.
  intros K V nsz nal eb chk hash eqb h0 SU prog l s B. destruct (built_rep _ _ _ _ _ _ _ SU _ _ _ B) as (cs & arrs & R & _).
  destruct (tr_stage _ _ _ _ _ _ _ _ _ _ R) as (g & G). destruct (decide (t_bc s = 1%Z)) as [E|N]; [by left|right].
  pose proof (stage_prime _ _ _ _ G N) as Hp. split; [done|]. pose proof primes_prime as F. rewrite Forall_forall in F. by apply F.
Qed.

Lemma L_C46_growth_doubles :
  forall (K V : Type) nsz nal eb chk hash eqb (h0 : heap (tcell K V)), Setup nsz nal eb hash eqb h0 ->
  forall prog l s c, built nsz nal eb chk hash eqb h0 prog l s ->
  match h_call nsz nal eb chk hash eqb c s with
  | Ok _ s' | Panic s' => (t_bc s' = t_bc s \/ 2 * t_bc s <= t_bc s')%Z
  | UB => False
  end.
Proof.
  intros K V nsz nal eb chk hash eqb h0 SU prog l s c B. destruct (built_rep _ _ _ _ _ _ _ SU _ _ _ B) as (cs & arrs & R & _).
  pose proof (call_rep _ _ _ chk _ _ _ SU c _ _ _ _ R) as C. destruct (spec_call eqb c (map snd (concat cs))) as [[a d] m].
  destruct C as (a' & s' & cs' & arrs' & d' & RS & _ & _ & _ & _ & _ & [[E _]|[_ E]]);
    destruct (h_call nsz nal eb chk hash eqb c s); cbn in RS; try done; injection RS as <- <-; auto.
Qed.

Lemma L_C46_rehashes_logarithmic :
  forall (K V : Type) nsz nal eb chk hash eqb (h0 : heap (tcell K V)), Setup nsz nal eb hash eqb h0 ->
  forall prog : list (hcall K V),
  (Z.of_nat (rehashes nsz nal eb chk hash eqb prog (ht_new eb h0 [])) <= Z.log2 (Z.of_nat (keys_given prog)) + 1)%Z.
Proof.
  intros K V nsz nal eb chk hash eqb h0 SU prog. by apply rehashes_log.
Qed.

Lemma L_C47_growth_never_panics_partial :
  forall (K V : Type) nsz nal eb chk hash eqb (h0 : heap (tcell K V)), Setup nsz nal eb hash eqb h0 ->
  forall prog : list (hcall K V), (Z.of_nat (keys_given prog) <= 2557710464)%Z ->
  exists l s, built nsz nal eb chk hash eqb h0 prog l s /\ Forall (fun a => a <> None) l.
Proof.
  intros K V nsz nal eb chk hash eqb h0 SU prog L. pose proof (run_start _ _ _ chk _ _ _ SU prog) as H.
  pose proof (run_fits _ _ _ _ _ _ SU prog [] L) as F.
  destruct (spec_run eqb prog []) as [[a d] m]. destruct H as (l & s & cs & arrs & B & F2 & _).
  exists l, s. split; [done|]. clear -F F2. induction F2 as [|x y l a S _ IH]; [constructor|].
  inversion F; subst. constructor; [|by apply IH]. intros E. by apply (same_none _ _ S) in E.
Qed.

Lemma L_C47_growth_refuted :
  forall chk, exists prog k v l (s : tstate Z Z), built 24 8 0 chk hx_hash Z.eqb hx_heap (prog ++ [HInsert k v]) (l ++ [None]) s /\
    Forall (fun a => a <> None) l /\ (Z.of_nat (keys_given prog) = 2557710464)%Z.
Proof.
  intros chk. assert (exists n, Z.of_nat n = 2557710464%Z) as [n Hn] by (exists (Z.to_nat 2557710464); apply Z2Nat.id; lia). pose proof (run_start _ _ _ chk _ _ _ (hx_setup Z) (inserts n ++ [HInsert (Z.of_nat n) (Z.of_nat n)])) as H.
  destruct (inserts_spec n 0 []) as (m & E & L & KS).
  { intros e He. by apply elem_of_nil in He. }
  { unfold max_entries. cbn [length]. lia. }
  fold (inserts n) in E. rewrite spec_run_app, E in H. cbn [spec_run spec_call] in H.
  assert (look Z.eqb (Z.of_nat n) m = None) as EL.
  { apply look_none. intros e He. specialize (KS e He). lia. }
  rewrite EL in H. assert (full m = true) as EF.
  { unfold full. rewrite L. unfold max_entries. cbn [length]. lia. }
  rewrite EF in H. destruct H as (l & s & cs & arrs & B & F & _).
  apply Forall2_app_inv_r in F as (l1 & l2 & F1 & F2 & ->). inversion F2 as [|x y l2' ? S F3]; subst. inversion F3; subst.
  apply same_exact in S; [|done]. subst x.
  exists (inserts n), (Z.of_nat n), (Z.of_nat n), l1, s. split; [exact B|]. split; [|rewrite inserts_keys; lia].
  clear -F1. generalize dependent l1. induction n as [|n IH]; intros l1 F; inversion F as [|x y l ? S F2]; subst; constructor; [|by apply IH].
  intros E. by apply (same_none _ _ S) in E.
Qed.

Lemma L_C48_conservation :
  forall (K V : Type) nsz nal eb chk hash eqb (h0 : heap (tcell K V)), Setup nsz nal eb hash eqb h0 ->
  forall prog l s, built nsz nal eb chk hash eqb h0 prog l s -> forallb no_rewrite prog = true ->
  exists s', ht_drop nsz nal eb s = Ok tt s' /\ all_given prog l ≡ₚ t_drops s' ++ all_taken prog l.
Proof.
  intros K V nsz nal eb chk hash eqb h0 SU prog l s B N. destruct (built_drop _ _ _ _ _ _ _ SU _ _ _ B) as (s' & arrs & D & _ & P & _).
  exists s'. split; [done|]. by apply P.
Qed.

Lemma L_C48_keys_conservation :
  forall (K V : Type) nsz nal eb chk hash eqb (h0 : heap (tcell K V)), Setup nsz nal eb hash eqb h0 ->
  forall prog l s, built nsz nal eb chk hash eqb h0 prog l s ->
  exists s', ht_drop nsz nal eb s = Ok tt s' /\ keys_of (all_given prog l) ≡ₚ keys_of (t_drops s' ++ all_taken prog l).
Proof.
  intros K V nsz nal eb chk hash eqb h0 SU prog l s B. destruct (built_drop _ _ _ _ _ _ _ SU _ _ _ B) as (s' & arrs & D & P & _).
  by exists s'.
Qed.

Lemma L_C48_nodes_freed :
  forall (K V : Type) nsz nal eb chk hash eqb (h0 : heap (tcell K V)), Setup nsz nal eb hash eqb h0 ->
  forall prog l s, built nsz nal eb chk hash eqb h0 prog l s ->
  exists s', ht_drop nsz nal eb s = Ok tt s' /\
  forall b bk, h_blk (t_h s') !! b = Some bk ->
    h_blk h0 !! b = Some bk \/ (last (bk_cells bk) = Some (Some TOnes) /\ forall k v nx, Some (TNode k v nx) ∉ bk_cells bk).
Proof.
  intros K V nsz nal eb chk hash eqb h0 SU prog l s B.
  destruct (built_drop _ _ _ _ _ _ _ SU _ _ _ B) as (s' & arrs & D & _ & _ & FR & AR & _).
  exists s'. split; [done|]. intros b bk E. destruct (decide (b ∈ arrs)) as [Hb|Hb].
  - right. destruct (AR b Hb) as (_ & ps & SL). unfold Slots in SL. rewrite SL in E. injection E as <-. cbn. unfold slots. split; [by rewrite last_snoc|].
    intros k v nx. rewrite elem_of_app, elem_of_list_singleton. intros [H|H]; [|done]. apply elem_of_list_In, in_map_iff in H as (p & H & _). done.
  - left. by rewrite <- FR.
Qed.

Lemma L_C49_drop_leaks_bucket_arrays :
  forall (K V : Type) nsz nal eb chk hash eqb (h0 : heap (tcell K V)), Setup nsz nal eb hash eqb h0 ->
  forall prog l s, built nsz nal eb chk hash eqb h0 prog l s ->
  exists s' leaked, ht_drop nsz nal eb s = Ok tt s' /\ NoDup leaked /\
    (forall b, b ∉ leaked -> h_blk (t_h s') !! b = h_blk h0 !! b) /\
    (forall b, b ∈ leaked -> h_blk h0 !! b = None /\ exists bk, h_blk (t_h s') !! b = Some bk /\
       last (bk_cells bk) = Some (Some TOnes) /\ bk_bytes bk = (Z.of_nat (length (bk_cells bk)) * 8)%Z) /\
    (leaked = [] <-> t_bc s = 1%Z) /\
    (2 ^ (Z.of_nat (length leaked) - 1) <= Z.max 1 (Z.of_nat (keys_given prog)))%Z.
Proof.
  intros K V nsz nal eb chk hash eqb h0 SU prog l s B.
  destruct (built_drop _ _ _ _ _ _ _ SU _ _ _ B) as (s' & arrs & D & _ & _ & FR & AR & ND & E & F).
  exists s', arrs. split; [done|]. split; [done|]. split; [done|]. split; [|done].
  intros b Hb. destruct (AR b Hb) as (N & ps & SL). split; [done|]. unfold Slots in SL. eexists. split; [exact SL|]. cbn [bk_cells bk_bytes].
  split; [unfold slots; by rewrite last_snoc|]. rewrite (slots_length nsz nal (su_layout _ _ _ _ _ _ SU)). lia.
Qed.

Lemma L_C49_drop_refuted :
  forall (K V : Type) nsz nal eb chk hash eqb (h0 : heap (tcell K V)) k v, Setup nsz nal eb hash eqb h0 ->
  exists l s s' b, built nsz nal eb chk hash eqb h0 [HInsert k v] l s /\ ht_drop nsz nal eb s = Ok tt s' /\
    h_blk h0 !! b = None /\ h_blk (t_h s') !! b <> None.
Proof.
  intros K V nsz nal eb chk hash eqb h0 k v SU. pose proof (run_start _ _ _ chk _ _ _ SU [HInsert k v]) as H. cbn in H.
  destruct H as (l & s & cs & arrs & B & _ & R & P & _). exists l, s.
  destruct (built_drop _ _ _ _ _ _ _ SU _ _ _ B) as (s' & arrs' & D & _ & _ & FR & AR & ND & E & F).
  destruct arrs' as [|b arrs'].
  - destruct E as [E _]. specialize (E eq_refl). destruct (tr_stage _ _ _ _ _ _ _ _ _ _ R) as (g & G).
    destruct (stage_range _ _ _ _ G) as [_ Q]. specialize (Q E). rewrite (tr_ec _ _ _ _ _ _ _ _ _ _ R) in Q.
    apply Permutation_length in P. rewrite map_length in P. cbn in P. lia.
  - exists s', b. split; [done|]. split; [done|]. destruct (AR b) as (N & ps & SL); [left|]. split; [done|]. unfold Slots in SL. by rewrite SL.
Qed.

Lemma L_C50_insert_answers_whether_present :
  forall (K : Type) nsz nal eb chk hash eqb (h0 : heap (tcell K unit)), Setup nsz nal eb hash eqb h0 ->
  forall prog l s k b, set_run nsz nal eb chk hash eqb prog (ht_new eb h0 []) = Some (l, s) ->
  val (set_call nsz nal eb chk hash eqb (SInsert k) s) = Some (SBool b) ->
  val (contains_key hash eqb k s) = Some b.
Proof.
  intros K nsz nal eb chk hash eqb h0 SU prog l s k b RN V. rewrite set_run_h in RN.
  destruct (h_run nsz nal eb chk hash eqb (map h_of prog) (ht_new eb h0 [])) as [[l' s']|] eqn:B; [|done]. injection RN as _ <-.
  destruct (built_rep _ _ _ _ _ _ _ SU _ _ _ B) as (cs & arrs & R & _). rewrite set_call_h in V. cbn [h_of] in V.
  rewrite (contains_ok nsz nal eb hash eqb (su_layout _ _ _ _ _ _ SU) (su_keys _ _ _ _ _ _ SU) _ _ _ _ _ k R). cbn.
  pose proof (call_rep _ _ _ chk _ _ _ SU (HInsert k tt) _ _ _ _ R) as C. cbn [spec_call] in C. rewrite has_look.
  destruct (look eqb k (map snd (concat cs))) as [e|]; [|destruct (full (map snd (concat cs)))];
    destruct C as (a & s'' & cs' & arrs' & d & RS & SA & _); apply same_exact in SA; try done; subst a.
  - apply result_ok in RS. rewrite RS in V. cbn in V. by injection V as <-.
  - apply result_panic in RS. by rewrite RS in V.
  - apply result_ok in RS. rewrite RS in V. cbn in V. by injection V as <-.
Qed.

Lemma L_C50_insert_refuted :
  forall (K : Type) nsz nal eb chk hash eqb (h0 : heap (tcell K unit)) (k : K), Setup nsz nal eb hash eqb h0 ->
  val (contains_key hash eqb k (ht_new eb h0 [])) = Some false /\
  val (set_call nsz nal eb chk hash eqb (SInsert k) (ht_new eb h0 [])) = Some (SBool false).
Proof.
  intros K nsz nal eb chk hash eqb h0 k SU.
  pose proof (TRep_new nsz nal eb hash eqb (su_layout _ _ _ _ _ _ SU) h0 [] (su_heap _ _ _ _ _ _ SU) (su_static _ _ _ _ _ _ SU)) as R.
  rewrite (contains_ok nsz nal eb hash eqb (su_layout _ _ _ _ _ _ SU) (su_keys _ _ _ _ _ _ SU) _ _ _ _ _ k R). split; [done|].
  rewrite set_call_h. pose proof (call_rep _ _ _ chk _ _ _ SU (HInsert k tt) _ _ _ _ R) as C. cbn in C.
  destruct C as (a & s'' & cs' & arrs' & d & RS & SA & _). apply same_exact in SA; [|done]. subst a. apply result_ok in RS. cbn [h_of h_call]. by rewrite RS.
Qed.

Lemma L_C51_hash_set_refines_set :
  forall (K : Type) nsz nal eb chk hash eqb (h0 : heap (tcell K unit)), Setup nsz nal eb hash eqb h0 ->
  forall prog : list (scall K), exists l s,
    set_run nsz nal eb chk hash eqb prog (ht_new eb h0 []) = Some (l, s) /\ Forall2 same_sanswer l (fst (sset_run eqb prog [])).
Proof.
  intros K nsz nal eb chk hash eqb h0 SU prog. pose proof (run_start _ _ _ chk _ _ _ SU (map h_of prog)) as H.
  destruct (un_run eqb prog []) as (l0 & d & E & A). cbn [map] in E. rewrite E in H.
  destruct H as (l & s & cs & arrs & B & F & _). exists (map (option_map conv) l), s. rewrite set_run_h. unfold built in B. rewrite B. split; [done|].
  rewrite <- A. clear -F. induction F as [|x y l l0 S _ IH]; [constructor|]. cbn. constructor; [by apply same_conv|done].
Qed.

Lemma L_C52_iterator_compat_roundtrip :
  forall (K V : Type) nsz nal eb chk hash eqb (h0 : heap (tcell K V)), Setup nsz nal eb hash eqb h0 ->
  forall prog l s n, built nsz nal eb chk hash eqb h0 prog l s ->
  exists it nodes it' b e es, iter s = Ok it s /\ iter_take n it s = Ok (nodes, it') s /\
    into_compat it' s = Ok (b, e) s /\ from_compat b e s = Ok it' s /\
    h_call nsz nal eb chk hash eqb HIter s = Ok (HPairs es) s /\
    length nodes = n `min` length es /\ iter_all (fuel s) it' s = Ok (drop n es) s.
Proof.
  intros K V nsz nal eb chk hash eqb h0 SU prog l s n B. destruct (built_rep _ _ _ _ _ _ _ SU _ _ _ B) as (cs & arrs & R & _).
  pose proof (su_layout _ _ _ _ _ _ SU) as Hlay.
  destruct (iter_ok _ _ _ _ _ Hlay _ _ _ _ _ R) as (a & ps & by_ & it & _ & E & IT & AT & _).
  destruct (iter_take_ok nsz nal Hlay by_ s a ps E n _ _ AT) as (it' & TK & AT').
  destruct (compat_ok nsz nal Hlay by_ s a ps it' _ E AT') as (b & e & IC & FC).
  exists it, (map (fun e => Ptr (fst e) 0) (take n (concat cs))), it', b, e, (map snd (concat cs)).
  split; [done|]. split; [done|]. split; [done|]. split; [done|]. split; [eapply iter_call; eauto|].
  split; [rewrite !map_length, take_length; done|].
  rewrite (iter_all_ok nsz nal Hlay by_ s a ps E _ _ _ AT').
  - f_equal. by rewrite <- skipn_map || rewrite map_drop || done.
  - pose proof (all_fuel _ _ _ _ _ Hlay _ _ _ _ _ R). rewrite drop_length. lia.
Qed.

Lemma L_C85_iter_mut_yields_each_node_once_partial :
  forall (K V : Type) nsz nal eb chk hash eqb (h0 : heap (tcell K V)), Setup nsz nal eb hash eqb h0 ->
  forall prog l s n, built nsz nal eb chk hash eqb h0 prog l s ->
  exists it nodes it' es, iter s = Ok it s /\ iter_take n it s = Ok (nodes, it') s /\
    h_call nsz nal eb chk hash eqb HIter s = Ok (HPairs es) s /\ length nodes = n `min` length es /\ NoDup nodes.
Proof.
  intros K V nsz nal eb chk hash eqb h0 SU prog l s n B. destruct (built_rep _ _ _ _ _ _ _ SU _ _ _ B) as (cs & arrs & R & _).
  pose proof (su_layout _ _ _ _ _ _ SU) as Hlay.
  destruct (iter_ok _ _ _ _ _ Hlay _ _ _ _ _ R) as (a & ps & by_ & it & _ & E & IT & AT & _).
  destruct (iter_take_ok nsz nal Hlay by_ s a ps E n _ _ AT) as (it' & TK & AT').
  exists it, (map (fun e => Ptr (fst e) 0) (take n (concat cs))), it', (map snd (concat cs)).
  split; [done|]. split; [done|]. split; [eapply iter_call; eauto|]. split; [rewrite !map_length, take_length; done|].
  pose proof (tr_nodup _ _ _ _ _ _ _ _ _ _ R) as ND. apply NoDup_app in ND as (ND & _).
  rewrite <- (take_drop n (concat cs)), map_app in ND. apply NoDup_app in ND as (ND & _).
  rewrite <- (map_map fst (fun b => Ptr b 0)). assert (IJ : Inj eq eq (fun b => Ptr b 0)) by (intros x y Q; by injection Q).
  exact (NoDup_fmap_2 (fun b => Ptr b 0) _ ND).
Qed.

Lemma L_C85_cloned_iter_mut_aliases_refuted :
  forall (K V : Type) nsz nal eb chk hash eqb (h0 : heap (tcell K V)), Setup nsz nal eb hash eqb h0 ->
  forall prog l s n es, built nsz nal eb chk hash eqb h0 prog l s ->
  h_call nsz nal eb chk hash eqb HIter s = Ok (HPairs es) s -> n < length es ->
  exists it nodes it1 it2 p it1' it2', iter s = Ok it s /\ iter_take n it s = Ok (nodes, it1) s /\ it2 = it_clone it1 /\
    iter_next it1 s = Ok (Some p, it1') s /\ iter_next it2 s = Ok (Some p, it2') s /\
    exists k v nx, node_at p s = Ok (k, v, nx) s /\ es !! n = Some (k, v).
Proof.
  intros K V nsz nal eb chk hash eqb h0 SU prog l s n es B HI Ln. destruct (built_rep _ _ _ _ _ _ _ SU _ _ _ B) as (cs & arrs & R & _).
  pose proof (su_layout _ _ _ _ _ _ SU) as Hlay.
  rewrite (iter_call _ _ _ chk _ _ _ SU _ _ _ _ R) in HI. injection HI as <-. rewrite map_length in Ln.
  destruct (iter_ok _ _ _ _ _ Hlay _ _ _ _ _ R) as (a & ps & by_ & it & _ & E & IT & AT & _).
  destruct (iter_take_ok nsz nal Hlay by_ s a ps E n _ _ AT) as (it1 & TK & AT').
  destruct (lookup_lt_is_Some_2 _ _ Ln) as [e He]. rewrite (drop_S _ _ _ He) in AT'.
  pose proof (iter_next_ok nsz nal Hlay by_ s a ps it1 _ E AT') as N. cbn beta iota in N. destruct N as (it1' & nx & N & _ & NA).
  exists it, (map (fun e => Ptr (fst e) 0) (take n (concat cs))), it1, (it_clone it1), (Ptr (fst e) 0), it1', it1'.
  split; [done|]. split; [done|]. split; [done|]. split; [done|]. split; [by destruct it1|].
  exists (fst (snd e)), (snd (snd e)), nx. split; [exact NA|]. change (map snd (concat cs)) with (snd <$> concat cs). rewrite list_lookup_fmap, He. by destruct e as [b [k v]].
Qed.
