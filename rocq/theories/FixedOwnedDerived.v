(** Proofs of the properties stated in FixedOwnedProps.v. *)
From Verif Require Import Base Heap Alloc AllocContract Vector VectorSpec FixedVector FixedVectorSpec FixedOwned.

(** Whether a program moves a fixed vector. *)
Definition moves_one {T} (os : list (fop T)) : bool := existsb (fun o => match o with FMove _ _ _ => true | _ => false end) os.

Section proofs.
Context {T : Type}.
Variables sz al : Z.
Variable N : nat.
Variable chk nd : bool.
Variable clone : T -> option T.
Hypothesis HN : 0 < N.
Notation fstep := (f_step sz al N chk nd clone).

(** The allocators are where the vectors are that were not moved away. *)
Definition XRep (w : xworld T) : Prop :=
  length (xw_alloc w) = length (fw_objs (xw w)) /\
  (forall i f u, fw_objs (xw w) !! i = Some f -> xw_alloc w !! i = Some u -> f_moved f = false <-> is_Some u) /\
  omap id (xw_alloc w) ≡ₚ seq 0 (xw_made w).

Lemma f_new_shape w a w' : fstep FNew w = Some (a, w') -> a = AUnit /\ exists f, fw_objs w' = fw_objs w ++ [f] /\ f_moved f = false.
Proof.
  cbn. unfold f_new, init_base_vec. destruct (Nat.eqb_spec N 0); [lia|]. intros [= <- <-]. split; [done|]. eexists. done.
Qed.
Lemma f_move_shape i g gp w a w' : fstep (FMove i g gp) w = Some (a, w') -> a = AUnit /\
  exists f f' t, fw_objs w !! i = Some f /\ f_moved f = false /\ fw_objs w' = <[i := f']> (fw_objs w) ++ [t] /\ f_moved f' = true /\ f_moved t = false.
Proof.
  cbn [f_step]. destruct (fw_objs w !! i) as [f|] eqn:E; [|done]. destruct (f_moved f) eqn:EM; [done|].
  unfold f_move, has_overflowed, init_base_vec. destruct (Nat.eqb_spec N 0); [lia|].
  intros H. repeat case_match; simplify_eq; (split; [done|]); eexists f, _, _; repeat (split; [reflexivity || done|]); done.
Qed.
Lemma f_rest_shape o w a w' : fstep o w = Some (a, w') -> match o with FNew | FMove _ _ _ => False | _ => True end ->
  map f_moved (fw_objs w') = map f_moved (fw_objs w).
Proof.
  intros H. destruct o; intros []; cbn [f_step] in H; destruct (fw_objs w !! i) as [f|] eqn:E; try done; destruct (f_moved f) eqn:EM; try done.
  - unfold f_call in H. repeat case_match; simplify_eq. cbn. change (map f_moved) with (fmap (M:=list) f_moved).
    rewrite list_fmap_insert. cbn. apply list_insert_id. by rewrite list_lookup_fmap, E.
  - by simplify_eq.
  - by simplify_eq.
Qed.

Lemma omap_take (l : list (option nat)) i k : l !! i = Some (Some k) -> omap id l ≡ₚ k :: omap id (<[i := None]> l).
Proof.
  revert i. induction l as [|u l IH]; intros [|i] H; cbn in *; [done|done|by simplify_eq|].
  destruct u; cbn; [|by apply IH]. rewrite (IH i H). apply Permutation_swap.
Qed.

Lemma x_step_ok o w a w' : XRep w -> fstep o (xw w) = Some (a, w') ->
  exists w1, x_step sz al N chk nd clone false o w = Some (a, w1) /\ xw w1 = w' /\ XRep w1 /\
    xw_made w1 = xw_made w + match o with FNew => 1 | _ => 0 end.
Proof.
  intros (L & R & P) E. unfold x_step. rewrite E.
  assert (REST : match o with FNew | FMove _ _ _ => False | _ => True end -> XRep (XWorld w' (xw_alloc w) (xw_made w))).
  { intros HO. pose proof (f_rest_shape _ _ _ _ E HO) as H. unfold XRep. cbn [xw xw_alloc xw_made].
    split; [by rewrite L, <- (map_length f_moved (fw_objs (xw w))), <- H, map_length|]. split; [|done].
    intros i f u Hf Hu. pose proof (f_equal (lookup i) H) as Hi. change (map f_moved) with (fmap (M:=list) f_moved) in Hi. rewrite !list_lookup_fmap, Hf in Hi. cbn in Hi.
    destruct (fw_objs (xw w) !! i) as [f0|] eqn:E0; cbn in Hi; [|done]. injection Hi as ->. by apply (R i). }
  destruct o.
  - destruct (f_new_shape _ _ _ E) as (-> & f & EO & EM). eexists. split; [reflexivity|]. split; [done|]. cbn [xw_made]. split; [|lia].
    unfold XRep. cbn [xw xw_alloc xw_made]. rewrite EO. split; [rewrite !app_length; cbn; lia|]. split.
    + intros i f' u Hf Hu. apply lookup_app_Some in Hu as [Hu|[G Hu]].
      * rewrite lookup_app_l in Hf by (rewrite <- L; by eapply lookup_lt_Some). by apply (R i).
      * apply list_lookup_singleton_Some in Hu as [G2 <-]. rewrite lookup_app_r in Hf by lia. replace (i - length (fw_objs (xw w))) with 0 in Hf by lia.
        cbn in Hf. simplify_eq. split; [by eexists|done].
    + rewrite omap_app, seq_S, <- P. done.
  - eexists. split; [reflexivity|]. split; [done|]. split; [by apply REST|cbn; lia].
  - destruct (f_move_shape _ _ _ _ _ _ E) as (-> & f & f' & t & Ef & Em & EO & Em' & Et).
    destruct (lookup_lt_is_Some_2 (xw_alloc w) i) as [u Hu]; [rewrite L; by eapply lookup_lt_Some|]. rewrite Hu. cbn [drop_alloc].
    destruct (proj1 (R _ _ _ Ef Hu) Em) as [k ->].
    assert (Hi : i < length (xw_alloc w)) by (by eapply lookup_lt_Some).
    eexists. split; [reflexivity|]. split; [done|]. cbn [xw_made]. split; [|lia].
    unfold XRep. cbn [xw xw_alloc xw_made]. rewrite EO. split; [rewrite !app_length, !insert_length; cbn; lia|]. split.
    + intros j fj u Hf Hj. apply lookup_app_Some in Hj as [Hj|[G Hj]].
      * assert (j < length (xw_alloc w)) by (rewrite <- (insert_length (xw_alloc w) i None); by eapply lookup_lt_Some).
        rewrite lookup_app_l in Hf by (rewrite insert_length; lia). destruct (decide (i = j)) as [<-|NE].
        -- rewrite list_lookup_insert in Hf by lia. rewrite list_lookup_insert in Hj by lia. simplify_eq. rewrite Em'. split; [done|by intros []].
        -- rewrite list_lookup_insert_ne in Hf by done. rewrite list_lookup_insert_ne in Hj by done. by apply (R j).
      * rewrite insert_length in *. apply list_lookup_singleton_Some in Hj as [G2 <-]. rewrite lookup_app_r in Hf by (rewrite insert_length; lia).
        rewrite insert_length in Hf. replace (j - length (fw_objs (xw w))) with 0 in Hf by lia. cbn in Hf. simplify_eq. split; [by eexists|done].
    + rewrite omap_app. cbn. rewrite <- P, (omap_take _ _ _ Hu). by rewrite <- Permutation_cons_append.
  - eexists. split; [reflexivity|]. split; [done|]. split; [by apply REST|cbn; lia].
  - eexists. split; [reflexivity|]. split; [done|]. split; [by apply REST|cbn; lia].
Qed.

Lemma x_run_ok os : forall w l w', XRep w -> f_run sz al N chk nd clone os (xw w) = Some (l, w') ->
  exists w1, x_run sz al N chk nd clone false os w = Some (l, w1) /\ xw w1 = w' /\ XRep w1 /\
    xw_made w1 = xw_made w + length (List.filter (fun o => match o with FNew => true | _ => false end) os).
Proof.
  induction os as [|o os IH]; intros w l w' X H; cbn [f_run] in H.
  - simplify_eq. exists w. cbn. by rewrite Nat.add_0_r.
  - destruct (fstep o (xw w)) as [[a w1]|] eqn:E1; [|done]. destruct (f_run _ _ _ _ _ _ os w1) as [[l2 w2]|] eqn:E2; [|done]. simplify_eq.
    destruct (x_step_ok _ _ _ _ X E1) as (x1 & S1 & <- & X1 & M1). destruct (IH _ _ _ X1 E2) as (x2 & S2 & <- & X2 & M2).
    exists x2. cbn [x_run]. rewrite S1, S2. split; [done|]. split; [done|]. split; [done|]. rewrite M2, M1. destruct o; cbn; lia.
Qed.

Lemma x_step_dtor o w a w' : XRep w -> fstep o (xw w) = Some (a, w') ->
  x_step sz al N chk nd clone true o w = match o with FMove _ _ _ => None | _ => x_step sz al N chk nd clone false o w end.
Proof.
  intros (L & R & P) E. unfold x_step. rewrite E. destruct o; try done. cbn [drop_alloc]. by destruct (xw_alloc w !! i).
Qed.

Lemma x_run_dtor os : forall w, XRep w ->
  x_run sz al N chk nd clone true os w = None <-> f_run sz al N chk nd clone os (xw w) = None \/ moves_one os = true.
Proof.
  induction os as [|o os IH]; intros w X; cbn [x_run f_run moves_one existsb]; [split; [done|by intros [|]]|].
  destruct (fstep o (xw w)) as [[a w1]|] eqn:E1.
  - rewrite (x_step_dtor _ _ _ _ X E1). destruct (x_step_ok _ _ _ _ X E1) as (x1 & S1 & <- & X1 & M1).
    rewrite S1. pose proof (IH _ X1) as I. fold (moves_one os) in *.
    destruct o; cbn [orb]; try (by split; [right|]);
      destruct (x_run _ _ _ _ _ _ true os x1) as [[??]|]; destruct (f_run _ _ _ _ _ _ os (xw x1)) as [[??]|]; destruct (moves_one os);
      (split; [intros; try done|intros [|]; try done]); try (by right); try (by left);
      try (destruct (proj1 I eq_refl); done); try (exfalso; assert (Some (l, x) = None) by (apply I; auto); done); try (exfalso; assert (Some (l0, x) = None) by (apply I; auto); done).
  - unfold x_step. rewrite E1. split; [by left|done].
Qed.
End proofs.

Lemma L_C113_allocators_move_along :
forall (T : Type) (sz al : Z) (N : nat) (chk nd : bool) (clone : T -> option T) (h : heap T) (os : list (fop T)) l w',
  0 < N -> f_run sz al N chk nd clone os (FWorld [] h []) = Some (l, w') ->
  exists w, x_run sz al N chk nd clone false os (XWorld (FWorld [] h []) [] 0) = Some (l, w) /\ xw w = w' /\
    xw_made w = length (List.filter (fun o => match o with FNew => true | _ => false end) os) /\
    (forall i f, fw_objs w' !! i = Some f -> exists u, xw_alloc w !! i = Some u /\ (f_moved f = false <-> is_Some u)) /\
    omap id (xw_alloc w) ≡ₚ seq 0 (xw_made w).
Proof.
  intros T sz al N chk nd clone h os l w' HN H.
  destruct (x_run_ok sz al N chk nd clone HN os (XWorld (FWorld [] h []) [] 0) l w') as (w & E & <- & (L & R & P) & M); [done|done|].
  exists w. split; [done|]. split; [done|]. split; [done|]. split; [|done]. intros i f Hf.
  destruct (lookup_lt_is_Some_2 (xw_alloc w) i) as [u Hu]; [rewrite L; by eapply lookup_lt_Some|]. exists u. split; [done|]. by apply (R i).
Qed.

Lemma L_C113_move_refuted :
forall (T : Type) (sz al : Z) (N : nat) (chk nd : bool) (clone : T -> option T) (h : heap T) (os : list (fop T)) l w',
  0 < N -> f_run sz al N chk nd clone os (FWorld [] h []) = Some (l, w') ->
  x_run sz al N chk nd clone true os (XWorld (FWorld [] h []) [] 0) = None <-> moves_one os = true.
Proof.
  intros T sz al N chk nd clone h os l w' HN H.
  rewrite (x_run_dtor sz al N chk nd clone HN os (XWorld (FWorld [] h []) [] 0)); [|done]. cbn [xw]. rewrite H. split; [by intros [|]|by right].
Qed.
