(** Proofs of the properties stated in LookupHashProps.v. *)
From Verif Require Import Base Heap Alloc HashTable HashTableSpec HashAny HashAnySpec.
Local Open Scope nat_scope.



From Verif Require Import HashTableProofs HashTableMore HashTableDerived HashAnyProofs HashAnyAgree LookupHashSpec LookupHashProofs.

Lemma L_C115_hash_lookup :
forall (K V : Type) nsz nal eb chk (hash : K -> Z) (eqb : K -> K -> bool) (h0 : heap (tcell K V)) (prog : list (hcall K V)) (c : hcall K V) (k : K) l s n,
  Setup nsz nal eb hash eqb h0 -> seeks c = Some k ->
  a_run nsz nal eb chk (fun _ k => Some (hash k)) (fun _ a b => Some (eqb a b)) prog (ht_new eb h0 [], 0) = Some (l, (s, n)) ->
  exists es s' n',
    (do it <- iter; do f <- gets fuel; iter_all f it) s = Ok es s /\
    after (a_call nsz nal eb chk (fun _ k => Some (hash k)) (fun _ a b => Some (eqb a b)) c (s, n)) = Some (s', n') /\
    n' = n + 1 + seen eqb k (beside hash (t_bc s) k es) + (if (t_bc s' =? t_bc s)%Z then 0 else length es + 1).
Proof.
  intros *. intros SU SK RUN. pose proof (su_size _ _ _ _ _ _ SU) as Hn. pose proof (su_layout _ _ _ _ _ _ SU) as Hl.
  pose proof (su_heap _ _ _ _ _ _ SU) as Hw. pose proof (su_static _ _ _ _ _ _ SU) as Hs.
  destruct (run_agree nsz nal eb chk hash eqb Hn Hl h0 Hs prog (ht_new eb h0 []) [[]] 0) as (l1 & s1 & n1 & R1 & R2).
  { by apply (W_new nsz nal eb (p_ho hash) (p_eo eqb) Hl h0 Hs). }
  unfold p_ho, p_eo in R1. rewrite RUN in R1. injection R1 as <- <- <-.
  destruct (built_rep nsz nal eb chk hash eqb h0 SU prog l s R2) as (cs & arrs & R & _).
  destruct (call_count nsz nal eb chk hash eqb h0 SU c s cs arrs _ k n R SK) as (N & bc & T & GB).
  pose proof (iter_call nsz nal eb chk hash eqb h0 SU _ _ _ _ R) as IT.
  exists (map snd (concat cs)).
  assert (N0 : t_bc s <> 0%Z).
  { pose proof (TRep_pos nsz nal eb hash eqb Hl _ _ _ _ _ R). pose proof (tr_bc _ _ _ _ _ _ _ _ _ _ R). lia. }
  pose proof (call_agree nsz nal eb chk hash eqb c s n N0) as AG.
  pose proof (call_rep nsz nal eb chk hash eqb h0 SU c s cs arrs _ R) as CR. destruct (spec_call eqb c _) as [[a d] m'].
  destruct CR as (a' & s2 & cs' & arrs' & d' & RS & _).
  assert (IT' : (do it <- iter; do f <- gets fuel; iter_all f it) s = Ok (map snd (concat cs)) s).
  { cbn [h_call] in IT. unfold bind, gets in *. destruct (iter s) as [it s3| |]; [|done|done]. destruct (iter_all (fuel s3) it s3) as [es s4| |]; [|done|done].
    cbn in IT. by injection IT as -> ->. }
  unfold tracks in T. unfold p_ho, p_eo in T, AG.
  assert (exists n', after (a_call nsz nal eb chk (fun _ k => Some (hash k)) (fun _ a b => Some (eqb a b)) c (s, n)) = Some (s2, n') /\ n' = N /\ t_bc s2 = bc) as (n' & AF & -> & EB).
  { destruct (h_call nsz nal eb chk hash eqb c s) as [x s3|s3|]; cbn in RS, AG; [injection RS as _ <-|injection RS as _ <-|done];
      destruct AG as [n3 AG]; rewrite AG in *; cbn in T; destruct T as [-> <-]; by exists N. }
  exists s2, N. split; [exact IT'|]. split; [exact AF|]. unfold grown_by in GB. rewrite GB, EB, map_length. destruct (_ =? _)%Z; lia.
Qed.
