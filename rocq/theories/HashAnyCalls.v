(** The calls of a hash table whose [Hash] and [Equals] answer anything or panic. *)
From Verif Require Import Base Heap Alloc HeapLemmas RehashPolicy RehashPolicyProofs HashTable HashTableSpec HashTableProofs HashAny HashAnyProofs.

Section any_calls.
Context {K V : Type}.
Variables (nsz nal : Z) (eb : nat) (chk : bool).
Variable ho : nat -> K -> option Z.
Variable eo : nat -> K -> K -> option bool.
Hypothesis Hnsz : (0 < nsz)%Z.
Hypothesis Hlay : layout_ok nsz nal = true.

Notation tstate := (tstate K V).
Notation astate := (astate K V).
Notation thp := (heap (tcell K V)).
Notation enode := (nat * (K * V))%type.
Notation entries cs := (map (@snd nat (K * V)) (concat cs)).
Notation parts := (@parts K V).

Variable h0 : thp.
Hypothesis Hstat : static_ok eb h0.
Notation WRep := (WRep nsz nal eb ho h0).
Notation total := (total ho).
Notation fewer := (fewer ho).

(** ** Accounting: what a call was given and the table held is dropped, handed out,
    still held or lost. *)
Definition acct (inp : list (K + V)) (s : tstate) (cs : list (list enode)) (out : list (K + V)) (s' : tstate) (cs' : list (list enode)) : Prop :=
  exists d lost, t_drops s' = t_drops s ++ d /\ inp ++ parts (entries cs) ≡ₚ d ++ out ++ parts (entries cs') ++ lost /\ (total -> lost = []).

Lemma acct_same s cs : acct [] s cs [] s cs.
Proof. exists [], []. rewrite !app_nil_r. done. Qed.

Lemma acct_logged l inp s cs : inp ≡ₚ l -> acct inp s cs [] (logged l s) cs.
Proof. intros P. exists l, []. split; [done|]. split; [|done]. rewrite P, app_nil_r. done. Qed.

Lemma acct_perm inp inp' s cs out out' s' cs' : acct inp s cs out s' cs' -> inp ≡ₚ inp' -> out ≡ₚ out' -> acct inp' s cs out' s' cs'.
Proof. intros (d & lost & D & P & T) E1 E2. exists d, lost. split; [done|]. split; [|done]. by rewrite <- E1, <- E2. Qed.

Lemma acct_trans inp1 inp2 mid out2 s cs s1 cs1 s2 cs2 : acct inp1 s cs mid s1 cs1 -> acct inp2 s1 cs1 out2 s2 cs2 -> acct (inp1 ++ inp2) s cs (mid ++ out2) s2 cs2.
Proof.
  intros (d1 & l1 & D1 & P1 & T1) (d2 & l2 & D2 & P2 & T2). exists (d1 ++ d2), (l1 ++ l2). split; [by rewrite D2, D1, app_assoc|]. split.
  - rewrite <- app_assoc, (Permutation_app_comm inp2), app_assoc, P1.
    transitivity (d1 ++ mid ++ l1 ++ (inp2 ++ parts (entries cs1))); [solve_Permutation|]. rewrite P2. solve_Permutation.
  - intros T. by rewrite (T1 T), (T2 T).
Qed.

(** Dropping, at the end, something that was to be handed out. *)
Lemma acct_drop inp s cs l out s' cs' : acct inp s cs (l ++ out) s' cs' -> acct inp s cs out (logged l s') cs'.
Proof.
  intros (d & lost & D & P & T). exists (d ++ l), lost. split; [unfold logged; cbn; by rewrite D, app_assoc|]. split; [|done].
  rewrite P. solve_Permutation.
Qed.

Lemma parts_cons (e : K * V) l : parts (e :: l) = [inl (fst e); inr (snd e)] ++ parts l.
Proof. done. Qed.

Lemma acct_fewer inp out s s' cs cs' d : t_drops s' = t_drops s ++ d -> fewer cs cs' -> inp ≡ₚ d ++ out -> acct inp s cs out s' cs'.
Proof.
  intros D (lost & P & T) E. exists d, (parts (map snd lost)). split; [done|]. split.
  - rewrite E. rewrite <- (parts_perm (map snd (concat cs' ++ lost)) (entries cs)) by (by apply Permutation_map).
    rewrite map_app, parts_app. solve_Permutation.
  - intros TT. by rewrite (T TT).
Qed.

Lemma acct_push inp out s s' cs cs' d b k v : t_drops s' = t_drops s ++ d -> concat cs' ≡ₚ (b, (k, v)) :: concat cs ->
  inp ≡ₚ d ++ out ++ [inl k; inr v] -> acct inp s cs out s' cs'.
Proof.
  intros D P E. exists d, []. split; [done|]. split; [|done]. rewrite E, app_nil_r.
  rewrite (parts_perm (entries cs') ((k, v) :: entries cs)) by (by rewrite P). rewrite parts_cons. cbn [fst snd]. solve_Permutation.
Qed.

Lemma acct_take inp out s s' cs cs' d b k v : t_drops s' = t_drops s ++ d -> concat cs ≡ₚ (b, (k, v)) :: concat cs' ->
  inp ++ [inl k; inr v] ≡ₚ d ++ out -> acct inp s cs out s' cs'.
Proof.
  intros D P E. exists d, []. split; [done|]. split; [|done]. rewrite app_nil_r.
  rewrite (parts_perm (entries cs) ((k, v) :: entries cs')) by (by rewrite P). rewrite parts_cons. cbn [fst snd].
  rewrite !app_assoc, E. solve_Permutation.
Qed.

Lemma acct_swap inp out s s' cs cs' d L b k v v' R : t_drops s' = t_drops s ++ d ->
  concat cs = L ++ (b, (k, v)) :: R -> concat cs' = L ++ (b, (k, v')) :: R ->
  inp ++ [inr v] ≡ₚ d ++ out ++ [inr v'] -> acct inp s cs out s' cs'.
Proof.
  intros D E1 E2 P. exists d, []. split; [done|]. split; [|done]. rewrite E1, E2, app_nil_r, !map_app, !parts_app. cbn [map snd].
  rewrite !parts_cons. cbn [fst snd].
  transitivity ((inp ++ [inr v]) ++ parts (map snd L) ++ [inl k] ++ parts (map snd R)); [solve_Permutation|]. rewrite P. solve_Permutation.
Qed.

(** ** The functions *)
Lemma search_post s cs k l m : WRep s cs ->
  post (on_unwind (alogged l) (do target <- a_bucket_for_key_mut ho k; do o <- a_find_from eo target k; ret (target, o)) (s, m))
    (fun r s' => s' = s /\ slot_in s cs (fst r) /\ match snd r with Some q => node_in cs q | None => True end)
    (fun s' => s' = logged l s).
Proof.
  intros R. apply post_unwind.
  eapply post_bind; [eapply post_mono; [exact (proj2 (bucket_post nsz nal eb ho eo Hlay h0 s cs k m R))|intros ? ? H; exact H|]|].
  { by intros s' [-> _]. }
  intros t [s1 m1] [E1 SI]. cbn [fst] in E1. subst s1.
  eapply post_bind; [eapply post_mono; [apply (find_from_post nsz nal eb ho eo Hlay h0 s cs k t m1 R SI)|intros ? ? H; exact H|]|].
  { by intros s' ->. }
  intros o [s1 m2] [E1 N]. cbn [fst] in E1. subst s1. done.
Qed.

Lemma insert_post s cs k v m : WRep s cs ->
  post (a_insert nsz nal eb chk ho eo k v (s, m))
    (fun o s' => exists cs', WRep s' cs' /\ acct [inl k; inr v] s cs (match o with Some old => [inr old] | None => [] end) s' cs')
    (fun s' => exists cs', WRep s' cs' /\ acct [inl k; inr v] s cs [] s' cs').
Proof.
  intros R. unfold a_insert.
  eapply post_bind; [eapply post_mono; [by apply (search_post s cs k)|intros ? ? H; exact H|]|].
  { intros s' ->. exists cs. split; [by apply W_logged|]. apply acct_logged. constructor. }
  intros [t o] [s1 m1] (E1 & SI & N). cbn [fst snd] in *. subst s1. destruct o as [q|].
  - destruct N as (i & c1 & b & k0 & v0 & c2 & Hc & ->).
    destruct (W_update nsz nal eb ho eo Hlay h0 Hstat _ _ _ _ _ _ _ _ R Hc) as (nx & NAT & U). destruct (U v) as (ST & R' & _ & C0 & C1).
    eapply post_lift_last.
    { unfold bind at 1. rewrite NAT. unfold bind at 1. rewrite ST. unfold bind at 1. reflexivity. }
    eexists. split; [apply W_logged, R'|]. eapply (acct_swap _ _ _ _ _ _ [inl k]); [done|exact C0|exact C1|]. solve_Permutation.
  - eapply post_bind; [eapply post_mono; [by apply (insert_impl_post nsz nal eb chk ho eo Hnsz Hlay h0 Hstat s cs t k v)|intros ? ? H; exact H|]|].
    + intros s' (cs' & R' & FW & D). exists cs'. split; [done|]. eapply acct_fewer; [exact D|exact FW|]. rewrite app_nil_r. constructor.
    + intros q [s1 m2] (b & cs' & nx & -> & R' & P & D & _). cbn [fst] in *. cbn. exists cs'. split; [done|].
      eapply (acct_push _ _ _ _ _ _ []); [by rewrite app_nil_r|exact P|done].
Qed.

Lemma insert_panics s cs k v m : WRep s cs ->
  post (a_insert nsz nal eb chk ho eo k v (s, m)) (fun _ _ => True)
    (fun s' => exists cs', WRep s' cs' /\ fewer cs cs' /\ t_drops s' = t_drops s ++ [inr v; inl k]).
Proof.
  intros R. unfold a_insert.
  eapply post_bind; [eapply post_mono; [by apply (search_post s cs k)|intros ? ? H; exact H|]|].
  { intros s' ->. exists cs. split; [by apply W_logged|]. split; [apply fewer_refl|done]. }
  intros [t o] [s1 m1] (E1 & SI & N). cbn [fst snd] in *. subst s1. destruct o as [q|].
  - destruct N as (i & c1 & b & k0 & v0 & c2 & Hc & ->).
    destruct (W_update nsz nal eb ho eo Hlay h0 Hstat _ _ _ _ _ _ _ _ R Hc) as (nx & NAT & U). destruct (U v) as (ST & R' & _ & C0 & C1).
    eapply post_lift_last.
    { unfold bind at 1. rewrite NAT. unfold bind at 1. rewrite ST. unfold bind at 1. reflexivity. }
    done.
  - eapply post_bind; [eapply post_mono; [by apply (insert_impl_post nsz nal eb chk ho eo Hnsz Hlay h0 Hstat s cs t k v)|intros ? ? H; exact H|]|].
    + intros s' H. exact H.
    + done.
Qed.

Lemma get_post s cs k m : WRep s cs -> post (a_get ho eo k (s, m)) (fun _ s' => s' = s) (fun s' => s' = s).
Proof.
  intros R. unfold a_get.
  eapply post_bind; [eapply post_mono; [exact (proj1 (bucket_post nsz nal eb ho eo Hlay h0 s cs k m R))|intros ? ? H; exact H|]|].
  { by intros s' [-> _]. }
  intros t [s1 m1] [E1 SI]. cbn [fst] in E1. subst s1.
  eapply post_bind; [apply (find_from_post nsz nal eb ho eo Hlay h0 s cs k t m1 R SI)|].
  intros o [s1 m2] [E1 N]. cbn [fst] in E1. subst s1. destruct o as [q|]; [|done].
  destruct N as (i & c1 & b & k0 & v0 & c2 & Hc & ->).
  destruct (W_update nsz nal eb ho eo Hlay h0 Hstat _ _ _ _ _ _ _ _ R Hc) as (nx & NAT & _).
  eapply post_lift; [exact NAT|]. done.
Qed.

Lemma get_mut_set_post s cs k v m : WRep s cs ->
  post (a_get_mut_set eb ho eo k v (s, m))
    (fun _ s' => exists cs', WRep s' cs' /\ acct [inr v] s cs [] s' cs')
    (fun s' => exists cs', WRep s' cs' /\ acct [inr v] s cs [] s' cs').
Proof.
  intros R. unfold a_get_mut_set.
  eapply (post_bind _ _ _ (fun o s' => s' = s /\ match o with Some q => node_in cs q | None => True end)).
  { apply post_unwind.
    eapply post_bind; [eapply post_mono; [exact (proj2 (bucket_post nsz nal eb ho eo Hlay h0 s cs k m R))|intros ? ? H; exact H|]|].
    { intros s' [-> _]. exists cs. split; [by apply W_logged|]. by apply acct_logged. }
    intros t [s1 m1] [E1 SI]. cbn [fst] in E1. subst s1.
    eapply post_mono; [apply (find_from_post nsz nal eb ho eo Hlay h0 s cs k t m1 R SI)|done|].
    intros s' ->. exists cs. split; [by apply W_logged|]. by apply acct_logged. }
  intros o [s1 m1] [E1 N]. cbn [fst] in E1. subst s1. destruct o as [q|].
  - destruct N as (i & c1 & b & k0 & v0 & c2 & Hc & ->).
    destruct (W_update nsz nal eb ho eo Hlay h0 Hstat _ _ _ _ _ _ _ _ R Hc) as (nx & NAT & U). destruct (U v) as (ST & R' & _ & C0 & C1).
    eapply post_lift; [exact NAT|]. eapply post_lift; [exact ST|]. eapply post_lift; [reflexivity|]. cbn.
    eexists. split; [apply W_logged, R'|]. eapply (acct_swap _ _ _ _ _ _ [inr v0]); [done|exact C0|exact C1|]. constructor.
  - eapply post_lift; [reflexivity|]. cbn. exists cs. split; [by apply W_logged|]. by apply acct_logged.
Qed.

Lemma entry_mod_post s cs k f m : WRep s cs ->
  post (a_entry_mod eb ho eo k f (s, m))
    (fun e s' => match e with
       | inl q => exists cs', WRep s' cs' /\ node_in cs' q /\ (f = None -> s' = logged [inl k] s /\ cs' = cs)
       | inr (t, k') => s' = s /\ k' = k /\ slot_in s cs t
       end)
    (fun s' => s' = logged [inl k] s).
Proof.
  intros R. unfold a_entry_mod, a_entry.
  eapply (post_bind _ _ _ (fun e s' => match e with
       | inl q => s' = logged [inl k] s /\ node_in cs q
       | inr (t, k') => s' = s /\ k' = k /\ slot_in s cs t
       end)).
  { eapply post_bind; [by apply (search_post s cs k)|].
    intros [t o] [s1 m1] (E1 & SI & N). cbn [fst snd] in *. subst s1. destruct o as [q|].
    - eapply post_lift; [reflexivity|]. done.
    - done. }
  intros e [s1 m1] H. cbn [fst] in H. destruct e as [q|[t k']].
  - destruct H as [-> N]. pose proof (W_logged _ _ _ _ _ _ _ [inl k] R) as R1. destruct f as [f|].
    + destruct N as (i & c1 & b & k0 & v0 & c2 & Hc & ->).
      destruct (W_update nsz nal eb ho eo Hlay h0 Hstat _ _ _ _ _ _ _ _ R1 Hc) as (nx & NAT & U). destruct (U (f v0)) as (ST & R' & _ & C0 & C1).
      eapply post_lift.
      { unfold and_modify. unfold bind at 1. rewrite NAT. exact ST. }
      cbn. eexists. split; [exact R'|]. split; [|done]. exists i, c1, b, k0, (f v0), c2. split; [|done].
      rewrite list_lookup_insert; [done|]. by eapply lookup_lt_Some.
    + eapply post_lift; [reflexivity|]. cbn. exists cs. done.
  - destruct H as (-> & -> & SI). eapply (post_lift _ _ _ _ tt s); [by destruct f|]. done.
Qed.

Lemma or_insert_with_post s cs e dflt m : WRep s cs -> match e with inl q => node_in cs q | inr (t, k) => slot_in s cs t end ->
  post (a_or_insert_with nsz nal eb chk ho e dflt (s, m))
    (fun r s' => match e with
       | inl _ => s' = s /\ fst r = false
       | inr (t, k) => fst r = true /\ exists cs', WRep s' cs' /\ acct [inl k; inr dflt] s cs [] s' cs'
       end)
    (fun s' => match e with
       | inl _ => False
       | inr (t, k) => exists cs', WRep s' cs' /\ acct [inl k; inr dflt] s cs [] s' cs'
       end).
Proof.
  intros R N. unfold a_or_insert_with. destruct e as [q|[t k]].
  - destruct N as (i & c1 & b & k0 & v0 & c2 & Hc & ->).
    destruct (W_update nsz nal eb ho eo Hlay h0 Hstat _ _ _ _ _ _ _ _ R Hc) as (nx & NAT & _).
    eapply post_lift; [exact NAT|]. done.
  - eapply post_bind; [eapply post_mono; [by apply (insert_impl_post nsz nal eb chk ho eo Hnsz Hlay h0 Hstat s cs t k dflt)|intros ? ? H; exact H|]|].
    + intros s' (cs' & R' & FW & D). exists cs'. split; [done|]. eapply acct_fewer; [exact D|exact FW|]. rewrite app_nil_r. constructor.
    + intros q [s1 m2] (b & cs' & nx & -> & R' & P & D & NAT). cbn [fst] in *.
      eapply post_lift; [exact NAT|]. cbn. split; [done|]. exists cs'. split; [done|].
      eapply (acct_push _ _ _ _ _ _ []); [by rewrite app_nil_r|exact P|done].
Qed.

Lemma insert_all_post : forall kvs s cs m, WRep s cs ->
  post (a_insert_all nsz nal eb chk ho eo kvs (s, m))
    (fun _ s' => exists cs', WRep s' cs' /\ acct (parts kvs) s cs [] s' cs')
    (fun s' => exists cs', WRep s' cs' /\ acct (parts kvs) s cs [] s' cs').
Proof.
  induction kvs as [|[k v] kvs IH]; intros s cs m R; cbn [a_insert_all].
  - cbn. exists cs. split; [done|]. apply acct_same.
  - rewrite parts_cons. cbn [fst snd].
    eapply (post_bind _ _ _ (fun o s' => exists cs', WRep s' cs' /\ acct [inl k; inr v] s cs (match o with Some old => [inr old] | None => [] end) s' cs')).
    { apply post_unwind. eapply post_mono; [by apply (insert_post s cs k v)|intros ? ? H; exact H|].
      intros s' (cs' & R' & A). exists cs'. split; [by apply W_logged|].
      refine (acct_trans _ _ [] [] _ _ _ _ _ _ A _). change (pair_parts kvs) with (parts kvs). by apply acct_logged. }
    intros o [s1 m1] (cs1 & R1 & A1). cbn [fst] in *.
    eapply (post_bind _ _ _ (fun _ s' => WRep s' cs1 /\ acct [inl k; inr v] s cs [] s' cs1)).
    { destruct o as [old|].
      - eapply post_lift_last; [reflexivity|]. split; [by apply W_logged|]. apply acct_drop. done.
      - eapply post_lift_last; [reflexivity|]. done. }
    intros _ [s2 m2] (R2 & A2). cbn [fst] in *.
    eapply post_mono; [by apply (IH s2 cs1 m2)| |].
    + intros _ s' (cs' & R' & A'). exists cs'. split; [done|]. exact (acct_trans _ _ [] [] _ _ _ _ _ _ A2 A').
    + intros s' (cs' & R' & A'). exists cs'. split; [done|]. exact (acct_trans _ _ [] [] _ _ _ _ _ _ A2 A').
Qed.

(** ** One call *)
Definition no_with (c : hcall K V) : bool := match c with HEntryWith _ _ _ => false | _ => true end.

Definition called (c : hcall K V) (s : tstate) (cs : list (list enode)) (a : option (hanswer K V)) (s' : tstate) : Prop :=
  exists cs', WRep s' cs' /\
    (no_rewrite c = true -> exists d lost, t_drops s' = t_drops s ++ d /\
       with_given c a ++ parts (entries cs) ≡ₚ d ++ taken c a ++ parts (entries cs') ++ lost /\ (total -> no_with c = true -> lost = [])).

Lemma called_acct c s cs a s' cs' : WRep s' cs' -> (no_rewrite c = true -> acct (with_given c a) s cs (taken c a) s' cs') -> called c s cs a s'.
Proof. intros R A. exists cs'. split; [done|]. intros NR. destruct (A NR) as (d & lost & D & P & T). exists d, lost. split; [done|]. split; [done|]. auto. Qed.

Lemma call_post c s cs m : WRep s cs ->
  post (a_call nsz nal eb chk ho eo c (s, m)) (fun a s' => called c s cs (Some a) s') (fun s' => called c s cs None s').
Proof.
  intros R. destruct c as [k v|k|k|k v|k|k|k f v|k f v|k f|kvs| | | | |g]; cbn [a_call].
  - (* insert *)
    eapply post_bind; [eapply post_mono; [by apply (insert_post s cs k v)|intros ? ? H; exact H|]|].
    + intros s' (cs' & R' & A). eapply called_acct; [exact R'|]. intros _. exact A.
    + intros o [s1 m1] (cs' & R' & A). cbn [fst] in *. cbn. eapply called_acct; [exact R'|]. intros _. by destruct o.
  - eapply post_bind; [eapply post_mono; [by apply (get_post s cs k)|intros ? ? H; exact H|]|].
    + intros s' ->. eapply called_acct; [exact R|]. intros _. apply acct_same.
    + intros o [s1 m1] E1. cbn [fst] in *. subst s1. cbn. eapply called_acct; [exact R|]. intros _. apply acct_same.
  - eapply post_bind; [eapply post_mono; [by apply (get_post s cs k)|intros ? ? H; exact H|]|].
    + intros s' ->. eapply called_acct; [exact R|]. intros _. apply acct_same.
    + intros o [s1 m1] E1. cbn [fst] in *. subst s1. cbn. eapply called_acct; [exact R|]. intros _. apply acct_same.
  - eapply post_bind; [eapply post_mono; [by apply (get_mut_set_post s cs k v)|intros ? ? H; exact H|]|].
    + intros s' (cs' & R' & A). eapply called_acct; [exact R'|]. intros _. exact A.
    + intros o [s1 m1] (cs' & R' & A). cbn [fst] in *. cbn. eapply called_acct; [exact R'|]. intros _. exact A.
  - (* remove *)
    unfold a_remove. eapply (post_bind _ _ _ (fun o s' => exists cs', WRep s' cs' /\ acct [] s cs (match o with Some v => [inr v] | None => [] end) s' cs')).
    + eapply post_bind; [eapply post_mono; [by apply (remove_entry_post nsz nal eb chk ho eo Hlay h0 Hstat s cs k)|intros ? ? H; exact H|]|].
      * intros s' [->|(b & [k0 v0] & cs' & NT & R' & P & D)].
        -- eapply called_acct; [exact R|]. intros _. apply acct_same.
        -- eapply called_acct; [exact R'|]. intros _. eapply acct_take; [exact D|exact P|]. cbn. constructor.
      * intros o [s1 m1] H. cbn [fst] in H. destruct o as [[k0 v0]|].
        -- destruct H as (b & cs' & R' & P & D). eapply post_lift; [reflexivity|]. cbn. exists cs'. split; [by apply W_logged|].
           apply acct_drop. eapply (acct_take _ _ _ _ _ _ []); [by rewrite app_nil_r|exact P|done].
        -- subst s1. cbn. exists cs. split; [done|]. apply acct_same.
    + intros o [s1 m1] (cs' & R' & A). cbn [fst] in *. cbn. eapply called_acct; [exact R'|]. intros _. by destruct o.
  - eapply post_bind; [eapply post_mono; [by apply (remove_entry_post nsz nal eb chk ho eo Hlay h0 Hstat s cs k)|intros ? ? H; exact H|]|].
    + intros s' [->|(b & [k0 v0] & cs' & NT & R' & P & D)].
      * eapply called_acct; [exact R|]. intros _. apply acct_same.
      * eapply called_acct; [exact R'|]. intros _. eapply acct_take; [exact D|exact P|]. cbn. constructor.
    + intros o [s1 m1] H. cbn [fst] in H. cbn. destruct o as [[k0 v0]|].
      * destruct H as (b & cs' & R' & P & D). eapply called_acct; [exact R'|]. intros _.
        eapply (acct_take _ _ _ _ _ _ []); [by rewrite app_nil_r|exact P|done].
      * subst s1. eapply called_acct; [exact R|]. intros _. apply acct_same.
  - (* or_insert *)
    eapply (post_bind _ _ _ (fun e s' => match e with
       | inl q => exists cs', WRep s' cs' /\ node_in cs' q /\ (f = None -> s' = logged [inl k] s /\ cs' = cs)
       | inr (t, k') => s' = s /\ k' = k /\ slot_in s cs t
       end)).
    { apply post_unwind. eapply post_mono; [by apply (entry_mod_post s cs k f)|done|].
      intros s' ->. eapply called_acct; [by apply W_logged, W_logged|]. intros _. cbn.
      apply (acct_trans [inl k] [inr v] [] [] s cs (logged [inl k] s) cs); by apply acct_logged. }
    intros e [s1 m1] H. cbn [fst] in H.
    assert (exists cs1, WRep s1 cs1 /\ match e with inl q => node_in cs1 q /\ (f = None -> s1 = logged [inl k] s /\ cs1 = cs)
      | inr (t, k') => slot_in s1 cs1 t /\ s1 = s /\ k' = k /\ cs1 = cs end) as (cs1 & R1 & H1).
    { destruct e as [q|[t k']]; [destruct H as (cs' & ? & ? & ?); eauto|]. destruct H as (-> & -> & ?). exists cs. done. }
    clear H. unfold a_or_insert. eapply (post_bind _ _ _ (fun _ s' => called (HEntryOr k f v) s cs (Some (HRef true v)) s')).
    + eapply post_bind; [eapply post_mono; [apply (or_insert_with_post s1 cs1 e v m1 R1)|intros ? ? H; exact H|]|].
      * destruct e as [q|[t k']]; tauto.
      * intros s' H. destruct e as [q|[t k']]; [done|]. destruct H as (cs' & R' & A). destruct H1 as (_ & -> & -> & ->).
        eapply called_acct; [exact R'|]. intros _. exact A.
      * intros r [s2 m2] H. cbn [fst] in H. destruct e as [q|[t k']].
        -- destruct H as [-> ->]. cbn [negb]. eapply post_lift; [reflexivity|]. cbn. destruct H1 as [_ H1].
           eapply called_acct; [by apply W_logged|]. intros NR. destruct f; [done|]. destruct (H1 eq_refl) as [-> ->].
           apply (acct_trans [inl k] [inr v] [] [] s cs (logged [inl k] s) cs); by apply acct_logged.
        -- destruct H as (-> & cs' & R' & A). cbn. destruct H1 as (_ & -> & -> & ->). eapply called_acct; [exact R'|]. intros _. exact A.
    + intros v' [s2 m2] H. cbn. exact H.
  - (* or_insert_with *)
    eapply post_bind; [eapply post_mono; [by apply (entry_mod_post s cs k f)|intros ? ? H; exact H|]|].
    { intros s' ->. exists cs. split; [by apply W_logged|]. intros _. exists [inl k], [inr v]. split; [done|]. split; [|done].
      cbn. rewrite (Permutation_app_comm _ [inr v]). done. }
    intros e [s1 m1] H. cbn [fst] in H.
    assert (exists cs1, WRep s1 cs1 /\ match e with inl q => node_in cs1 q /\ (f = None -> s1 = logged [inl k] s /\ cs1 = cs)
      | inr (t, k') => slot_in s1 cs1 t /\ s1 = s /\ k' = k /\ cs1 = cs end) as (cs1 & R1 & H1).
    { destruct e as [q|[t k']]; [destruct H as (cs' & ? & ? & ?); eauto|]. destruct H as (-> & -> & ?). exists cs. done. }
    clear H. eapply post_bind; [eapply post_mono; [apply (or_insert_with_post s1 cs1 e v m1 R1)|intros ? ? H; exact H|]|].
    + destruct e as [q|[t k']]; tauto.
    + intros s' H. destruct e as [q|[t k']]; [done|]. destruct H as (cs' & R' & A). destruct H1 as (_ & -> & -> & ->).
      eapply called_acct; [exact R'|]. intros _. exact A.
    + intros r [s2 m2] H. cbn [fst] in H. destruct e as [q|[t k']].
      * destruct H as [-> ->]. cbn. destruct H1 as [_ H1].
        eapply called_acct; [exact R1|]. intros NR. destruct f; [done|]. destruct (H1 eq_refl) as [-> ->]. by apply acct_logged.
      * destruct H as (-> & cs' & R' & A). cbn. destruct H1 as (_ & -> & -> & ->). eapply called_acct; [exact R'|]. intros _. exact A.
  - (* entry dropped *)
    eapply post_bind; [eapply post_mono; [by apply (entry_mod_post s cs k f)|intros ? ? H; exact H|]|].
    { intros s' ->. eapply called_acct; [by apply W_logged|]. intros _. by apply acct_logged. }
    intros e [s1 m1] H. cbn [fst] in H. destruct e as [q|[t k']].
    + destruct H as (cs' & R' & _ & H). eapply post_lift; [reflexivity|]. cbn. eapply called_acct; [exact R'|]. intros NR.
      destruct f; [done|]. destruct (H eq_refl) as [-> ->]. by apply acct_logged.
    + destruct H as (-> & -> & _). eapply post_lift; [reflexivity|]. cbn. eapply called_acct; [by apply W_logged|]. intros _. by apply acct_logged.
  - eapply post_bind; [eapply post_mono; [by apply (insert_all_post kvs s cs)|intros ? ? H; exact H|]|].
    + intros s' (cs' & R' & A). eapply called_acct; [exact R'|]. intros _. exact A.
    + intros o [s1 m1] (cs' & R' & A). cbn [fst] in *. cbn. eapply called_acct; [exact R'|]. intros _. exact A.
  - eapply post_lift_last; [reflexivity|]. eapply called_acct; [exact R|]. intros _. apply acct_same.
  - eapply post_lift_last; [reflexivity|]. eapply called_acct; [exact R|]. intros _. apply acct_same.
  - (* clear *)
    destruct (W_free nsz nal eb ho eo Hnsz Hlay h0 Hstat _ _ R) as (h' & FB & R').
    eapply post_lift_last; [cbn [h_call]; unfold clear; unfold bind at 1 2; rewrite FB; reflexivity|].
    eapply called_acct; [exact R'|]. intros _. exists (dropped cs), []. split; [done|]. split; [|done]. cbn.
    rewrite concat_empty. cbn. rewrite app_nil_r. symmetry. apply dropped_perm.
  - (* iter *)
    eapply post_lift_last.
    { pose proof (W_iter_all nsz nal eb ho eo Hlay h0 _ _ R) as IA. cbn [h_call]. revert IA. unfold bind at 1 2 3 4 5.
      destruct (iter s) as [it s1| |]; [|done|done]. unfold gets at 1 2. unfold bind. intros ->. reflexivity. }
    eapply called_acct; [exact R|]. intros _. apply acct_same.
  - destruct (W_iter nsz nal eb ho eo Hlay h0 _ _ R) as (a & ps & by_ & it & E & IT & AT & NI).
    destruct (W_iter_mut nsz nal eb ho eo Hlay h0 Hstat g by_ a ps (concat cs) [] (fuel s) it s cs R eq_refl E NI AT (W_fuel nsz nal eb ho eo Hlay h0 _ _ R)) as (s' & cs' & IM & R' & _).
    eapply post_lift_last.
    { cbn [h_call]. unfold bind at 1. rewrite IT. unfold bind at 1, gets at 1. unfold bind at 1. rewrite IM. reflexivity. }
    eapply called_acct; [exact R'|]. done.
Qed.

(** ** Programs *)
Lemma run_post : forall prog s cs m, WRep s cs -> exists l s' m' cs', a_run nsz nal eb chk ho eo prog (s, m) = Some (l, (s', m')) /\ WRep s' cs' /\
  (forallb no_rewrite prog = true -> exists d lost, t_drops s' = t_drops s ++ d /\
     all_given prog l ++ parts (entries cs) ≡ₚ d ++ all_taken prog l ++ parts (entries cs') ++ lost /\
     (total -> forallb no_with prog = true -> lost = [])).
Proof.
  induction prog as [|c prog IH]; intros s cs m R.
  - exists [], s, m, cs. split; [done|]. split; [done|]. intros _. exists [], []. rewrite !app_nil_r. done.
  - pose proof (call_post c s cs m R) as CP. cbn [a_run].
    assert (STEP : forall a s1 m1, called c s cs a s1 ->
      exists l s' m' cs', a_run nsz nal eb chk ho eo prog (s1, m1) = Some (l, (s', m')) /\ WRep s' cs' /\
      (forallb no_rewrite (c :: prog) = true -> exists d lost, t_drops s' = t_drops s ++ d /\
       all_given (c :: prog) (a :: l) ++ parts (entries cs) ≡ₚ d ++ all_taken (c :: prog) (a :: l) ++ parts (entries cs') ++ lost /\
       (total -> forallb no_with (c :: prog) = true -> lost = []))).
    { intros a s1 m1 (cs1 & R1 & A1). destruct (IH s1 cs1 m1 R1) as (l & s' & m' & cs' & RUN & R' & A'). exists l, s', m', cs'.
      split; [done|]. split; [done|]. intros NR. cbn [forallb] in NR. apply andb_prop in NR as [NR1 NR2].
      destruct (A1 NR1) as (d1 & l1 & D1 & P1 & T1). destruct (A' NR2) as (d2 & l2 & D2 & P2 & T2).
      exists (d1 ++ d2), (l1 ++ l2). split; [by rewrite D2, D1, app_assoc|]. cbn [all_given all_taken]. split.
      - rewrite <- app_assoc, (Permutation_app_comm (all_given prog l)), app_assoc, P1.
        transitivity (d1 ++ taken c a ++ l1 ++ (all_given prog l ++ parts (entries cs1))); [solve_Permutation|]. rewrite P2. solve_Permutation.
      - intros T NW. cbn [forallb] in NW. apply andb_prop in NW as [NW1 NW2]. by rewrite (T1 T NW1), (T2 T NW2). }
    destruct (a_call nsz nal eb chk ho eo c (s, m)) as [a [s1 m1]|[s1 m1]|]; cbn [post fst] in CP; [| |done].
    + destruct (STEP _ _ m1 CP) as (l & s' & m' & cs' & -> & H). by exists (Some a :: l), s', m', cs'.
    + destruct (STEP _ _ m1 CP) as (l & s' & m' & cs' & -> & H). by exists (None :: l), s', m', cs'.
Qed.
End any_calls.
