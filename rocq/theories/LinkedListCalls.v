(** Proofs about linked lists: every call keeps the representation and does what the
    specification says, over any allocator that behaves. *)
From Verif Require Import Base Alloc AddrMem FixedPool FixedPoolSpec FixedPoolProofs LinkedList LinkedListSpec LinkedListProofs.
Local Open Scope Z_scope.

(** ** What a list needs of its allocator *)

(** The links of the sentinel [s] and of the nodes [L], and the values of the nodes,
    are the same. *)
Definition keeps {T} (s : Z) (L : list Z) (m m' : mem T) : Prop :=
  (forall x, x ∈ s :: L -> m_word m' !! x = m_word m !! x /\ m_word m' !! (x + 8) = m_word m !! (x + 8)) /\
  (forall x, x ∈ L -> m_val m' !! x = m_val m !! x).

(** Only links of the sentinel and of the nodes differ, and values of the nodes. *)
Definition relinks {T} (s : Z) (L : list Z) (m m' : mem T) : Prop :=
  m_live m' = m_live m /\ m_time m' = m_time m /\
  (forall k, (forall x, x ∈ s :: L -> k <> x /\ k <> x + 8) -> m_word m' !! k = m_word m !! k) /\
  (forall k, k ∉ L -> m_val m' !! k = m_val m !! k).

(** [I a m L]: the allocator [a] in the memory [m] has handed out the nodes [L].  It
    can serve [B] nodes; [nul] says whether it may return null. *)
Record AllocOK {A T} (aa : AddrAlloc A T) (chk : bool) (nsz nal s B : Z) (nul : bool)
    (I : A -> mem T -> list Z -> Prop) : Prop := {
  ao_node : forall a m L p, I a m L -> p ∈ L ->
    0 < p /\ (8 | p) /\ accessible m p nsz = true /\ (p + nsz <= s \/ s + 16 <= p);
  ao_nodup : forall a m L, I a m L -> NoDup L;
  ao_apart : forall a m L p q, I a m L -> p ∈ L -> q ∈ L -> p <> q -> p + nsz <= q \/ q + nsz <= p;
  ao_sent : forall a m L, I a m L -> accessible m s 16 = true;
  ao_perm : forall a m L L', I a m L -> L ≡ₚ L' -> I a m L';
  ao_write : forall a m m' L, I a m L -> relinks s L m m' -> I a m' L;
  ao_alloc : forall a m L, I a m L -> Z.of_nat (length L) < B ->
    exists p a' m', allocate aa chk nsz nal 1 (a, m) = Ok p (a', m') /\ keeps s L m m' /\
      ((p = 0 /\ nul = true /\ I a' m' L) \/ (p <> 0 /\ I a' m' (p :: L)))
}.
(** It takes nodes back, with the request that lists make. *)
Definition FreeOK {A T} (aa : AddrAlloc A T) (chk : bool) (nsz s : Z) (I : A -> mem T -> list Z -> Prop) : Prop :=
  forall a m p L, I a m (p :: L) ->
    exists a' m', deallocate aa chk 16 8 p nsz (a, m) = Ok tt (a', m') /\ keeps s L m m' /\ I a' m' L.

Section calls.
Context {A T : Type}.
Variables (aa : AddrAlloc A T) (chk : bool) (nsz nal s B : Z) (nul : bool) (I : A -> mem T -> list Z -> Prop).
Hypothesis Hsz : 16 <= nsz.
Hypothesis Hs : (8 | s).
Hypothesis HB : B < u32_lim.
Hypothesis AO : AllocOK aa chk nsz nal s B nul I.

Local Notation lstate := (lstate A T).

Record LRep (st : lstate) (xs : list T) (ps : list Z) : Prop := {
  lr_node : l_node st = s;
  lr_size : l_size st = Z.of_nat (length xs);
  lr_alloc : I (l_alloc st) (l_mem st) ps;
  lr_ring : ring (m_word (l_mem st)) s ps;
  lr_vals : Forall2 (fun p x => m_val (l_mem st) !! p = Some x) ps xs;
  lr_bound : Z.of_nat (length xs) <= B
}.

(** The state with other words. *)
Definition setw (st : lstate) (w : gmap Z Z) : lstate :=
  LState (l_node st) (l_size st) (l_alloc st) (Mem (m_live (l_mem st)) w (m_val (l_mem st)) (m_time (l_mem st))) (l_drops st).

Lemma put_word_ok (st : lstate) a v : word_at (l_mem st) a = true ->
  put_word a v st = Ok tt (setw st (<[a := v]> (m_word (l_mem st)))).
Proof. intros H. unfold put_word, bind, gets. by rewrite store_word_ok. Qed.
Lemma get_word_ok (st : lstate) a v : word_at (l_mem st) a = true -> m_word (l_mem st) !! a = Some v ->
  get_word a st = Ok v st.
Proof. intros H E. unfold get_word, bind, gets. by rewrite load_word_ok, E. Qed.
Lemma word_at_setw (st : lstate) w a : word_at (l_mem (setw st w)) a = word_at (l_mem st) a.
Proof. done. Qed.

Lemma node_insert_ok (st : lstate) p nx pv :
  word_at (l_mem st) p = true -> word_at (l_mem st) (p + 8) = true -> word_at (l_mem st) (nx + 8) = true -> word_at (l_mem st) pv = true ->
  p <> nx -> p <> nx + 8 -> m_word (l_mem st) !! (nx + 8) = Some pv ->
  node_insert p nx st = Ok tt (setw st (<[nx + 8 := p]> (<[pv := p]> (<[p + 8 := pv]> (<[p := nx]> (m_word (l_mem st))))))).
Proof.
  intros W1 W2 W3 W4 N1 N2 E. unfold node_insert, set_next, set_prev, get_prev.
  unfold bind at 1. rewrite put_word_ok by done.
  unfold bind at 1. rewrite (get_word_ok _ _ pv) by (first [done|cbn; by rewrite !lookup_insert_ne by lia]).
  unfold bind at 1. rewrite put_word_ok by done.
  unfold bind at 1. rewrite (get_word_ok _ _ pv) by (first [done|cbn; by rewrite !lookup_insert_ne by lia]).
  unfold bind at 1. rewrite put_word_ok by done. by rewrite put_word_ok.
Qed.
Lemma node_remove_ok (st : lstate) p nx pv :
  word_at (l_mem st) p = true -> word_at (l_mem st) (p + 8) = true -> word_at (l_mem st) (nx + 8) = true -> word_at (l_mem st) pv = true ->
  p <> nx -> p <> nx + 8 -> m_word (l_mem st) !! p = Some nx -> m_word (l_mem st) !! (p + 8) = Some pv ->
  node_remove p st = Ok tt (setw st (<[pv := nx]> (<[nx + 8 := pv]> (m_word (l_mem st))))).
Proof.
  intros W1 W2 W3 W4 N1 N2 E1 E2. unfold node_remove, set_next, set_prev, get_prev, get_next.
  unfold bind at 1. rewrite (get_word_ok _ _ nx) by done. unfold bind at 1. rewrite (get_word_ok _ _ pv) by done.
  unfold bind at 1. rewrite put_word_ok by done.
  unfold bind at 1. rewrite (get_word_ok _ _ pv) by (first [done|cbn; by rewrite !lookup_insert_ne by lia]).
  unfold bind at 1. rewrite (get_word_ok _ _ nx) by (first [done|cbn; by rewrite !lookup_insert_ne by lia]).
  by rewrite put_word_ok.
Qed.

(** *** Consequences of the representation *)
Lemma alloc_words a m L x : I a m L -> x ∈ s :: L -> word_at m x = true /\ word_at m (x + 8) = true.
Proof.
  intros HI Hx. apply elem_of_cons in Hx as [-> |Hx].
  - pose proof (ao_sent _ _ _ _ _ _ _ _ AO _ _ _ HI). split; apply (word_at_ok _ s 16); try done; try lia. by apply Z.divide_add_r; [|exists 1].
  - destruct (ao_node _ _ _ _ _ _ _ _ AO _ _ _ _ HI Hx) as (? & ? & ? & _).
    split; apply (word_at_ok _ x nsz); try done; try lia. by apply Z.divide_add_r; [|exists 1].
Qed.
Lemma alloc_apart a m L x y : I a m L -> x ∈ s :: L -> y ∈ s :: L -> x <> y -> x + 16 <= y \/ y + 16 <= x.
Proof.
  intros HI Hx Hy NE. apply elem_of_cons in Hx as [-> |Hx]; apply elem_of_cons in Hy as [-> |Hy].
  - done.
  - destruct (ao_node _ _ _ _ _ _ _ _ AO _ _ _ _ HI Hy) as (? & ? & ? & ?). lia.
  - destruct (ao_node _ _ _ _ _ _ _ _ AO _ _ _ _ HI Hx) as (? & ? & ? & ?). lia.
  - pose proof (ao_apart _ _ _ _ _ _ _ _ AO _ _ _ _ _ HI Hx Hy NE). lia.
Qed.
Lemma alloc_sep a m L : I a m L -> sep (s :: L).
Proof.
  intros HI x y Hx Hy. destruct (decide (x = y)) as [-> |NE]; [lia|]. pose proof (alloc_apart _ _ _ _ _ HI Hx Hy NE). lia.
Qed.
Lemma alloc_ne a m L p : I a m L -> p ∈ L -> p <> s.
Proof. intros HI Hp. destruct (ao_node _ _ _ _ _ _ _ _ AO _ _ _ _ HI Hp) as (? & ? & ? & ?). lia. Qed.
Lemma alloc_nodup a m L : I a m L -> NoDup (s :: L).
Proof.
  intros HI. constructor; [|by eapply ao_nodup]. intros H. by apply (alloc_ne _ _ _ _ HI H).
Qed.

Lemma vals_keep (m m' : mem T) ps (xs : list T) : (forall x, x ∈ ps -> m_val m' !! x = m_val m !! x) ->
  Forall2 (fun p x => m_val m !! p = Some x) ps xs -> Forall2 (fun p x => m_val m' !! p = Some x) ps xs.
Proof.
  intros H F. induction F as [|p x ps xs E F IH]; constructor.
  - by rewrite H by constructor.
  - apply IH. intros y Hy. apply H. by constructor.
Qed.

Lemma vals_eq (v v' : gmap Z T) ps (xs : list T) : (forall x, x ∈ ps -> v' !! x = v !! x) ->
  Forall2 (fun p x => v !! p = Some x) ps xs -> Forall2 (fun p x => v' !! p = Some x) ps xs.
Proof.
  intros H F. induction F as [|p x ps xs E F IH]; constructor.
  - by rewrite H by constructor.
  - apply IH. intros y Hy. apply H. by constructor.
Qed.

(** *** Reading the ends *)
Lemma ends st xs ps : LRep st xs ps ->
  get_next s st = Ok (first_of s ps) st /\ get_prev s st = Ok (last_of s ps) st.
Proof.
  intros [EN ES HI R V LB]. destruct (ring_ends _ _ _ R) as [E1 E2].
  destruct (alloc_words _ _ _ s HI ltac:(constructor)) as [W1 W2]. unfold get_next, get_prev. by rewrite (get_word_ok _ _ _ W1 E1), (get_word_ok _ _ _ W2 E2).
Qed.
Lemma front_place_ok st xs ps : LRep st xs ps -> front_place st = Ok (head ps) st.
Proof.
  intros H. pose proof H as [EN ES HI R V LB]. unfold front_place. unfold bind at 1, gets. rewrite EN. unfold bind.
  rewrite (proj1 (ends _ _ _ H)). destruct ps as [|p ps]; cbn.
  - by rewrite Z.eqb_refl.
  - rewrite (proj2 (Z.eqb_neq p s)); [done|]. eapply alloc_ne; [done|constructor].
Qed.
Lemma back_place_ok st xs ps : LRep st xs ps -> back_place st = Ok (last ps) st.
Proof.
  intros H. pose proof H as [EN ES HI R V LB]. unfold back_place. unfold bind at 1, gets. rewrite EN. unfold bind.
  rewrite (proj2 (ends _ _ _ H)). unfold last_of. destruct ps as [|p ps _] using rev_ind; cbn.
  - by rewrite Z.eqb_refl.
  - rewrite List.last_last, last_snoc. rewrite (proj2 (Z.eqb_neq p s)); [done|]. eapply alloc_ne; [done|]. apply elem_of_app. right. constructor.
Qed.
Lemma get_val_ok st xs ps p x : LRep st xs ps -> p ∈ ps -> m_val (l_mem st) !! p = Some x -> get_val nsz p st = Ok x st.
Proof.
  intros H Hp E. destruct (ao_node _ _ _ _ _ _ _ _ AO _ _ _ _ (lr_alloc _ _ _ H) Hp) as (? & ? & AC & _).
  unfold get_val, bind, gets, load_val. by rewrite AC, E.
Qed.
Lemma vals_head (m : mem T) ps (xs : list T) : Forall2 (fun p x => m_val m !! p = Some x) ps xs ->
  match head ps, head xs with
  | Some p, Some x => p ∈ ps /\ m_val m !! p = Some x
  | None, None => ps = [] /\ xs = []
  | _, _ => False
  end.
Proof. intros [|p x ps' xs' E F]; cbn; [done|]. split; [constructor|done]. Qed.
Lemma vals_last (m : mem T) ps (xs : list T) : Forall2 (fun p x => m_val m !! p = Some x) ps xs ->
  match last ps, last xs with
  | Some p, Some x => p ∈ ps /\ m_val m !! p = Some x
  | None, None => ps = [] /\ xs = []
  | _, _ => False
  end.
Proof.
  intros F. destruct ps as [|p ps _] using rev_ind.
  - apply Forall2_nil_inv_l in F as ->. done.
  - apply Forall2_app_inv_l in F as (xs1 & xs2 & F1 & F2 & ->). apply Forall2_cons_inv_l in F2 as (x & ? & E & F2 & ->).
    apply Forall2_nil_inv_l in F2 as ->. rewrite !last_snoc. split; [apply elem_of_app; right; constructor|done].
Qed.
Lemma front_ok st xs ps : LRep st xs ps -> (do p <- front_place; read_place nsz p) st = Ok (head xs) st.
Proof.
  intros H. unfold bind at 1. rewrite (front_place_ok _ _ _ H). pose proof (vals_head _ _ _ (lr_vals _ _ _ H)) as V.
  destruct (head ps) as [p|], (head xs) as [x|]; try done. destruct V as [Hp E]. cbn. unfold bind. by rewrite (get_val_ok _ _ _ _ _ H Hp E).
Qed.
Lemma back_ok st xs ps : LRep st xs ps -> (do p <- back_place; read_place nsz p) st = Ok (last xs) st.
Proof.
  intros H. unfold bind at 1. rewrite (back_place_ok _ _ _ H). pose proof (vals_last _ _ _ (lr_vals _ _ _ H)) as V.
  destruct (last ps) as [p|], (last xs) as [x|]; try done. destruct V as [Hp E]. cbn. unfold bind. by rewrite (get_val_ok _ _ _ _ _ H Hp E).
Qed.

(** *** Assigning through a reference *)
(** The state with other values. *)
Definition setv (st : lstate) (v : gmap Z T) : lstate :=
  LState (l_node st) (l_size st) (l_alloc st) (Mem (m_live (l_mem st)) (m_word (l_mem st)) v (m_time (l_mem st))) (l_drops st).
Lemma relinks_setv st v L : (forall k, k ∉ L -> v !! k = m_val (l_mem st) !! k) -> relinks s L (l_mem st) (l_mem (setv st v)).
Proof. intros H. by repeat split. Qed.
Lemma relinks_delete st p L : p ∈ L -> relinks s L (l_mem st) (l_mem (setv st (delete p (m_val (l_mem st))))).
Proof. intros H. apply relinks_setv. intros k Hk. apply lookup_delete_ne. by intros ->. Qed.
Lemma relinks_put st p x L : p ∈ L -> relinks s L (l_mem st) (l_mem (setv st (<[p := x]> (m_val (l_mem st))))).
Proof. intros H. apply relinks_setv. intros k Hk. apply lookup_insert_ne. by intros ->. Qed.
Lemma rep_setv st xs ys ps v : LRep st xs ps -> length ys = length xs -> (forall k, k ∉ ps -> v !! k = m_val (l_mem st) !! k) ->
  Forall2 (fun p x => v !! p = Some x) ps ys -> LRep (setv st v) ys ps.
Proof.
  intros [EN ES HI R V LB] L K F. split; [done|cbn; by rewrite L| |done|done|by rewrite L].
  eapply ao_write; [exact AO|exact HI|]. by apply relinks_setv.
Qed.
Lemma move_val_ok st a m L p x : I a m L -> l_mem st = m -> p ∈ L -> m_val m !! p = Some x ->
  move_val nsz p st = Ok x (setv st (delete p (m_val m))).
Proof.
  intros HI <- Hp E. destruct (ao_node _ _ _ _ _ _ _ _ AO _ _ _ _ HI Hp) as (? & ? & AC & _).
  unfold move_val, bind, gets, take_val, load_val. by rewrite AC, E.
Qed.
Lemma put_val_ok st p x : accessible (l_mem st) p nsz = true -> put_val nsz p x st = Ok tt (setv st (<[p := x]> (m_val (l_mem st)))).
Proof. intros AC. unfold put_val, bind, gets, store_val. by rewrite AC. Qed.

Lemma assign_ok st xs ps p x y : LRep st xs ps -> p ∈ ps -> m_val (l_mem st) !! p = Some x ->
  assign_place nsz (Some p) y st = Ok true (logged [x] (setv st (<[p := y]> (m_val (l_mem st))))).
Proof.
  intros H Hp E. cbn. unfold bind at 1. rewrite (move_val_ok _ _ _ _ _ _ (lr_alloc _ _ _ H) eq_refl Hp E).
  destruct (ao_node _ _ _ _ _ _ _ _ AO _ _ _ _ (lr_alloc _ _ _ H) Hp) as (? & ? & AC & _).
  unfold bind at 1. rewrite put_val_ok by done. cbn. by rewrite insert_delete_insert.
Qed.

Lemma rep_logged st xs ps l : LRep st xs ps -> LRep (logged l st) xs ps.
Proof. intros []. by split. Qed.

Lemma front_mut_ok st xs ps y : LRep st xs ps -> 
  exists st', (do p <- front_place; assign_place nsz p y) st = Ok (match xs with [] => false | _ => true end) st' /\
    LRep st' (match xs with [] => [] | _ :: xs' => y :: xs' end) ps /\
    l_drops st' = l_drops st ++ match xs with [] => [y] | x :: _ => [x] end.
Proof.
  intros H. unfold bind at 1. rewrite (front_place_ok _ _ _ H). pose proof H as [EN ES HI R V LB].
  pose proof (vals_head _ _ _ V) as VH. destruct ps as [|p ps], xs as [|x xs]; cbn [head] in *; try done.
  - eexists. split; [reflexivity|]. split; [by apply rep_logged|done].
  - destruct VH as [Hp E]. rewrite (assign_ok _ _ _ _ _ _ H Hp E). eexists. split; [reflexivity|]. split; [|done].
    apply rep_logged. eapply rep_setv; [exact H|done|intros k Hk; apply lookup_insert_ne; by intros ->|]. apply Forall2_cons_1 in V as [_ V]. constructor; [apply lookup_insert|].
    pose proof (ao_nodup _ _ _ _ _ _ _ _ AO _ _ _ HI) as ND. apply NoDup_cons in ND as [NI _].
    assert (F : forall q, q ∈ ps -> <[p := y]> (m_val (l_mem st)) !! q = m_val (l_mem st) !! q).
    { intros q Hq. apply lookup_insert_ne. by intros ->. }
    clear -V F. induction V; constructor; [by rewrite F by constructor|]. apply IHV. intros q Hq. apply F. by constructor.
Qed.

Lemma back_mut_ok st xs ps y : LRep st xs ps -> 
  exists st', (do p <- back_place; assign_place nsz p y) st = Ok (match last xs with None => false | _ => true end) st' /\
    LRep st' (match last xs with None => xs | _ => removelast xs ++ [y] end) ps /\
    l_drops st' = l_drops st ++ match last xs with None => [y] | Some x => [x] end.
Proof.
  intros H. unfold bind at 1. rewrite (back_place_ok _ _ _ H). pose proof H as [EN ES HI R V LB].
  pose proof (vals_last _ _ _ V) as VH. destruct ps as [|p ps _] using rev_ind.
  - apply Forall2_nil_inv_l in V as ->. cbn. eexists. split; [reflexivity|]. split; [by apply rep_logged|done].
  - apply Forall2_app_inv_l in V as (xs1 & xs2 & V & V2 & ->). apply Forall2_cons_inv_l in V2 as (x & ? & E & V2 & ->).
    apply Forall2_nil_inv_l in V2 as ->. rewrite !last_snoc in *. destruct VH as [Hp _].
    rewrite (assign_ok _ _ _ _ _ _ H Hp E). eexists. split; [reflexivity|]. split; [|done].
    apply rep_logged. rewrite removelast_last. eapply rep_setv; [exact H|by rewrite !app_length|intros k Hk; apply lookup_insert_ne; by intros ->|].
    pose proof (ao_nodup _ _ _ _ _ _ _ _ AO _ _ _ HI) as ND. apply NoDup_app in ND as (_ & ND & _).
    apply Forall2_app; [|constructor; [apply lookup_insert|constructor]].
    assert (F : forall q, q ∈ ps -> <[p := y]> (m_val (l_mem st)) !! q = m_val (l_mem st) !! q).
    { intros q Hq. apply lookup_insert_ne. intros ->. apply (ND _ Hq). constructor. }
    clear -V F. induction V; constructor; [by rewrite F by constructor|]. apply IHV. intros q Hq. apply F. by constructor.
Qed.

(** *** Pushing *)
Lemma in_alloc_ok {R} (f : M (A * mem T) R) (st : lstate) r a m :
  f (l_alloc st, l_mem st) = Ok r (a, m) -> in_alloc f st = Ok r (LState (l_node st) (l_size st) a m (l_drops st)).
Proof. intros E. unfold in_alloc. by rewrite E. Qed.

(** The state after [create_node]: a node holding [x] that is not linked. *)
Lemma create_ok st xs ps x : LRep st xs ps -> Z.of_nat (length xs) < B ->
  (nul = true /\ exists st', create_node aa chk nsz nal x st = Panic st' /\ LRep st' xs ps /\ l_drops st' = l_drops st ++ [x]) \/
  (exists p st', create_node aa chk nsz nal x st = Ok p st' /\ l_node st' = s /\ l_size st' = Z.of_nat (length xs) /\
    I (l_alloc st') (l_mem st') (p :: ps) /\ ring (m_word (l_mem st')) s ps /\
    Forall2 (fun p x => m_val (l_mem st') !! p = Some x) (p :: ps) (x :: xs) /\ l_drops st' = l_drops st).
Proof.
  intros H LT. pose proof H as [EN ES HI R V LB].
  destruct (ao_alloc _ _ _ _ _ _ _ _ AO _ _ _ HI) as (p & a' & m' & E & [KW KV] & C).
  { by rewrite (Forall2_length _ _ _ V). }
  assert (R' : ring (m_word m') s ps) by (eapply ring_frame; [exact R|exact KW]).
  assert (V' : Forall2 (fun p x => m_val m' !! p = Some x) ps xs) by (eapply vals_keep; [exact KV|exact V]).
  destruct C as [(-> & EN0 & I')|(NE & I')].
  - left. split; [done|]. unfold create_node. unfold bind at 1. unfold on_unwind at 1. rewrite (in_alloc_ok _ _ _ _ _ E). cbn [Z.eqb]. unfold on_unwind, panic. eexists. split; [reflexivity|]. split; [|done].
    apply rep_logged. by split.
  - right. unfold create_node. unfold bind at 1. unfold on_unwind at 1. rewrite (in_alloc_ok _ _ _ _ _ E). rewrite (proj2 (Z.eqb_neq p 0) NE). unfold bind.
    destruct (ao_node _ _ _ _ _ _ _ _ AO _ _ _ p I' ltac:(constructor)) as (? & ? & AC & _).
    rewrite put_val_ok by done. eexists _, _. split; [reflexivity|]. cbn. split; [done|]. split; [done|].
    split; [eapply ao_write; [exact AO|exact I'|apply (relinks_put (LState (l_node st) (l_size st) a' m' (l_drops st))); constructor]|].
    split; [done|]. split; [|done]. constructor; [apply lookup_insert|].
    pose proof (ao_nodup _ _ _ _ _ _ _ _ AO _ _ _ I') as ND. apply NoDup_cons in ND as [NI _].
    eapply (vals_eq (m_val m')); [|exact V']. intros q Hq. apply lookup_insert_ne. by intros ->.
Qed.

Lemma relinks_insert st a b c d va vb vc vd L :
  (forall k, k ∈ [a; b; c; d] -> exists x, x ∈ s :: L /\ (k = x \/ k = x + 8)) ->
  relinks s L (l_mem st) (l_mem (setw st (<[a := va]> (<[b := vb]> (<[c := vc]> (<[d := vd]> (m_word (l_mem st)))))))).
Proof.
  intros H. split; [done|]. split; [done|]. split; [|done]. intros k Hk. cbn.
  assert (X : forall y, y ∈ [a; b; c; d] -> y <> k). { intros y Hy ->. destruct (H k Hy) as (x & Hx & [-> | ->]); specialize (Hk x Hx); lia. }
  rewrite !lookup_insert_ne; [done|apply X..]; set_solver.
Qed.
Lemma relinks_remove st a b va vb L :
  (forall k, k ∈ [a; b] -> exists x, x ∈ s :: L /\ (k = x \/ k = x + 8)) ->
  relinks s L (l_mem st) (l_mem (setw st (<[a := va]> (<[b := vb]> (m_word (l_mem st)))))).
Proof.
  intros H. split; [done|]. split; [done|]. split; [|done]. intros k Hk. cbn.
  assert (X : forall y, y ∈ [a; b] -> y <> k). { intros y Hy ->. destruct (H k Hy) as (x & Hx & [-> | ->]); specialize (Hk x Hx); lia. }
  rewrite !lookup_insert_ne; [done|apply X..]; set_solver.
Qed.

Lemma u32_ok {S} c r (st : S) : 0 <= r < u32_lim -> u32 c r st = Ok r st.
Proof. intros H. unfold u32. by rewrite (proj2 (Z.leb_le 0 r)), (proj2 (Z.ltb_lt r u32_lim)) by lia. Qed.

(** Linking the new node between neighbours of the ring. *)
Lemma link_ok st xs ps p nx pv x (back : bool) : l_node st = s -> l_size st = Z.of_nat (length xs) ->
  I (l_alloc st) (l_mem st) (p :: ps) -> ring (m_word (l_mem st)) s ps ->
  Forall2 (fun p x => m_val (l_mem st) !! p = Some x) (p :: ps) (x :: xs) -> Z.of_nat (length xs) < B ->
  (nx, pv) = (if back then (s, last_of s ps) else (first_of s ps, s)) ->
  exists st', (run node_insert p nx; do n <- gets l_size; do n' <- u32 chk (n + 1); set_size n') st = Ok tt st' /\
    LRep st' (if back then xs ++ [x] else x :: xs) (if back then ps ++ [p] else p :: ps) /\ l_drops st' = l_drops st.
Proof.
  intros EN ES HI R V LT EP. apply Forall2_cons_1 in V as [VP V].
  assert (ND : NoDup (s :: p :: ps)) by (by eapply alloc_nodup).
  assert (SP : sep (s :: p :: ps)) by (by eapply alloc_sep).
  assert (NI : p ∉ s :: ps).
  { apply NoDup_cons in ND as [N1 ND]. apply NoDup_cons in ND as [N2 _]. intros H. apply elem_of_cons in H as [-> |H]; [apply N1; constructor|done]. }
  assert (ND' : NoDup (s :: ps)).
  { apply NoDup_cons in ND as [N1 ND]. apply NoDup_cons in ND as [N2 ND]. constructor; [|done]. intros H. apply N1. by constructor. }
  assert (SP' : sep (p :: s :: ps)) by (intros y z Hy Hz; apply SP; set_solver).
  assert (Hnx : nx ∈ s :: ps). { destruct back; injection EP as -> ->; [constructor|apply first_of_in]. }
  assert (Hpv : pv ∈ s :: ps). { destruct back; injection EP as -> ->; [apply last_of_in|constructor]. }
  assert (UP : forall y, y ∈ s :: ps -> y ∈ s :: p :: ps) by (intros y Hy; set_solver).
  assert (Hp : p ∈ s :: p :: ps) by set_solver.
  assert (E8 : m_word (l_mem st) !! (nx + 8) = Some pv).
  { destruct back; injection EP as -> ->; [apply ring_ends, R|]. destruct ps as [|q ps]; [apply (ring_ends _ _ _ R)|].
    unfold ring in R. cbn in R. apply Forall_cons in R as [[_ R] _]. exact R. }
  assert (X1 : p <> nx) by (by intros ->).
  assert (X2 : p <> nx + 8) by (apply SP; [done|auto]).
  destruct (alloc_words _ _ _ p HI Hp) as [W1 W2]. destruct (alloc_words _ _ _ nx HI (UP _ Hnx)) as [_ W3]. destruct (alloc_words _ _ _ pv HI (UP _ Hpv)) as [W4 _].
  unfold bind at 1. rewrite (node_insert_ok _ _ _ pv) by done. unfold bind at 1, gets at 1. unfold bind at 1. cbn [l_size setw]. rewrite ES.
  rewrite u32_ok by lia. eexists. split; [reflexivity|]. split; [|done]. split.
  - done.
  - cbn. destruct back; rewrite ?app_length; cbn; lia.
  - cbn. eapply ao_perm; [exact AO| |instantiate (1 := p :: ps); destruct back; [solve_Permutation|done]].
    eapply ao_write; [exact AO|exact HI|]. refine (relinks_insert st _ _ _ _ _ _ _ _ _ _).
    intros k Hk. repeat (apply elem_of_cons in Hk as [-> |Hk]); [exists nx|exists pv|exists p|exists p|by apply elem_of_nil in Hk]; auto.
  - cbn. destruct back; injection EP as -> ->; [by apply ring_push_back|by apply ring_push_front].
  - cbn. destruct back; [apply Forall2_app; [done|by constructor]|by constructor].
  - destruct back; rewrite ?app_length; cbn; lia.
Qed.

Lemma push_back_ok st xs ps x : LRep st xs ps -> Z.of_nat (length xs) < B ->
  (nul = true /\ exists st', push_back aa chk nsz nal x st = Panic st' /\ LRep st' xs ps /\ l_drops st' = l_drops st ++ [x]) \/
  (exists st' p, push_back aa chk nsz nal x st = Ok tt st' /\ LRep st' (xs ++ [x]) (ps ++ [p]) /\ l_drops st' = l_drops st).
Proof.
  intros H LT. unfold push_back.
  destruct (create_ok _ _ _ x H LT) as [(EN0 & st' & E & H' & D)|(p & st' & E & EN & ES & HI & R & V & D)].
  - left. split; [done|]. exists st'. unfold bind at 1. by rewrite E.
  - right. destruct (link_ok _ _ _ _ _ _ _ true EN ES HI R V LT eq_refl) as (st2 & E2 & H2 & D2). exists st2, p.
    split; [|split; [exact H2|by rewrite D2]]. unfold bind at 1. rewrite E. unfold bind at 1, gets at 1. rewrite EN. exact E2.
Qed.
Lemma push_front_ok st xs ps x : LRep st xs ps -> Z.of_nat (length xs) < B ->
  (nul = true /\ exists st', push_front aa chk nsz nal x st = Panic st' /\ LRep st' xs ps /\ l_drops st' = l_drops st ++ [x]) \/
  (exists st' p, push_front aa chk nsz nal x st = Ok tt st' /\ LRep st' (x :: xs) (p :: ps) /\ l_drops st' = l_drops st).
Proof.
  intros H LT. unfold push_front.
  destruct (create_ok _ _ _ x H LT) as [(EN0 & st' & E & H' & D)|(p & st' & E & EN & ES & HI & R & V & D)].
  - left. split; [done|]. exists st'. unfold bind at 1. by rewrite E.
  - right. destruct (link_ok _ _ _ _ _ _ _ false EN ES HI R V LT eq_refl) as (st2 & E2 & H2 & D2). exists st2, p.
    split; [|split; [exact H2|by rewrite D2]]. unfold bind at 1. rewrite E. unfold bind at 1, gets at 1. rewrite EN.
    unfold bind at 1. destruct (alloc_words _ _ _ s HI ltac:(constructor)) as [W1 _].
    unfold get_next. rewrite (get_word_ok _ _ _ W1 (proj1 (ring_ends _ _ _ R))). exact E2.
Qed.

Lemma extend_ok st xs ps ys : LRep st xs ps -> Z.of_nat (length xs + length ys) <= B ->
  (exists st' qs, extend aa chk nsz nal ys st = Ok tt st' /\ LRep st' (xs ++ ys) (ps ++ qs) /\ l_drops st' = l_drops st) \/
  (nul = true /\ exists k st' ps', (k < length ys)%nat /\ extend aa chk nsz nal ys st = Panic st' /\ LRep st' (xs ++ take k ys) ps' /\
     l_drops st' = l_drops st ++ drop k ys).
Proof.
  revert st xs ps. induction ys as [|y ys IH]; intros st xs ps H LE.
  - left. exists st, []. rewrite !app_nil_r. done.
  - cbn [extend]. cbn in LE. destruct (push_back_ok _ _ _ y H ltac:(lia)) as [(EN0 & st' & E & H' & D)|(st' & p & E & H' & D)].
    + right. split; [done|]. exists 0%nat, (logged ys st'), ps. split; [cbn; lia|]. unfold bind, on_unwind. rewrite E. split; [done|].
      rewrite take_0, drop_0, app_nil_r. split; [by apply rep_logged|]. cbn. rewrite D, <- app_assoc. done.
    + destruct (IH st' (xs ++ [y]) (ps ++ [p]) H') as [(st2 & qs & E2 & H2 & D2)|(EN0 & k & st2 & ps2 & K & E2 & H2 & D2)].
      { rewrite app_length. cbn. lia. }
      * left. exists st2, (p :: qs). unfold bind, on_unwind. rewrite E. rewrite <- !app_assoc in H2. split; [done|]. split; [done|]. by rewrite D2.
      * right. split; [done|]. exists (S k), st2, ps2. split; [cbn; lia|]. unfold bind, on_unwind. rewrite E. split; [done|].
        rewrite <- app_assoc in H2. split; [exact H2|]. rewrite D2, D. done.
Qed.

(** *** Removing *)
Lemma remove_ok st xs1 x xs2 ps1 p ps2 (front : bool) : FreeOK aa chk nsz s I -> LRep st (xs1 ++ x :: xs2) (ps1 ++ p :: ps2) ->
  length ps1 = length xs1 -> (if front then ps1 = [] else ps2 = []) ->
  exists st', remove_node aa chk nsz p st = Ok x st' /\ LRep st' (xs1 ++ xs2) (ps1 ++ ps2) /\ l_drops st' = l_drops st.
Proof.
  intros FR H L1 HF. pose proof H as [EN ES HI R V LB].
  assert (ND := alloc_nodup _ _ _ HI). assert (SP := alloc_sep _ _ _ HI).
  assert (V0 := V). apply Forall2_app_inv in V0 as [V1 V2]; [|done]. apply Forall2_cons_1 in V2 as [VP V2].
  set (nx := first_of s ps2). set (pv := last_of s ps1).
  assert (Hp : p ∈ s :: ps1 ++ p :: ps2) by (apply elem_of_cons; right; apply elem_of_app; right; constructor).
  assert (RR : m_word (l_mem st) !! p = Some nx /\ m_word (l_mem st) !! (p + 8) = Some pv /\
               ring (<[pv := nx]> (<[nx + 8 := pv]> (m_word (l_mem st)))) s (ps1 ++ ps2)).
  { destruct front; subst.
    - cbn in *. destruct (ring_pop_front _ _ _ _ ND SP R) as (_ & ? & ? & ?). done.
    - rewrite app_nil_r. destruct (ring_pop_back _ _ _ _ ND SP R) as (_ & ? & ? & ?). done. }
  destruct RR as (E1 & E2 & R').
  assert (Hnx : nx ∈ s :: ps1 ++ ps2).
  { pose proof (first_of_in s ps2) as X. fold nx in X. apply elem_of_cons in X as [-> |X]; [constructor|]. apply elem_of_cons; right. apply elem_of_app. by right. }
  assert (Hpv : pv ∈ s :: ps1 ++ ps2).
  { pose proof (last_of_in s ps1) as X. fold pv in X. apply elem_of_cons in X as [-> |X]; [constructor|]. apply elem_of_cons; right. apply elem_of_app. by left. }
  assert (UP : forall y, y ∈ s :: ps1 ++ ps2 -> y ∈ s :: ps1 ++ p :: ps2).
  { intros y Hy. apply elem_of_cons in Hy as [-> |Hy]; [constructor|]. apply elem_of_cons; right. apply elem_of_app in Hy as [Hy|Hy]; apply elem_of_app; [by left|right; by constructor]. }
  assert (NP : p ∉ s :: ps1 ++ ps2).
  { rewrite <- Permutation_middle in ND. apply NoDup_cons in ND as [N1 ND]. apply NoDup_cons in ND as [N2 _].
    intros X. apply elem_of_cons in X as [-> |X]; [apply N1; constructor|done]. }
  assert (X1 : p <> nx) by (by intros ->).
  assert (X2 : p <> nx + 8) by (apply SP; auto).
  destruct (alloc_words _ _ _ p HI Hp) as [W1 W2]. destruct (alloc_words _ _ _ nx HI (UP _ Hnx)) as [_ W3]. destruct (alloc_words _ _ _ pv HI (UP _ Hpv)) as [W4 _].
  unfold remove_node. unfold bind at 1. rewrite (node_remove_ok _ _ nx pv) by done.
  set (st1 := setw _ _).
  assert (I1 : I (l_alloc st1) (l_mem st1) (p :: ps1 ++ ps2)).
  { eapply ao_perm; [exact AO|instantiate (1 := ps1 ++ p :: ps2)|by rewrite Permutation_middle]. 
    eapply ao_write; [exact AO|exact HI|]. apply relinks_remove. intros k Hk.
    repeat (apply elem_of_cons in Hk as [-> |Hk]); [exists pv|exists nx|by apply elem_of_nil in Hk]; auto. }
  unfold bind at 1. rewrite (move_val_ok st1 _ _ _ p x I1 eq_refl ltac:(constructor) VP). set (st2 := setv _ _).
  assert (I2 : I (l_alloc st2) (l_mem st2) (p :: ps1 ++ ps2)) by (eapply ao_write; [exact AO|exact I1|apply (relinks_delete st1); constructor]).
  destruct (FR _ _ _ _ I2) as (a3 & m3 & E3 & [KW KV] & I3).
  unfold bind at 1. unfold on_unwind at 1. rewrite (in_alloc_ok _ _ _ _ _ E3). unfold bind at 1, gets at 1. cbn [l_size l_node l_drops st2 setv st1 setw].
  rewrite ES, app_length. cbn [length]. unfold bind at 1. unfold on_unwind at 1. rewrite app_length in LB. cbn [length] in LB. rewrite u32_ok by lia.
  eexists. split; [reflexivity|]. split; [|done]. split.
  - done.
  - cbn. rewrite app_length. lia.
  - exact I3.
  - cbn. eapply ring_frame; [exact R'|]. exact KW.
  - cbn. eapply vals_keep; [exact KV|]. cbn.
    assert (F : forall q, q ∈ ps1 ++ ps2 -> delete p (m_val (l_mem st)) !! q = m_val (l_mem st) !! q).
    { intros q Hq. apply lookup_delete_ne. intros ->. apply NP. by constructor. }
    assert (V12 := Forall2_app V1 V2). clear -V12 F. revert V12 F. generalize (ps1 ++ ps2). intros l V F.
    induction V; constructor; [by rewrite F by constructor|]. apply IHV. intros q Hq. apply F. by constructor.
  - rewrite app_length. lia.
Qed.

Lemma pop_front_ok st xs ps : FreeOK aa chk nsz s I -> LRep st xs ps ->
  exists st', pop_front aa chk nsz st = Ok (head xs) st' /\ LRep st' (tail xs) (tail ps) /\ l_drops st' = l_drops st.
Proof.
  intros FR H. pose proof H as [EN ES HI R V LB]. unfold pop_front. unfold bind at 1, gets at 1. rewrite EN. unfold bind at 1. rewrite (proj1 (ends _ _ _ H)).
  destruct V as [|p x ps xs VP V].
  - cbn. rewrite Z.eqb_refl. by exists st.
  - cbn [first_of hd]. rewrite (proj2 (Z.eqb_neq p s)) by (eapply alloc_ne; [done|constructor]).
    destruct (remove_ok st [] x xs [] p ps true FR H eq_refl eq_refl) as (st' & E & H' & D). exists st'.
    unfold bind. rewrite E. done.
Qed.
Lemma pop_back_ok st xs ps : FreeOK aa chk nsz s I -> LRep st xs ps ->
  exists st', pop_back aa chk nsz st = Ok (last xs) st' /\ LRep st' (removelast xs) (removelast ps) /\ l_drops st' = l_drops st.
Proof.
  intros FR H. pose proof H as [EN ES HI R V LB]. unfold pop_back. unfold bind at 1, gets at 1. rewrite EN. unfold bind at 1. rewrite (proj2 (ends _ _ _ H)).
  destruct ps as [|p ps _] using rev_ind.
  - apply Forall2_nil_inv_l in V as ->. cbn. rewrite Z.eqb_refl. by exists st.
  - apply Forall2_app_inv_l in V as (xs1 & xs2 & V & V2 & ->). apply Forall2_cons_inv_l in V2 as (x & ? & E & V2 & ->).
    apply Forall2_nil_inv_l in V2 as ->. unfold last_of. rewrite List.last_last, last_snoc, !removelast_last.
    rewrite (proj2 (Z.eqb_neq p s)) by (eapply alloc_ne; [done|apply elem_of_app; right; constructor]).
    destruct (remove_ok st xs1 x [] ps p [] false FR H (Forall2_length _ _ _ V) eq_refl) as (st' & E' & H' & D). exists st'.
    rewrite !app_nil_r in H'. unfold bind. rewrite E'. done.
Qed.

(** *** Clearing *)
Lemma init_sentinel_ok (st : lstate) a L : l_node st = s -> I a (l_mem st) L ->
  init_sentinel_node st = Ok tt (setw st (<[s := s]> (<[s + 8 := s]> (m_word (l_mem st))))).
Proof.
  intros EN HI. destruct (alloc_words _ _ _ s HI ltac:(constructor)) as [W1 W2]. unfold init_sentinel_node. unfold bind at 1, gets at 1. rewrite EN.
  unfold bind, set_prev, set_next. rewrite put_word_ok by done. by rewrite put_word_ok.
Qed.

Lemma clear_loop_ok fuel st ps (xs : list T) next : FreeOK aa chk nsz s I -> l_node st = s -> I (l_alloc st) (l_mem st) ps ->
  match ps with [] => next = s | p :: ps' => next = p /\ fwd (m_word (l_mem st)) p ps' s end ->
  Forall2 (fun p x => m_val (l_mem st) !! p = Some x) ps xs -> (length ps <= fuel)%nat ->
  exists st', clear_loop aa chk nsz fuel next st = Ok tt st' /\ l_node st' = s /\ I (l_alloc st') (l_mem st') [] /\ l_drops st' = l_drops st ++ xs.
Proof.
  intros FR. revert st ps xs next. induction fuel as [|fuel IH]; intros st ps xs next EN HI F V LE.
  - destruct ps; [|cbn in LE; lia]. apply Forall2_nil_inv_l in V as ->. cbn [clear_loop]. unfold bind at 1, gets. rewrite EN, F, Z.eqb_refl.
    exists st. split; [done|]. rewrite app_nil_r. done.
  - cbn [clear_loop]. unfold bind at 1, gets at 1. rewrite EN. destruct V as [|p x ps xs VP V].
    + rewrite F, Z.eqb_refl. exists st. split; [done|]. rewrite app_nil_r. done.
    + destruct F as [-> F]. rewrite (proj2 (Z.eqb_neq p s)) by (eapply alloc_ne; [done|constructor]).
      destruct (alloc_words _ _ _ p HI ltac:(apply elem_of_cons; right; constructor)) as [W1 _].
      set (nx := match ps with [] => s | q :: _ => q end).
      assert (EP : m_word (l_mem st) !! p = Some nx) by (destruct ps; apply F).
      unfold bind at 1. unfold get_next. rewrite (get_word_ok _ _ _ W1 EP).
      unfold bind at 1. rewrite (move_val_ok st _ _ _ p x HI eq_refl ltac:(constructor) VP).
      unfold bind at 1, modify at 1. set (st1 := logged _ _).
      assert (I1 : I (l_alloc st1) (l_mem st1) (p :: ps)) by (eapply ao_write; [exact AO|exact HI|apply (relinks_delete st); constructor]).
      destruct (FR _ _ _ _ I1) as (a2 & m2 & E2 & [KW KV] & I2).
      unfold bind at 1. rewrite (in_alloc_ok _ _ _ _ _ E2). set (st2 := LState _ _ _ _ _).
      assert (ND := ao_nodup _ _ _ _ _ _ _ _ AO _ _ _ HI). apply NoDup_cons in ND as [NI ND].
      destruct (IH st2 ps xs nx) as (st3 & E3 & EN3 & I3 & D3); [done|exact I2| | |cbn in LE; lia|].
      * destruct ps as [|q ps]; [done|]. split; [done|]. cbn in F. eapply fwd_frame; [exact (proj2 F)|].
        intros y Hy. cbn. apply KW. by constructor.
      * cbn. eapply vals_keep; [exact KV|]. cbn.
        assert (FF : forall q, q ∈ ps -> delete p (m_val (l_mem st)) !! q = m_val (l_mem st) !! q).
        { intros q Hq. apply lookup_delete_ne. by intros ->. }
        clear -V FF. induction V; constructor; [by rewrite FF by constructor|]. apply IHV. intros q Hq. apply FF. by constructor.
      * exists st3. rewrite E3. split; [done|]. split; [done|]. split; [done|]. rewrite D3. cbn. by rewrite <- app_assoc.
Qed.

Lemma fuel_enough (w : gmap Z Z) ps : NoDup ps -> (forall p, p ∈ ps -> is_Some (w !! p)) -> (length ps <= size w)%nat.
Proof.
  intros ND H. rewrite <- (size_list_to_set (C := gset Z) ps ND), <- (size_dom (D := gset Z) w). apply subseteq_size.
  intros p Hp. apply elem_of_dom, H. by apply elem_of_list_to_set in Hp.
Qed.
Lemma ring_some w ps p : ring w s ps -> p ∈ s :: ps -> is_Some (w !! p).
Proof.
  intros R Hp. unfold ring in R. rewrite Forall_forall in R.
  assert (exists q, (p, q) ∈ zip (s :: ps) (ps ++ [s])) as (q & Hq); [|destruct (R _ Hq) as [E _]; eauto].
  apply elem_of_list_lookup in Hp as (i & Hi). assert (i < length (ps ++ [s]))%nat as Li.
  { apply lookup_lt_Some in Hi. rewrite app_length. cbn in *. lia. }
  apply lookup_lt_is_Some in Li as (q & Hq). exists q. apply elem_of_list_lookup. exists i. apply lookup_zip_with_Some. eauto.
Qed.
Lemma rep_fuel st xs ps : LRep st xs ps -> (length ps <= size (m_word (l_mem st)))%nat.
Proof.
  intros [EN ES HI R V LB]. apply fuel_enough; [by eapply ao_nodup|]. intros p Hp. eapply ring_some; [done|]. by constructor.
Qed.

Lemma clear_ok st xs ps : FreeOK aa chk nsz s I -> LRep st xs ps ->
  exists st', clear aa chk nsz st = Ok tt st' /\ LRep st' [] [] /\ l_drops st' = l_drops st ++ xs.
Proof.
  intros FR H. pose proof H as [EN ES HI R V LB]. unfold clear. unfold bind at 1, gets at 1. rewrite EN. unfold bind at 1. rewrite (proj1 (ends _ _ _ H)).
  unfold bind at 1, gets at 1. unfold bind at 1.
  destruct (clear_loop_ok (size (m_word (l_mem st))) st ps xs (first_of s ps) FR EN HI) as (st1 & E1 & EN1 & I1 & D1).
  - destruct ps as [|p ps]; [done|]. split; [done|]. apply seg_fwd. unfold ring in R. cbn in R. apply Forall_cons in R as [_ R]. exact R.
  - exact V.
  - by eapply rep_fuel.
  - rewrite E1. unfold bind at 1. rewrite (init_sentinel_ok _ _ _ EN1 I1). eexists. split; [reflexivity|]. split; [|exact D1]. split.
    + done.
    + done.
    + cbn. eapply ao_write; [exact AO|exact I1|]. refine (relinks_remove st1 _ _ _ _ _ _). intros k Hk. exists s. split; [constructor|].
      repeat (apply elem_of_cons in Hk as [-> |Hk]); [by left|by right|by apply elem_of_nil in Hk].
    + cbn. unfold ring. cbn. constructor; [|constructor]. split; cbn; [apply lookup_insert|]. rewrite lookup_insert_ne by lia. apply lookup_insert.
    + constructor.
    + cbn. lia.
Qed.

(** *** Iterating *)
(** The iterator stands at [x] before the elements [ys] at [rest]. *)
Definition it_at (st : lstate) (x : Z) (rest : list Z) (ys : list T) (i : liter) : Prop :=
  i = LIter s x (Z.of_nat (length ys)) /\ fwd (m_word (l_mem st)) x rest s /\
  Forall2 (fun p x => m_val (l_mem st) !! p = Some x) rest ys.

Lemma fwd_in w x rest e : fwd w x rest e -> w !! x = Some (match rest with [] => e | p :: _ => p end).
Proof. destruct rest; cbn; tauto. Qed.

Lemma iter_next_ok st x rest ys i ps : I (l_alloc st) (l_mem st) ps -> it_at st x rest ys i -> x ∈ s :: ps -> (forall p, p ∈ rest -> p ∈ ps) ->
  Z.of_nat (length ys) <= B ->
  iter_next chk i st = Ok (match rest with [] => (None, i) | p :: _ => (Some p, LIter s p (Z.of_nat (length ys - 1))) end) st.
Proof.
  intros HI (-> & F & V) Hx SUB LB. unfold iter_next. cbn [it_current it_sentinel it_len].
  destruct (alloc_words _ _ _ x HI Hx) as [W1 _]. unfold bind at 1, get_next. rewrite (get_word_ok _ _ _ W1 (fwd_in _ _ _ _ F)).
  destruct V as [|p y rest ys VP V].
  - by rewrite Z.eqb_refl.
  - rewrite (proj2 (Z.eqb_neq p s)) by (eapply alloc_ne; [done|apply SUB; constructor]). unfold bind. unfold u32_lim, usize_lim in *.
    cbn [length] in *. rewrite usizeZ_ok by (unfold usize_lim; lia). cbn. do 3 f_equal. f_equal. lia.
Qed.

Lemma it_at_next st x p rest y ys i : it_at st x (p :: rest) (y :: ys) i ->
  it_at st p rest ys (LIter s p (Z.of_nat (length (y :: ys) - 1))).
Proof.
  intros (-> & F & V). cbn in F. destruct F as [_ F]. apply Forall2_cons_1 in V as [_ V]. split; [|done].
  cbn [length]. by replace (S (length ys) - 1)%nat with (length ys) by lia.
Qed.

Lemma iter_loop_ok fuel st x rest ys i ps : I (l_alloc st) (l_mem st) ps -> it_at st x rest ys i -> x ∈ s :: ps -> (forall p, p ∈ rest -> p ∈ ps) ->
  Z.of_nat (length ys) <= B -> (length rest <= fuel)%nat -> iter_loop chk nsz fuel i st = Ok ys st.
Proof.
  intros HI. revert x rest ys i. induction fuel as [|fuel IH]; intros x rest ys i AT Hx SUB LB LE; cbn [iter_loop]; unfold bind at 1;
    rewrite (iter_next_ok _ _ _ _ _ _ HI AT Hx SUB LB); pose proof AT as (_ & _ & V).
  - destruct rest; [|cbn in LE; lia]. by apply Forall2_nil_inv_l in V as ->.
  - destruct V as [|p y rest ys VP V]; [done|]. cbn [fst snd].
    assert (Hp : p ∈ ps) by (apply SUB; constructor).
    destruct (ao_node _ _ _ _ _ _ _ _ AO _ _ _ _ HI Hp) as (_ & _ & AC & _).
    unfold bind at 1, get_val at 1, bind at 1, gets at 1, load_val. rewrite AC, VP. cbn [or_ub]. unfold ret at 1. unfold bind.
    rewrite (IH p rest ys); [done|by eapply it_at_next|by constructor|intros q Hq; apply SUB; by constructor|cbn in LB; lia|cbn in LE; lia].
Qed.
Lemma rep_fwd st xs ps : LRep st xs ps -> it_at st s ps xs (LIter s s (Z.of_nat (length xs))).
Proof. intros [EN ES HI R V LB]. split; [done|]. split; [|done]. apply seg_fwd. exact R. Qed.

Lemma iter_all_ok st xs ps : LRep st xs ps -> iter_all chk nsz st = Ok xs st.
Proof.
  intros H. pose proof H as [EN ES HI R V LB]. unfold iter_all, iter, size_. unfold bind at 1, bind at 1, gets at 1, bind at 1, gets at 1. rewrite EN, ES.
  unfold ret at 1. unfold bind, gets. eapply iter_loop_ok; [exact HI|by apply rep_fwd|constructor|done|done|]. by eapply rep_fuel.
Qed.

(** [k] calls of [next]. *)
Lemma iter_take_ok k st x rest ys i ps : I (l_alloc st) (l_mem st) ps -> it_at st x rest ys i -> x ∈ s :: ps -> (forall p, p ∈ rest -> p ∈ ps) ->
  Z.of_nat (length ys) <= B ->
  exists i', iter_take chk nsz k i st = Ok (map Some (take k ys) ++ replicate (k - length ys) None, i') st /\
    it_len i' = Z.of_nat (length ys - k).
Proof.
  intros HI. revert x rest ys i. induction k as [|k IH]; intros x rest ys i AT Hx SUB LB.
  - exists i. rewrite take_0. cbn. split; [done|]. destruct AT as (-> & _). cbn. by rewrite Nat.sub_0_r.
  - cbn [iter_take]. unfold bind at 1. rewrite (iter_next_ok _ _ _ _ _ _ HI AT Hx SUB LB). pose proof AT as (Ei & _ & V).
    destruct V as [|p y rest ys VP V]; cbn [fst snd].
    + unfold bind at 1. cbn [read_place]. unfold ret at 1. destruct (IH x [] [] i AT Hx SUB LB) as (i' & E & L). unfold bind. rewrite E.
      exists i'. split; [|done]. cbn. destruct k; done.
    + assert (Hp : p ∈ ps) by (apply SUB; constructor).
      destruct (ao_node _ _ _ _ _ _ _ _ AO _ _ _ _ HI Hp) as (_ & _ & AC & _).
      unfold bind at 1. cbn [read_place]. unfold bind at 1, get_val at 1, bind at 1, gets at 1, load_val. rewrite AC, VP. cbn [or_ub]. unfold ret at 1. unfold ret at 1.
      destruct (IH p rest ys (LIter s p (Z.of_nat (length (y :: ys) - 1)))) as (i' & E & L);
        [by eapply it_at_next|by constructor|intros q Hq; apply SUB; by constructor|cbn in LB; lia|].
      unfold bind. rewrite E. exists i'. split; [done|]. rewrite L. cbn. done.
Qed.

(** Replacing each element in place. *)
Lemma iter_mut_loop_ok fuel st x done_ rest zs ys g i :
  I (l_alloc st) (l_mem st) (done_ ++ rest) -> it_at st x rest ys i -> x ∈ s :: done_ ->
  Forall2 (fun p x => m_val (l_mem st) !! p = Some x) done_ zs ->
  Z.of_nat (length ys) <= B -> (length rest <= fuel)%nat ->
  exists v, iter_mut_loop chk nsz fuel g i st = Ok ys (setv st v) /\
    Forall2 (fun p x => v !! p = Some x) (done_ ++ rest) (zs ++ map g ys) /\
    (forall k, k ∉ done_ ++ rest -> v !! k = m_val (l_mem st) !! k).
Proof.
  revert st x done_ rest zs ys i. induction fuel as [|fuel IH]; intros st x dn rest zs ys i HI AT Hx VD LB LE; cbn [iter_mut_loop]; unfold bind at 1;
    rewrite (iter_next_ok _ _ _ _ _ _ HI AT ltac:(set_solver) ltac:(set_solver) LB); pose proof AT as (_ & F & V).
  - destruct rest; [|cbn in LE; lia]. apply Forall2_nil_inv_l in V as ->. exists (m_val (l_mem st)). cbn. rewrite !app_nil_r. split; [|done].
    unfold ret, setv. by destruct st as [? ? ? [] ?].
  - destruct V as [|p y rest ys VP V].
    + exists (m_val (l_mem st)). cbn. rewrite !app_nil_r. split; [|done]. unfold ret, setv. by destruct st as [? ? ? [] ?].
    + cbn [fst snd].
      assert (Hp : p ∈ dn ++ p :: rest) by (apply elem_of_app; right; constructor).
      destruct (ao_node _ _ _ _ _ _ _ _ AO _ _ _ _ HI Hp) as (_ & _ & AC & _).
      unfold bind at 1, get_val at 1, bind at 1, gets at 1, load_val. rewrite AC, VP. cbn [or_ub]. unfold ret at 1.
      unfold bind at 1. rewrite put_val_ok by done. set (st1 := setv _ _).
      assert (ND := ao_nodup _ _ _ _ _ _ _ _ AO _ _ _ HI). rewrite <- Permutation_middle in ND. apply NoDup_cons in ND as [NI ND].
      assert (FF : forall q, q ∈ dn ++ rest -> <[p := g y]> (m_val (l_mem st)) !! q = m_val (l_mem st) !! q).
      { intros q Hq. apply lookup_insert_ne. by intros ->. }
      destruct (IH st1 p (dn ++ [p]) rest (zs ++ [g y]) ys (LIter s p (Z.of_nat (length (y :: ys) - 1)))) as (v & E & FV & KV).
      * rewrite <- app_assoc. cbn [app]. eapply ao_write; [exact AO|exact HI|by apply relinks_put].
      * apply it_at_next in AT. destruct AT as (A1 & A2 & A3). split; [done|]. split; [done|].
        eapply (vals_keep (l_mem st)); [|exact A3]. intros q Hq. apply FF, elem_of_app. by right.
      * set_solver.
      * apply Forall2_app; [|constructor; [apply lookup_insert|constructor]].
        eapply (vals_keep (l_mem st)); [|exact VD]. intros q Hq. apply FF, elem_of_app. by left.
      * cbn in LB. lia.
      * cbn in LE. lia.
      * exists v. unfold bind. rewrite E. split; [done|]. rewrite <- !app_assoc in FV. split; [exact FV|].
        intros k Hk. rewrite <- app_assoc in KV. rewrite (KV k Hk). cbn. apply lookup_insert_ne. by intros ->.
Qed.
Lemma iter_mut_ok st xs ps g : LRep st xs ps ->
  exists st', iter_mut_all chk nsz g st = Ok xs st' /\ LRep st' (map g xs) ps /\ l_drops st' = l_drops st.
Proof.
  intros H. pose proof H as [EN ES HI R V LB].
  destruct (iter_mut_loop_ok (size (m_word (l_mem st))) st s [] ps [] xs g (LIter s s (Z.of_nat (length xs)))) as (v & E & F & K);
    [done|by apply rep_fwd|constructor|constructor|done|by eapply rep_fuel|].
  exists (setv st v). split.
  - unfold iter_mut_all, iter, size_. unfold bind at 1, bind at 1, gets at 1, bind at 1, gets at 1. rewrite EN, ES. unfold ret at 1. unfold bind, gets. exact E.
  - split; [|done]. eapply rep_setv; [exact H|by rewrite map_length|exact K|exact F].
Qed.

(** *** An allocator that insists on the layout *)
Lemma remove_ub st xs1 x xs2 ps1 p ps2 (front : bool) : (forall a m p L, I a m (p :: L) -> deallocate aa chk 16 8 p nsz (a, m) = UB) -> LRep st (xs1 ++ x :: xs2) (ps1 ++ p :: ps2) ->
  length ps1 = length xs1 -> (if front then ps1 = [] else ps2 = []) ->
  remove_node aa chk nsz p st = UB.
Proof.
  intros FR H L1 HF. pose proof H as [EN ES HI R V LB].
  assert (ND := alloc_nodup _ _ _ HI). assert (SP := alloc_sep _ _ _ HI).
  assert (V0 := V). apply Forall2_app_inv in V0 as [V1 V2]; [|done]. apply Forall2_cons_1 in V2 as [VP V2].
  set (nx := first_of s ps2). set (pv := last_of s ps1).
  assert (Hp : p ∈ s :: ps1 ++ p :: ps2) by (apply elem_of_cons; right; apply elem_of_app; right; constructor).
  assert (RR : m_word (l_mem st) !! p = Some nx /\ m_word (l_mem st) !! (p + 8) = Some pv /\
               ring (<[pv := nx]> (<[nx + 8 := pv]> (m_word (l_mem st)))) s (ps1 ++ ps2)).
  { destruct front; subst.
    - cbn in *. destruct (ring_pop_front _ _ _ _ ND SP R) as (_ & ? & ? & ?). done.
    - rewrite app_nil_r. destruct (ring_pop_back _ _ _ _ ND SP R) as (_ & ? & ? & ?). done. }
  destruct RR as (E1 & E2 & R').
  assert (Hnx : nx ∈ s :: ps1 ++ ps2).
  { pose proof (first_of_in s ps2) as X. fold nx in X. apply elem_of_cons in X as [-> |X]; [constructor|]. apply elem_of_cons; right. apply elem_of_app. by right. }
  assert (Hpv : pv ∈ s :: ps1 ++ ps2).
  { pose proof (last_of_in s ps1) as X. fold pv in X. apply elem_of_cons in X as [-> |X]; [constructor|]. apply elem_of_cons; right. apply elem_of_app. by left. }
  assert (UP : forall y, y ∈ s :: ps1 ++ ps2 -> y ∈ s :: ps1 ++ p :: ps2).
  { intros y Hy. apply elem_of_cons in Hy as [-> |Hy]; [constructor|]. apply elem_of_cons; right. apply elem_of_app in Hy as [Hy|Hy]; apply elem_of_app; [by left|right; by constructor]. }
  assert (NP : p ∉ s :: ps1 ++ ps2).
  { rewrite <- Permutation_middle in ND. apply NoDup_cons in ND as [N1 ND]. apply NoDup_cons in ND as [N2 _].
    intros X. apply elem_of_cons in X as [-> |X]; [apply N1; constructor|done]. }
  assert (X1 : p <> nx) by (by intros ->).
  assert (X2 : p <> nx + 8) by (apply SP; auto).
  destruct (alloc_words _ _ _ p HI Hp) as [W1 W2]. destruct (alloc_words _ _ _ nx HI (UP _ Hnx)) as [_ W3]. destruct (alloc_words _ _ _ pv HI (UP _ Hpv)) as [W4 _].
  unfold remove_node. unfold bind at 1. rewrite (node_remove_ok _ _ nx pv) by done.
  set (st1 := setw _ _).
  assert (I1 : I (l_alloc st1) (l_mem st1) (p :: ps1 ++ ps2)).
  { eapply ao_perm; [exact AO|instantiate (1 := ps1 ++ p :: ps2)|by rewrite Permutation_middle]. 
    eapply ao_write; [exact AO|exact HI|]. apply relinks_remove. intros k Hk.
    repeat (apply elem_of_cons in Hk as [-> |Hk]); [exists pv|exists nx|by apply elem_of_nil in Hk]; auto. }
  unfold bind at 1. rewrite (move_val_ok st1 _ _ _ p x I1 eq_refl ltac:(constructor) VP). set (st2 := setv _ _).
  assert (I2 : I (l_alloc st2) (l_mem st2) (p :: ps1 ++ ps2)) by (eapply ao_write; [exact AO|exact I1|apply (relinks_delete st1); constructor]).
  unfold bind at 1. unfold on_unwind at 1. unfold in_alloc at 1. by rewrite (FR _ _ _ _ I2).
Qed.

Lemma bad_free st xs ps : (forall a m p L, I a m (p :: L) -> deallocate aa chk 16 8 p nsz (a, m) = UB) -> LRep st xs ps -> xs <> [] ->
  pop_front aa chk nsz st = UB /\ pop_back aa chk nsz st = UB /\ clear aa chk nsz st = UB.
Proof.
  intros FR H NE. pose proof H as [EN ES HI R V LB]. split; [|split].
  - unfold pop_front. unfold bind at 1, gets at 1. rewrite EN. unfold bind at 1. rewrite (proj1 (ends _ _ _ H)).
    destruct V as [|p x ps xs VP V]; [done|].
    cbn [first_of hd]. rewrite (proj2 (Z.eqb_neq p s)) by (eapply alloc_ne; [done|constructor]).
    unfold bind. by rewrite (remove_ub st [] x xs [] p ps true FR H eq_refl eq_refl).
  - unfold pop_back. unfold bind at 1, gets at 1. rewrite EN. unfold bind at 1. rewrite (proj2 (ends _ _ _ H)).
    destruct ps as [|p ps _] using rev_ind; [by apply Forall2_nil_inv_l in V|].
    apply Forall2_app_inv_l in V as (xs1 & xs2 & V & V2 & ->). apply Forall2_cons_inv_l in V2 as (x & ? & E & V2 & ->).
    apply Forall2_nil_inv_l in V2 as ->. unfold last_of. rewrite List.last_last.
    rewrite (proj2 (Z.eqb_neq p s)) by (eapply alloc_ne; [done|apply elem_of_app; right; constructor]).
    unfold bind. by rewrite (remove_ub st xs1 x [] ps p [] false FR H (Forall2_length _ _ _ V) eq_refl).
  - unfold clear. unfold bind at 1, gets at 1. rewrite EN. unfold bind at 1. rewrite (proj1 (ends _ _ _ H)).
    unfold bind at 1, gets at 1. unfold bind at 1. pose proof (rep_fuel _ _ _ H) as LF.
    destruct V as [|p x ps xs VP V]; [done|]. destruct (size (m_word (l_mem st))) as [|fuel]; [cbn in LF; lia|].
    cbn [clear_loop first_of hd]. unfold bind at 1, gets at 1. rewrite EN. rewrite (proj2 (Z.eqb_neq p s)) by (eapply alloc_ne; [done|constructor]).
    destruct (alloc_words _ _ _ p HI ltac:(apply elem_of_cons; right; constructor)) as [W1 _].
    destruct (ring_some _ _ p R ltac:(apply elem_of_cons; right; constructor)) as [nx EP].
    unfold bind at 1. unfold get_next. rewrite (get_word_ok _ _ _ W1 EP).
    unfold bind at 1. rewrite (move_val_ok st _ _ _ p x HI eq_refl ltac:(constructor) VP).
    unfold bind at 1, modify at 1. set (st1 := logged _ _).
    assert (I1 : I (l_alloc st1) (l_mem st1) (p :: ps)) by (eapply ao_write; [exact AO|exact HI|apply (relinks_delete st); constructor]).
    unfold bind at 1. unfold in_alloc at 1. by rewrite (FR _ _ _ _ I1).
Qed.

End calls.
