(** The representation invariant of the hash table and the effect of each
    internal function. *)
From Verif Require Import Base Heap Alloc HeapLemmas VectorMapProofs RehashPolicy RehashPolicyProofs HashTable HashTableSpec.

Section proofs.
Context {K V : Type}.
Variables nsz nal : Z.
Variable eb : nat.
Variable chk : bool.
Variable hash : K -> Z.
Variable eqb : K -> K -> bool.
Hypothesis Hnsz : (0 < nsz)%Z.
Hypothesis Hlay : layout_ok nsz nal = true.

Notation tstate := (tstate K V).
Notation thp := (heap (tcell K V)).
Notation enode := (nat * (K * V))%type.

Definition with_h (s : tstate) (h : thp) : tstate := TState (t_arr s) (t_bc s) (t_ec s) (t_nr s) h (t_drops s).
Definition with_hd (s : tstate) (h : thp) (d : list (K + V)) : tstate := TState (t_arr s) (t_bc s) (t_ec s) (t_nr s) h d.

Definition slots (ps : list ptr) : list (option (tcell K V)) := map (fun p => Some (TSlot p)) ps ++ [Some TOnes].

Definition Slots (bytes : Z) (h : thp) (a : nat) (ps : list ptr) : Prop :=
  h_blk h !! a = Some (Block bytes 8 (slots ps)).

Definition nodeblk (k : K) (v : V) (nx : ptr) : block (tcell K V) := Block nsz nal [Some (TNode k v nx)].

Fixpoint chain (h : thp) (p : ptr) (l : list enode) : Prop :=
  match l with
  | [] => p = Null
  | e :: l' => exists nx, p = Ptr (fst e) 0 /\ h_blk h !! fst e = Some (nodeblk (fst (snd e)) (snd (snd e)) nx) /\ chain h nx l'
  end.

Lemma chain_frame h h' p l : chain h p l -> (forall b, b ∈ map fst l -> h_blk h' !! b = h_blk h !! b) -> chain h' p l.
Proof.
  revert p. induction l as [|e l IH]; intros p C F; [done|].
  destruct C as (nx & -> & E & C). exists nx. split; [done|]. split.
  - rewrite F; [done|left].
  - apply IH; [done|]. intros b Hb. apply F. by right.
Qed.

Lemma chains_frame h h' ps cs : Forall2 (chain h) ps cs ->
  (forall b, b ∈ map fst (concat cs) -> h_blk h' !! b = h_blk h !! b) -> Forall2 (chain h') ps cs.
Proof.
  induction 1 as [|p c ps cs C F IH]; intros H; constructor.
  - eapply chain_frame; [done|]. intros b Hb. apply H. cbn. rewrite map_app, elem_of_app. by left.
  - apply IH. intros b Hb. apply H. cbn. rewrite map_app, elem_of_app. by right.
Qed.

Lemma chain_live h p l b : chain h p l -> b ∈ map fst l -> is_Some (h_blk h !! b).
Proof.
  revert p. induction l as [|e l IH]; intros p C Hb; [by apply elem_of_nil in Hb|].
  destruct C as (nx & -> & E & C). cbn in Hb. apply elem_of_cons in Hb as [->|Hb]; eauto.
Qed.

Lemma chains_live h ps cs b : Forall2 (chain h) ps cs -> b ∈ map fst (concat cs) -> is_Some (h_blk h !! b).
Proof.
  induction 1 as [|p c ps cs C F IH]; cbn; [intros H; by apply elem_of_nil in H|].
  rewrite map_app, elem_of_app. intros [Hb|Hb]; [by eapply chain_live|auto].
Qed.

(** Distinct numbers below [n] are at most [n]. *)
Lemma NoDup_below (l : list nat) n : NoDup l -> (forall b, b ∈ l -> b < n) -> length l <= n.
Proof.
  intros ND B. rewrite <- (seq_length n 0). apply NoDup_incl_length.
  - by apply NoDup_ListNoDup.
  - intros b Hb. apply in_seq. apply elem_of_list_In in Hb. specialize (B b Hb). lia.
Qed.

Lemma chain_fuel h p l : heap_wf h -> chain h p l -> NoDup (map fst l) -> length l < S (h_next h).
Proof.
  intros W C ND. rewrite <- (map_length fst).
  pose proof (NoDup_below (map fst l) (h_next h) ND). enough (length (map fst l) <= h_next h) by lia.
  apply H. intros b Hb. apply W. by eapply chain_live.
Qed.

(** ** Memory access *)
Lemma slots_length ps : length (slots ps) = S (length ps).
Proof. unfold slots. rewrite app_length, map_length. cbn. lia. Qed.

Lemma slots_lookup ps i p : ps !! i = Some p -> slots ps !! i = Some (Some (TSlot p)).
Proof.
  intros H. unfold slots. rewrite lookup_app_l by (rewrite map_length; by eapply lookup_lt_Some).
  by rewrite list_lookup_fmap, H.
Qed.

Lemma slots_insert ps i q : i < length ps -> <[i := Some (TSlot q)]> (slots ps) = slots (<[i := q]> ps).
Proof.
  intros L. unfold slots. rewrite insert_app_l by (by rewrite map_length). f_equal.
  symmetry. apply (list_fmap_insert (fun p => Some (TSlot p))).
Qed.

Lemma hadd_slots by_ h a ps i : Slots by_ h a ps -> i <= S (length ps) -> hadd h (Ptr a 0) i = Some (Ptr a i).
Proof. intros E L. apply (hadd_ok h a 0 i _ E). cbn. rewrite slots_length. lia. Qed.

Lemma hadd_slots' by_ h a ps i n : Slots by_ h a ps -> i + n <= S (length ps) -> hadd h (Ptr a i) n = Some (Ptr a (i + n)).
Proof. intros E L. apply (hadd_ok h a i n _ E). cbn. rewrite slots_length. lia. Qed.

Lemma read_slot_ok by_ (s : tstate) a ps i p : Slots by_ (t_h s) a ps -> ps !! i = Some p ->
  read_slot (Ptr a i) s = Ok p s.
Proof.
  intros E H. unfold read_slot, bind, gets.
  by rewrite (hload_ok _ _ _ _ (TSlot p) E (slots_lookup ps i p H)).
Qed.

Lemma store_ok (s : tstate) a by_ al cs i c : h_blk (t_h s) !! a = Some (Block by_ al cs) -> a <> eb -> i < length cs ->
  store eb (Ptr a i) c s = Ok tt (with_h s (hset (t_h s) a (Block by_ al (<[i := Some c]> cs)))).
Proof.
  intros E N L. unfold store, bind, gets. rewrite (proj2 (Nat.eqb_neq _ _) N).
  unfold hstore. rewrite (hput_ok _ _ _ _ _ E) by (cbn; lia).
  cbn [bk_bytes bk_align bk_cells or_ub length app]. unfold ret. cbv beta iota.
  replace (i + 1) with (S i) by lia. rewrite <- insert_take_drop by done. reflexivity.
Qed.

Lemma write_slot_ok by_ (s : tstate) a ps i q : Slots by_ (t_h s) a ps -> a <> eb -> i < length ps ->
  write_slot eb (Ptr a i) q s = Ok tt (with_h s (hset (t_h s) a (Block by_ 8 (slots (<[i := q]> ps))))).
Proof.
  intros E N L. unfold write_slot. rewrite (store_ok _ _ _ _ _ _ _ E N) by (rewrite slots_length; lia).
  by rewrite slots_insert.
Qed.

Lemma node_at_ok (s : tstate) b k v nx : h_blk (t_h s) !! b = Some (nodeblk k v nx) ->
  node_at (Ptr b 0) s = Ok (k, v, nx) s.
Proof. intros E. unfold node_at, bind, gets. by rewrite (hload_ok _ b 0 _ (TNode k v nx) E eq_refl). Qed.

Lemma store_node_ok (s : tstate) b by_ al c c' : h_blk (t_h s) !! b = Some (Block by_ al [c]) -> b <> eb ->
  store eb (Ptr b 0) c' s = Ok tt (with_h s (hset (t_h s) b (Block by_ al [Some c']))).
Proof.
  intros E N. by rewrite (store_ok _ _ _ _ _ 0 _ E N) by (cbn; lia).
Qed.

Lemma alloc_node_ok (s : tstate) :
  allocate nsz nal 1 s = Ok (Ptr (h_next (t_h s)) 0) (with_h s (halloc (t_h s) (Block nsz nal [None]))).
Proof.
  unfold allocate, default_alloc. rewrite Z.mul_1_l.
  rewrite (proj2 (Z.eqb_neq _ _)) by lia. rewrite Hlay. cbn [fst snd].
  rewrite Z.div_same by lia. reflexivity.
Qed.

Lemma free_node_ok (s : tstate) b k v nx : h_blk (t_h s) !! b = Some (nodeblk k v nx) ->
  deallocate (Ptr b 0) nsz nal 1 s = Ok tt (with_h s (hdel (t_h s) b)).
Proof.
  intros E. unfold deallocate, default_free. rewrite Z.mul_1_l, Hlay. cbn [snd]. unfold hfree.
  rewrite E. cbn [bk_bytes bk_align nodeblk]. by rewrite !Z.eqb_refl.
Qed.

(** ** Searching a bucket *)
Lemma find_in_bucket_ok f (s : tstate) p l key : chain (t_h s) p l -> length l < f ->
  find_in_bucket eqb f p key s =
  Ok ((fun e : enode => Ptr (fst e) 0) <$> List.find (fun e : enode => eqb (fst (snd e)) key) l) s.
Proof.
  revert f p. induction l as [|e l IH]; intros f p C L; (destruct f as [|f]; [cbn in L; lia|]).
  - cbn in C. subst. reflexivity.
  - destruct C as (nx & -> & E & C). cbn [find_in_bucket]. unfold bind.
    rewrite (node_at_ok _ _ _ _ _ E). cbn [List.find].
    destruct (eqb (fst (snd e)) key); [done|].
    apply IH; [done|cbn in L; lia].
Qed.


(** ** Changing parts of the heap *)
(** Only blocks of [bs] differ, and nothing was allocated. *)
Definition frame (bs : list nat) (h h' : thp) : Prop :=
  h_next h' = h_next h /\ forall b, b ∉ bs -> h_blk h' !! b = h_blk h !! b.

Lemma frame_refl bs h : frame bs h h.
Proof. done. Qed.

Lemma frame_trans bs h1 h2 h3 : frame bs h1 h2 -> frame bs h2 h3 -> frame bs h1 h3.
Proof.
  intros [N1 F1] [N2 F2]. split; [congruence|]. intros b Hb. rewrite F2, F1 by done. done.
Qed.

Lemma frame_mono bs bs' h h' : frame bs h h' -> (forall b, b ∈ bs -> b ∈ bs') -> frame bs' h h'.
Proof. intros [N F] I. split; [done|]. intros b Hb. apply F. naive_solver. Qed.

Lemma frame_hset bs h b bk : b ∈ bs -> frame bs h (hset h b bk).
Proof. intros Hb. split; [done|]. intros b' N. cbn. rewrite lookup_insert_ne; [done|]. intros ->. done. Qed.

Lemma frame_hdel bs h b : b ∈ bs -> frame bs h (hdel h b).
Proof. intros Hb. split; [done|]. intros b' N. cbn. rewrite lookup_delete_ne; [done|]. intros ->. done. Qed.

Lemma frame_wf bs h h' : heap_wf h -> frame bs h h' -> (forall b, b ∈ bs -> is_Some (h_blk h !! b)) -> heap_wf h'.
Proof.
  intros W [N F] L b Hb. rewrite N. destruct (decide (b ∈ bs)) as [I|I]; [by apply W, L|].
  apply W. by rewrite <- F.
Qed.

(** Nulling a range of slots. *)
Lemma fill_null_ok (h0 : thp) a by_ al : a <> eb -> forall m i (s : tstate) cs,
  h_blk (t_h s) !! a = Some (Block by_ al cs) -> i + m <= length cs ->
  (forall j, j <= length cs -> hadd h0 (Ptr a 0) j = Some (Ptr a j)) ->
  exists h', for_each (seq i m) (fun i => do slot <- or_ub (hadd h0 (Ptr a 0) i); write_slot eb slot Null) s = Ok tt (with_h s h') /\
    frame [a] (t_h s) h' /\
    h_blk h' !! a = Some (Block by_ al (take i cs ++ replicate m (Some (TSlot Null)) ++ drop (i + m) cs)).
Proof.
  intros Na m. induction m as [|m IH]; intros i s cs E L A.
  - exists (t_h s). split; [by destruct s|]. split; [done|]. rewrite E. cbn [replicate app].
    by rewrite Nat.add_0_r, take_drop.
  - cbn [seq for_each]. unfold bind at 1 2. rewrite A by lia. cbn [or_ub]. unfold ret. cbv beta iota.
    unfold write_slot. rewrite (store_ok _ _ _ _ _ i _ E Na) by lia.
    destruct (IH (S i) (with_h s (hset (t_h s) a (Block by_ al (<[i:=Some (TSlot Null)]> cs)))) (<[i:=Some (TSlot Null)]> cs)) as (h' & R & F & B).
    { cbn. by rewrite lookup_insert. }
    { rewrite insert_length. lia. }
    { by rewrite insert_length. }
    exists h'. split; [exact R|]. split.
    + eapply frame_trans; [|exact F]. apply frame_hset. left.
    + rewrite B. f_equal. f_equal. cbn [replicate app].
      rewrite (take_S_r _ i (Some (TSlot Null))) by (rewrite list_lookup_insert by lia; done).
      rewrite take_insert by lia. rewrite drop_insert_gt by lia.
      rewrite <- app_assoc. cbn [app]. replace (S i + m) with (i + S m) by lia. reflexivity.
Qed.

(** ** Freeing nodes *)
Definition hdels (h : thp) (bs : list nat) : thp := foldr (fun b h => hdel h b) h bs.

Lemma hdels_next h bs : h_next (hdels h bs) = h_next h.
Proof. induction bs; [done|]. cbn. done. Qed.

Lemma hdels_in h bs b : b ∈ bs -> h_blk (hdels h bs) !! b = None.
Proof.
  induction bs as [|c bs IH]; intros H; [by apply elem_of_nil in H|]. cbn.
  destruct (decide (b = c)) as [->|N]; [by rewrite lookup_delete|].
  rewrite lookup_delete_ne by done. apply IH. apply elem_of_cons in H as [?|?]; done.
Qed.

Lemma hdels_out h bs b : b ∉ bs -> h_blk (hdels h bs) !! b = h_blk h !! b.
Proof.
  induction bs as [|c bs IH]; intros H; [done|]. cbn. apply not_elem_of_cons in H as [N H].
  rewrite lookup_delete_ne by done. by apply IH.
Qed.

Lemma parts_app (m1 m2 : list (K * V)) : parts (m1 ++ m2) = parts m1 ++ parts m2.
Proof. unfold parts. by rewrite flat_map_app. Qed.

Lemma free_bucket_ok l : forall f (s : tstate) p, chain (t_h s) p l -> l <> [] -> NoDup (map fst l) -> length l <= f ->
  free_bucket nsz nal f p s = Ok tt (with_hd s (hdels (t_h s) (map fst l)) (t_drops s ++ parts (map snd (rev l)))).
Proof.
  induction l as [|e l IH]; intros f s p C N ND L; [done|].
  destruct f as [|f]; [cbn in L; lia|].
  destruct C as (nx & -> & E & C). cbn [free_bucket]. unfold bind at 1.
  rewrite (node_at_ok _ _ _ _ _ E). cbn [map] in ND. apply NoDup_cons in ND as [NI ND].
  cbn [rev]. rewrite map_app, parts_app. cbn [map parts flat_map app].
  destruct l as [|e' l'].
  - cbn in C. subst nx. cbn [is_null negb]. unfold bind at 1. unfold ret at 1.
    unfold bind at 1, drop_all, modify.
    rewrite (free_node_ok _ _ _ _ _ (E : h_blk (t_h (logged _ s)) !! _ = _)). reflexivity.
  - assert (is_null nx = false) as -> by (destruct C as (? & -> & _); done).
    cbn [negb]. unfold bind at 1.
    rewrite (IH f s nx C) by (done || (cbn in L |- *; lia)).
    unfold bind at 1, drop_all, modify.
    set (s1 := with_hd _ _ _).
    assert (E1 : h_blk (t_h (logged [inl (fst (snd e)); inr (snd (snd e))] s1)) !! fst e = Some (nodeblk (fst (snd e)) (snd (snd e)) nx)).
    { cbn. fold (map fst l'). rewrite <- E. apply (hdels_out (t_h s) (map fst (e' :: l'))). done. }
    rewrite (free_node_ok _ _ _ _ _ E1). unfold s1, with_h, with_hd, logged. cbn [t_arr t_bc t_ec t_nr t_h t_drops].
    f_equal. f_equal. by rewrite <- app_assoc.
Qed.

(** What a bucket drops, and all of them. *)
Definition dropped (cs : list (list enode)) : list (K + V) := flat_map (fun c => parts (map snd (rev c))) cs.

Lemma parts_perm (m1 m2 : list (K * V)) : m1 ≡ₚ m2 -> parts m1 ≡ₚ parts m2.
Proof.
  induction 1 as [|x l l' P IH|x y l|l l' l'' P1 IH1 P2 IH2]; cbn; [done| | |by etrans].
  - by rewrite IH.
  - solve_Permutation.
Qed.

Lemma dropped_perm cs : dropped cs ≡ₚ parts (map snd (concat cs)).
Proof.
  induction cs as [|c cs IH]; [done|]. unfold dropped. cbn [flat_map concat]. fold (dropped cs).
  rewrite map_app, parts_app, IH. f_equiv.
  apply parts_perm. apply Permutation_map. symmetry. apply Permutation_rev.
Qed.

Lemma free_loop_ok by_ (h0 : thp) a : forall ps' cs' i ps (s : tstate),
  (forall j, j <= length ps -> hadd h0 (Ptr a 0) j = Some (Ptr a j)) ->
  heap_wf (t_h s) -> Slots by_ (t_h s) a ps -> drop i ps = ps' -> i <= length ps -> Forall2 (chain (t_h s)) ps' cs' ->
  NoDup (map fst (concat cs')) -> a ∉ map fst (concat cs') ->
  exists h', for_each (seq i (length ps')) (fun i =>
      do slot <- or_ub (hadd h0 (Ptr a 0) i);
      do p <- read_slot slot;
      if is_null p then ret tt
      else do f <- gets fuel; free_bucket nsz nal f p) s = Ok tt (with_hd s h' (t_drops s ++ dropped cs')) /\
    frame (map fst (concat cs')) (t_h s) h' /\
    (forall b, b ∈ map fst (concat cs') -> h_blk h' !! b = None).
Proof.
  induction ps' as [|p ps' IH]; intros cs' i ps s A W E D Li F ND Na.
  - apply Forall2_nil_inv_l in F as ->. exists (t_h s). split; [|split; [done|]].
    + cbn. unfold ret. rewrite app_nil_r. by destruct s.
    + intros b Hb. by apply elem_of_nil in Hb.
  - apply Forall2_cons_inv_l in F as (c & cs & C & F & ->).
    cbn [concat] in *. rewrite map_app in *. apply NoDup_app in ND as (ND1 & ND12 & ND2).
    apply not_elem_of_app in Na as [Na1 Na2].
    assert (Hp : ps !! i = Some p).
    { rewrite <- (Nat.add_0_r i), <- lookup_drop, D. done. }
    assert (D' : drop (S i) ps = ps').
    { rewrite <- Nat.add_1_r, <- drop_drop, D. done. }
    assert (Li' : S i <= length ps) by (apply lookup_lt_Some in Hp; lia).
    cbn [length seq for_each]. unfold bind at 1 2. rewrite A by lia. cbn [or_ub]. unfold ret at 1.
    unfold bind at 1. rewrite (read_slot_ok _ _ _ _ _ _ E Hp).
    destruct c as [|e c].
    + cbn in C. subst p. cbn [is_null]. unfold ret at 1.
      destruct (IH cs (S i) ps s A W E D' Li' F ND2 Na2) as (h' & R & FR & DE).
      exists h'. split; [exact R|]. split; [exact FR|exact DE].
    + assert (is_null p = false) as -> by (destruct C as (? & -> & _); done).
      unfold bind at 1, gets at 1.
      pose proof (chain_fuel _ _ _ W C ND1) as FU.
      rewrite (free_bucket_ok (e :: c) _ _ _ C) by (done || (unfold fuel; lia)).
      set (s1 := with_hd _ _ _).
      assert (F1 : frame (map fst (e :: c) ++ map fst (concat cs)) (t_h s) (t_h s1)).
      { split; [apply hdels_next|]. intros b Hb. apply hdels_out. set_solver. }
      destruct (IH cs (S i) ps s1 A) as (h' & R & FR & DE).
      * eapply frame_wf; [exact W|exact F1|]. intros b [Hb|Hb]%elem_of_app.
        -- by eapply chain_live.
        -- by eapply chains_live.
      * unfold Slots. rewrite <- E. by apply hdels_out.
      * done.
      * done.
      * eapply chains_frame; [exact F|]. intros b Hb. apply hdels_out. intros Hb'. by apply (ND12 b).
      * done.
      * done.
      * exists h'. split; [|split].
        -- rewrite R. unfold s1, with_hd. cbn [t_arr t_bc t_ec t_nr t_h t_drops]. f_equal. f_equal.
           unfold dropped. cbn [flat_map]. by rewrite <- app_assoc.
        -- eapply frame_trans; [exact F1|]. eapply frame_mono; [exact FR|]. set_solver.
        -- intros b Hb. destruct (decide (b ∈ map fst (concat cs))) as [I|I]; [by apply DE|].
           apply elem_of_app in Hb as [Hb|Hb]; [|done].
           rewrite (proj2 FR b I). by apply hdels_in.
Qed.

Lemma free_buckets_ok by_ a ps cs (s : tstate) :
  t_arr s = Ptr a 0 -> t_bc s = Z.of_nat (length ps) -> 1 < length ps -> a <> eb ->
  heap_wf (t_h s) -> Slots by_ (t_h s) a ps -> Forall2 (chain (t_h s)) ps cs ->
  NoDup (map fst (concat cs)) -> a ∉ map fst (concat cs) ->
  exists h', free_buckets nsz nal eb s = Ok tt (with_hd s h' (t_drops s ++ dropped cs)) /\
    frame (a :: map fst (concat cs)) (t_h s) h' /\
    (forall b, b ∈ map fst (concat cs) -> h_blk h' !! b = None) /\
    Slots by_ h' a (replicate (length ps) Null).
Proof.
  intros EA EB L Na W E F ND NI. unfold free_buckets. unfold bind at 1, gets at 1. cbn [id].
  rewrite EB, EA. rewrite (proj2 (Z.ltb_lt _ _)) by lia. rewrite Nat2Z.id.
  assert (A : forall j, j <= S (length ps) -> hadd (t_h s) (Ptr a 0) j = Some (Ptr a j)).
  { intros j Hj. by eapply hadd_slots. }
  destruct (free_loop_ok by_ (t_h s) a ps cs 0 ps s) as (h1 & R1 & F1 & D1); try done.
  { intros j Hj. apply A. lia. }
  { lia. }
  unfold bind at 1. rewrite R1.
  assert (E1 : h_blk h1 !! a = Some (Block by_ 8 (slots ps))) by (rewrite (proj2 F1) by done; exact E).
  destruct (fill_null_ok (t_h s) a by_ 8 Na (length ps) 0 (with_hd s h1 (t_drops s ++ dropped cs)) (slots ps)) as (h2 & R2 & F2 & B2); try done.
  { rewrite slots_length. lia. }
  { intros j Hj. apply A. rewrite slots_length in Hj. lia. }
  exists h2. split; [rewrite R2; done|]. split; [|split].
  - eapply frame_trans; [eapply frame_mono; [exact F1|]; intros b Hb; by right|].
    eapply frame_mono; [exact F2|]. set_solver.
  - intros b Hb. rewrite (proj2 F2); [by apply D1|]. intros ->%elem_of_list_singleton. done.
  - unfold Slots. rewrite B2. f_equal. f_equal. rewrite take_0. cbn [app]. unfold slots.
    rewrite Nat.add_0_l, drop_app_alt by (by rewrite map_length). f_equal.
    symmetry. apply (fmap_replicate (fun p => Some (TSlot p))).
Qed.

(** ** Rehashing *)
Definition idx (bc : Z) (k : K) : nat := Z.to_nat (hash k mod bc).

Lemma idx_lt n k : 0 < n -> idx (Z.of_nat n) k < n.
Proof. intros L. unfold idx. pose proof (Z.mod_pos_bound (hash k) (Z.of_nat n)). lia. Qed.

Lemma bucket_index_ok n k (s : tstate) : 0 < n -> bucket_index hash (Z.of_nat n) k s = Ok (idx (Z.of_nat n) k) s.
Proof. intros L. unfold bucket_index. by rewrite (proj2 (Z.eqb_neq _ _)) by lia. Qed.

(** Adding a node in front of its bucket. *)
Definition push_at (bc : Z) (cs : list (list enode)) (e : enode) : list (list enode) :=
  alter (cons e) (idx bc (fst (snd e))) cs.
Definition push_all (bc : Z) (l : list enode) (cs : list (list enode)) : list (list enode) :=
  fold_left (push_at bc) l cs.

Lemma push_at_length bc cs e : length (push_at bc cs e) = length cs.
Proof. unfold push_at. apply alter_length. Qed.

Lemma alter_insert {A} (f : A -> A) (i : nat) (l : list A) x : l !! i = Some x -> alter f i l = <[i := f x]> l.
Proof.
  revert i. induction l as [|y l IH]; intros [|i] H; cbn in *; try done.
  - by injection H as ->.
  - f_equal. by apply IH.
Qed.

Lemma concat_insert_perm {A} (cs : list (list A)) (i : nat) c c' :
  cs !! i = Some c -> concat (<[i := c']> cs) ++ c ≡ₚ concat cs ++ c'.
Proof.
  intros H. pose proof (lookup_lt_Some _ _ _ H) as L.
  rewrite insert_take_drop by done.
  rewrite <- (take_drop_middle cs i c H) at 3.
  rewrite !concat_app. cbn [concat]. solve_Permutation.
Qed.

Lemma push_at_perm bc cs e : idx bc (fst (snd e)) < length cs -> concat (push_at bc cs e) ≡ₚ e :: concat cs.
Proof.
  intros L. apply lookup_lt_is_Some in L as [c H]. unfold push_at.
  rewrite (alter_insert _ _ _ _ H).
  pose proof (concat_insert_perm cs _ c (e :: c) H) as P.
  apply (Permutation_app_inv_r c). rewrite P. solve_Permutation.
Qed.

(** Every entry is in the bucket of its hash. *)
Definition placed (bc : Z) (cs : list (list enode)) : Prop :=
  forall i c e, cs !! i = Some c -> e ∈ c -> idx bc (fst (snd e)) = i.

Lemma push_at_placed bc cs e : placed bc cs -> placed bc (push_at bc cs e).
Proof.
  intros P i c x Hc Hx. unfold push_at in Hc.
  destruct (decide (i = idx bc (fst (snd e)))) as [->|N].
  - rewrite list_lookup_alter in Hc. destruct (cs !! _) as [c0|] eqn:E; [|done].
    cbn in Hc. injection Hc as <-. apply elem_of_cons in Hx as [->|Hx]; [done|]. by eapply P.
  - rewrite list_lookup_alter_ne in Hc by done. by eapply P.
Qed.

Lemma push_all_spec n l cs : 0 < n -> length cs = n ->
  length (push_all (Z.of_nat n) l cs) = n /\ concat (push_all (Z.of_nat n) l cs) ≡ₚ l ++ concat cs /\
  (placed (Z.of_nat n) cs -> placed (Z.of_nat n) (push_all (Z.of_nat n) l cs)).
Proof.
  intros Hn. revert cs. induction l as [|e l IH]; intros cs L; cbn [push_all fold_left]; [done|].
  destruct (IH (push_at (Z.of_nat n) cs e)) as (L' & P' & PL').
  { by rewrite push_at_length. }
  split; [done|]. split.
  - rewrite P', push_at_perm by (rewrite L; by apply idx_lt). solve_Permutation.
  - intros PL. by apply PL', push_at_placed.
Qed.

Lemma not2 (x a b : nat) : x <> a -> x <> b -> x ∉ [a; b].
Proof. intros. rewrite !elem_of_cons, elem_of_nil. tauto. Qed.

Lemma rehash_bucket_ok by_ nb n : 0 < n -> nb <> eb -> forall l f (s : tstate) p ps cs,
  chain (t_h s) p l -> length l < f -> Slots by_ (t_h s) nb ps -> length ps = n -> Forall2 (chain (t_h s)) ps cs ->
  NoDup (map fst l ++ map fst (concat cs) ++ [nb]) -> eb ∉ map fst l ->
  exists h' ps', rehash_bucket eb hash f (Ptr nb 0) (Z.of_nat n) p s = Ok tt (with_h s h') /\
    frame (nb :: map fst l) (t_h s) h' /\ length ps' = n /\ Slots by_ h' nb ps' /\
    Forall2 (chain h') ps' (push_all (Z.of_nat n) l cs).
Proof.
  intros Hn Nb. induction l as [|e l IH]; intros f s p ps cs C L E Lp F ND NE; (destruct f as [|f]; [cbn in L; lia|]).
  - cbn in C. subst p. exists (t_h s), ps. cbn. split; [by destruct s|]. done.
  - destruct C as (nx & -> & EN & C). cbn [rehash_bucket]. unfold bind at 1.
    rewrite (node_at_ok _ _ _ _ _ EN). unfold bind at 1.
    rewrite (bucket_index_ok n _ s Hn). unfold bind at 1, gets at 1.
    set (i := idx (Z.of_nat n) (fst (snd e))).
    assert (Hi : i < n) by (by apply idx_lt).
    rewrite (proj2 (Z.ltb_lt _ _)) by lia.
    unfold bind at 1. rewrite (hadd_slots _ _ _ _ i E) by lia. cbn [or_ub]. unfold ret at 1.
    assert (is_Some (ps !! i)) as [q Hq] by (apply lookup_lt_is_Some; lia).
    unfold bind at 1. rewrite (read_slot_ok _ _ _ _ _ _ E Hq).
    cbn [map] in ND, NE. rewrite <- app_comm_cons in ND. apply NoDup_cons in ND as [NI ND].
    apply not_elem_of_cons in NE as [NE1 NE2].
    rewrite !elem_of_app, elem_of_list_singleton in NI.
    assert (Ne : fst e <> nb) by tauto. assert (NE3 : fst e ∉ map fst l) by tauto. assert (NE4 : fst e ∉ map fst (concat cs)) by tauto.
    assert (NB : nb ∉ map fst l /\ nb ∉ map fst (concat cs)).
    { apply NoDup_app in ND as (_ & N1 & N2). apply NoDup_app in N2 as (_ & N2 & _). split; intros H.
      - apply (N1 nb H), elem_of_app. right. left.
      - apply (N2 nb H). left. }
    destruct NB as [NB1 NB2].
    unfold bind at 1. rewrite (store_node_ok _ _ _ _ _ _ EN) by done.
    set (h1 := hset (t_h s) (fst e) _).
    assert (E1 : Slots by_ (t_h (with_h s h1)) nb ps).
    { unfold Slots. cbn. rewrite lookup_insert_ne by done. exact E. }
    unfold bind at 1. rewrite (write_slot_ok _ _ _ _ _ _ E1) by (done || lia).
    set (h2 := hset (t_h (with_h s h1)) nb _).
    assert (FR : frame [fst e; nb] (t_h s) h2).
    { eapply frame_trans; [apply frame_hset; left|apply frame_hset; right; left]. }
    assert (exists c, cs !! i = Some c) as [c Hc].
    { eapply Forall2_lookup_l in F as (c & Hc & _); [|exact Hq]. eauto. }
    assert (CQ : chain (t_h s) q c) by (by eapply Forall2_lookup_lr in F).
    assert (INC : forall b, b ∈ map fst c -> b ∈ map fst (concat cs)).
    { intros b Hb. apply elem_of_list_fmap in Hb as (x & -> & Hx). apply elem_of_list_fmap. exists x. split; [done|].
      apply elem_of_list_In, in_concat. exists c. rewrite <- !elem_of_list_In. split; [by eapply elem_of_list_lookup_2|done]. }
    assert (EPA : push_at (Z.of_nat n) cs e = <[i := e :: c]> cs).
    { unfold push_at. by rewrite (alter_insert _ _ _ c). }
    destruct (IH f (with_h (with_h s h1) h2) nx (<[i := Ptr (fst e) 0]> ps) (push_at (Z.of_nat n) cs e)) as (h' & ps' & R & FR' & L' & S' & F').
    + eapply chain_frame; [exact C|]. intros b Hb. apply FR. apply not2; congruence.
    + cbn in L. lia.
    + unfold Slots. cbn. by rewrite lookup_insert.
    + by rewrite insert_length.
    + rewrite EPA. apply Forall2_insert.
      * eapply chains_frame; [exact F|]. intros b Hb. apply FR. apply not2; congruence.
      * exists q. split; [done|]. split.
        -- cbn. rewrite lookup_insert_ne by done. by rewrite lookup_insert.
        -- eapply chain_frame; [exact CQ|]. intros b Hb. apply INC in Hb. apply FR. apply not2; congruence.
    + assert (P : concat (push_at (Z.of_nat n) cs e) ≡ₚ e :: concat cs).
      { apply push_at_perm. rewrite <- (Forall2_length _ _ _ F), Lp. done. }
      rewrite (Permutation_map fst P). cbn [map].
      assert (map fst l ++ (fst e :: map fst (concat cs)) ++ [nb] ≡ₚ fst e :: map fst l ++ map fst (concat cs) ++ [nb]) as -> by solve_Permutation.
      constructor; [|done]. rewrite !elem_of_app, elem_of_list_singleton. tauto.
    + done.
    + exists h', ps'. split; [exact R|]. split; [|done].
      eapply frame_trans; (eapply frame_mono; [eassumption|]); cbn [map]; intros b; rewrite !elem_of_cons, ?elem_of_nil; tauto.
Qed.

Lemma rehash_loop_ok by0 by2 (h0 : thp) a nb n : 0 < n -> nb <> eb -> a <> nb -> forall ps' cs' i ps ps2 cs2 (s : tstate),
  (forall j, j <= length ps -> hadd h0 (Ptr a 0) j = Some (Ptr a j)) ->
  heap_wf (t_h s) -> Slots by0 (t_h s) a ps -> drop i ps = ps' -> i <= length ps -> Forall2 (chain (t_h s)) ps' cs' ->
  Slots by2 (t_h s) nb ps2 -> length ps2 = n -> Forall2 (chain (t_h s)) ps2 cs2 ->
  NoDup (map fst (concat cs') ++ map fst (concat cs2) ++ [nb]) ->
  a ∉ map fst (concat cs') -> a ∉ map fst (concat cs2) -> eb ∉ map fst (concat cs') ->
  (a = eb -> concat cs' = []) ->
  exists h' ps2', for_each (seq i (length ps')) (fun i =>
        do slot <- or_ub (hadd h0 (Ptr a 0) i);
        do p <- read_slot slot;
        if is_null p then ret tt
        else
          do f <- gets fuel;
          run rehash_bucket eb hash f (Ptr nb 0) (Z.of_nat n) p;
          write_slot eb slot Null) s = Ok tt (with_h s h') /\
    frame (nb :: a :: map fst (concat cs')) (t_h s) h' /\
    Slots by0 h' a (take i ps ++ replicate (length ps') Null) /\
    length ps2' = n /\ Slots by2 h' nb ps2' /\
    Forall2 (chain h') ps2' (push_all (Z.of_nat n) (concat cs') cs2).
Proof.
  intros Hn Nb Nanb. induction ps' as [|p ps' IH]; intros cs' i ps ps2 cs2 s A W E D Li F E2 L2 F2 ND Na1 Na2 Ne Static.
  - apply Forall2_nil_inv_l in F as ->. exists (t_h s), ps2. split; [by destruct s|]. split; [done|].
    split; [|done]. cbn [length replicate]. rewrite app_nil_r, firstn_all2; [exact E|].
    assert (length (drop i ps) = 0) as H by (by rewrite D). rewrite drop_length in H. lia.
  - apply Forall2_cons_inv_l in F as (c & cs & C & F & ->).
    cbn [concat] in *. rewrite map_app in *.
    assert (Hp : ps !! i = Some p).
    { rewrite <- (Nat.add_0_r i), <- lookup_drop, D. done. }
    assert (D' : drop (S i) ps = ps').
    { rewrite <- Nat.add_1_r, <- drop_drop, D. done. }
    assert (Li' : S i <= length ps) by (apply lookup_lt_Some in Hp; lia).
    assert (TK : take (S i) ps = take i ps ++ [p]) by (by apply take_S_r).
    cbn [length seq for_each]. unfold bind at 1 2. rewrite A by lia. cbn [or_ub]. unfold ret at 1.
    unfold bind at 1. rewrite (read_slot_ok _ _ _ _ _ _ E Hp).
    destruct c as [|e c].
    + cbn in C. subst p. cbn [is_null]. unfold ret at 1.
      destruct (IH cs (S i) ps ps2 cs2 s A W E D' Li' F E2 L2 F2 ND Na1 Na2 Ne Static) as (h' & ps2' & R & FR & S1 & R2).
      exists h', ps2'. split; [exact R|]. split; [exact FR|]. split; [|exact R2].
      rewrite TK, <- app_assoc in S1. exact S1.
    + assert (is_null p = false) as -> by (destruct C as (? & -> & _); done).
      set (c1 := e :: c) in *.
      assert (Neb : a <> eb) by (intros Hs; specialize (Static Hs); done).
      rewrite <- app_assoc in ND.
      apply not_elem_of_app in Na1 as [Na1 Na3]. apply not_elem_of_app in Ne as [Ne1 Ne2].
      assert (NDc : NoDup (map fst c1 ++ map fst (concat cs2) ++ [nb])).
      { apply NoDup_app in ND as (N1 & N2 & N3). apply NoDup_app. split; [done|]. split.
        - intros x Hx Hx'. apply (N2 x Hx). rewrite elem_of_app. by right.
        - by apply NoDup_app in N3 as (_ & _ & N3). }
      assert (NDc1 : NoDup (map fst c1)) by (by apply NoDup_app in ND as (N1 & _)).
      pose proof (chain_fuel _ _ _ W C NDc1) as FU.
      unfold bind at 1, gets at 1.
      destruct (rehash_bucket_ok by2 nb n Hn Nb c1 (fuel s) s p ps2 cs2 C FU E2 L2 F2 NDc Ne1) as (h1 & ps2a & R1 & FR1 & L1 & S1 & F1).
      unfold bind at 1. rewrite R1.
      assert (Nbc : nb ∉ map fst c1 /\ nb ∉ map fst (concat cs) /\ nb ∉ map fst (concat cs2)).
      { apply NoDup_app in ND as (_ & N1 & N2). apply NoDup_app in N2 as (_ & N2 & N3). apply NoDup_app in N3 as (_ & N3 & _).
        split; [|split]; intros H.
        - apply (N1 nb H). rewrite !elem_of_app. right. right. left.
        - apply (N2 nb H). rewrite elem_of_app. right. left.
        - apply (N3 nb H). left. }
      destruct Nbc as (Nb1 & Nb2 & Nb3).
      assert (Dj : forall b, b ∈ map fst (concat cs) -> b ∉ map fst c1).
      { apply NoDup_app in ND as (_ & N1 & _). intros b Hb Hb'. apply (N1 b Hb'). rewrite !elem_of_app. by left. }
      assert (Ea1 : Slots by0 (t_h (with_h s h1)) a ps).
      { unfold Slots. cbn. rewrite (proj2 FR1); [exact E|]. rewrite not_elem_of_cons. done. }
      rewrite (write_slot_ok _ _ _ _ _ Null Ea1 Neb) by lia.
      set (h2 := hset _ a _).
      assert (FR2 : frame (nb :: a :: map fst c1) (t_h s) h2).
      { eapply frame_trans; [eapply frame_mono; [exact FR1|]|apply frame_hset].
        - intros b. rewrite !elem_of_cons. tauto.
        - rewrite !elem_of_cons. tauto. }
      assert (FR3 : forall b, b <> a -> h_blk h2 !! b = h_blk h1 !! b).
      { intros b Hb. cbn. by rewrite lookup_insert_ne. }
      destruct (push_all_spec n c1 cs2 Hn) as (LP & PP & _).
      { by rewrite <- (Forall2_length _ _ _ F2). }
      destruct (IH cs (S i) (<[i := Null]> ps) ps2a (push_all (Z.of_nat n) c1 cs2) (with_h (with_h s h1) h2)) as (h' & ps2' & R & FR & S1' & L2' & S2' & F2').
      * intros j Hj. apply A. rewrite insert_length in Hj. lia.
      * eapply frame_wf; [exact W|exact FR2|]. intros b [->|[->|Hb]%elem_of_cons]%elem_of_cons; [by eexists|by eexists|].
        by eapply chain_live.
      * unfold Slots. cbn. by rewrite lookup_insert.
      * rewrite drop_insert_gt by lia. done.
      * rewrite insert_length. lia.
      * eapply chains_frame; [exact F|]. intros b Hb. apply FR2. rewrite !not_elem_of_cons.
        split; [congruence|]. split; [congruence|]. by apply Dj.
      * unfold Slots. cbn [t_h with_h]. rewrite FR3 by done. exact S1.
      * done.
      * eapply chains_frame; [exact F1|]. intros b Hb. apply FR3. intros ->.
        rewrite (Permutation_map fst PP), map_app, elem_of_app in Hb. tauto.
      * rewrite (Permutation_map fst PP), map_app.
        assert (map fst (concat cs) ++ (map fst c1 ++ map fst (concat cs2)) ++ [nb] ≡ₚ map fst c1 ++ map fst (concat cs) ++ map fst (concat cs2) ++ [nb]) as -> by solve_Permutation.
        done.
      * done.
      * rewrite (Permutation_map fst PP), map_app, elem_of_app. tauto.
      * done.
      * done.
      * exists h', ps2'. split; [|split; [|split; [|split; [|split]]]].
        -- rewrite R. done.
        -- eapply frame_trans; (eapply frame_mono; [eassumption|]); intros b; rewrite !elem_of_cons, ?elem_of_app; tauto.
        -- rewrite (take_S_r _ i Null) in S1' by (rewrite list_lookup_insert by lia; done).
           rewrite take_insert in S1' by lia. rewrite <- app_assoc in S1'. exact S1'.
        -- done.
        -- done.
        -- unfold push_all in *. by rewrite fold_left_app.
Qed.

Lemma concat_empty {A} m : concat (replicate m (@nil A)) = [].
Proof. induction m; [done|]. cbn. done. Qed.

Lemma empty_chains h m : Forall2 (chain h) (replicate m Null) (replicate m []).
Proof. induction m; constructor; done. Qed.

Lemma dropped_empty m : dropped (replicate m []) = [].
Proof. induction m; [done|]. unfold dropped in *. cbn. done. Qed.

Lemma rehash_ok by0 a ps cs n (s : tstate) :
  t_arr s = Ptr a 0 -> t_bc s = Z.of_nat (length ps) -> 1 < n -> (Z.of_nat n + 1 < u32_lim)%Z ->
  heap_wf (t_h s) -> Slots by0 (t_h s) a ps -> Forall2 (chain (t_h s)) ps cs ->
  NoDup (map fst (concat cs)) -> a ∉ map fst (concat cs) -> eb ∉ map fst (concat cs) ->
  is_Some (h_blk (t_h s) !! eb) ->
  (a = eb -> length ps = 1 /\ concat cs = []) -> (a <> eb -> 1 < length ps) ->
  exists h' ps', rehash nsz nal eb chk hash (Z.of_nat n) s =
      Ok tt (TState (Ptr (h_next (t_h s)) 0) (Z.of_nat n) (t_ec s) (t_nr s) h' (t_drops s)) /\
    h_next h' = S (h_next (t_h s)) /\
    (forall b, b ∉ h_next (t_h s) :: a :: map fst (concat cs) -> h_blk h' !! b = h_blk (t_h s) !! b) /\
    Slots by0 h' a (replicate (length ps) Null) /\
    length ps' = n /\ Slots ((Z.of_nat n + 1) * 8) h' (h_next (t_h s)) ps' /\
    Forall2 (chain h') ps' (push_all (Z.of_nat n) (concat cs) (replicate n [])).
Proof.
  intros EA EB Hn Hn2 W E F ND NI Ne Le St Dy. set (nb := h_next (t_h s)).
  assert (Fr : h_blk (t_h s) !! nb = None) by (by apply wf_fresh).
  assert (Nb : nb <> eb) by (intros HH; rewrite HH in Fr; rewrite Fr in Le; by destruct Le).
  assert (Nanb : a <> nb) by (intros HH; unfold Slots in E; rewrite HH in E; congruence).
  assert (Nbi : nb ∉ map fst (concat cs)).
  { intros H. destruct (chains_live _ _ _ _ F H) as [? X]. congruence. }
  unfold rehash. unfold bind at 1. rewrite u32_ok by lia.
  unfold bind at 1. unfold allocate, default_alloc.
  rewrite (proj2 (Z.eqb_neq _ _)) by lia. unfold layout_ok. rewrite (proj2 (Z.leb_le _ _)) by (unfold isize_max, u32_lim in *; lia).
  cbn [fst snd]. rewrite Z.div_mul by lia.
  replace (Z.to_nat (Z.of_nat n + 1)) with (S n) by lia. fold nb.
  set (blk0 := Block _ _ _).
  set (h1 := halloc (t_h s) blk0). change (TState (t_arr s) (t_bc s) (t_ec s) (t_nr s) h1 (t_drops s)) with (with_h s h1).
  unfold bind at 1, gets at 1. cbn [t_h with_h].
  assert (E1 : h_blk h1 !! nb = Some blk0) by (cbn; by rewrite lookup_insert).
  assert (O1 : forall b, b <> nb -> h_blk h1 !! b = h_blk (t_h s) !! b) by (intros b Hb; cbn; by rewrite lookup_insert_ne).
  assert (W1 : heap_wf h1) by (by apply wf_halloc).
  assert (A1 : forall j, j <= S n -> hadd h1 (Ptr nb 0) j = Some (Ptr nb j)).
  { intros j Hj. apply (hadd_ok h1 nb 0 j blk0 E1). cbn. rewrite replicate_length. lia. }
  destruct (fill_null_ok h1 nb ((Z.of_nat n + 1) * 8) 8 Nb (S n) 0 (with_h s h1) (replicate (S n) None)) as (h2 & R2 & F2 & B2).
  { exact E1. }
  { rewrite replicate_length. lia. }
  { intros j Hj. rewrite replicate_length in Hj. by apply A1. }
  unfold bind at 1. rewrite R2. rewrite (proj2 (Z.ltb_lt _ _)) by lia.
  rewrite Nat2Z.id. unfold bind at 1 2. rewrite A1 by lia. cbn [or_ub]. unfold ret at 1.
  rewrite take_0, drop_ge in B2 by (rewrite replicate_length; lia). rewrite app_nil_r in B2. cbn [app] in B2.
  set (s2 := with_h (with_h s h1) h2).
  rewrite (store_ok s2 nb _ _ _ n TOnes B2 Nb) by (rewrite replicate_length; lia).
  assert (Sl : <[n:=Some TOnes]> (replicate (S n) (Some (TSlot Null))) = slots (replicate n Null)).
  { unfold slots. rewrite replicate_S_end. rewrite insert_app_r_alt by (rewrite replicate_length; lia).
    rewrite replicate_length, Nat.sub_diag. cbn. f_equal. symmetry. apply (fmap_replicate (fun p => Some (TSlot p))). }
  rewrite Sl. set (h3 := hset _ nb _).
  assert (S3 : Slots ((Z.of_nat n + 1) * 8) h3 nb (replicate n Null)) by (unfold Slots; cbn; by rewrite lookup_insert).
  assert (O3 : forall b, b <> nb -> h_blk h3 !! b = h_blk (t_h s) !! b).
  { intros b Hb. cbn. rewrite lookup_insert_ne by done. rewrite (proj2 F2) by (by rewrite elem_of_list_singleton). by apply O1. }
  assert (N3 : h_next h3 = S nb) by (cbn; by rewrite (proj1 F2)).
  assert (W3 : heap_wf h3).
  { intros b Hb. rewrite N3. destruct (decide (b = nb)) as [->|N]; [lia|]. rewrite O3 in Hb by done. specialize (W b Hb). lia. }
  unfold bind at 1, gets at 1. cbn [id]. cbn [t_arr t_bc t_h with_h s2].
  rewrite EA, EB. cbn [is_null]. rewrite Nat2Z.id.
  assert (Ea3 : Slots by0 h3 a ps) by (unfold Slots; rewrite O3 by done; exact E).
  assert (F3 : Forall2 (chain h3) ps cs).
  { eapply chains_frame; [exact F|]. intros b Hb. apply O3. intros ->. done. }
  set (s3 := with_h (with_h (with_h s h1) h2) h3).
  destruct (rehash_loop_ok by0 ((Z.of_nat n + 1) * 8) h3 a nb n ltac:(lia) Nb Nanb ps cs 0 ps (replicate n Null) (replicate n []) s3)
    as (h4 & ps' & R4 & F4 & S4 & L4 & S4' & C4).
  { intros j Hj. apply (hadd_slots _ _ _ _ _ Ea3). lia. }
  { exact W3. }
  { exact Ea3. }
  { done. }
  { lia. }
  { exact F3. }
  { exact S3. }
  { apply replicate_length. }
  { apply empty_chains. }
  { rewrite concat_empty. cbn [map app]. apply NoDup_app. split; [done|]. split; [|apply NoDup_singleton].
    intros x Hx ->%elem_of_list_singleton. done. }
  { done. }
  { rewrite concat_empty. apply not_elem_of_nil. }
  { done. }
  { intros HH. by apply St. }
  change (TState (Ptr a 0) (Z.of_nat (length ps)) (t_ec s) (t_nr s) h3 (t_drops s)) with (TState (Ptr a 0) (Z.of_nat (length ps)) (t_ec s) (t_nr s) h3 (t_drops s)).
  change (with_h s2 h3) with s3.
  assert (WT : forall h, with_h s3 h = TState (Ptr a 0) (Z.of_nat (length ps)) (t_ec s) (t_nr s) h (t_drops s)).
  { intros h. unfold with_h, s3. cbn. by rewrite EA, EB. }
  unfold bind at 1. rewrite R4. cbn [take app] in S4.
  unfold bind at 1.
  assert (FB : exists h5, free_buckets nsz nal eb (with_h s3 h4) = Ok tt (with_h s3 h5) /\ frame [a] h4 h5 /\ Slots by0 h5 a (replicate (length ps) Null)).
  { destruct (decide (a = eb)) as [HH|HH].
    - destruct (St HH) as [L1 _]. exists h4. split; [|split; [done|exact S4]].
      unfold free_buckets. unfold bind at 1, gets at 1. cbn [id]. rewrite WT. cbn [t_bc]. by rewrite L1.
    - destruct (free_buckets_ok by0 a (replicate (length ps) Null) (replicate (length ps) []) (with_h s3 h4)) as (h5 & R5 & F5 & _ & S5).
      + by rewrite WT.
      + rewrite WT, replicate_length. done.
      + rewrite replicate_length. by apply Dy.
      + done.
      + eapply frame_wf; [exact W3|exact F4|]. intros b [->|[->|Hb]%elem_of_cons]%elem_of_cons; [by eexists|by eexists|].
        by eapply chains_live.
      + exact S4.
      + apply empty_chains.
      + rewrite concat_empty. constructor.
      + rewrite concat_empty. apply not_elem_of_nil.
      + exists h5. rewrite dropped_empty, app_nil_r in R5. split; [exact R5|].
        rewrite concat_empty in F5. split; [exact F5|]. by rewrite replicate_length in S5. }
  destruct FB as (h5 & -> & F5 & S5).
  exists h5, ps'. split; [reflexivity|].
  assert (O5 : forall b, b <> a -> h_blk h5 !! b = h_blk h4 !! b).
  { intros b Hb. apply F5. by rewrite elem_of_list_singleton. }
  split; [|split; [|split; [|split; [|split]]]].
  - rewrite (proj1 F5), (proj1 F4). exact N3.
  - intros b Hb. pose proof Hb as Hb'. rewrite !not_elem_of_cons in Hb'. destruct Hb' as (B1' & B2' & B3').
    rewrite O5 by done. rewrite (proj2 F4) by done. by apply O3.
  - exact S5.
  - exact L4.
  - unfold Slots. rewrite O5 by done. exact S4'.
  - destruct (push_all_spec n (concat cs) (replicate n []) ltac:(lia)) as (_ & PP & _); [apply replicate_length|].
    eapply chains_frame; [exact C4|]. intros b Hb. apply O5. intros ->.
    rewrite (Permutation_map fst PP), concat_empty, app_nil_r in Hb. done.
Qed.

(** ** Finite maps as lists *)
Section keys.
Hypothesis KH : KeyHash eqb hash.
Notation entries cs := (map (@snd nat (K * V)) (concat cs)).

Lemma distinct_nil : distinct eqb ([] : list (K * V)).
Proof. intros i j x y H. by rewrite lookup_nil in H. Qed.

Lemma distinct_cons (x : K * V) l :
  distinct eqb (x :: l) <-> (forall y, y ∈ l -> eqb (fst x) (fst y) = false) /\ distinct eqb l.
Proof.
  split.
  - intros D. split.
    + intros y Hy. apply elem_of_list_lookup in Hy as [j Hj].
      destruct (eqb (fst x) (fst y)) eqn:E; [|done].
      specialize (D 0 (S j) x y eq_refl Hj E). lia.
    + intros i j a b Ha Hb E. specialize (D (S i) (S j) a b Ha Hb E). lia.
  - intros [F D] [|i] [|j] a b Ha Hb E; cbn in *; [done| | |].
    + injection Ha as ->. rewrite F in E; [done|]. by eapply elem_of_list_lookup_2.
    + injection Hb as ->. apply (kh_sym _ _ KH) in E. rewrite F in E; [done|]. by eapply elem_of_list_lookup_2.
    + f_equal. by eapply D.
Qed.

Lemma distinct_perm (l l' : list (K * V)) : l ≡ₚ l' -> distinct eqb l -> distinct eqb l'.
Proof.
  induction 1 as [|x l l' P IH|x y l|l l' l'' P1 IH1 P2 IH2]; intros D; [done| | |auto].
  - apply distinct_cons in D as [F D]. apply distinct_cons. split; [|auto].
    intros z Hz. apply F. by rewrite P.
  - apply distinct_cons in D as [F1 D]. apply distinct_cons in D as [F2 D].
    apply distinct_cons. split.
    + intros z [->|Hz]%elem_of_cons; [|by apply F2].
      destruct (eqb (fst x) (fst y)) eqn:E; [|done]. apply (kh_sym _ _ KH) in E. rewrite F1 in E; [done|left].
    + apply distinct_cons. split; [|done]. intros z Hz. apply F1. by right.
Qed.

Lemma distinct_mem (l : list (K * V)) x y : distinct eqb l -> x ∈ l -> y ∈ l -> eqb (fst x) (fst y) = true -> x = y.
Proof.
  intros D Hx Hy E. apply elem_of_list_lookup in Hx as [i Hi]. apply elem_of_list_lookup in Hy as [j Hj].
  specialize (D i j x y Hi Hj E). subst. congruence.
Qed.

Lemma look_in k (m : list (K * V)) e : look eqb k m = Some e -> e ∈ m /\ eqb (fst e) k = true.
Proof. intros H. apply find_some in H as [H1 H2]. split; [by apply elem_of_list_In|done]. Qed.

Lemma look_none k (m : list (K * V)) : look eqb k m = None <-> forall e, e ∈ m -> eqb (fst e) k = false.
Proof.
  split.
  - intros H e He. eapply find_none in H; [exact H|]. by apply elem_of_list_In.
  - intros H. destruct (look eqb k m) as [e|] eqn:E; [|done]. apply look_in in E as [I E]. rewrite H in E; done.
Qed.

Lemma look_some k (m : list (K * V)) e : distinct eqb m -> e ∈ m -> eqb (fst e) k = true -> look eqb k m = Some e.
Proof.
  intros D I E. destruct (look eqb k m) as [e'|] eqn:F.
  - apply look_in in F as [I' E']. f_equal. eapply distinct_mem; try done.
    eapply (kh_trans _ _ KH); [exact E'|]. by apply (kh_sym _ _ KH).
  - pose proof (proj1 (look_none k m) F e I). congruence.
Qed.

Lemma look_perm k (m m' : list (K * V)) : m ≡ₚ m' -> distinct eqb m -> look eqb k m = look eqb k m'.
Proof.
  intros P D. destruct (look eqb k m) as [e|] eqn:E.
  - apply look_in in E as [I E]. symmetry. apply look_some; [by eapply distinct_perm|by rewrite <- P|done].
  - symmetry. apply look_none. intros e He. apply (proj1 (look_none k m) E). by rewrite P.
Qed.

Lemma has_look k (m : list (K * V)) : has eqb k m = match look eqb k m with Some _ => true | None => false end.
Proof.
  unfold has, look. induction m as [|e m IH]; [done|]. cbn. destruct (eqb (fst e) k); [done|]. exact IH.
Qed.

(** Changing the value of the only entry of a key. *)
Lemma change_split k f (L R : list (K * V)) k0 v : distinct eqb (L ++ (k0, v) :: R) -> eqb k0 k = true ->
  change eqb k f (L ++ (k0, v) :: R) = L ++ (k0, f v) :: R.
Proof.
  intros D E. unfold change. rewrite map_app. cbn [map fst snd]. rewrite E.
  assert (H : forall l, (forall y, y ∈ l -> eqb k0 (fst y) = false) -> map (fun e : K * V => if eqb (fst e) k then (fst e, f (snd e)) else e) l = l).
  { intros l Hl. rewrite <- (map_id l) at 2. apply map_ext_in. intros y Hy. apply elem_of_list_In in Hy. specialize (Hl y Hy).
    destruct (eqb (fst y) k) eqn:Ey; [|done]. exfalso.
    apply (kh_sym _ _ KH) in Ey. rewrite (kh_trans _ _ KH _ _ _ E Ey) in Hl. done. }
  assert (P : L ++ (k0, v) :: R ≡ₚ (k0, v) :: L ++ R) by solve_Permutation.
  pose proof (distinct_perm _ _ P D) as D'. apply distinct_cons in D' as [F _]. cbn [fst] in F.
  rewrite !H; [done| |]; intros y Hy; apply F; rewrite elem_of_app; tauto.
Qed.

Lemma without_split k (L R : list (K * V)) k0 v : distinct eqb (L ++ (k0, v) :: R) -> eqb k0 k = true ->
  without eqb k (L ++ (k0, v) :: R) = L ++ R.
Proof.
  intros D E. unfold without. rewrite List.filter_app. cbn [List.filter fst]. rewrite E. cbn [negb].
  assert (H : forall l, (forall y, y ∈ l -> eqb k0 (fst y) = false) -> List.filter (fun e : K * V => negb (eqb (fst e) k)) l = l).
  { intros l Hl. induction l as [|y l IH]; [done|]. cbn.
    destruct (eqb (fst y) k) eqn:Ey; cbn [negb].
    - exfalso. apply (kh_sym _ _ KH) in Ey. pose proof (kh_trans _ _ KH _ _ _ E Ey) as X. rewrite Hl in X; [done|left].
    - f_equal. apply IH. intros z Hz. apply Hl. by right. }
  assert (P : L ++ (k0, v) :: R ≡ₚ (k0, v) :: L ++ R) by solve_Permutation.
  pose proof (distinct_perm _ _ P D) as D'. apply distinct_cons in D' as [F _]. cbn [fst] in F.
  rewrite !H; [done| |]; intros y Hy; apply F; rewrite elem_of_app; tauto.
Qed.

Lemma change_none k f (m : list (K * V)) : look eqb k m = None -> change eqb k f m = m.
Proof.
  intros H. unfold change. rewrite <- (map_id m) at 2. apply map_ext_in. intros y Hy.
  by rewrite (proj1 (look_none k m) H y (proj2 (elem_of_list_In _ _) Hy)).
Qed.

Lemma without_none k (m : list (K * V)) : look eqb k m = None -> without eqb k m = m.
Proof.
  intros H. pose proof (proj1 (look_none k m) H) as F. clear H. unfold without. induction m as [|y m IH]; [done|].
  cbn. rewrite F by left. cbn [negb]. f_equal. apply IH. intros e He. apply F. by right.
Qed.

Lemma change_perm k f (m m' : list (K * V)) : m ≡ₚ m' -> change eqb k f m ≡ₚ change eqb k f m'.
Proof. apply Permutation_map. Qed.

Lemma without_perm k (m m' : list (K * V)) : m ≡ₚ m' -> without eqb k m ≡ₚ without eqb k m'.
Proof. apply Permutation_filter. Qed.

(** ** The invariant *)
Record TRep (h0 : thp) (s : tstate) (cs : list (list enode)) (arrs : list nat) (cnt : Z) : Prop := {
  tr_wf : heap_wf (t_h s);
  tr_static : static_ok eb h0;
  tr_bc : t_bc s = Z.of_nat (length cs);
  tr_arr : exists a ps by_, t_arr s = Ptr a 0 /\ Slots by_ (t_h s) a ps /\ Forall2 (chain (t_h s)) ps cs /\
    ((a = eb /\ arrs = [] /\ t_bc s = 1%Z) \/ (exists old, arrs = a :: old /\ (1 < t_bc s)%Z));
  tr_arrs : forall b, b ∈ arrs -> exists ps, Slots ((Z.of_nat (length ps) + 1) * 8) (t_h s) b ps;
  tr_stage : exists g, in_stage g (t_bc s) (t_nr s) (t_ec s);
  tr_ec : t_ec s = Z.of_nat (length (concat cs));
  tr_placed : placed (t_bc s) cs;
  tr_nodup : NoDup (map fst (concat cs) ++ arrs);
  tr_fresh : forall b, b ∈ map fst (concat cs) ++ arrs -> h_blk h0 !! b = None;
  tr_frame : forall b, b ∉ map fst (concat cs) ++ arrs -> h_blk (t_h s) !! b = h_blk h0 !! b;
  tr_keys : distinct eqb (entries cs);
  tr_cnt : (t_ec s <= cnt)%Z;
  tr_few : arrs = [] \/ (2 ^ (Z.of_nat (length arrs) - 1) <= cnt)%Z;
  tr_dbl : (2 ^ Z.of_nat (length arrs) <= t_bc s)%Z;
  tr_grown : forall g, g ∈ stages -> (g_buckets g < t_bc s)%Z -> (g_lasts g < cnt)%Z
}.

(** The nodes whose key satisfies [P] are still there, with their keys. *)
Definition Keeps (P : K -> bool) (cs cs' : list (list enode)) : Prop :=
  forall b k v, (b, (k, v)) ∈ concat cs -> P k = true -> exists v', (b, (k, v')) ∈ concat cs'.
Definition always : K -> bool := fun _ => true.
Lemma Keeps_sub P cs cs' : (forall e, e ∈ concat cs -> e ∈ concat cs') -> Keeps P cs cs'.
Proof. intros H b k v I _. exists v. by apply H. Qed.
Lemma Keeps_any P cs cs' : Keeps always cs cs' -> Keeps P cs cs'.
Proof. intros H b k v I _. by eapply H. Qed.
Lemma Keeps_trans P cs1 cs2 cs3 : Keeps P cs1 cs2 -> Keeps P cs2 cs3 -> Keeps P cs1 cs3.
Proof. intros H1 H2 b k v I E. destruct (H1 b k v I E) as [v1 I1]. by eapply H2. Qed.
Lemma Keeps_split P cs cs' (L R : list enode) b k v v' : concat cs = L ++ (b, (k, v)) :: R -> concat cs' = L ++ (b, (k, v')) :: R -> Keeps P cs cs'.
Proof.
  intros E1 E2 b0 k0 v0 I _. rewrite E1, elem_of_app, elem_of_cons in I. rewrite E2. destruct I as [I|[E|I]].
  - exists v0. rewrite elem_of_app. by left.
  - injection E as -> -> ->. exists v'. rewrite elem_of_app, elem_of_cons. tauto.
  - exists v0. rewrite elem_of_app, elem_of_cons. tauto.
Qed.

(** Growing at least doubles the bucket count and adds an array. *)
Definition Grown (s : tstate) (arrs : list nat) (s' : tstate) (arrs' : list nat) : Prop :=
  (t_bc s' = t_bc s /\ arrs' = arrs) \/ (length arrs < length arrs' /\ (2 * t_bc s <= t_bc s')%Z).

Lemma TRep_eb h0 s cs arrs cnt : TRep h0 s cs arrs cnt -> eb ∉ map fst (concat cs) ++ arrs.
Proof. intros R H. pose proof (tr_fresh _ _ _ _ _ R eb H) as X. pose proof (tr_static _ _ _ _ _ R) as Y. unfold static_ok in Y. congruence. Qed.

Lemma TRep_new h0 d : heap_wf h0 -> static_ok eb h0 -> TRep h0 (ht_new eb h0 d) [[]] [] 0.
Proof.
  intros W S. split; cbn; try done.
  - exists eb, [Null], (-1)%Z. split; [done|]. split; [exact S|]. split; [|by left]. constructor; [done|constructor].
  - intros b Hb. by apply elem_of_nil in Hb.
  - exists (Stage 1 0 0). apply stage_start.
  - intros i c e Hc He. destruct i as [|[|i]]; cbn in Hc; try done. injection Hc as <-. by apply elem_of_nil in He.
  - constructor.
  - intros b Hb. by apply elem_of_nil in Hb.
  - by left.
  - intros g Hg L. assert (Q : forallb (fun g => 1 <=? g_buckets g)%Z stages = true) by (vm_compute; reflexivity).
    eapply forallb_forall in Q; [|by apply elem_of_list_In]. lia.
Qed.

(** Where the bucket of a key is. *)
Definition slot_of (s : tstate) (k : K) : ptr :=
  match t_arr s with Ptr a _ => Ptr a (idx (t_bc s) k) | Null => Null end.

Lemma TRep_pos h0 s cs arrs cnt : TRep h0 s cs arrs cnt -> 0 < length cs.
Proof.
  intros R. destruct (tr_stage _ _ _ _ _ R) as [g G]. apply stage_range in G as [B _].
  pose proof (tr_bc _ _ _ _ _ R). lia.
Qed.

Lemma TRep_slot h0 s cs arrs cnt k : TRep h0 s cs arrs cnt ->
  exists a ps by_ p c, t_arr s = Ptr a 0 /\ Slots by_ (t_h s) a ps /\ Forall2 (chain (t_h s)) ps cs /\
    slot_of s k = Ptr a (idx (t_bc s) k) /\ ps !! idx (t_bc s) k = Some p /\ cs !! idx (t_bc s) k = Some c /\ chain (t_h s) p c /\
    bucket_for_key hash k s = Ok (slot_of s k) s /\ bucket_for_key_mut hash k s = Ok (slot_of s k) s.
Proof.
  intros R. pose proof (TRep_pos _ _ _ _ _ R) as Pos.
  destruct (tr_arr _ _ _ _ _ R) as (a & ps & by_ & EA & E & F & _).
  pose proof (Forall2_length _ _ _ F) as L.
  pose proof (tr_bc _ _ _ _ _ R) as EB.
  assert (Hi : idx (t_bc s) k < length ps).
  { rewrite EB, L. by apply idx_lt. }
  destruct (lookup_lt_is_Some_2 ps _ Hi) as [p Hp].
  destruct (Forall2_lookup_l _ _ _ _ _ F Hp) as (c & Hc & C).
  exists a, ps, by_, p, c. split; [done|]. split; [done|]. split; [done|].
  assert (SL : slot_of s k = Ptr a (idx (t_bc s) k)) by (unfold slot_of; by rewrite EA).
  rewrite SL. split; [done|]. split; [done|]. split; [done|]. split; [done|].
  assert (HA : hadd (t_h s) (t_arr s) (idx (t_bc s) k) = Some (Ptr a (idx (t_bc s) k))).
  { rewrite EA. apply (hadd_slots _ _ _ _ _ E). lia. }
  assert (BI : bucket_index hash (t_bc s) k s = Ok (idx (t_bc s) k) s).
  { rewrite EB. by apply bucket_index_ok. }
  split.
  - unfold bucket_for_key. unfold bind at 1, gets. cbn [id]. unfold bind at 1.
    assert (HS : hslice (t_h s) (t_arr s) (Z.to_nat (t_bc s)) = Some (map TSlot ps)).
    { rewrite EA, EB, Nat2Z.id, <- L, <- (map_length (@TSlot K V) ps). apply (hslice_ok _ _ _ _ _ E).
      - cbn. rewrite slots_length, map_length. lia.
      - rewrite drop_0. cbn [bk_cells]. unfold slots. rewrite take_app_alt by (by rewrite !map_length).
        unfold fmap, list_fmap. fold (map (@Some (tcell K V)) (map TSlot ps)). by rewrite map_map. }
    rewrite HS. cbn [or_ub]. unfold ret at 1. unfold bind at 1. rewrite BI.
    rewrite map_length, (proj2 (Nat.ltb_lt _ _) Hi), HA. done.
  - unfold bucket_for_key_mut. unfold bind at 1, gets. cbn [id]. unfold bind at 1. rewrite BI, HA. done.
Qed.

Lemma NoDup_chain h0 s cs arrs cnt i c : TRep h0 s cs arrs cnt -> cs !! i = Some c -> NoDup (map fst c).
Proof.
  intros R Hc. pose proof (tr_nodup _ _ _ _ _ R) as ND. apply NoDup_app in ND as (ND & _).
  rewrite <- (take_drop_middle cs i c Hc), concat_app in ND. cbn [concat] in ND. rewrite !map_app in ND.
  apply NoDup_app in ND as (_ & _ & ND). by apply NoDup_app in ND as (ND & _).
Qed.

Lemma chain_in_concat (cs : list (list enode)) i c e : cs !! i = Some c -> e ∈ c -> e ∈ concat cs.
Proof.
  intros Hc He. apply elem_of_list_In, in_concat. exists c. rewrite <- !elem_of_list_In.
  split; [by eapply elem_of_list_lookup_2|done].
Qed.

(** Finding a key. *)
Lemma find_from_ok h0 s cs arrs cnt k : TRep h0 s cs arrs cnt ->
  match look eqb k (entries cs) with
  | None => find_from eqb (slot_of s k) k s = Ok None s
  | Some kv => exists b c1 c2, cs !! idx (t_bc s) k = Some (c1 ++ (b, kv) :: c2) /\ eqb (fst kv) k = true /\
      (forall e, e ∈ c1 -> eqb (fst (snd e)) k = false) /\
      find_from eqb (slot_of s k) k s = Ok (Some (Ptr b 0)) s
  end.
Proof.
  intros R. destruct (TRep_slot _ _ _ _ _ k R) as (a & ps & by_ & p & c & EA & E & F & SL & Hp & Hc & C & _ & _).
  assert (FF : find_from eqb (slot_of s k) k s = Ok ((fun e : enode => Ptr (fst e) 0) <$> List.find (fun e : enode => eqb (fst (snd e)) k) c) s).
  { unfold find_from. rewrite SL. unfold bind at 1. rewrite (read_slot_ok _ _ _ _ _ _ E Hp). unfold bind at 1, gets.
    apply find_in_bucket_ok; [done|]. eapply chain_fuel; [apply (tr_wf _ _ _ _ _ R)|exact C|]. by eapply NoDup_chain. }
  destruct (List.find (fun e : enode => eqb (fst (snd e)) k) c) as [e|] eqn:EF.
  - assert (exists c1 c2, c = c1 ++ e :: c2 /\ eqb (fst (snd e)) k = true /\ (forall e, e ∈ c1 -> eqb (fst (snd e)) k = false)) as (c1 & c2 & -> & Ek & N1).
    { clear - EF. revert EF. induction c as [|x c IH]; [done|]. cbn. destruct (eqb (fst (snd x)) k) eqn:Ex.
      - intros [=->]. exists [], c. split; [done|]. split; [done|]. intros y Hy. by apply elem_of_nil in Hy.
      - intros H. destruct (IH H) as (c1 & c2 & -> & ? & N). exists (x :: c1), c2. split; [done|]. split; [done|].
        intros y [->|Hy]%elem_of_cons; [done|]. by apply N. }
    assert (LK : look eqb k (entries cs) = Some (snd e)).
    { apply look_some; [apply (tr_keys _ _ _ _ _ R)| |done].
      apply elem_of_list_fmap. exists e. split; [done|]. eapply chain_in_concat; [exact Hc|]. rewrite elem_of_app. right. left. }
    rewrite LK. exists (fst e), c1, c2. destruct e as [b kv]. done.
  - assert (LK : look eqb k (entries cs) = None).
    { apply look_none. intros kv Hkv. apply elem_of_list_fmap in Hkv as (e & -> & He).
      destruct (eqb (fst (snd e)) k) eqn:Ek; [|done]. exfalso.
      apply elem_of_list_In, in_concat in He as (c' & Hc' & He). rewrite <- !elem_of_list_In in *.
      apply elem_of_list_lookup in Hc' as [i Hi].
      pose proof (tr_placed _ _ _ _ _ R i c' e Hi He) as PL.
      unfold idx in PL. rewrite (kh_hash _ _ KH _ _ Ek) in PL. fold (idx (t_bc s) k) in PL. subst i.
      rewrite Hc in Hi. injection Hi as <-. eapply find_none in EF; [|by apply elem_of_list_In]. congruence. }
    rewrite LK. exact FF.
Qed.

Lemma TRep_logged h0 s cs arrs cnt d : TRep h0 s cs arrs cnt -> TRep h0 (logged d s) cs arrs cnt.
Proof. intros []. by split. Qed.

Lemma TRep_cnt h0 s cs arrs cnt cnt' : TRep h0 s cs arrs cnt -> (cnt <= cnt')%Z -> TRep h0 s cs arrs cnt'.
Proof. intros [] L. split; try done; [lia|destruct tr_few0; [by left|right; lia]|]. intros g Hg Lg. specialize (tr_grown0 g Hg Lg). lia. Qed.

(** ** Changing a value *)
Lemma chain_upd h p c1 b k0 v c2 : chain h p (c1 ++ (b, (k0, v)) :: c2) -> NoDup (map fst (c1 ++ (b, (k0, v)) :: c2)) ->
  exists nx, h_blk h !! b = Some (nodeblk k0 v nx) /\
    forall v', chain (hset h b (nodeblk k0 v' nx)) p (c1 ++ (b, (k0, v')) :: c2).
Proof.
  revert p. induction c1 as [|e c1 IH]; intros p C ND.
  - destruct C as (nx & -> & E & C). exists nx. split; [exact E|]. intros v'. exists nx. split; [done|]. split.
    + cbn. by rewrite lookup_insert.
    + eapply chain_frame; [exact C|]. intros b' Hb'. cbn. rewrite lookup_insert_ne; [done|]. intros <-.
      cbn in ND. apply NoDup_cons in ND as [NI _]. done.
  - destruct C as (nx0 & -> & E & C). cbn in ND. apply NoDup_cons in ND as [NI ND].
    destruct (IH _ C ND) as (nx & Eb & H). exists nx. split; [done|]. intros v'. exists nx0. split; [done|]. split; [|apply H].
    cbn. rewrite lookup_insert_ne; [exact E|]. intros HH. apply NI. rewrite map_app, elem_of_app. right. cbn. rewrite <- HH. left.
Qed.

Lemma TRep_update h0 s cs arrs cnt i c1 b k0 v c2 : TRep h0 s cs arrs cnt -> cs !! i = Some (c1 ++ (b, (k0, v)) :: c2) ->
  exists nx, node_at (Ptr b 0) s = Ok (k0, v, nx) s /\ h_blk (t_h s) !! b = Some (nodeblk k0 v nx) /\ forall v',
    let s' := with_h s (hset (t_h s) b (nodeblk k0 v' nx)) in
    store eb (Ptr b 0) (TNode k0 v' nx) s = Ok tt s' /\
    TRep h0 s' (<[i := c1 ++ (b, (k0, v')) :: c2]> cs) arrs cnt /\
    concat cs = (concat (take i cs) ++ c1) ++ (b, (k0, v)) :: (c2 ++ concat (drop (S i) cs)) /\
    concat (<[i := c1 ++ (b, (k0, v')) :: c2]> cs) = (concat (take i cs) ++ c1) ++ (b, (k0, v')) :: (c2 ++ concat (drop (S i) cs)).
Proof.
  intros R Hc. set (c := c1 ++ (b, (k0, v)) :: c2) in *.
  destruct (tr_arr _ _ _ _ _ R) as (a & ps & by_ & EA & E & F & OR).
  destruct (Forall2_lookup_r _ _ _ _ _ F Hc) as (p & Hp & C).
  pose proof (NoDup_chain _ _ _ _ _ _ _ R Hc) as NDc.
  destruct (chain_upd _ _ _ _ _ _ _ C NDc) as (nx & Eb & CH).
  exists nx. split; [by apply node_at_ok|]. split; [exact Eb|]. intros v' s'.
  assert (Ib : b ∈ map fst (concat cs)).
  { apply elem_of_list_fmap. exists (b, (k0, v)). split; [done|]. eapply chain_in_concat; [exact Hc|]. unfold c. rewrite elem_of_app. right. left. }
  pose proof (TRep_eb _ _ _ _ _ R) as NE.
  assert (Nb : b <> eb) by (intros ->; apply NE; rewrite elem_of_app; by left).
  pose proof (lookup_lt_Some _ _ _ Hc) as Li.
  assert (C0 : concat cs = (concat (take i cs) ++ c1) ++ (b, (k0, v)) :: (c2 ++ concat (drop (S i) cs))).
  { rewrite <- (take_drop_middle cs i c Hc) at 1. rewrite concat_app. cbn [concat]. unfold c. rewrite <- !app_assoc. done. }
  assert (C1 : concat (<[i := c1 ++ (b, (k0, v')) :: c2]> cs) = (concat (take i cs) ++ c1) ++ (b, (k0, v')) :: (c2 ++ concat (drop (S i) cs))).
  { rewrite insert_take_drop by done. rewrite concat_app. cbn [concat]. rewrite <- !app_assoc. done. }
  assert (IDS : map fst (concat (<[i := c1 ++ (b, (k0, v')) :: c2]> cs)) = map fst (concat cs)).
  { rewrite C0, C1, !map_app. done. }
  pose proof (tr_nodup _ _ _ _ _ R) as ND.
  assert (Ndisj : forall x, x ∈ map fst (concat cs) -> x ∉ arrs).
  { apply NoDup_app in ND as (_ & N & _). exact N. }
  assert (Na : b <> a).
  { intros ->. destruct OR as [(-> & _)|(old & -> & _)]; [done|]. apply (Ndisj a Ib). left. }
  split; [by apply (store_node_ok s b _ _ _ _ Eb)|]. split; [|done].
  assert (OB : forall x, x <> b -> h_blk (t_h s') !! x = h_blk (t_h s) !! x).
  { intros x Hx. cbn. by rewrite lookup_insert_ne. }
  split.
  - cbn. apply wf_hset; [apply (tr_wf _ _ _ _ _ R)|by eexists].
  - apply (tr_static _ _ _ _ _ R).
  - rewrite insert_length. apply (tr_bc _ _ _ _ _ R).
  - exists a, ps, by_. split; [done|]. split; [unfold Slots; rewrite OB by done; exact E|]. split; [|exact OR].
    rewrite <- (list_insert_id ps i p Hp). apply Forall2_same_length_lookup_2.
    + rewrite !insert_length. by eapply Forall2_length.
    + intros j x y Hx Hy. destruct (decide (j = i)) as [->|Nj].
      * pose proof (lookup_lt_Some _ _ _ Hp). rewrite list_lookup_insert in Hx by done. rewrite list_lookup_insert in Hy by done. simplify_eq. apply CH.
      * rewrite list_lookup_insert_ne in Hx by done. rewrite list_lookup_insert_ne in Hy by done.
        pose proof (Forall2_lookup_lr _ _ _ _ _ _ F Hx Hy) as Cj. eapply chain_frame; [exact Cj|].
        intros x' Hx'. apply OB. intros ->.
        apply NoDup_app in ND as (ND & _).
        rewrite <- (take_drop_middle cs i c Hc), concat_app in ND. cbn [concat] in ND. rewrite !map_app in ND.
        assert (I1 : b ∈ map fst c) by (unfold c; rewrite map_app, elem_of_app; right; left).
        apply NoDup_app in ND as (_ & N1 & N2). apply NoDup_app in N2 as (_ & N2 & _).
        apply elem_of_list_fmap in Hx' as (e & Ee & He).
        destruct (decide (j < i)).
        -- apply (N1 b); [|rewrite elem_of_app; by left]. apply elem_of_list_fmap. exists e. split; [done|].
           eapply (chain_in_concat _ j); [|exact He]. by rewrite lookup_take by lia.
        -- apply (N2 b I1). apply elem_of_list_fmap. exists e. split; [done|].
           eapply (chain_in_concat _ (j - S i)); [|exact He]. rewrite lookup_drop. rewrite <- Hy. f_equal. lia.
  - intros x Hx. destruct (tr_arrs _ _ _ _ _ R x Hx) as [ps' S']. exists ps'. unfold Slots. rewrite OB; [exact S'|].
    intros ->. by apply (Ndisj b Ib).
  - apply (tr_stage _ _ _ _ _ R).
  - cbn [t_ec with_h s']. rewrite (tr_ec _ _ _ _ _ R), C1, C0, !app_length. done.
  - intros j cj e Hj He. destruct (decide (j = i)) as [->|Nj].
    + rewrite list_lookup_insert in Hj by done. injection Hj as <-.
      apply elem_of_app in He as [He|[->|He]%elem_of_cons].
      * eapply (tr_placed _ _ _ _ _ R); [exact Hc|]. unfold c. rewrite elem_of_app. by left.
      * apply (tr_placed _ _ _ _ _ R i c (b, (k0, v)) Hc). unfold c. rewrite elem_of_app. right. left.
      * eapply (tr_placed _ _ _ _ _ R); [exact Hc|]. unfold c. rewrite elem_of_app. right. by right.
    + rewrite list_lookup_insert_ne in Hj by done. by eapply (tr_placed _ _ _ _ _ R).
  - by rewrite IDS.
  - rewrite IDS. apply (tr_fresh _ _ _ _ _ R).
  - rewrite IDS. intros x Hx. rewrite OB; [by apply (tr_frame _ _ _ _ _ R)|]. intros ->. apply Hx. rewrite elem_of_app. by left.
  - pose proof (tr_keys _ _ _ _ _ R) as D. rewrite C0 in D. rewrite C1. rewrite !map_app in D |- *. cbn [map snd] in D |- *. rewrite !map_app in D |- *.
    intros x y e1 e2 H1 H2 Ek. revert H1 H2.
    intros H1 H2.
    assert (G : forall z e, (((map snd (concat (take i cs)) ++ map snd c1) ++ (k0, v') :: map snd c2 ++ map snd (concat (drop (S i) cs))) !! z = Some e ->
              exists e0, fst e0 = fst e /\ ((map snd (concat (take i cs)) ++ map snd c1) ++ (k0, v) :: map snd c2 ++ map snd (concat (drop (S i) cs))) !! z = Some e0)).
    { intros z e Hz. set (L := map snd (concat (take i cs)) ++ map snd c1) in *. clearbody L.
      destruct (decide (z < length L)).
      - rewrite lookup_app_l in Hz by done. exists e. split; [done|]. by rewrite lookup_app_l.
      - rewrite lookup_app_r in Hz by lia. destruct (z - length L) as [|q] eqn:Eq; cbn in Hz.
        + injection Hz as <-. exists (k0, v). split; [done|]. rewrite lookup_app_r by lia. by rewrite Eq.
        + exists e. split; [done|]. rewrite lookup_app_r by lia. by rewrite Eq. }
    destruct (G x e1 H1) as (f1 & E1' & G1). destruct (G y e2 H2) as (f2 & E2' & G2).
    apply (D x y f1 f2 G1 G2). congruence.
  - apply (tr_cnt _ _ _ _ _ R).
  - apply (tr_few _ _ _ _ _ R).
  - apply (tr_dbl _ _ _ _ _ R).
  - apply (tr_grown _ _ _ _ _ R).
Qed.

(** ** Inserting a new key *)
Lemma grow_ok h0 s cs arrs cnt : TRep h0 s cs arrs cnt ->
  (t_ec s = grow_limit /\ rehash_required chk s = Panic s) \/
  (t_ec s <> grow_limit /\ exists o s0 s1 cs1 arrs1 g, rehash_required chk s = Ok o s0 /\
    match o with None => s1 = s0 | Some n => rehash nsz nal eb chk hash n s0 = Ok tt s1 end /\
    (o = None -> s0 = s) /\
    TRep h0 s1 cs1 arrs1 (cnt + 1) /\ arrs1 <> [] /\ in_stage g (t_bc s1) (t_nr s1) (t_ec s1 + 1) /\
    concat cs1 ≡ₚ concat cs /\ t_drops s1 = t_drops s /\ t_ec s1 = t_ec s /\ Grown s arrs s1 arrs1).
Proof.
  intros R. destruct (tr_stage _ _ _ _ _ R) as [g G].
  destruct (tr_arr _ _ _ _ _ R) as (a & ps & by_ & EA & E & F & OR).
  pose proof (stage_limit _ _ _ _ G) as LIM.
  destruct (Z.lt_ge_cases (t_ec s) (g_lasts g)) as [C|C].
  - pose proof (policy_quiet g _ _ _ chk G C) as Q.
    right. split.
    { destruct G as (Hg & _ & _ & _). assert (in_stage g (g_buckets g) (g_resize g) (g_lasts g)) as G2.
      { split; [done|]. split; [done|]. split; [done|]. pose proof (tr_ec _ _ _ _ _ R). lia. }
      apply stage_limit in G2. lia. }
    exists None, s, s, cs, arrs, g. unfold rehash_required. rewrite Q.
    split; [by destruct s|]. split; [done|]. split; [done|]. split; [apply (TRep_cnt _ _ _ _ cnt); [done|lia]|].
    split.
    { destruct OR as [(-> & -> & B1)|(old & -> & _)]; [|done]. rewrite B1 in G. pose proof (stage_first _ _ _ G).
      pose proof (tr_ec _ _ _ _ _ R). lia. }
    split; [|split; [done|split; [done|split; [done|by left]]]]. destruct G as (Hg & E1 & E2 & B). split; [done|]. split; [done|]. split; [done|]. lia.
  - assert (EL : t_ec s = g_lasts g) by (destruct G as (_ & _ & _ & B); lia).
    destruct (policy_turn g _ _ _ chk G EL) as [[-> P]|(g' & G' & D2 & Lt & BF & P)].
    + left. split; [exact EL|]. unfold rehash_required. rewrite P. by destruct s.
    + right. split.
      { intros HH. destruct G' as (Hg' & _ & _ & B'). pose proof (stage_limit g' (g_buckets g') (g_resize g') (t_ec s + 1)) as X.
        specialize (X ltac:(split; [done|split; [done|split; [done|lia]]])). lia. }
      set (s0 := TState (t_arr s) (t_bc s) (t_ec s) (g_resize g') (t_h s) (t_drops s)).
      pose proof (stage_range _ _ _ _ G') as [RG _].
      pose proof (stage_range _ _ _ _ G) as [RG0 _].
      set (n := Z.to_nat (g_buckets g')).
      assert (En : g_buckets g' = Z.of_nat n) by (unfold n; lia).
      pose proof (Forall2_length _ _ _ F) as Lp. pose proof (tr_bc _ _ _ _ _ R) as EB.
      pose proof (tr_nodup _ _ _ _ _ R) as ND.
      pose proof (TRep_eb _ _ _ _ _ R) as NE. apply not_elem_of_app in NE as [NE1 NE2].
      assert (Ndisj : forall x, x ∈ map fst (concat cs) -> x ∉ arrs).
      { apply NoDup_app in ND as (_ & N & _). exact N. }
      assert (NDi : NoDup (map fst (concat cs))) by (by apply NoDup_app in ND as (N & _)).
      assert (NDa : NoDup arrs) by (by apply NoDup_app in ND as (_ & _ & N)).
      assert (NIa : a ∉ map fst (concat cs)).
      { intros H. destruct OR as [(-> & _)|(old & -> & _)]; [done|]. apply (Ndisj a H). left. }
      assert (LIVEEB : h_blk (t_h s) !! eb = h_blk h0 !! eb).
      { apply (tr_frame _ _ _ _ _ R). rewrite not_elem_of_app. done. }
      destruct (rehash_ok by_ a ps cs n s0) as (h' & ps' & RR & HN & HO & HS & HL & HS2 & HC).
      * exact EA.
      * cbn. rewrite EB. by rewrite Lp.
      * lia.
      * unfold u32_lim. lia.
      * apply (tr_wf _ _ _ _ _ R).
      * exact E.
      * exact F.
      * done.
      * done.
      * done.
      * cbn. rewrite LIVEEB. pose proof (tr_static _ _ _ _ _ R) as S0. by eexists.
      * intros ->. destruct OR as [(_ & _ & B1)|(old & -> & _)].
        -- split; [lia|]. pose proof (tr_ec _ _ _ _ _ R) as Hec. destruct G as (Hg & E1 & E2 & B).
           assert (in_stage g 1 (t_nr s) (t_ec s)) as G1 by (split; [done|split; [congruence|done]]).
           pose proof (stage_first _ _ _ G1). destruct (concat cs); [done|]. cbn in Hec. lia.
        -- exfalso. apply NE2. left.
      * intros Na. destruct OR as [(? & _)|(old & _ & B1)]; [done|]. lia.
      * set (nb := h_next (t_h s)) in *. change (h_next (t_h s0)) with nb in *. change (t_h s0) with (t_h s) in *.
        set (s1 := TState (Ptr nb 0) (Z.of_nat n) (t_ec s0) (t_nr s0) h' (t_drops s0)) in *.
        destruct (push_all_spec n (concat cs) (replicate n []) ltac:(lia)) as (LP & PP & PL); [apply replicate_length|].
        rewrite concat_empty, app_nil_r in PP.
        set (cs1 := push_all (Z.of_nat n) (concat cs) (replicate n [])) in *.
        pose proof (wf_fresh _ (tr_wf _ _ _ _ _ R)) as Fr. fold nb in Fr.
        assert (Nbi : nb ∉ map fst (concat cs)).
        { intros H. destruct (chains_live _ _ _ _ F H) as [? X]. congruence. }
        assert (Nba : nb ∉ arrs).
        { intros H. destruct (tr_arrs _ _ _ _ _ R nb H) as [? X]. unfold Slots in X. congruence. }
        assert (Nb0 : h_blk h0 !! nb = None).
        { rewrite <- (tr_frame _ _ _ _ _ R); [done|]. rewrite not_elem_of_app. done. }
        assert (PI : map fst (concat cs1) ≡ₚ map fst (concat cs)) by (by apply Permutation_map).
        assert (Eold : forall x, x <> nb -> x <> a -> x ∉ map fst (concat cs) -> h_blk h' !! x = h_blk (t_h s) !! x).
        { intros x X1 X2 X3. apply HO. rewrite !not_elem_of_cons. done. }
        exists (Some (g_buckets g')), s0, s1, cs1, (nb :: arrs), g'.
        split; [unfold rehash_required; by rewrite P|]. split; [rewrite En; exact RR|]. split; [done|].
        assert (IS : in_stage g' (t_bc s1) (t_nr s1) (t_ec s1 + 1)).
        { cbn. rewrite <- En. exact G'. }
        split; [|split; [done|split; [exact IS|split; [exact PP|split; [done|split; [done|]]]]]].
        2: { right. cbn. lia. }
        assert (Lnn : (length cs1 = n)) by exact LP.
        split.
        -- cbn. intros x Hx. rewrite HN. fold nb.
           destruct (decide (x = nb)) as [->|X1]; [lia|].
           enough (x < nb) by lia. apply (tr_wf _ _ _ _ _ R).
           destruct (decide (x = a)) as [->|X2]; [by eexists|].
           destruct (decide (x ∈ map fst (concat cs))) as [X3|X3]; [by eapply chains_live|].
           rewrite <- Eold by done. exact Hx.
        -- apply (tr_static _ _ _ _ _ R).
        -- cbn. lia.
        -- exists nb, ps', ((Z.of_nat n + 1) * 8)%Z. split; [done|]. split; [exact HS2|]. split; [exact HC|]. right. exists arrs. split; [done|]. cbn. lia.
        -- intros x [->|Hx]%elem_of_cons.
           { exists ps'. rewrite HL. exact HS2. }
           destruct (tr_arrs _ _ _ _ _ R x Hx) as [psx Sx].
           destruct (decide (x = a)) as [->|X2].
           { exists (replicate (length ps) Null). rewrite replicate_length.
             cbn. assert (by_ = (Z.of_nat (length ps) + 1) * 8)%Z as <-; [|exact HS].
             unfold Slots in E, Sx. rewrite E in Sx. injection Sx as -> Hsl.
             assert (length (slots ps) = length (slots psx)) as Q by congruence. rewrite !slots_length in Q. lia. }
           exists psx. unfold Slots. cbn. rewrite Eold; [exact Sx|congruence|done|].
           intros H. by apply (Ndisj x H).
        -- exists g'. eapply stage_less; [exact IS|]. cbn. pose proof (tr_ec _ _ _ _ _ R). lia.
        -- cbn. rewrite (Permutation_length PP). apply (tr_ec _ _ _ _ _ R).
        -- cbn. apply PL. intros i c e Hi He. apply lookup_replicate in Hi as [-> _]. by apply elem_of_nil in He.
        -- cbn. rewrite PI. apply NoDup_app. split; [done|]. split.
           ++ intros x Hx [->|Hx']%elem_of_cons; [done|]. by apply (Ndisj x Hx).
           ++ by constructor.
        -- intros x Hx. rewrite PI in Hx. apply elem_of_app in Hx as [Hx|[->|Hx]%elem_of_cons].
           ++ apply (tr_fresh _ _ _ _ _ R). rewrite elem_of_app. by left.
           ++ done.
           ++ apply (tr_fresh _ _ _ _ _ R). rewrite elem_of_app. by right.
        -- intros x Hx. rewrite PI in Hx. rewrite not_elem_of_app, not_elem_of_cons in Hx. destruct Hx as (X1 & X2 & X3). cbn.
           destruct (decide (x = a)) as [->|X4].
           { destruct OR as [(-> & Ea & B1)|(old & -> & _)]; [|exfalso; apply X3; left].
             unfold Slots in HS. rewrite HS. rewrite <- LIVEEB. unfold Slots in E. rewrite E. f_equal. f_equal. f_equal.
             assert (length ps = 1) as L1 by lia. rewrite L1. cbn. 
             pose proof (tr_static _ _ _ _ _ R) as S0. unfold static_ok in S0. rewrite <- LIVEEB, E in S0. injection S0 as _ S0.
             destruct ps as [|p0 [|]]; try done. cbn in S0. by injection S0 as ->. }
           rewrite Eold by done. apply (tr_frame _ _ _ _ _ R). rewrite not_elem_of_app. done.
        -- eapply distinct_perm; [|apply (tr_keys _ _ _ _ _ R)]. symmetry. by apply Permutation_map.
        -- cbn. pose proof (tr_cnt _ _ _ _ _ R). lia.
        -- right. replace (Z.of_nat (length (nb :: arrs)) - 1)%Z with (Z.of_nat (length arrs)) by (cbn; lia).
           pose proof (tr_dbl _ _ _ _ _ R). pose proof (stage_filled _ _ _ _ G). pose proof (tr_cnt _ _ _ _ _ R). lia.
        -- replace (Z.of_nat (length (nb :: arrs)))%Z with (Z.succ (Z.of_nat (length arrs))) by (cbn; lia).
           rewrite Z.pow_succ_r by lia. pose proof (tr_dbl _ _ _ _ _ R). cbn. lia.
        -- intros z Hz Lz. cbn in Lz. specialize (BF z Hz ltac:(lia)). pose proof (tr_cnt _ _ _ _ _ R). lia.
Qed.

(** ** Replacing one bucket *)
Lemma concat_insert_mem {A} (cs : list (list A)) (i : nat) c c' x : cs !! i = Some c ->
  x ∈ concat (<[i := c']> cs) -> x ∈ c' \/ exists j cj, j <> i /\ cs !! j = Some cj /\ x ∈ cj.
Proof.
  intros Hc Hx. apply elem_of_list_In, in_concat in Hx as (cj & Hj & Hx). rewrite <- !elem_of_list_In in *.
  apply elem_of_list_lookup in Hj as [j Hj]. destruct (decide (j = i)) as [->|N].
  - rewrite list_lookup_insert in Hj by (by eapply lookup_lt_Some). injection Hj as <-. by left.
  - rewrite list_lookup_insert_ne in Hj by done. right. eauto.
Qed.

Lemma other_bucket (cs : list (list enode)) i j c cj b : NoDup (map fst (concat cs)) -> cs !! i = Some c -> cs !! j = Some cj -> i <> j ->
  b ∈ map fst c -> b ∉ map fst cj.
Proof.
  intros ND Hi Hj N Hb Hb'.
  apply elem_of_list_fmap in Hb as (e & Ee & He). apply elem_of_list_fmap in Hb' as (e' & Ee' & He').
  rewrite <- (take_drop_middle cs i c Hi), concat_app in ND. cbn [concat] in ND. rewrite !map_app in ND.
  apply NoDup_app in ND as (_ & N1 & N2). apply NoDup_app in N2 as (_ & N2 & _).
  assert (I1 : b ∈ map fst c) by (apply elem_of_list_fmap; eauto).
  destruct (decide (j < i)).
  - apply (N1 b); [|rewrite elem_of_app; by left]. apply elem_of_list_fmap. exists e'. split; [done|].
    eapply (chain_in_concat _ j); [|exact He']. by rewrite lookup_take by lia.
  - apply (N2 b I1). apply elem_of_list_fmap. exists e'. split; [done|].
    eapply (chain_in_concat _ (j - S i)); [|exact He']. rewrite lookup_drop. rewrite <- Hj. f_equal. lia.
Qed.

Lemma TRep_bucket h0 s cs arrs cnt (s' : tstate) i c c' ps ps' by_ a cnt' :
  TRep h0 s cs arrs cnt -> cs !! i = Some c -> t_arr s = Ptr a 0 -> Slots by_ (t_h s) a ps -> Forall2 (chain (t_h s)) ps cs ->
  a ∈ arrs ->
  t_arr s' = t_arr s -> t_bc s' = t_bc s ->
  heap_wf (t_h s') -> Slots by_ (t_h s') a ps' -> length ps' = length ps -> (forall j, j <> i -> ps' !! j = ps !! j) ->
  (exists p', ps' !! i = Some p' /\ chain (t_h s') p' c') ->
  (forall b, b ∉ a :: map fst c ++ map fst c' -> h_blk (t_h s') !! b = h_blk (t_h s) !! b) ->
  (forall b, b ∈ map fst c' -> b ∉ map fst c -> h_blk h0 !! b = None /\ b ∉ arrs /\ b ∉ map fst (concat cs)) ->
  (forall b, b ∈ map fst c -> b ∉ map fst c' -> h_blk (t_h s') !! b = None) ->
  NoDup (map fst c') -> (forall e, e ∈ c' -> idx (t_bc s) (fst (snd e)) = i) ->
  distinct eqb (entries (<[i := c']> cs)) -> t_ec s' = Z.of_nat (length (concat (<[i := c']> cs))) ->
  (exists g, in_stage g (t_bc s') (t_nr s') (t_ec s')) -> (t_ec s' <= cnt')%Z -> (cnt <= cnt')%Z ->
  TRep h0 s' (<[i := c']> cs) arrs cnt'.
Proof.
  intros R Hc EA E F Ia EA' EB' W' S' Lp' Op (p' & Hp' & Cp') FR NEW DEL NDc' PLC DIS EC ST CN CN2.
  pose proof (tr_nodup _ _ _ _ _ R) as ND.
  assert (NDi : NoDup (map fst (concat cs))) by (by apply NoDup_app in ND as (N & _)).
  assert (NDa : NoDup arrs) by (by apply NoDup_app in ND as (_ & _ & N)).
  assert (Ndisj : forall x, x ∈ map fst (concat cs) -> x ∉ arrs).
  { apply NoDup_app in ND as (_ & N & _). exact N. }
  assert (INC : forall x, x ∈ map fst c -> x ∈ map fst (concat cs)).
  { intros x Hx. apply elem_of_list_fmap in Hx as (e & -> & He). apply elem_of_list_fmap. exists e. split; [done|]. by eapply chain_in_concat. }
  pose proof (lookup_lt_Some _ _ _ Hc) as Li.
  assert (CD : forall x, x ∈ map fst c' -> x ∉ arrs).
  { intros x Hx. destruct (decide (x ∈ map fst c)) as [I|I]; [by apply Ndisj, INC|]. by apply (NEW x Hx I). }
  assert (MEM : forall x, x ∈ map fst (concat (<[i := c']> cs)) -> x ∈ map fst c' \/ exists j cj, j <> i /\ cs !! j = Some cj /\ x ∈ map fst cj).
  { intros x Hx. apply elem_of_list_fmap in Hx as (e & -> & He). destruct (concat_insert_mem _ _ _ _ _ Hc He) as [H|(j & cj & N & Hj & He')].
    - left. apply elem_of_list_fmap. eauto.
    - right. exists j, cj. split; [done|]. split; [done|]. apply elem_of_list_fmap. eauto. }
  assert (OTH : forall j cj x, j <> i -> cs !! j = Some cj -> x ∈ map fst cj -> x ∈ map fst (concat cs) /\ x ∉ map fst c /\ x ∉ map fst c').
  { intros j cj x N Hj Hx. assert (X : x ∈ map fst (concat cs)).
    { apply elem_of_list_fmap in Hx as (e & -> & He). apply elem_of_list_fmap. exists e. split; [done|]. by eapply chain_in_concat. }
    assert (Y : x ∉ map fst c) by (intros H; by eapply (other_bucket cs i j)).
    split; [done|]. split; [done|]. intros H. by destruct (NEW x H Y) as (_ & _ & Z). }
  pose proof (concat_insert_perm cs i c c' Hc) as PM.
  split.
  - done.
  - apply (tr_static _ _ _ _ _ R).
  - rewrite EB', insert_length. apply (tr_bc _ _ _ _ _ R).
  - exists a, ps', by_. split; [congruence|]. split; [done|]. split.
    + apply Forall2_same_length_lookup_2.
      * rewrite insert_length, Lp'. by eapply Forall2_length.
      * intros j x y Hx Hy. destruct (decide (j = i)) as [->|Nj].
        -- rewrite list_lookup_insert in Hy by done. simplify_eq. done.
        -- rewrite list_lookup_insert_ne in Hy by done. rewrite Op in Hx by done.
           pose proof (Forall2_lookup_lr _ _ _ _ _ _ F Hx Hy) as Cj. eapply chain_frame; [exact Cj|].
           intros z Hz. destruct (OTH j y z Nj Hy Hz) as (O1 & O2 & O3). apply FR.
           rewrite not_elem_of_cons, not_elem_of_app. split; [|done]. intros ->. by apply (Ndisj a O1).
    + destruct (tr_arr _ _ _ _ _ R) as (a2 & _ & _ & EA2 & _ & _ & [(-> & -> & _)|(old & -> & B)]).
      * by apply elem_of_nil in Ia.
      * right. exists old. rewrite EB'. split; [|done]. rewrite EA2 in EA. by injection EA as ->.
  - intros x Hx. destruct (decide (x = a)) as [->|N].
    + exists ps'. destruct (tr_arrs _ _ _ _ _ R a Ia) as [psx Sx].
      assert (by_ = (Z.of_nat (length ps') + 1) * 8)%Z as <-; [|exact S'].
      unfold Slots in E, Sx. rewrite E in Sx. injection Sx as -> Hsl.
      assert (length (slots ps) = length (slots psx)) as Q by congruence. rewrite !slots_length in Q. lia.
    + destruct (tr_arrs _ _ _ _ _ R x Hx) as [psx Sx]. exists psx. unfold Slots. rewrite FR; [exact Sx|].
      rewrite not_elem_of_cons, not_elem_of_app. split; [done|]. split; intros H.
      * by apply (Ndisj x (INC x H)).
      * by apply (CD x H).
  - done.
  - done.
  - rewrite EB'. intros j cj e Hj He. destruct (decide (j = i)) as [->|Nj].
    + rewrite list_lookup_insert in Hj by done. injection Hj as <-. by apply PLC.
    + rewrite list_lookup_insert_ne in Hj by done. by eapply (tr_placed _ _ _ _ _ R).
  - apply NoDup_app. split; [|split; [|done]].
    + rewrite insert_take_drop by done. rewrite concat_app. cbn [concat]. rewrite !map_app.
      assert (map fst (concat (take i cs)) ++ map fst c' ++ map fst (concat (drop (S i) cs)) ≡ₚ map fst c' ++ map fst (concat (take i cs) ++ concat (drop (S i) cs))) as ->
        by (rewrite map_app; solve_Permutation).
      rewrite <- concat_app.
      assert (SUB : forall x, x ∈ map fst (concat (take i cs ++ drop (S i) cs)) -> exists j cj, j <> i /\ cs !! j = Some cj /\ x ∈ map fst cj).
      { intros x Hx. apply elem_of_list_fmap in Hx as (e & -> & He). apply elem_of_list_In, in_concat in He as (cj & Hj & He).
        rewrite <- !elem_of_list_In in *. apply elem_of_app in Hj as [Hj|Hj]; apply elem_of_list_lookup in Hj as [j Hj].
        - assert (j < i) by (apply lookup_lt_Some in Hj; rewrite take_length in Hj; lia).
          rewrite lookup_take in Hj by done. exists j, cj. split; [lia|]. split; [done|]. apply elem_of_list_fmap. eauto.
        - rewrite lookup_drop in Hj. exists (S i + j), cj. split; [lia|]. split; [done|]. apply elem_of_list_fmap. eauto. }
      apply NoDup_app. split; [done|]. split.
      * intros x Hx Hx'. destruct (SUB x Hx') as (j & cj & Nj & Hj & Hxj). by destruct (OTH j cj x Nj Hj Hxj) as (_ & _ & ?).
      * rewrite <- (take_drop_middle cs i c Hc), concat_app in NDi. cbn [concat] in NDi. rewrite !map_app in NDi.
        rewrite concat_app, map_app.
        apply NoDup_app in NDi as (N1 & N2 & N3). apply NoDup_app in N3 as (_ & _ & N4).
        apply NoDup_app. split; [done|]. split; [|done]. intros x Hx Hx'. apply (N2 x Hx). rewrite elem_of_app. by right.
    + intros x Hx. destruct (MEM x Hx) as [H|(j & cj & Nj & Hj & H)]; [by apply CD|].
      apply Ndisj. by destruct (OTH j cj x Nj Hj H) as (? & _).
  - intros x [Hx|Hx]%elem_of_app.
    + destruct (MEM x Hx) as [H|(j & cj & Nj & Hj & H)].
      * destruct (decide (x ∈ map fst c)) as [I|I].
        -- apply (tr_fresh _ _ _ _ _ R). rewrite elem_of_app. left. by apply INC.
        -- by apply (NEW x H I).
      * apply (tr_fresh _ _ _ _ _ R). rewrite elem_of_app. left. by destruct (OTH j cj x Nj Hj H) as (? & _).
    + apply (tr_fresh _ _ _ _ _ R). rewrite elem_of_app. by right.
  - intros x Hx. rewrite not_elem_of_app in Hx. destruct Hx as [X1 X2].
    assert (Xc' : x ∉ map fst c').
    { intros H. apply X1. apply elem_of_list_fmap in H as (e & -> & He). apply elem_of_list_fmap. exists e. split; [done|].
      eapply (chain_in_concat _ i); [|exact He]. by rewrite list_lookup_insert. }
    assert (Xa : x <> a) by (intros ->; done).
    destruct (decide (x ∈ map fst c)) as [I|I].
    + rewrite (DEL x I Xc'). symmetry. apply (tr_fresh _ _ _ _ _ R). rewrite elem_of_app. left. by apply INC.
    + rewrite FR by (rewrite not_elem_of_cons, not_elem_of_app; done).
      apply (tr_frame _ _ _ _ _ R). rewrite not_elem_of_app. split; [|done].
      intros H. apply X1. apply elem_of_list_fmap in H as (e & -> & He).
      apply elem_of_list_In, in_concat in He as (cj & Hj & He). rewrite <- !elem_of_list_In in *.
      apply elem_of_list_lookup in Hj as [j Hj].
      assert (Nj : j <> i).
      { intros ->. rewrite Hc in Hj. injection Hj as <-. apply I. apply elem_of_list_fmap. eauto. }
      apply elem_of_list_fmap. exists e. split; [done|]. eapply (chain_in_concat _ j); [|exact He].
      by rewrite list_lookup_insert_ne.
  - done.
  - done.
  - destruct (tr_few _ _ _ _ _ R); [by left|right; lia].
  - rewrite EB'. apply (tr_dbl _ _ _ _ _ R).
  - rewrite EB'. intros z Hz Lz. pose proof (tr_grown _ _ _ _ _ R z Hz Lz). lia.
Qed.

Lemma TRep_array h0 s cs arrs cnt a ps by_ : TRep h0 s cs arrs cnt -> t_arr s = Ptr a 0 -> arrs <> [] ->
  Slots by_ (t_h s) a ps -> a ∈ arrs /\ a <> eb /\ a ∉ map fst (concat cs).
Proof.
  intros R EA NA _. destruct (tr_arr _ _ _ _ _ R) as (a2 & _ & _ & EA2 & _ & _ & [(-> & -> & _)|(old & -> & B)]); [done|].
  rewrite EA in EA2. injection EA2 as <-. assert (I : a ∈ a :: old) by left. split; [done|]. split.
  - intros ->. apply (TRep_eb _ _ _ _ _ R). rewrite elem_of_app. by right.
  - pose proof (tr_nodup _ _ _ _ _ R) as ND. apply NoDup_app in ND as (_ & N & _). intros H. by apply (N a H).
Qed.

(** ** Adding a node *)
Lemma push_ok h0 s cs arrs cnt g k v : TRep h0 s cs arrs cnt -> arrs <> [] -> in_stage g (t_bc s) (t_nr s) (t_ec s + 1) ->
  look eqb k (entries cs) = None -> (t_ec s + 1 <= cnt)%Z ->
  exists b sA s' cs', allocate nsz nal 1 s = Ok (Ptr b 0) sA /\
    (do nx <- read_slot (slot_of s k);
     run store eb (Ptr b 0) (TNode k v nx);
     run write_slot eb (slot_of s k) (Ptr b 0);
     do s <- gets id;
     do ec <- u32 chk (t_ec s + 1);
     run set_ec ec;
     ret (Ptr b 0)) sA = Ok (Ptr b 0) s' /\
    TRep h0 s' cs' arrs cnt /\ concat cs' ≡ₚ (b, (k, v)) :: concat cs /\ t_drops s' = t_drops s /\ t_bc s' = t_bc s /\
    exists nx, node_at (Ptr b 0) s' = Ok (k, v, nx) s'.
Proof.
  intros R NA G LK CN.
  destruct (TRep_slot _ _ _ _ _ k R) as (a & ps & by_ & p & c & EA & E & F & SL & Hp & Hc & C & _ & _).
  destruct (TRep_array _ _ _ _ _ _ _ _ R EA NA E) as (Ia & Na & Da).
  set (i := idx (t_bc s) k) in *. pose proof (tr_wf _ _ _ _ _ R) as W.
  set (b := h_next (t_h s)).
  assert (Fb : h_blk (t_h s) !! b = None).
  { destruct (h_blk (t_h s) !! b) eqn:Q; [|done]. assert (b < h_next (t_h s)) by (apply W; by rewrite Q). unfold b in *. lia. }
  assert (Nab : a <> b) by (intros ->; unfold Slots in E; congruence).
  assert (Ncb : b ∉ map fst (concat cs)).
  { intros H. destruct (chains_live _ _ _ _ F H) as [x Hx]. congruence. }
  assert (Narr : b ∉ arrs).
  { intros H. destruct (tr_arrs _ _ _ _ _ R b H) as [psx Sx]. unfold Slots in Sx. congruence. }
  assert (Fb0 : h_blk h0 !! b = None).
  { rewrite <- (tr_frame _ _ _ _ _ R b); [done|]. rewrite not_elem_of_app. done. }
  assert (Neb : b <> eb).
  { intros Q. pose proof (tr_static _ _ _ _ _ R) as Y. unfold static_ok in Y. rewrite <- Q in Y. congruence. }
  pose proof (lookup_lt_Some _ _ _ Hc) as Li. pose proof (lookup_lt_Some _ _ _ Hp) as Lip.
  set (h1 := halloc (t_h s) (Block nsz nal [None])).
  set (h2 := hset h1 b (nodeblk k v p)).
  set (h3 := hset h2 a (Block by_ 8 (slots (<[i := Ptr b 0]> ps)))).
  set (sA := with_h s h1).
  set (s' := TState (t_arr s) (t_bc s) (t_ec s + 1) (t_nr s) h3 (t_drops s)).
  assert (E1 : Slots by_ h1 a ps).
  { unfold Slots, h1. cbn. rewrite lookup_insert_ne by done. exact E. }
  assert (E2 : Slots by_ h2 a ps).
  { unfold Slots, h2. cbn. rewrite lookup_insert_ne by done. exact E1. }
  assert (Lb : forall x, x <> a -> x <> b -> h_blk h3 !! x = h_blk (t_h s) !! x).
  { intros x X1 X2. unfold h3, h2, h1. cbn. by rewrite !lookup_insert_ne. }
  assert (Bb : h_blk h3 !! b = Some (nodeblk k v p)).
  { unfold h3, h2. cbn. rewrite lookup_insert_ne by done. by rewrite lookup_insert. }
  exists b, sA, s', (<[i := (b, (k, v)) :: c]> cs). split; [apply alloc_node_ok|]. split.
  { rewrite SL. unfold bind at 1. rewrite (read_slot_ok by_ sA a ps i p E1 Hp).
    unfold bind at 1. rewrite (store_node_ok sA b nsz nal None (TNode k v p)); [|unfold sA, h1; cbn; by rewrite lookup_insert|done].
    unfold bind at 1. rewrite (write_slot_ok by_ _ a ps i (Ptr b 0)); [|exact E2|done|done].
    unfold bind at 1, gets at 1. cbn [id t_ec with_h]. unfold bind at 1.
    assert (t_ec sA = t_ec s) as -> by done.
    rewrite u32_ok; [done|]. pose proof (stage_limit _ _ _ _ G). destruct G as (_ & _ & _ & G). unfold grow_limit, u32_lim in *. lia. }
  pose proof (concat_insert_perm cs i c ((b, (k, v)) :: c) Hc) as PM.
  assert (PM2 : concat (<[i := (b, (k, v)) :: c]> cs) ≡ₚ (b, (k, v)) :: concat cs).
  { rewrite <- (take_drop_middle cs i c Hc) at 2. rewrite insert_take_drop by done. rewrite !concat_app. cbn [concat app].
    solve_Permutation. }
  split.
  { eapply (TRep_bucket h0 s cs arrs cnt s' i c ((b, (k, v)) :: c) ps (<[i := Ptr b 0]> ps) by_ a); try done.
    - intros x Hx. cbn. destruct (decide (x = b)) as [->|X1]; [unfold b; lia|].
      destruct (decide (x = a)) as [->|X2].
      + assert (a < h_next (t_h s)) by (apply W; unfold Slots in E; by rewrite E). lia.
      + unfold s' in Hx. cbn [t_h] in Hx. rewrite Lb in Hx by done. apply W in Hx. lia.
    - unfold Slots. cbn. by rewrite lookup_insert.
    - by rewrite insert_length.
    - intros j Nj. by rewrite list_lookup_insert_ne.
    - exists (Ptr b 0). split; [by rewrite list_lookup_insert|]. exists p. split; [done|]. split; [exact Bb|].
      eapply chain_frame; [exact C|]. intros x Hx. apply Lb.
      + intros ->. apply Da. apply elem_of_list_fmap in Hx as (e & -> & He). apply elem_of_list_fmap. exists e. split; [done|]. by eapply chain_in_concat.
      + intros ->. apply Ncb. apply elem_of_list_fmap in Hx as (e & Ee & He). apply elem_of_list_fmap. exists e. split; [done|]. by eapply chain_in_concat.
    - intros x Hx. rewrite not_elem_of_cons, not_elem_of_app in Hx. destruct Hx as (X1 & X2 & X3).
      cbn in X3. rewrite not_elem_of_cons in X3. apply Lb; tauto.
    - intros x Hx Hn. cbn in Hx. apply elem_of_cons in Hx as [->|Hx]; done.
    - intros x Hx Hn. exfalso. apply Hn. cbn. by right.
    - cbn. apply NoDup_cons. split; [|by eapply NoDup_chain]. intros Hx. apply Ncb.
      apply elem_of_list_fmap in Hx as (e & Ee & He). apply elem_of_list_fmap. exists e. split; [done|]. by eapply chain_in_concat.
    - intros e [->|He]%elem_of_cons; [done|]. by eapply (tr_placed _ _ _ _ _ R).
    - unfold entries. eapply distinct_perm; [symmetry; apply Permutation_map; exact PM2|]. cbn [map snd]. apply distinct_cons.
      split; [|apply (tr_keys _ _ _ _ _ R)]. rewrite look_none in LK. intros y Hy. rewrite <- (LK y Hy). cbn [fst].
      destruct (eqb (fst y) k) eqn:Q1, (eqb k (fst y)) eqn:Q2; try done.
      + apply (kh_sym _ _ KH) in Q1. congruence.
      + apply (kh_sym _ _ KH) in Q2. congruence.
    - cbn [s' t_ec]. rewrite (Permutation_length PM2). cbn [length]. rewrite (tr_ec _ _ _ _ _ R). lia.
    - by exists g. }
  split; [exact PM2|]. split; [done|]. split; [done|]. exists p. by apply node_at_ok.
Qed.

Lemma insert_impl_ok h0 s cs arrs cnt k v : TRep h0 s cs arrs cnt -> look eqb k (entries cs) = None ->
  (t_ec s = grow_limit /\ insert_impl nsz nal eb chk hash (slot_of s k) k v s = Panic (logged [inr v; inl k] s)) \/
  (t_ec s <> grow_limit /\ exists b s' cs' arrs', insert_impl nsz nal eb chk hash (slot_of s k) k v s = Ok (Ptr b 0) s' /\
    TRep h0 s' cs' arrs' (cnt + 1) /\ concat cs' ≡ₚ (b, (k, v)) :: concat cs /\ t_drops s' = t_drops s /\ Grown s arrs s' arrs' /\
    exists nx, node_at (Ptr b 0) s' = Ok (k, v, nx) s').
Proof.
  intros R LK. destruct (grow_ok _ _ _ _ _ R) as [[EC P]|[EC (o & s0 & s1 & cs1 & arrs1 & g & Q & RH & EQ & R1 & NA & G & PM & DR & EE & GR)]].
  { left. split; [done|]. unfold insert_impl. unfold bind at 1, on_unwind. unfold bind at 1. rewrite P. done. }
  right. split; [done|].
  assert (LK1 : look eqb k (entries cs1) = None).
  { rewrite <- LK. apply look_perm; [|apply (tr_keys _ _ _ _ _ R1)]. unfold entries. by apply Permutation_map. }
  destruct (push_ok _ _ _ _ _ g k v R1 NA G LK1) as (b & sA & s' & cs' & AL & REST & R' & PM' & DR' & BC' & ND).
  { pose proof (tr_cnt _ _ _ _ _ R). rewrite EE. lia. }
  exists b, s', cs', arrs1. split; [|split; [done|split; [by rewrite PM', PM|split; [congruence|split; [|done]]]]].
  2: { unfold Grown in *. by rewrite BC'. }
  assert (HEAD : on_unwind (logged [inr v; inl k]) (
    do o <- rehash_required chk;
    do target <- match o with
                 | Some bc => run rehash nsz nal eb chk hash bc; bucket_for_key_mut hash k
                 | None => ret (slot_of s k)
                 end;
    do node <- allocate nsz nal 1;
    ret (target, node)) s = Ok (slot_of s1 k, Ptr b 0) sA).
  { unfold on_unwind. unfold bind at 1. rewrite Q. destruct o as [n|].
    - unfold bind at 1 2. rewrite RH.
      destruct (TRep_slot _ _ _ _ _ k R1) as (? & ? & ? & ? & ? & _ & _ & _ & _ & _ & _ & _ & _ & BK). rewrite BK.
      unfold bind at 1. rewrite AL. done.
    - rewrite (EQ eq_refl) in *. subst s1. unfold bind at 1, ret at 1. unfold bind at 1. rewrite AL. done. }
  unfold insert_impl. unfold bind at 1. rewrite HEAD. exact REST.
Qed.

(** ** Removing a node *)
Definition last_place (a : place) (c1 : list enode) : place :=
  match last c1 with None => a | Some d => ANext (Ptr (fst d) 0) end.

Lemma find_place_ok (s : tstate) key : forall l f a p, chain (t_h s) p l -> read_place a s = Ok p s -> length l < f ->
  exists c1 c2 q, find_place eqb f a key s = Ok (last_place a c1) s /\ l = c1 ++ c2 /\
    read_place (last_place a c1) s = Ok q s /\ chain (t_h s) q c2 /\
    (forall e, e ∈ c1 -> eqb (fst (snd e)) key = false) /\
    match c2 with [] => True | e :: _ => eqb (fst (snd e)) key = true end.
Proof.
  induction l as [|e l IH]; intros f a p C RP L; (destruct f as [|f]; [cbn in L; lia|]).
  - cbn in C. subst. exists [], [], Null. cbn [find_place last_place last]. unfold bind at 1. rewrite RP.
    split; [done|]. split; [done|]. split; [done|]. split; [done|]. split; [|done]. intros e He. by apply elem_of_nil in He.
  - destruct C as (nx & -> & E & C). cbn [find_place]. unfold bind at 1. rewrite RP. unfold bind at 1.
    rewrite (node_at_ok _ _ _ _ _ E). destruct (eqb (fst (snd e)) key) eqn:Q.
    + exists [], (e :: l), (Ptr (fst e) 0). cbn [last_place last]. split; [done|]. split; [done|]. split; [done|].
      split; [by exists nx|]. split; [|done]. intros x Hx. by apply elem_of_nil in Hx.
    + destruct (IH f (ANext (Ptr (fst e) 0)) nx C) as (c1 & c2 & q & FP & -> & RP' & C' & N & T).
      { cbn. unfold bind at 1. by rewrite (node_at_ok _ _ _ _ _ E). }
      { cbn in L. lia. }
      assert (LP : last_place a (e :: c1) = last_place (ANext (Ptr (fst e) 0)) c1).
      { unfold last_place. rewrite last_cons. by destruct (last c1). }
      exists (e :: c1), c2, q. rewrite LP. split; [done|]. split; [done|]. split; [done|]. split; [done|].
      split; [|done]. intros x [->|Hx]%elem_of_cons; [done|]. by apply N.
Qed.

(** Unlinking a node that is not the first. *)
Lemma chain_unlink h p c1 d b k v c2 : chain h p (c1 ++ d :: (b, (k, v)) :: c2) ->
  NoDup (map fst (c1 ++ d :: (b, (k, v)) :: c2)) ->
  exists nx, h_blk h !! b = Some (nodeblk k v nx) /\
    h_blk h !! fst d = Some (nodeblk (fst (snd d)) (snd (snd d)) (Ptr b 0)) /\
    chain (hset h (fst d) (nodeblk (fst (snd d)) (snd (snd d)) nx)) p (c1 ++ d :: c2).
Proof.
  revert p. induction c1 as [|e c1 IH]; intros p C ND.
  - destruct C as (n1 & -> & E1 & nx & -> & E2 & C). exists nx. split; [exact E2|]. split; [exact E1|].
    exists nx. split; [done|]. split; [cbn; by rewrite lookup_insert|].
    eapply chain_frame; [exact C|]. intros x Hx. cbn. rewrite lookup_insert_ne; [done|].
    intros <-. cbn in ND. apply NoDup_cons in ND as [NI _]. apply NI. by right.
  - destruct C as (n1 & -> & E1 & C). cbn in ND. apply NoDup_cons in ND as [NI ND].
    destruct (IH _ C ND) as (nx & Eb & Ed & H). exists nx. split; [done|]. split; [done|].
    exists n1. split; [done|]. split; [|exact H]. cbn. rewrite lookup_insert_ne; [exact E1|].
    intros HH. apply NI. rewrite map_app, elem_of_app. right. cbn. rewrite <- HH. left.
Qed.

Lemma chain_head h q e c : chain h q (e :: c) -> q = Ptr (fst e) 0.
Proof. by intros (nx & -> & _). Qed.

Lemma stage_down g bc nr ec : in_stage g bc nr ec -> (0 < ec)%Z -> in_stage g bc nr (ec - 1).
Proof. intros (A & B & C & D) P. split; [done|]. split; [done|]. split; [done|]. lia. Qed.

Lemma unlink_ok h0 s cs arrs cnt i c1 b k v c2 a ps by_ : TRep h0 s cs arrs cnt -> arrs <> [] ->
  t_arr s = Ptr a 0 -> Slots by_ (t_h s) a ps -> Forall2 (chain (t_h s)) ps cs ->
  cs !! i = Some (c1 ++ (b, (k, v)) :: c2) ->
  exists nx h1 ps1, node_at (Ptr b 0) s = Ok (k, v, nx) s /\
    write_place eb (last_place (ASlot (Ptr a i)) c1) nx s = Ok tt (with_h s h1) /\
    h_blk h1 !! b = Some (nodeblk k v nx) /\
    frame (a :: map fst c1) (t_h s) h1 /\ Slots by_ h1 a ps1 /\ length ps1 = length ps /\ (forall j, j <> i -> ps1 !! j = ps !! j) /\
    exists p1, ps1 !! i = Some p1 /\ chain h1 p1 (c1 ++ c2).
Proof.
  intros R NA EA E F Hc.
  destruct (TRep_array _ _ _ _ _ _ _ _ R EA NA E) as (Ia & Na & Da).
  destruct (Forall2_lookup_r _ _ _ _ _ F Hc) as (p & Hp & C).
  pose proof (NoDup_chain _ _ _ _ _ _ _ R Hc) as NDc.
  pose proof (lookup_lt_Some _ _ _ Hp) as Lip.
  assert (INC : forall x, x ∈ map fst (c1 ++ (b, (k, v)) :: c2) -> x ∈ map fst (concat cs)).
  { intros x Hx. apply elem_of_list_fmap in Hx as (e & -> & He). apply elem_of_list_fmap. exists e. split; [done|]. by eapply chain_in_concat. }
  destruct c1 as [|d c1' _] using rev_ind.
  - cbn [app] in *. destruct C as (nx & -> & Eb & C). cbn [fst snd] in Eb.
    exists nx, (hset (t_h s) a (Block by_ 8 (slots (<[i := nx]> ps)))), (<[i := nx]> ps).
    split; [by apply node_at_ok|]. split.
    { cbn. by apply write_slot_ok. }
    assert (Nba : b <> a) by (intros ->; apply Da, INC; left).
    split; [cbn; by rewrite lookup_insert_ne|]. split; [apply frame_hset; left|].
    split; [unfold Slots; cbn; by rewrite lookup_insert|]. split; [by rewrite insert_length|].
    split; [intros j Nj; by rewrite list_lookup_insert_ne|]. exists nx. split; [by rewrite list_lookup_insert|].
    eapply chain_frame; [exact C|]. intros x Hx. cbn. rewrite lookup_insert_ne; [done|].
    intros <-. apply Da, INC. cbn. by right.
  - rewrite <- app_assoc in C, NDc. cbn [app] in C, NDc.
    destruct (chain_unlink _ _ _ _ _ _ _ _ C NDc) as (nx & Eb & Ed & C').
    assert (Id : fst d ∈ map fst (concat cs)).
    { apply INC. rewrite map_app, map_app, !elem_of_app. left. right. left. }
    assert (Nde : fst d <> eb).
    { intros H. apply (TRep_eb _ _ _ _ _ R). rewrite elem_of_app. left. by rewrite <- H. }
    assert (Nda : fst d <> a) by (intros H; rewrite H in Id; done).
    assert (Ndb : fst d <> b).
    { intros H. rewrite map_app in NDc. apply NoDup_app in NDc as (_ & _ & N). cbn in N. apply NoDup_cons in N as [N _]. apply N. rewrite H. left. }
    exists nx, (hset (t_h s) (fst d) (nodeblk (fst (snd d)) (snd (snd d)) nx)), ps.
    split; [by apply node_at_ok|]. split.
    { unfold last_place. rewrite last_snoc. cbn [write_place]. unfold bind at 1. rewrite (node_at_ok _ _ _ _ _ Ed).
      by rewrite (store_node_ok _ _ _ _ _ _ Ed Nde). }
    split; [cbn; by rewrite lookup_insert_ne|]. split; [apply frame_hset; rewrite map_app; right; rewrite elem_of_app; right; left|].
    split; [unfold Slots; cbn; by rewrite lookup_insert_ne|]. split; [done|]. split; [done|]. exists p. split; [done|].
    by rewrite <- app_assoc.
Qed.

Lemma concat_delete_perm (cs : list (list enode)) i c1 e c2 : cs !! i = Some (c1 ++ e :: c2) ->
  concat cs ≡ₚ e :: concat (<[i := c1 ++ c2]> cs).
Proof.
  intros Hc. pose proof (lookup_lt_Some _ _ _ Hc). rewrite <- (take_drop_middle cs i _ Hc) at 1. rewrite insert_take_drop by done.
  rewrite !concat_app. cbn [concat app]. solve_Permutation.
Qed.

Lemma remove_entry_ok h0 s cs arrs cnt k : TRep h0 s cs arrs cnt ->
  match look eqb k (entries cs) with
  | None => remove_entry nsz nal eb chk hash eqb k s = Ok None s
  | Some kv => exists s' cs', remove_entry nsz nal eb chk hash eqb k s = Ok (Some kv) s' /\ TRep h0 s' cs' arrs cnt /\ Keeps (fun k' => negb (eqb k' k)) cs cs' /\
      entries cs ≡ₚ kv :: entries cs' /\ eqb (fst kv) k = true /\ t_drops s' = t_drops s /\ t_bc s' = t_bc s
  end.
Proof.
  intros R.
  destruct (TRep_slot _ _ _ _ _ k R) as (a & ps & by_ & p & c & EA & E & F & SL & Hp & Hc & C & _ & BK).
  set (i := idx (t_bc s) k) in *.
  destruct (find_place_ok s k c (fuel s) (ASlot (Ptr a i)) p C) as (c1 & c2 & q & FP & -> & RP & C2 & N1 & T).
  { cbn. by eapply read_slot_ok. }
  { eapply chain_fuel; [apply (tr_wf _ _ _ _ _ R)|exact C|]. by eapply NoDup_chain. }
  destruct c2 as [|[b [k0 v]] c2].
  - assert (look eqb k (entries cs) = None) as ->.
    { pose proof (find_from_ok _ _ _ _ _ k R) as FF. destruct (look eqb k (entries cs)) as [kv|]; [|done].
      destruct FF as (b & d1 & d2 & Hc' & Ek & _ & _). exfalso. fold i in Hc'. rewrite Hc in Hc'. injection Hc' as Hc'. rewrite app_nil_r in Hc'.
      specialize (N1 (b, kv)). cbn in N1. rewrite N1 in Ek; [done|]. rewrite Hc', elem_of_app. right. left. }
    cbn in C2. subst q. unfold remove_entry. unfold bind at 1. rewrite BK. unfold bind at 1, gets at 1. unfold bind at 1. rewrite SL, FP.
    unfold bind at 1. rewrite RP. done.
  - cbn [fst snd] in T.
    assert (Ie : (b, (k0, v)) ∈ concat cs).
    { eapply chain_in_concat; [exact Hc|]. rewrite elem_of_app. right. left. }
    assert (LK : look eqb k (entries cs) = Some (k0, v)).
    { apply look_some; [apply (tr_keys _ _ _ _ _ R)| |done]. apply elem_of_list_fmap. by exists (b, (k0, v)). }
    rewrite LK.
    assert (NA : arrs <> []).
    { intros ->. destruct (tr_arr _ _ _ _ _ R) as (a2 & ps2 & by2 & EA2 & E2 & F2 & [(-> & _ & B1)|(old & ? & _)]); [|done].
      destruct (tr_stage _ _ _ _ _ R) as [g G]. rewrite B1 in G. pose proof (stage_first _ _ _ G). destruct G as (_ & _ & _ & LL).
      pose proof (tr_ec _ _ _ _ _ R) as EC. destruct (concat cs); [by apply elem_of_nil in Ie|]. cbn in EC. lia. }
    destruct (unlink_ok _ _ _ _ _ _ _ _ _ _ _ _ _ _ R NA EA E F Hc) as (nx & h1 & ps1 & NAT & WP & Eb1 & FR & S1 & L1 & O1 & p1 & Hp1 & C1).
    destruct (TRep_array _ _ _ _ _ _ _ _ R EA NA E) as (Ia & Na & Da).
    pose proof (NoDup_chain _ _ _ _ _ _ _ R Hc) as NDc.
    assert (Ib : b ∈ map fst (concat cs)) by (apply elem_of_list_fmap; by exists (b, (k0, v))).
    assert (Nab : a <> b) by (intros ->; done).
    pose proof (concat_delete_perm _ _ _ _ _ Hc) as PM.
    assert (Nb12 : b ∉ map fst (c1 ++ c2)).
    { rewrite map_app. rewrite map_app in NDc. cbn in NDc.
      assert (map fst c1 ++ b :: map fst c2 ≡ₚ b :: map fst c1 ++ map fst c2) as X by solve_Permutation.
      rewrite X in NDc. apply NoDup_cons in NDc as [N _]. exact N. }
    set (s' := TState (t_arr s) (t_bc s) (t_ec s - 1) (t_nr s) (hdel h1 b) (t_drops s)).
    assert (EC1 : t_ec s = (Z.of_nat (length (concat (<[i := c1 ++ c2]> cs))) + 1)%Z).
    { rewrite (tr_ec _ _ _ _ _ R), (Permutation_length PM). cbn [length]. lia. }
    exists s', (<[i := c1 ++ c2]> cs). split.
    { unfold remove_entry. unfold bind at 1. rewrite BK. unfold bind at 1, gets at 1. unfold bind at 1. rewrite SL, FP.
      unfold bind at 1. rewrite RP. rewrite (chain_head _ _ _ _ C2) in *. cbn [fst] in *.
      unfold bind at 1. rewrite NAT. unfold bind at 1. rewrite WP. unfold bind at 1. rewrite (free_node_ok (with_h s h1) _ _ _ _ Eb1).
      unfold bind at 1, gets at 1. cbn [id]. unfold bind at 1. cbn [t_ec with_h].
      destruct (tr_stage _ _ _ _ _ R) as [g G].
      unfold on_unwind. rewrite u32_ok; [done|]. pose proof (stage_limit _ _ _ _ G). unfold grow_limit, u32_lim in *. lia. }
    split.
    { eapply (TRep_bucket h0 s cs arrs cnt s' i _ (c1 ++ c2) ps ps1 by_ a); try done.
      - intros x Hx. cbn. unfold s' in Hx. cbn [t_h hdel h_blk] in Hx.
        destruct (decide (x = b)) as [->|X]; [rewrite lookup_delete in Hx; by destruct Hx|]. rewrite lookup_delete_ne in Hx by done.
        assert (W1 : heap_wf h1); [|by apply W1].
        eapply frame_wf; [apply (tr_wf _ _ _ _ _ R)|exact FR|]. intros y [->|Hy]%elem_of_cons.
        + unfold Slots in E. rewrite E. eauto.
        + eapply chains_live; [exact F|]. apply elem_of_list_fmap in Hy as (e & -> & He). apply elem_of_list_fmap. exists e. split; [done|].
          eapply chain_in_concat; [exact Hc|]. rewrite elem_of_app. by left.
      - unfold Slots, s'. cbn. by rewrite lookup_delete_ne.
      - exists p1. split; [done|]. eapply chain_frame; [exact C1|]. intros x Hx. cbn. rewrite lookup_delete_ne; [done|]. intros <-. done.
      - intros x Hx. rewrite not_elem_of_cons, not_elem_of_app in Hx. destruct Hx as (X1 & X2 & X3). cbn.
        rewrite map_app, not_elem_of_app in X2. cbn in X2. rewrite not_elem_of_cons in X2.
        rewrite lookup_delete_ne by (intros ->; tauto). apply FR. rewrite not_elem_of_cons. tauto.
      - intros x Hx Hn. exfalso. apply Hn. rewrite map_app, elem_of_app in Hx. rewrite map_app, elem_of_app. cbn. rewrite elem_of_cons. tauto.
      - intros x Hx Hn. rewrite map_app, elem_of_app in Hx. cbn in Hx. rewrite elem_of_cons in Hx. rewrite map_app, not_elem_of_app in Hn.
        assert (x = b) as -> by tauto. cbn. by rewrite lookup_delete.
      - rewrite map_app in NDc |- *. cbn in NDc. apply NoDup_app in NDc as (A1 & A2 & A3). apply NoDup_cons in A3 as [_ A3].
        apply NoDup_app. split; [done|]. split; [|done]. intros x Hx Hx'. apply (A2 x Hx). by right.
      - intros e He. eapply (tr_placed _ _ _ _ _ R); [exact Hc|]. rewrite elem_of_app in He. rewrite elem_of_app, elem_of_cons. tauto.
      - assert (D : distinct eqb ((k0, v) :: entries (<[i := c1 ++ c2]> cs))).
        { eapply distinct_perm; [|apply (tr_keys _ _ _ _ _ R)]. unfold entries. by rewrite PM. }
        by apply distinct_cons in D as [_ D].
      - cbn [s' t_ec]. lia.
      - destruct (tr_stage _ _ _ _ _ R) as [g G]. exists g. apply stage_down; [exact G|lia].
      - cbn [s' t_ec]. pose proof (tr_cnt _ _ _ _ _ R). lia. }
    split.
    { intros b1 k1 v1 I1 E1. rewrite PM, elem_of_cons in I1. destruct I1 as [I1|I1]; [|by exists v1].
      injection I1 as -> -> ->. by rewrite T in E1. }
    split; [unfold entries; by rewrite PM|]. done.
Qed.

(** ** Emptying the table *)
Lemma TRep_small h0 s cs cnt : TRep h0 s cs [] cnt -> t_bc s = 1%Z /\ concat cs = [] /\ cs = [[]].
Proof.
  intros R. destruct (tr_arr _ _ _ _ _ R) as (a2 & ps2 & by2 & EA2 & E2 & F2 & [(-> & _ & B1)|(old & ? & _)]); [|done].
  split; [done|]. destruct (tr_stage _ _ _ _ _ R) as [g G]. rewrite B1 in G. pose proof (stage_first _ _ _ G). destruct G as (_ & _ & _ & LL).
  pose proof (tr_ec _ _ _ _ _ R) as EC. assert (Z : concat cs = []) by (destruct (concat cs); [done|cbn in EC; lia]).
  split; [done|]. pose proof (tr_bc _ _ _ _ _ R) as BC. destruct cs as [|c [|c' cs]]; cbn in BC; [lia| |lia].
  cbn in Z. rewrite app_nil_r in Z. by subst.
Qed.

Lemma free_all_ok h0 s cs arrs cnt : TRep h0 s cs arrs cnt ->
  exists h', free_buckets nsz nal eb s = Ok tt (with_hd s h' (t_drops s ++ dropped cs)) /\
    TRep h0 (TState (t_arr s) (t_bc s) 0 (t_nr s) h' (t_drops s ++ dropped cs)) (replicate (length cs) []) arrs cnt /\
    (forall b, b ∉ arrs -> h_blk h' !! b = h_blk h0 !! b).
Proof.
  intros R. destruct (tr_arr _ _ _ _ _ R) as (a & ps & by_ & EA & E & F & OR).
  pose proof (Forall2_length _ _ _ F) as L. pose proof (tr_bc _ _ _ _ _ R) as EB.
  destruct OR as [(-> & -> & B1)|(old & -> & B)].
  - destruct (TRep_small _ _ _ _ R) as (_ & _ & ->). exists (t_h s). split.
    { unfold free_buckets. unfold bind at 1, gets at 1. cbn [id]. rewrite B1. cbn. rewrite app_nil_r. by destruct s. }
    split.
    { cbn. rewrite app_nil_r. pose proof (tr_ec _ _ _ _ _ R) as EC. cbn in EC. destruct s. cbn in *. by subst. }
    intros b Hb. apply (tr_frame _ _ _ _ _ R). cbn. done.
  - assert (NA : a :: old <> []) by done.
    destruct (TRep_array _ _ _ _ _ _ _ _ R EA NA E) as (Ia & Na & Da).
    pose proof (tr_nodup _ _ _ _ _ R) as ND. apply NoDup_app in ND as (ND1 & ND2 & ND3).
    destruct (free_buckets_ok by_ a ps cs s) as (h' & FB & FR & DEL & S'); try done.
    { lia. } { lia. } { apply (tr_wf _ _ _ _ _ R). }
    exists h'. split; [exact FB|].
    assert (FRM : forall b, b ∉ a :: old -> h_blk h' !! b = h_blk h0 !! b).
    { intros b Hb. destruct (decide (b ∈ map fst (concat cs))) as [I|I].
      - rewrite (DEL b I). symmetry. apply (tr_fresh _ _ _ _ _ R). rewrite elem_of_app. by left.
      - destruct FR as [_ FR]. rewrite FR.
        + apply (tr_frame _ _ _ _ _ R). rewrite not_elem_of_app. done.
        + rewrite not_elem_of_cons in Hb |- *. tauto. }
    split; [|exact FRM].
    split; cbn [t_h t_arr t_bc t_ec t_nr].
    + eapply frame_wf; [apply (tr_wf _ _ _ _ _ R)|exact FR|]. intros y [->|Hy]%elem_of_cons.
      * unfold Slots in E. rewrite E. eauto.
      * by eapply chains_live.
    + apply (tr_static _ _ _ _ _ R).
    + by rewrite replicate_length.
    + exists a, (replicate (length ps) Null), by_. split; [done|]. split; [done|]. split; [rewrite L; apply empty_chains|].
      right. by exists old.
    + intros x Hx. destruct (decide (x = a)) as [->|Nx].
      * destruct (tr_arrs _ _ _ _ _ R a Ia) as [psx Sx]. exists (replicate (length ps) Null).
        assert (by_ = (Z.of_nat (length (replicate (length ps) Null)) + 1) * 8)%Z as <-; [|exact S'].
        rewrite replicate_length. unfold Slots in E, Sx. rewrite E in Sx. injection Sx as -> Hsl.
        assert (length (slots ps) = length (slots psx)) as Q by congruence. rewrite !slots_length in Q. lia.
      * destruct (tr_arrs _ _ _ _ _ R x Hx) as [psx Sx]. exists psx. unfold Slots. destruct FR as [_ FR]. rewrite FR; [exact Sx|].
        rewrite not_elem_of_cons. split; [done|]. intros H. by apply (ND2 x H).
    + destruct (tr_stage _ _ _ _ _ R) as (g & G1 & G2 & G3 & G4). exists g. repeat split; try done; lia.
    + by rewrite concat_empty.
    + intros i c e Hc He. apply lookup_replicate in Hc as [-> _]. by apply elem_of_nil in He.
    + by rewrite concat_empty.
    + rewrite concat_empty. intros b Hb. apply (tr_fresh _ _ _ _ _ R). rewrite elem_of_app. by right.
    + rewrite concat_empty. done.
    + unfold entries. rewrite concat_empty. apply distinct_nil.
    + pose proof (tr_cnt _ _ _ _ _ R). pose proof (tr_ec _ _ _ _ _ R). lia.
    + apply (tr_few _ _ _ _ _ R).
    + apply (tr_dbl _ _ _ _ _ R).
    + apply (tr_grown _ _ _ _ _ R).
Qed.

(** ** The operations *)
Lemma full_ec h0 s cs arrs cnt : TRep h0 s cs arrs cnt -> full (entries cs) = (t_ec s =? grow_limit)%Z.
Proof. intros R. unfold full. rewrite map_length, <- (tr_ec _ _ _ _ _ R). done. Qed.

Lemma target_ok h0 s cs arrs cnt k : TRep h0 s cs arrs cnt ->
  bucket_for_key hash k s = Ok (slot_of s k) s /\ bucket_for_key_mut hash k s = Ok (slot_of s k) s.
Proof. intros R. by destruct (TRep_slot _ _ _ _ _ k R) as (? & ? & ? & ? & ? & _ & _ & _ & _ & _ & _ & _ & ? & ?). Qed.

Lemma found_ok h0 s cs arrs cnt k k0 v : TRep h0 s cs arrs cnt -> look eqb k (entries cs) = Some (k0, v) ->
  eqb k0 k = true /\ exists b nx, find_from eqb (slot_of s k) k s = Ok (Some (Ptr b 0)) s /\ node_at (Ptr b 0) s = Ok (k0, v, nx) s /\
  forall f, exists s' cs', store eb (Ptr b 0) (TNode k0 (f v) nx) s = Ok tt s' /\ TRep h0 s' cs' arrs cnt /\ Keeps always cs cs' /\
    entries cs' = change eqb k f (entries cs) /\ t_drops s' = t_drops s /\ t_bc s' = t_bc s /\ node_at (Ptr b 0) s' = Ok (k0, f v, nx) s'.
Proof.
  intros R LK. pose proof (find_from_ok _ _ _ _ _ k R) as FF. rewrite LK in FF.
  destruct FF as (b & c1 & c2 & Hc & Ek & _ & FF). cbn [fst] in Ek. split; [done|].
  destruct (TRep_update _ _ _ _ _ _ _ _ _ _ _ R Hc) as (nx & NAT & _ & U). exists b, nx. split; [done|]. split; [done|].
  intros f. destruct (U (f v)) as (ST & R' & C0 & C1).
  eexists _, _. split; [exact ST|]. split; [exact R'|]. split; [by eapply Keeps_split|]. split.
  - rewrite C1, C0, !map_app. cbn [map snd]. rewrite change_split; [done| |done].
    pose proof (tr_keys _ _ _ _ _ R) as D. rewrite C0, !map_app in D. cbn [map snd] in D. exact D.
  - split; [done|]. split; [done|]. apply node_at_ok. cbn. by rewrite lookup_insert.
Qed.

Lemma absent_ok h0 s cs arrs cnt k : TRep h0 s cs arrs cnt -> look eqb k (entries cs) = None ->
  find_from eqb (slot_of s k) k s = Ok None s.
Proof. intros R LK. pose proof (find_from_ok _ _ _ _ _ k R) as FF. by rewrite LK in FF. Qed.

Lemma get_ok h0 s cs arrs cnt k : TRep h0 s cs arrs cnt -> get hash eqb k s = Ok (look eqb k (entries cs)) s.
Proof.
  intros R. destruct (target_ok _ _ _ _ _ k R) as [B _]. unfold get. unfold bind at 1. rewrite B. unfold bind at 1.
  destruct (look eqb k (entries cs)) as [[k0 v]|] eqn:LK.
  - destruct (found_ok _ _ _ _ _ _ _ _ R LK) as (_ & b & nx & FF & NA & _). rewrite FF. unfold bind at 1. by rewrite NA.
  - by rewrite (absent_ok _ _ _ _ _ _ R LK).
Qed.

Lemma contains_ok h0 s cs arrs cnt k : TRep h0 s cs arrs cnt -> contains_key hash eqb k s = Ok (has eqb k (entries cs)) s.
Proof.
  intros R. unfold contains_key. unfold bind at 1. rewrite (get_ok _ _ _ _ _ k R). rewrite has_look.
  by destruct (look eqb k (entries cs)).
Qed.

Lemma get_mut_set_ok h0 s cs arrs cnt k v : TRep h0 s cs arrs cnt ->
  match look eqb k (entries cs) with
  | Some e => exists s' cs', get_mut_set eb hash eqb k v s = Ok true s' /\ TRep h0 s' cs' arrs cnt /\ Keeps always cs cs' /\
      entries cs' = change eqb k (fun _ => v) (entries cs) /\ t_drops s' = t_drops s ++ [inr (snd e)] /\ t_bc s' = t_bc s
  | None => get_mut_set eb hash eqb k v s = Ok false (logged [inr v] s)
  end.
Proof.
  intros R. destruct (target_ok _ _ _ _ _ k R) as [_ B]. unfold get_mut_set. 
  destruct (look eqb k (entries cs)) as [[k0 v0]|] eqn:LK.
  - destruct (found_ok _ _ _ _ _ _ _ _ R LK) as (_ & b & nx & FF & NA & U). destruct (U (fun _ => v)) as (s' & cs' & ST & R' & KP & EN & DR & BC & _).
    exists (logged [inr v0] s'), cs'. unfold bind at 1. rewrite B. unfold bind at 1. rewrite FF. unfold bind at 1. rewrite NA.
    unfold bind at 1. rewrite ST. split; [done|]. split; [by apply TRep_logged|]. split; [done|]. split; [done|]. cbn. by rewrite DR.
  - unfold bind at 1. rewrite B. unfold bind at 1. by rewrite (absent_ok _ _ _ _ _ _ R LK).
Qed.

Lemma insert_ok h0 s cs arrs cnt k v : TRep h0 s cs arrs cnt ->
  match look eqb k (entries cs) with
  | Some e => exists s' cs', insert nsz nal eb chk hash eqb k v s = Ok (Some (snd e)) s' /\ TRep h0 s' cs' arrs cnt /\ Keeps always cs cs' /\
      entries cs' = change eqb k (fun _ => v) (entries cs) /\ t_drops s' = t_drops s ++ [inl k] /\ t_bc s' = t_bc s
  | None =>
    if full (entries cs) then insert nsz nal eb chk hash eqb k v s = Panic (logged [inr v; inl k] s)
    else exists s' cs' arrs', insert nsz nal eb chk hash eqb k v s = Ok None s' /\ TRep h0 s' cs' arrs' (cnt + 1) /\ Keeps always cs cs' /\
      entries cs' ≡ₚ (k, v) :: entries cs /\ t_drops s' = t_drops s /\ Grown s arrs s' arrs'
  end.
Proof.
  intros R. destruct (target_ok _ _ _ _ _ k R) as [_ B].
  destruct (look eqb k (entries cs)) as [[k0 v0]|] eqn:LK.
  - destruct (found_ok _ _ _ _ _ _ _ _ R LK) as (_ & b & nx & FF & NA & U). destruct (U (fun _ => v)) as (s' & cs' & ST & R' & KP & EN & DR & BC & _).
    exists (logged [inl k] s'), cs'. unfold insert, on_unwind. unfold bind at 1. rewrite B. unfold bind at 1. rewrite FF. unfold bind at 1. rewrite NA.
    unfold bind at 1. rewrite ST. split; [done|]. split; [by apply TRep_logged|]. split; [done|]. split; [done|]. cbn. by rewrite DR.
  - assert (HD : insert nsz nal eb chk hash eqb k v s = (run insert_impl nsz nal eb chk hash (slot_of s k) k v; ret None) s).
    { unfold insert, on_unwind. unfold bind at 1. rewrite B. unfold bind at 1. by rewrite (absent_ok _ _ _ _ _ _ R LK). }
    rewrite HD. rewrite (full_ec _ _ _ _ _ R).
    destruct (insert_impl_ok _ _ _ _ _ k v R LK) as [[EC P]|[EC (b & s' & cs' & arrs' & P & R' & PM & DR & GR & _)]].
    + rewrite EC, Z.eqb_refl. unfold bind at 1. by rewrite P.
    + rewrite (proj2 (Z.eqb_neq _ _) EC). exists s', cs', arrs'. unfold bind at 1. rewrite P. split; [done|]. split; [done|].
      split; [apply Keeps_sub; intros e He; rewrite PM; by right|]. split; [|done]. by rewrite PM.
Qed.

Lemma entry_mod_ok h0 s cs arrs cnt k f : TRep h0 s cs arrs cnt ->
  match look eqb k (changes eqb k f (entries cs)) with
  | Some e => exists b nx s' cs', entry_mod eb hash eqb k f s = Ok (inl (Ptr b 0)) s' /\ TRep h0 s' cs' arrs cnt /\ Keeps always cs cs' /\
      entries cs' = changes eqb k f (entries cs) /\ t_drops s' = t_drops s ++ [inl k] /\ has eqb k (entries cs) = true /\ t_bc s' = t_bc s /\
      node_at (Ptr b 0) s' = Ok (fst e, snd e, nx) s'
  | None => entry_mod eb hash eqb k f s = Ok (inr (slot_of s k, k)) s /\ look eqb k (entries cs) = None /\ has eqb k (entries cs) = false
  end.
Proof.
  intros R. destruct (target_ok _ _ _ _ _ k R) as [_ B].
  destruct (look eqb k (entries cs)) as [[k0 v0]|] eqn:LK.
  - assert (HS : has eqb k (entries cs) = true) by (by rewrite has_look, LK).
    destruct (found_ok _ _ _ _ _ _ _ _ R LK) as (Ek & b & nx & FF & NA & U).
    assert (EN : entry hash eqb k s = Ok (inl (Ptr b 0)) (logged [inl k] s)).
    { unfold entry, on_unwind. unfold bind at 1. rewrite B. unfold bind at 1. by rewrite FF. }
    pose proof (TRep_logged _ _ _ _ _ [inl k] R) as RL.
    destruct (found_ok _ _ _ _ _ _ _ _ RL LK) as (_ & b2 & nx2 & FF2 & NA2 & U2).
    assert (b2 = b /\ nx2 = nx) as [-> ->].
    { assert (find_from eqb (slot_of (logged [inl k] s) k) k (logged [inl k] s) = Ok (Some (Ptr b 0)) (logged [inl k] s)) as X.
      { destruct (TRep_slot _ _ _ _ _ k R) as (a & ps & by_ & p & c & EA & E & F & SL & Hp & Hc & C & _ & _).
        pose proof FF as FF'. unfold find_from, bind, gets in FF' |- *. rewrite SL in FF'. unfold slot_of in SL |- *. cbn [logged t_arr t_bc]. rewrite SL.
        rewrite (read_slot_ok _ _ _ _ _ _ E Hp) in FF'. rewrite (read_slot_ok by_ (logged [inl k] s) a ps _ p E Hp).
        assert (LL : length c < fuel s).
        { eapply chain_fuel; [apply (tr_wf _ _ _ _ _ R)|exact C|]. by eapply NoDup_chain. }
        rewrite (find_in_bucket_ok _ _ _ _ _ C LL) in FF'. injection FF' as FF'.
        rewrite (find_in_bucket_ok _ (logged [inl k] s) _ _ _ C LL). by rewrite FF'. }
      rewrite X in FF2. injection FF2 as <-. split; [done|].
      unfold node_at, bind, gets in NA, NA2. cbn [logged t_h] in NA2. destruct (hload (t_h s) (Ptr b 0)) as [[]|]; unfold ret in *; simplify_eq. done. }
    destruct f as [f|].
    + destruct (U2 f) as (s' & cs' & ST & R' & KP & EE & DR & BC & NA'). cbn [changes].
      assert (L2 : look eqb k (change eqb k f (entries cs)) = Some (k0, f v0)).
      { rewrite <- EE. apply look_some; [apply (tr_keys _ _ _ _ _ R')| |done]. rewrite EE. apply elem_of_list_In, in_map_iff.
        exists (k0, v0). cbn [fst snd]. rewrite Ek. split; [done|]. apply elem_of_list_In. by apply look_in in LK as [? _]. }
      rewrite L2. exists b, nx, s', cs'. split; [|done].
      unfold entry_mod. unfold bind at 1. rewrite EN. unfold bind at 1. cbn [and_modify]. unfold bind at 1. rewrite NA2. by rewrite ST.
    + cbn [changes]. rewrite LK. exists b, nx, (logged [inl k] s), cs. split; [|split; [done|split; [by apply Keeps_sub|done]]].
      unfold entry_mod. unfold bind at 1. by rewrite EN.
  - assert (changes eqb k f (entries cs) = entries cs) as ->.
    { destruct f; [|done]. by apply change_none. }
    rewrite LK. split; [|by rewrite has_look, LK]. unfold entry_mod, entry, on_unwind. unfold bind at 1. unfold bind at 1. rewrite B.
    unfold bind at 1. rewrite (absent_ok _ _ _ _ _ _ R LK). unfold ret at 1. unfold bind at 1. by destruct f.
Qed.

(** ** Iteration *)
Definition IterAt (s : tstate) (a : nat) (ps : list ptr) (it : raw_iter) (l : list enode) : Prop :=
  exists i c rcs, ri_p it = Ptr a i /\ ri_n it = length ps - i /\ i <= length ps /\ chain (t_h s) (ri_node it) c /\
    Forall2 (chain (t_h s)) (drop i ps) rcs /\ l = c ++ concat rcs /\ (c = [] -> concat rcs = []).

Lemma next_bucket_ok by_ (s : tstate) a ps : Slots by_ (t_h s) a ps -> forall rcs i,
  Forall2 (chain (t_h s)) (drop i ps) rcs -> i <= length ps ->
  exists p n o, next_bucket (Ptr a i) (length ps - i) s = Ok (p, n, o) s /\ IterAt s a ps (RawIter p n (or_null o)) (concat rcs).
Proof.
  intros E rcs. induction rcs as [|c rcs IH]; intros i F L.
  - pose proof (Forall2_length _ _ _ F) as Ln. rewrite drop_length in Ln. cbn in Ln. rewrite Ln.
    exists (Ptr a i), 0, None. split; [done|]. exists i, [], []. cbn. rewrite Ln. repeat split; try done.
  - pose proof (Forall2_length _ _ _ F) as Ln. rewrite drop_length in Ln. cbn in Ln.
    destruct (length ps - i) as [|n] eqn:Q; [lia|].
    destruct (lookup_lt_is_Some_2 ps i) as [q Hq]; [lia|].
    rewrite (drop_S _ _ _ Hq) in F. apply Forall2_cons in F as [C F].
    cbn [next_bucket]. unfold bind at 1. rewrite (read_slot_ok _ _ _ _ _ _ E Hq).
    unfold bind at 1, gets at 1. unfold bind at 1. rewrite (hadd_slots' _ _ _ _ _ _ E) by lia. cbn [or_ub]. unfold ret at 1. cbv beta iota.
    replace (i + 1) with (S i) by lia.
    destruct c as [|e c].
    + cbn in C. subst q. cbn [is_null]. destruct (IH (S i) F) as (p & n' & o & NB & IT); [lia|].
      exists p, n', o. replace n with (length ps - S i) by lia. split; [done|]. exact IT.
    + pose proof C as (nx & -> & _). cbn [is_null].
      exists (Ptr a (S i)), n, (Some (Ptr (fst e) 0)). split; [done|].
      exists (S i), (e :: c), rcs. cbn [or_null ri_p ri_n ri_node]. split; [done|]. split; [lia|]. split; [lia|]. split; [done|]. split; [done|]. done.
Qed.

Lemma iter_next_ok by_ (s : tstate) a ps it l : Slots by_ (t_h s) a ps -> IterAt s a ps it l ->
  match l with
  | [] => iter_next it s = Ok (None, it) s
  | e :: l' => exists it' nx, iter_next it s = Ok (Some (Ptr (fst e) 0), it') s /\ IterAt s a ps it' l' /\
      node_at (Ptr (fst e) 0) s = Ok (fst (snd e), snd (snd e), nx) s
  end.
Proof.
  intros E (i & c & rcs & EP & EN & L & C & F & -> & ZE). destruct it as [ip n node]. cbn in *. subst ip n.
  destruct c as [|e c].
  - rewrite (ZE eq_refl). cbn in *. subst. done.
  - destruct C as (nx & -> & Eb & C). cbn [app]. unfold iter_next. cbn [ri_node ri_p ri_n].
    pose proof (node_at_ok _ _ _ _ _ Eb) as NA.
    destruct c as [|e2 c].
    + cbn in C. subst nx. destruct (next_bucket_ok _ _ _ _ E rcs i F L) as (p & n' & o & NB & IT).
      exists (RawIter p n' (or_null o)), Null. split; [|done]. unfold bind at 1. rewrite NA. cbn [is_null]. unfold bind at 1. by rewrite NB.
    + pose proof C as (nx2 & -> & _). exists (RawIter (Ptr a i) (length ps - i) (Ptr (fst e2) 0)), (Ptr (fst e2) 0). split; [|split; [|done]].
      * unfold bind at 1. by rewrite NA.
      * exists i, (e2 :: c), rcs. cbn. done.
Qed.

Lemma iter_ok h0 s cs arrs cnt : TRep h0 s cs arrs cnt ->
  exists a ps by_ it, t_arr s = Ptr a 0 /\ Slots by_ (t_h s) a ps /\ iter s = Ok it s /\ IterAt s a ps it (concat cs) /\
    a ∉ map fst (concat cs).
Proof.
  intros R. destruct (tr_arr _ _ _ _ _ R) as (a & ps & by_ & EA & E & F & OR).
  destruct (next_bucket_ok _ _ _ _ E cs 0) as (p & n & o & NB & IT); [by rewrite drop_0|lia|].
  exists a, ps, by_, (RawIter p n (or_null o)). split; [done|]. split; [done|]. split; [|split; [done|]].
  - unfold iter. unfold bind at 1, gets at 1. cbn [id]. rewrite EA. cbn [is_null]. unfold bind at 1.
    rewrite (tr_bc _ _ _ _ _ R), Nat2Z.id, <- (Forall2_length _ _ _ F). rewrite Nat.sub_0_r in NB. by rewrite NB.
  - intros H. destruct OR as [(-> & -> & _)|(old & -> & _)].
    + apply (TRep_eb _ _ _ _ _ R). rewrite elem_of_app. by left.
    + pose proof (tr_nodup _ _ _ _ _ R) as ND. apply NoDup_app in ND as (_ & N & _). apply (N a H). left.
Qed.

Lemma iter_all_ok by_ (s : tstate) a ps : Slots by_ (t_h s) a ps -> forall l f it, IterAt s a ps it l -> length l < f ->
  iter_all f it s = Ok (map snd l) s.
Proof.
  intros E l. induction l as [|e l IH]; intros f it IT L; (destruct f as [|f]; [cbn in L; lia|]); cbn [iter_all]; unfold bind at 1.
  - by rewrite (iter_next_ok _ _ _ _ _ _ E IT).
  - destruct (iter_next_ok _ _ _ _ _ _ E IT) as (it' & nx & N & IT' & NA). rewrite N. cbn [fst snd]. unfold bind at 1. rewrite NA.
    unfold bind at 1. rewrite (IH f it' IT') by (cbn in L; lia). destruct e as [b [k v]]. done.
Qed.

Lemma all_fuel h0 s cs arrs cnt : TRep h0 s cs arrs cnt -> length (concat cs) < fuel s.
Proof.
  intros R. destruct (tr_arr _ _ _ _ _ R) as (a & ps & by_ & EA & E & F & OR). unfold fuel.
  pose proof (tr_nodup _ _ _ _ _ R) as ND. apply NoDup_app in ND as (ND & _).
  pose proof (NoDup_below _ (h_next (t_h s)) ND) as B. rewrite map_length in B.
  enough (length (concat cs) <= h_next (t_h s)) by lia. apply B. intros b Hb. apply (tr_wf _ _ _ _ _ R). by eapply chains_live.
Qed.

Lemma IterAt_frame (s s' : tstate) a ps it l :
  IterAt s a ps it l -> (forall b, b ∈ map fst l -> h_blk (t_h s') !! b = h_blk (t_h s) !! b) -> IterAt s' a ps it l.
Proof.
  intros (i & c & rcs & EP & EN & L & C & F & -> & ZE) FR. exists i, c, rcs. split; [done|]. split; [done|]. split; [done|]. split; [|split; [|done]].
  - eapply chain_frame; [exact C|]. intros b Hb. apply FR. rewrite map_app, elem_of_app. by left.
  - eapply chains_frame; [exact F|]. intros b Hb. apply FR. rewrite map_app, elem_of_app. by right.
Qed.

Lemma split_unique (D l L R : list enode) e : NoDup (map fst (D ++ e :: l)) -> D ++ e :: l = L ++ e :: R -> D = L /\ l = R.
Proof.
  revert L. induction D as [|d D IH]; intros L ND EQ; destruct L as [|x L]; cbn in *.
  - by injection EQ as ->.
  - injection EQ as <- EQ. apply NoDup_cons in ND as [N _]. exfalso. apply N. rewrite EQ, map_app, elem_of_app. right. left.
  - injection EQ as -> EQ. apply NoDup_cons in ND as [N _]. exfalso. apply N. rewrite map_app, elem_of_app. right. left.
  - injection EQ as <- EQ. apply NoDup_cons in ND as [_ ND]. by destruct (IH L ND EQ) as [-> ->].
Qed.

Definition upd (g : K -> V -> V) (e : K * V) : K * V := (fst e, g (fst e) (snd e)).

Lemma iter_mut_all_ok h0 arrs cnt g by_ a ps : forall l D f it s cs, TRep h0 s cs arrs cnt -> concat cs = D ++ l ->
  Slots by_ (t_h s) a ps -> a ∉ map fst (concat cs) -> IterAt s a ps it l -> length l < f ->
  exists s' cs', iter_mut_all eb f g it s = Ok (map snd l) s' /\ TRep h0 s' cs' arrs cnt /\ Keeps always cs cs' /\
    entries cs' = map snd D ++ map (upd g) (map snd l) /\ t_drops s' = t_drops s /\ t_bc s' = t_bc s.
Proof.
  induction l as [|e l IH]; intros D f it s cs R EC E NI IT L; (destruct f as [|f]; [cbn in L; lia|]); cbn [iter_mut_all].
  - exists s, cs. unfold bind at 1. rewrite (iter_next_ok _ _ _ _ _ _ E IT). split; [done|]. split; [done|]. split; [by apply Keeps_sub|].
    rewrite EC, map_app. done.
  - destruct (iter_next_ok _ _ _ _ _ _ E IT) as (it' & nx & N & IT' & NA).
    destruct e as [b [k v]]. cbn [fst snd] in *.
    pose proof (tr_nodup _ _ _ _ _ R) as ND. apply NoDup_app in ND as (ND & _).
    assert (Ie : (b, (k, v)) ∈ concat cs) by (rewrite EC, elem_of_app; right; left).
    apply elem_of_list_In, in_concat in Ie as (c & Hc & He). rewrite <- !elem_of_list_In in *.
    apply elem_of_list_lookup in Hc as [i Hc]. apply elem_of_list_split in He as (c1 & c2 & ->).
    destruct (TRep_update _ _ _ _ _ _ _ _ _ _ _ R Hc) as (nx' & NAT & _ & U). rewrite NA in NAT. injection NAT as <-.
    destruct (U (g k v)) as (ST & R' & C0 & C1). clear U.
    rewrite C0 in EC. rewrite C0 in ND. destruct (split_unique _ _ _ _ _ ND EC) as [ED EL].
    rewrite ED, EL in C0, C1.
    set (s1 := with_h s (hset (t_h s) b (nodeblk k (g k v) nx))) in *.
    assert (Nb : b ∉ map fst l).
    { rewrite ED, EL in ND. rewrite map_app in ND. apply NoDup_app in ND as (_ & _ & ND). cbn in ND. by apply NoDup_cons in ND as [? _]. }
    assert (Nab : a <> b).
    { intros ->. apply NI. rewrite C0, map_app, elem_of_app. right. left. }
    destruct (IH (D ++ [(b, (k, g k v))]) f it' s1 _ R') as (s' & cs' & IM & R2 & KP & EN & DR & BC).
    { rewrite C1, <- app_assoc. done. }
    { unfold Slots, s1. cbn. by rewrite lookup_insert_ne. }
    { rewrite C1, map_app. rewrite C0, map_app in NI. exact NI. }
    { eapply IterAt_frame; [exact IT'|]. intros x Hx. unfold s1. cbn. rewrite lookup_insert_ne; [done|]. intros <-. done. }
    { cbn in L. lia. }
    exists s', cs'. split; [|split; [done|split; [eapply Keeps_trans; [by eapply Keeps_split|exact KP]|split]]].
    + unfold bind at 1. rewrite N. cbn [fst snd]. unfold bind at 1. rewrite NA. unfold bind at 1. rewrite ST. unfold bind at 1. by rewrite IM.
    + rewrite EN, map_app, <- app_assoc. done.
    + by rewrite DR, BC.
Qed.

Lemma compat_ok by_ (s : tstate) a ps it l : Slots by_ (t_h s) a ps -> IterAt s a ps it l ->
  exists b e, into_compat it s = Ok (b, e) s /\ from_compat b e s = Ok it s.
Proof.
  intros E (i & c & rcs & EP & EN & L & _). destruct it as [ip n node]. cbn in *. subst ip n.
  exists (CompatIter node (Ptr a i)), (CompatIter Null (Ptr a (length ps))). split.
  - unfold into_compat, bind, gets. cbn [ri_p ri_n]. rewrite (hadd_slots' _ _ _ _ _ _ E) by lia.
    replace (i + (length ps - i)) with (length ps) by lia. done.
  - unfold from_compat, bind, gets. cbn [ci_bucket ci_node]. rewrite pdiff_ok by done. cbn [or_ub]. unfold ret.
    assert (HS : hslice (t_h s) (Ptr a i) (length ps - i) = Some (map TSlot (drop i ps))).
    { rewrite <- drop_length, <- (map_length (@TSlot K V) (drop i ps)). apply (hslice_ok _ _ _ _ _ E).
      - cbn. rewrite slots_length, map_length, drop_length. lia.
      - cbn [bk_cells]. unfold slots. rewrite drop_app_le by (rewrite map_length; lia).
        rewrite <- map_drop || rewrite <- fmap_drop. rewrite take_app_alt by (by rewrite !map_length).
        unfold fmap, list_fmap. fold (map (@Some (tcell K V)) (map TSlot (drop i ps))). by rewrite map_map. }
    rewrite HS. done.
Qed.

Lemma iter_take_ok by_ (s : tstate) a ps : Slots by_ (t_h s) a ps -> forall n l it, IterAt s a ps it l ->
  exists it', iter_take n it s = Ok (map (fun e => Ptr (fst e) 0) (take n l), it') s /\ IterAt s a ps it' (drop n l).
Proof.
  intros E n. induction n as [|n IH]; intros l it IT.
  - exists it. done.
  - cbn [iter_take]. unfold bind at 1. pose proof (iter_next_ok _ _ _ _ _ _ E IT) as N. destruct l as [|e l].
    + rewrite N. cbn [fst snd]. destruct (IH [] it IT) as (it' & T & IT'). exists it'. unfold bind at 1. rewrite T.
      rewrite take_nil, drop_nil in *. done.
    + destruct N as (it1 & nx & N & IT1 & _). rewrite N. cbn [fst snd]. destruct (IH l it1 IT1) as (it' & T & IT').
      exists it'. unfold bind at 1. rewrite T. done.
Qed.

(** ** Programs *)
Definition result {S A} (o : outcome S A) : option (option A * S) :=
  match o with Ok a s => Some (Some a, s) | Panic s => Some (None, s) | UB => None end.

Lemma change_keys k f (m : list (K * V)) : map fst (change eqb k f m) = map fst m.
Proof. unfold change. rewrite map_map. apply map_ext. intros e. by destruct (eqb (fst e) k). Qed.

Lemma distinct_keys (m m' : list (K * V)) : map fst m = map fst m' -> distinct eqb m -> distinct eqb m'.
Proof.
  intros E D i j x y Hx Hy Q. assert (LK : forall i x, m' !! i = Some x -> exists x', m !! i = Some x' /\ fst x' = fst x).
  { intros i' x' H. assert (map fst m' !! i' = Some (fst x')) as X by (by rewrite list_lookup_fmap, H).
    rewrite <- E, list_lookup_fmap in X. destruct (m !! i') as [z|]; [|done]. exists z. split; [done|]. by injection X. }
  destruct (LK _ _ Hx) as (x' & Hx' & E1). destruct (LK _ _ Hy) as (y' & Hy' & E2).
  apply (D i j x' y' Hx' Hy'). congruence.
Qed.

Lemma distinct_push k v (m : list (K * V)) : look eqb k m = None -> distinct eqb m -> distinct eqb ((k, v) :: m).
Proof.
  intros LK D. apply distinct_cons. split; [|done]. rewrite look_none in LK. intros y Hy. cbn [fst].
  destruct (eqb k (fst y)) eqn:Q; [|done]. apply (kh_sym _ _ KH) in Q. rewrite (LK y Hy) in Q. done.
Qed.

Lemma full_perm (m m' : list (K * V)) : m ≡ₚ m' -> full m = full m'.
Proof. intros P. unfold full. by rewrite (Permutation_length P). Qed.

Lemma extend_perm kvs : forall (m m' : list (K * V)), m ≡ₚ m' -> distinct eqb m ->
  let '(b, d, m1) := spec_extend eqb kvs m in let '(b', d', m1') := spec_extend eqb kvs m' in
  b = b' /\ d = d' /\ m1 ≡ₚ m1'.
Proof.
  induction kvs as [|[k v] kvs IH]; intros m m' P D; cbn [spec_extend]; [done|].
  rewrite <- (look_perm k _ _ P D). destruct (look eqb k m) as [e|] eqn:LK.
  - specialize (IH _ _ (change_perm k (fun _ => v) _ _ P)). 
    assert (D2 : distinct eqb (change eqb k (fun _ => v) m)).
    { eapply distinct_keys; [|exact D]. by rewrite change_keys. }
    specialize (IH D2). destruct (spec_extend eqb kvs _) as [[b d] m1]. destruct (spec_extend eqb kvs _) as [[b' d'] m1'].
    destruct IH as (-> & -> & ?). done.
  - rewrite <- (full_perm _ _ P). destruct (full m); [done|]. apply IH; [by rewrite P|]. by apply distinct_push.
Qed.

Lemma has_perm k (m m' : list (K * V)) : m ≡ₚ m' -> distinct eqb m -> has eqb k m = has eqb k m'.
Proof. intros P D. by rewrite !has_look, (look_perm k _ _ P D). Qed.

Lemma changes_perm k f (m m' : list (K * V)) : m ≡ₚ m' -> changes eqb k f m ≡ₚ changes eqb k f m'.
Proof. intros P. destruct f; [by apply change_perm|done]. Qed.

Lemma changes_distinct k f (m : list (K * V)) : distinct eqb m -> distinct eqb (changes eqb k f m).
Proof. intros D. destruct f; [|done]. eapply distinct_keys; [|exact D]. cbn [changes]. by rewrite change_keys. Qed.

(** The specification does not depend on the order of the entries. *)
Lemma spec_call_perm c (m m' : list (K * V)) : m ≡ₚ m' -> distinct eqb m ->
  let '(a, d, m1) := spec_call eqb c m in let '(a', d', m1') := spec_call eqb c m' in
  same_answer a a' /\ d ≡ₚ d' /\ m1 ≡ₚ m1'.
Proof.
  intros P D. pose proof (full_perm _ _ P) as FP.
  destruct c; cbn [spec_call].
  - rewrite <- (look_perm k _ _ P D), <- FP. destruct (look eqb k m); [split; [done|]; split; [done|]; by apply change_perm|].
    destruct (full m); [done|]. split; [done|]. split; [done|]. by rewrite P.
  - by rewrite <- (look_perm k _ _ P D).
  - by rewrite <- (has_perm k _ _ P D).
  - rewrite <- (look_perm k _ _ P D). destruct (look eqb k m); [|done]. split; [done|]; split; [done|]; by apply change_perm.
  - rewrite <- (look_perm k _ _ P D). destruct (look eqb k m); [|done]. split; [done|]; split; [done|]; by apply without_perm.
  - rewrite <- (look_perm k _ _ P D). split; [done|]; split; [done|]; by apply without_perm.
  - rewrite <- (look_perm k _ _ (changes_perm k f _ _ P) (changes_distinct k f _ D)), <- FP.
    destruct (look eqb k (changes eqb k f m)); [split; [done|]; split; [done|]; by apply changes_perm|].
    destruct (full m); [done|]. split; [done|]. split; [done|]. by rewrite P.
  - rewrite <- (look_perm k _ _ (changes_perm k f _ _ P) (changes_distinct k f _ D)), <- FP.
    destruct (look eqb k (changes eqb k f m)); [split; [done|]; split; [done|]; by apply changes_perm|].
    destruct (full m); [done|]. split; [done|]. split; [done|]. by rewrite P.
  - rewrite <- (has_perm k _ _ P D). split; [done|]. split; [done|]. by apply changes_perm.
  - pose proof (extend_perm kvs _ _ P D) as X. destruct (spec_extend eqb kvs m) as [[b d] m1]. destruct (spec_extend eqb kvs m') as [[b' d'] m1'].
    destruct X as (-> & -> & ?). split; [by destruct b'|done].
  - by rewrite (Permutation_length P).
  - split; [|done]. destruct m as [|x m].
    + by apply Permutation_nil in P as ->.
    + destruct m'; [by apply Permutation_sym, Permutation_nil in P|done].
  - split; [done|]. split; [by apply parts_perm|done].
  - done.
  - split; [done|]. split; [done|]. by apply Permutation_map.
Qed.

Lemma Grown_refl s arrs (s' : tstate) : t_bc s' = t_bc s -> Grown s arrs s' arrs.
Proof. by left. Qed.

Lemma Grown_trans s1 a1 s2 a2 s3 a3 : (0 < t_bc s1)%Z -> Grown s1 a1 s2 a2 -> Grown s2 a2 s3 a3 -> Grown s1 a1 s3 a3.
Proof.
  intros P [[E1 ->]|[L1 B1]] [[E2 ->]|[L2 B2]]; unfold Grown.
  - left. split; [congruence|done].
  - right. rewrite <- E1. done.
  - right. by rewrite E2.
  - right. lia.
Qed.

Lemma TRep_bc_pos h0 s cs arrs cnt : TRep h0 s cs arrs cnt -> (0 < t_bc s)%Z.
Proof. intros R. pose proof (TRep_pos _ _ _ _ _ R). pose proof (tr_bc _ _ _ _ _ R). lia. Qed.

Local Ltac fin := repeat match goal with |- _ /\ _ => split end;
  first [done | by left | by apply Grown_refl | by rewrite app_nil_r | solve_Permutation].

Lemma insert_all_ok kvs : forall h0 s cs arrs cnt, TRep h0 s cs arrs cnt ->
  let '(b, d, m') := spec_extend eqb kvs (entries cs) in
  exists s' cs' arrs' d', result (insert_all nsz nal eb chk hash eqb kvs s) = Some (if b then Some tt else None, s') /\
    TRep h0 s' cs' arrs' (cnt + Z.of_nat (length kvs)) /\ Keeps always cs cs' /\ entries cs' ≡ₚ m' /\ t_drops s' = t_drops s ++ d' /\ d' ≡ₚ d /\ Grown s arrs s' arrs'.
Proof.
  induction kvs as [|[k v] kvs IH]; intros h0 s cs arrs cnt R; cbn [spec_extend insert_all].
  - exists s, cs, arrs, []. split; [done|]. split; [by rewrite Z.add_0_r|]. split; [by apply Keeps_sub|]. fin.
  - pose proof (insert_ok _ _ _ _ _ k v R) as IN. destruct (look eqb k (entries cs)) as [e|] eqn:LK.
    + destruct IN as (s1 & cs1 & IN & R1 & KP1 & E1 & D1 & BC1).
      pose proof (TRep_logged _ _ _ _ _ [inr (snd e)] R1) as R1'.
      specialize (IH _ _ _ _ _ R1'). rewrite E1 in IH.
      destruct (spec_extend eqb kvs _) as [[b d] m1]. destruct IH as (s' & cs' & arrs' & d' & RS & R' & KP & E' & DD & PD & GR).
      exists s', cs', arrs', (inl k :: inr (snd e) :: d'). split.
      { unfold bind at 1, on_unwind. rewrite IN. unfold bind at 1. exact RS. }
      split; [eapply TRep_cnt; [exact R'|cbn [length]; lia]|]. split; [by eapply Keeps_trans|]. split; [done|]. split; [|split; [by rewrite PD|]].
      { rewrite DD. cbn. rewrite D1, <- !app_assoc. done. }
      eapply Grown_trans; [by eapply TRep_bc_pos| |exact GR]. by apply Grown_refl.
    + destruct (full (entries cs)) eqn:FU.
      * exists (logged (pair_parts kvs) (logged [inr v; inl k] s)), cs, arrs, ([inr v; inl k] ++ pair_parts kvs). split.
        { unfold bind at 1, on_unwind. rewrite IN. done. }
        split; [apply TRep_logged, TRep_logged; eapply TRep_cnt; [exact R|cbn [length]; lia]|]. split; [by apply Keeps_sub|]. split; [done|].
        split; [cbn; by rewrite <- app_assoc|]. change (pair_parts kvs) with (parts kvs). fin.
      * destruct IN as (s1 & cs1 & arrs1 & IN & R1 & KP1 & E1 & D1 & GR1). specialize (IH _ _ _ _ _ R1).
        pose proof (extend_perm kvs _ _ E1 (tr_keys _ _ _ _ _ R1)) as X.
        destruct (spec_extend eqb kvs (entries cs1)) as [[b d] m1]. destruct (spec_extend eqb kvs ((k, v) :: entries cs)) as [[b' d2] m1'].
        destruct X as (<- & <- & PM). destruct IH as (s' & cs' & arrs' & d' & RS & R' & KP & E' & DD & PD & GR).
        exists s', cs', arrs', d'. split.
        { unfold bind at 1, on_unwind. rewrite IN. unfold bind at 1, ret at 1. exact RS. }
        split; [eapply TRep_cnt; [exact R'|cbn [length]; lia]|]. split; [by eapply Keeps_trans|]. split; [by rewrite E'|]. split; [congruence|]. split; [done|].
        eapply Grown_trans; [by eapply TRep_bc_pos|exact GR1|exact GR].
Qed.

Lemma h_call_keeps c h0 s cs arrs cnt : TRep h0 s cs arrs cnt ->
  let '(a, d, m') := spec_call eqb c (entries cs) in
  exists a' s' cs' arrs' d', result (h_call nsz nal eb chk hash eqb c s) = Some (a', s') /\ same_answer a' a /\
    TRep h0 s' cs' arrs' (cnt + Z.of_nat (keys_in c)) /\ Keeps (keeps eqb c) cs cs' /\ entries cs' ≡ₚ m' /\ t_drops s' = t_drops s ++ d' /\ d' ≡ₚ d /\ Grown s arrs s' arrs'.
Proof.
  intros R.
  assert (SAME : forall n, (0 <= n)%Z -> TRep h0 s cs arrs (cnt + n)) by (intros n Hn; eapply TRep_cnt; [exact R|lia]).
  destruct c; cbn [spec_call h_call keys_in].
  - pose proof (insert_ok _ _ _ _ _ k v R) as IN. destruct (look eqb k (entries cs)) as [e|] eqn:LK; [|destruct (full (entries cs))].
    + destruct IN as (s1 & cs1 & IN & R1 & KP & E1 & D1 & BC1). eexists _, s1, cs1, arrs, _. unfold bind at 1. rewrite IN.
      split; [done|]. split; [done|]. split; [eapply TRep_cnt; [exact R1|lia]|]. split; [first [exact KP|by apply Keeps_any]|]. rewrite E1. fin.
    + eexists _, _, cs, arrs, _. unfold bind at 1. rewrite IN. split; [done|]. split; [done|].
      split; [apply TRep_logged, SAME; lia|]. split; [by apply Keeps_sub|]. fin.
    + destruct IN as (s1 & cs1 & arrs1 & IN & R1 & KP & E1 & D1 & GR1). exists (Some (HVal None)), s1, cs1, arrs1, []. unfold bind at 1. rewrite IN.
      split; [done|]. split; [done|]. split; [done|]. split; [first [exact KP|by apply Keeps_any]|]. fin.
  - eexists _, s, cs, arrs, []. unfold bind at 1. rewrite (get_ok _ _ _ _ _ k R). split; [done|]. split; [done|].
    split; [by apply SAME|]. split; [by apply Keeps_sub|]. fin.
  - eexists _, s, cs, arrs, []. unfold bind at 1. rewrite (contains_ok _ _ _ _ _ k R). split; [done|]. split; [done|].
    split; [by apply SAME|]. split; [by apply Keeps_sub|]. fin.
  - pose proof (get_mut_set_ok _ _ _ _ _ k v R) as IN. destruct (look eqb k (entries cs)) as [e|] eqn:LK.
    + destruct IN as (s1 & cs1 & IN & R1 & KP & E1 & D1 & BC1). eexists _, s1, cs1, arrs, _. unfold bind at 1. rewrite IN.
      split; [done|]. split; [done|]. split; [eapply TRep_cnt; [exact R1|lia]|]. split; [first [exact KP|by apply Keeps_any]|]. rewrite E1. fin.
    + eexists _, _, cs, arrs, _. unfold bind at 1. rewrite IN. split; [done|]. split; [done|].
      split; [apply TRep_logged, SAME; lia|]. split; [by apply Keeps_sub|]. fin.
  - pose proof (remove_entry_ok _ _ _ _ _ k R) as IN. destruct (look eqb k (entries cs)) as [[k0 v]|] eqn:LK.
    + destruct IN as (s1 & cs1 & IN & R1 & KP & E1 & Ek & D1 & BC1). exists (Some (HVal (Some v))), (logged [inl k0] s1), cs1, arrs, [inl k0].
      unfold bind at 1, remove. unfold bind at 1. rewrite IN. split; [done|]. split; [done|].
      split; [apply TRep_logged; eapply TRep_cnt; [exact R1|lia]|]. split; [first [exact KP|by apply Keeps_any]|]. split; [|split; [cbn; by rewrite D1|fin]].
      rewrite (without_perm k _ _ E1). pose proof (without_split k [] (entries cs1) k0 v) as WS. cbn [app] in WS. rewrite WS; [done| |done].
      eapply distinct_perm; [exact E1|apply (tr_keys _ _ _ _ _ R)].
    + exists (Some (HVal None)), s, cs, arrs, []. unfold bind at 1, remove. unfold bind at 1. rewrite IN. split; [done|]. split; [done|].
      split; [by apply SAME|]. split; [by apply Keeps_sub|]. fin.
  - pose proof (remove_entry_ok _ _ _ _ _ k R) as IN. destruct (look eqb k (entries cs)) as [[k0 v]|] eqn:LK.
    + destruct IN as (s1 & cs1 & IN & R1 & KP & E1 & Ek & D1 & BC1). eexists _, s1, cs1, arrs, [].
      unfold bind at 1. rewrite IN. split; [done|]. split; [done|].
      split; [eapply TRep_cnt; [exact R1|lia]|]. split; [first [exact KP|by apply Keeps_any]|]. split; [|fin].
      rewrite (without_perm k _ _ E1). pose proof (without_split k [] (entries cs1) k0 v) as WS. cbn [app] in WS. rewrite WS; [done| |done].
      eapply distinct_perm; [exact E1|apply (tr_keys _ _ _ _ _ R)].
    + eexists _, s, cs, arrs, []. unfold bind at 1. rewrite IN. split; [done|]. split; [done|].
      split; [by apply SAME|]. split; [by apply Keeps_sub|]. rewrite without_none by done. fin.
  - pose proof (entry_mod_ok _ _ _ _ _ k f R) as EN. destruct (look eqb k (changes eqb k f (entries cs))) as [e|].
    + destruct EN as (b & nx & s1 & cs1 & EN & R1 & KP & E1 & D1 & HS & BC1 & NA). eexists _, (logged [inr v] s1), cs1, arrs, [inl k; inr v].
      unfold bind at 1. rewrite EN. unfold bind at 1. unfold or_insert. unfold bind at 1. cbn [or_insert_with]. unfold bind at 1. rewrite NA.
      split; [done|]. split; [done|]. split; [apply TRep_logged; eapply TRep_cnt; [exact R1|lia]|]. split; [first [exact KP|by apply Keeps_any]|]. split; [by rewrite E1|].
      split; [cbn; by rewrite D1, <- app_assoc|fin].
    + destruct EN as (EN & LK & HS).
      rewrite (full_ec _ _ _ _ _ R).
      destruct (insert_impl_ok _ _ _ _ _ k v R LK) as [[EC P]|[EC (b & s' & cs' & arrs' & P & R' & PM & DR & GR & nx & NA)]].
      * rewrite EC, Z.eqb_refl. eexists _, _, cs, arrs, _. unfold bind at 1. rewrite EN. unfold bind at 1, or_insert.
        unfold bind at 1. cbn [or_insert_with]. unfold bind at 1. rewrite P. split; [done|]. split; [done|].
        split; [apply TRep_logged, SAME; lia|]. split; [by apply Keeps_sub|]. fin.
      * rewrite (proj2 (Z.eqb_neq _ _) EC). eexists _, s', cs', arrs', []. unfold bind at 1. rewrite EN. unfold bind at 1, or_insert.
        unfold bind at 1. cbn [or_insert_with]. unfold bind at 1. rewrite P. unfold bind at 1. rewrite NA.
        split; [done|]. split; [done|]. split; [done|]. split; [apply Keeps_sub; intros e He; rewrite PM; by right|]. split; [by rewrite PM|]. fin.
  - pose proof (entry_mod_ok _ _ _ _ _ k f R) as EN. destruct (look eqb k (changes eqb k f (entries cs))) as [e|].
    + destruct EN as (b & nx & s1 & cs1 & EN & R1 & KP & E1 & D1 & HS & BC1 & NA). eexists _, s1, cs1, arrs, [inl k].
      unfold bind at 1. rewrite EN. unfold bind at 1. cbn [or_insert_with]. unfold bind at 1. rewrite NA.
      split; [done|]. split; [done|]. split; [eapply TRep_cnt; [exact R1|lia]|]. split; [first [exact KP|by apply Keeps_any]|]. split; [by rewrite E1|]. fin.
    + destruct EN as (EN & LK & HS).
      rewrite (full_ec _ _ _ _ _ R).
      destruct (insert_impl_ok _ _ _ _ _ k v R LK) as [[EC P]|[EC (b & s' & cs' & arrs' & P & R' & PM & DR & GR & nx & NA)]].
      * rewrite EC, Z.eqb_refl. eexists _, _, cs, arrs, _. unfold bind at 1. rewrite EN. unfold bind at 1.
        cbn [or_insert_with]. unfold bind at 1. rewrite P. split; [done|]. split; [done|].
        split; [apply TRep_logged, SAME; lia|]. split; [by apply Keeps_sub|]. fin.
      * rewrite (proj2 (Z.eqb_neq _ _) EC). eexists _, s', cs', arrs', []. unfold bind at 1. rewrite EN. unfold bind at 1.
        cbn [or_insert_with]. unfold bind at 1. rewrite P. unfold bind at 1. rewrite NA.
        split; [done|]. split; [done|]. split; [done|]. split; [apply Keeps_sub; intros e He; rewrite PM; by right|]. split; [by rewrite PM|]. fin.
  - pose proof (entry_mod_ok _ _ _ _ _ k f R) as EN. destruct (look eqb k (changes eqb k f (entries cs))) as [e|].
    + destruct EN as (b & nx & s1 & cs1 & EN & R1 & KP & E1 & D1 & HS & BC1 & NA). eexists _, s1, cs1, arrs, [inl k].
      unfold bind at 1. rewrite EN. cbn [drop_entry]. rewrite HS.
      split; [done|]. split; [done|]. split; [eapply TRep_cnt; [exact R1|lia]|]. split; [first [exact KP|by apply Keeps_any]|]. split; [by rewrite E1|]. fin.
    + destruct EN as (EN & LK & HS). eexists _, (logged [inl k] s), cs, arrs, [inl k].
      unfold bind at 1. rewrite EN. cbn [drop_entry]. rewrite HS. split; [done|]. split; [done|].
      split; [apply TRep_logged, SAME; lia|]. split; [by apply Keeps_sub|]. split; [|fin]. destruct f; cbn [changes]; [by rewrite change_none|done].
  - pose proof (insert_all_ok kvs _ _ _ _ _ R) as X. destruct (spec_extend eqb kvs (entries cs)) as [[b d] m'].
    destruct X as (s' & cs' & arrs' & d' & RS & R' & KP & E' & DD & PD & GR). exists (if b then Some HUnit else None), s', cs', arrs', d'.
    split; [|split; [|done]].
    + unfold bind at 1. destruct (insert_all nsz nal eb chk hash eqb kvs s) as [[] s''|s''|]; cbn in RS; [| |done];
        injection RS as RS1 ->; destruct b; done.
    + by destruct b.
  - eexists _, s, cs, arrs, []. unfold bind at 1, len, gets. split; [done|]. split; [cbn; by rewrite (tr_ec _ _ _ _ _ R), map_length|].
    split; [by apply SAME|]. split; [by apply Keeps_sub|]. fin.
  - eexists _, s, cs, arrs, []. unfold bind at 1, is_empty, gets. split; [done|]. split.
    { cbn. rewrite (tr_ec _ _ _ _ _ R). by destruct (concat cs). }
    split; [by apply SAME|]. split; [by apply Keeps_sub|]. fin.
  - destruct (free_all_ok _ _ _ _ _ R) as (h' & FB & R' & _). eexists _, _, _, arrs, _.
    unfold bind at 1, clear. unfold bind at 1. rewrite FB. split; [done|]. split; [done|].
    split; [eapply TRep_cnt; [exact R'|lia]|]. split; [done|]. split; [by rewrite concat_empty|]. split; [done|]. split; [apply dropped_perm|fin].
  - destruct (iter_ok _ _ _ _ _ R) as (a & ps & by_ & it & EA & E & IT & IA & _). eexists _, s, cs, arrs, [].
    unfold bind at 1. rewrite IT. unfold bind at 1, gets. unfold bind at 1. rewrite (iter_all_ok _ _ _ _ E _ _ _ IA) by (by eapply all_fuel).
    split; [done|]. split; [cbn; reflexivity|]. split; [by apply SAME|]. split; [by apply Keeps_sub|]. fin.
  - destruct (iter_ok _ _ _ _ _ R) as (a & ps & by_ & it & EA & E & IT & IA & NI).
    destruct (iter_mut_all_ok _ _ _ g _ _ _ (concat cs) [] (fuel s) it s cs R eq_refl E NI IA) as (s' & cs' & IM & R' & KP & EN & DR & BC).
    { by eapply all_fuel. }
    eexists _, s', cs', arrs, []. unfold bind at 1. rewrite IT. unfold bind at 1, gets. unfold bind at 1. rewrite IM.
    split; [done|]. split; [cbn; reflexivity|]. split; [eapply TRep_cnt; [exact R'|lia]|]. split; [first [exact KP|by apply Keeps_any]|]. split; [by rewrite EN|]. fin.
Qed.

Lemma h_call_ok c h0 s cs arrs cnt : TRep h0 s cs arrs cnt ->
  let '(a, d, m') := spec_call eqb c (entries cs) in
  exists a' s' cs' arrs' d', result (h_call nsz nal eb chk hash eqb c s) = Some (a', s') /\ same_answer a' a /\
    TRep h0 s' cs' arrs' (cnt + Z.of_nat (keys_in c)) /\ entries cs' ≡ₚ m' /\ t_drops s' = t_drops s ++ d' /\ d' ≡ₚ d /\ Grown s arrs s' arrs'.
Proof.
  intros R. pose proof (h_call_keeps c _ _ _ _ _ R) as H. destruct (spec_call eqb c (entries cs)) as [[a d] m'].
  destruct H as (a' & s' & cs' & arrs' & d' & H1 & H2 & H3 & _ & H4). by exists a', s', cs', arrs', d'.
Qed.

Lemma same_answer_trans a b c : same_answer (K := K) (V := V) a b -> same_answer b c -> same_answer a c.
Proof.
  destruct a as [[]|], b as [[]|], c as [[]|]; cbn; try done; try congruence.
  intros P Q. by rewrite P.
Qed.

Lemma h_run_keeps prog : forall h0 s cs arrs cnt m, TRep h0 s cs arrs cnt -> entries cs ≡ₚ m ->
  let '(l, d, m') := spec_run eqb prog m in
  exists l' s' cs' arrs' d', h_run nsz nal eb chk hash eqb prog s = Some (l', s') /\ Forall2 same_answer l' l /\
    TRep h0 s' cs' arrs' (cnt + Z.of_nat (keys_given prog)) /\ Keeps (fun k => forallb (fun c => keeps eqb c k) prog) cs cs' /\ entries cs' ≡ₚ m' /\ t_drops s' = t_drops s ++ d' /\ d' ≡ₚ d /\ Grown s arrs s' arrs'.
Proof.
  induction prog as [|c prog IH]; intros h0 s cs arrs cnt m R P; cbn [spec_run h_run].
  - exists [], s, cs, arrs, []. split; [done|]. split; [constructor|]. split; [unfold keys_given; cbn; by rewrite Z.add_0_r|]. split; [by apply Keeps_sub|].
    split; [done|]. fin.
  - pose proof (h_call_keeps c _ _ _ _ _ R) as H. pose proof (spec_call_perm c _ _ P (tr_keys _ _ _ _ _ R)) as X.
    destruct (spec_call eqb c (entries cs)) as [[a0 d0] m0]. destruct (spec_call eqb c m) as [[a d] m1].
    destruct X as (SA & PD & PM). destruct H as (a' & s1 & cs1 & arrs1 & d1 & RS & SA1 & R1 & KP1 & E1 & DD & PD1 & GR1).
    assert (P1 : entries cs1 ≡ₚ m1) by (by rewrite E1).
    specialize (IH _ _ _ _ _ _ R1 P1). destruct (spec_run eqb prog m1) as [[l d2] m2].
    destruct IH as (l' & s' & cs' & arrs' & d' & RS' & F & R' & KP' & E' & DD' & PD' & GR').
    exists (a' :: l'), s', cs', arrs', (d1 ++ d'). split.
    { destruct (h_call nsz nal eb chk hash eqb c s); cbn in RS; [| |done]; injection RS as <- <-; by rewrite RS'. }
    split; [constructor; [by eapply same_answer_trans|done]|].
    split; [eapply TRep_cnt; [exact R'|unfold keys_given; cbn; lia]|].
    split.
    { intros b k v I E. cbn [forallb] in E. apply andb_prop in E as [X1 X2]. destruct (KP1 b k v I X1) as [v1 I1]. by eapply KP'. }
    split; [done|]. split; [by rewrite DD', DD, app_assoc|]. split; [by rewrite PD1, PD, PD'|].
    eapply Grown_trans; [by eapply TRep_bc_pos|exact GR1|exact GR'].
Qed.
Lemma h_run_ok prog : forall h0 s cs arrs cnt m, TRep h0 s cs arrs cnt -> entries cs ≡ₚ m ->
  let '(l, d, m') := spec_run eqb prog m in
  exists l' s' cs' arrs' d', h_run nsz nal eb chk hash eqb prog s = Some (l', s') /\ Forall2 same_answer l' l /\
    TRep h0 s' cs' arrs' (cnt + Z.of_nat (keys_given prog)) /\ entries cs' ≡ₚ m' /\ t_drops s' = t_drops s ++ d' /\ d' ≡ₚ d /\ Grown s arrs s' arrs'.
Proof.
  intros h0 s cs arrs cnt m R P. pose proof (h_run_keeps prog _ _ _ _ _ _ R P) as H. destruct (spec_run eqb prog m) as [[l d] m'].
  destruct H as (l' & s' & cs' & arrs' & d' & H1 & H2 & H3 & _ & H4). by exists l', s', cs', arrs', d'.
Qed.

Lemma ht_drop_ok h0 s cs arrs cnt : TRep h0 s cs arrs cnt ->
  exists s', ht_drop nsz nal eb s = Ok tt s' /\ t_drops s' = t_drops s ++ dropped cs /\
    (forall b, b ∉ arrs -> h_blk (t_h s') !! b = h_blk h0 !! b) /\
    (forall b, b ∈ arrs -> h_blk h0 !! b = None /\ exists ps, Slots ((Z.of_nat (length ps) + 1) * 8) (t_h s') b ps) /\
    NoDup arrs.
Proof.
  intros R. destruct (free_all_ok _ _ _ _ _ R) as (h' & FB & R' & FR). eexists. split; [exact FB|]. split; [done|]. split; [exact FR|].
  split.
  - intros b Hb. split; [apply (tr_fresh _ _ _ _ _ R); rewrite elem_of_app; by right|].
    apply (tr_arrs _ _ _ _ _ R' b Hb).
  - pose proof (tr_nodup _ _ _ _ _ R) as ND. by apply NoDup_app in ND as (_ & _ & ?).
Qed.

End keys.
End proofs.
