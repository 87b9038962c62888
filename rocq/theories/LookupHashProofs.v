(** Counting the evaluations of hash function and equality. *)
From Verif Require Import Base Heap Alloc HeapLemmas RehashPolicy RehashPolicyProofs HashTable HashTableSpec HashTableProofs HashTableMore HashAny HashAnyAgree LookupHashSpec.
Local Open Scope nat_scope.

Section count.
Context {K V : Type}.
Variables (nsz nal : Z) (eb : nat) (chk : bool) (hash : K -> Z) (eqb : K -> K -> bool) (h0 : heap (tcell K V)).
Hypothesis SU : Setup nsz nal eb hash eqb h0.
Let Hnsz := su_size _ _ _ _ _ _ SU.
Let Hlay := su_layout _ _ _ _ _ _ SU.
Let KH := su_keys _ _ _ _ _ _ SU.

Notation tstate := (tstate K V).
Notation astate := (astate K V).
Notation thp := (heap (tcell K V)).
Notation enode := (nat * (K * V))%type.
Notation chain := (@chain K V nsz nal).
Notation TR := (TRep nsz nal eb hash eqb h0).
Notation p_ho := (p_ho hash).
Notation p_eo := (p_eo eqb).
Notation idx := (@idx K hash).
Notation TRep_pos := (TRep_pos nsz nal eb hash eqb Hlay).
Notation TRep_slot := (TRep_slot nsz nal eb hash eqb Hlay).
Notation find_from_ok := (find_from_ok nsz nal eb hash eqb Hlay KH).
Notation NoDup_chain := (NoDup_chain nsz nal eb hash eqb).
Notation chain_fuel := (chain_fuel nsz nal Hlay).
Notation write_slot_ok := (write_slot_ok nsz nal eb Hlay).
Notation store_node_ok := (store_node_ok nsz nal eb Hlay).
Notation push_all_spec := (push_all_spec nsz nal hash eqb Hlay).
Notation fill_null_ok := (fill_null_ok nsz nal eb Hlay).
Notation store_ok := (store_ok nsz nal eb Hlay).
Notation node_at_ok := (node_at_ok nsz nal).
Notation bucket_index_ok := (bucket_index_ok nsz nal hash eqb Hlay).
Notation chain_frame := (chain_frame nsz nal).
Notation chains_frame := (chains_frame nsz nal).
Notation chain_live := (chain_live nsz nal).
Notation chains_live := (chains_live nsz nal).
Notation push_at_perm := (push_at_perm hash).
Notation push_at := (push_at hash).
Notation push_all := (push_all hash).
Notation empty_chains := (empty_chains nsz nal).
Notation idx_lt := (idx_lt nsz nal hash eqb Hlay).
Notation hadd_slots := (hadd_slots nsz nal Hlay).
Notation slot_of := (slot_of hash).
Notation entries cs := (map (@snd nat (K * V)) (concat cs)).

Lemma bl {A B} (p : M tstate A) (k : A -> M astate B) s n a s1 : p s = Ok a s1 -> bind (lift p) k (s, n) = k a (s1, n).
Proof using. clear. intros E. unfold bind, lift. cbn [fst snd]. by rewrite E. Qed.
Lemma bg {A B} (f : astate -> A) (k : A -> M astate B) s : bind (gets f) k s = k (f s) s.
Proof using. done. Qed.
Lemma bo {A B} (o : option A) (k : A -> M astate B) s a : o = Some a -> bind (or_ub o) k s = k a s.
Proof using. clear. by intros ->. Qed.
Lemma bk {A B} (m : M astate A) (k : A -> M astate B) s a s1 : m s = Ok a s1 -> bind m k s = k a s1.
Proof using. clear. intros E. unfold bind. by rewrite E. Qed.

Lemma index_count n k (s : tstate) m : 0 < n -> a_bucket_index p_ho (Z.of_nat n) k (s, m) = Ok (idx (Z.of_nat n) k) (s, S m).
Proof using. clear. intros Hn. unfold a_bucket_index, bind, hash_now, HashAnyAgree.p_ho. cbn [fst snd]. by rewrite (proj2 (Z.eqb_neq _ _)) by lia. Qed.

Lemma find_count k : forall l f p (s : tstate) n, chain (t_h s) p l -> length l < f ->
  a_find_in_bucket p_eo f p k (s, n) = Ok ((fun e : enode => Ptr (fst e) 0) <$> List.find (fun e : enode => eqb (fst (snd e)) k) l) (s, n + seen eqb k (map snd l)).
Proof using.
  clear. induction l as [|e l IH]; intros f p s n C L; (destruct f as [|f]; [cbn in L; lia|]).
  - cbn in C. subst. cbn. by rewrite Nat.add_0_r.
  - destruct C as (nx & -> & E & C). cbn [a_find_in_bucket]. erewrite bl by (by apply node_at_ok).
    unfold bind at 1, equals_now, HashAnyAgree.p_eo. cbn [fst snd List.find map seen]. destruct (eqb (fst (snd e)) k).
    + cbn. by rewrite Nat.add_1_r.
    + unfold HashAnyAgree.p_eo in IH. rewrite IH; [|done|cbn in L; lia]. do 2 f_equal. lia.
Qed.

Lemma find_place_count k : forall l f a p (s : tstate) n, chain (t_h s) p l -> read_place a s = Ok p s -> length l < f ->
  exists pl, a_find_place p_eo f a k (s, n) = Ok pl (s, n + seen eqb k (map snd l)).
Proof using.
  clear. induction l as [|e l IH]; intros f a p s n C RP L; (destruct f as [|f]; [cbn in L; lia|]); cbn [a_find_place].
  - cbn in C. subst. exists a. erewrite bl by exact RP. cbn. by rewrite Nat.add_0_r.
  - destruct C as (nx & -> & E & C). erewrite bl by exact RP. cbv beta iota. erewrite bl by (by apply node_at_ok).
    unfold bind at 1, equals_now, HashAnyAgree.p_eo. cbn [fst snd map seen]. destruct (eqb (fst (snd e)) k).
    + exists a. cbn. by rewrite Nat.add_1_r.
    + destruct (IH f (ANext (Ptr (fst e) 0)) nx s (S n) C) as [pl EP].
      * cbn. unfold bind at 1. by rewrite (node_at_ok _ _ _ _ _ E).
      * cbn in L. lia.
      * exists pl. unfold HashAnyAgree.p_eo in EP. rewrite EP. do 2 f_equal. lia.
Qed.

(** The bucket of a key holds exactly the entries beside it, in the order of the iteration. *)
Lemma beside_bucket s cs arrs cnt k c : TR s cs arrs cnt -> cs !! idx (t_bc s) k = Some c -> beside hash (t_bc s) k (entries cs) = map snd c.
Proof using Hnsz Hlay KH SU.
  intros R Hc. pose proof (TRep_pos _ _ _ _ _ R) as Pos. pose proof (tr_bc _ _ _ _ _ _ _ _ _ _ R) as EB.
  assert (IN : forall i c' e, cs !! i = Some c' -> e ∈ c' -> (hash (fst (snd e)) mod t_bc s =? hash k mod t_bc s)%Z = (i =? idx (t_bc s) k)).
  { intros i c' e Hi He. pose proof (tr_placed _ _ _ _ _ _ _ _ _ _ R i c' e Hi He) as P. unfold idx in *.
    pose proof (Z.mod_pos_bound (hash (fst (snd e))) (t_bc s)). pose proof (Z.mod_pos_bound (hash k) (t_bc s)).
    destruct (Z.eqb_spec (hash (fst (snd e)) mod t_bc s) (hash k mod t_bc s)), (Nat.eqb_spec i (Z.to_nat (hash k mod t_bc s))); lia. }
  rewrite <- (take_drop_middle cs _ c Hc) at 1.
  assert (Li : idx (t_bc s) k < length cs) by (by apply lookup_lt_Some in Hc).
  assert (NO : forall l : list (list enode), (forall c' e, c' ∈ l -> e ∈ c' -> (hash (fst (snd e)) mod t_bc s =? hash k mod t_bc s)%Z = false) ->
    beside hash (t_bc s) k (entries l) = []).
  { clear. unfold beside. intros l H. assert (G : forall e, e ∈ concat l -> (hash (fst (snd e)) mod t_bc s =? hash k mod t_bc s)%Z = false).
    { intros e He. apply elem_of_list_In, in_concat in He as (c' & Hc' & He). rewrite <- !elem_of_list_In in *. by eapply H. }
    clear H. induction (concat l) as [|e m IH]; [done|]. cbn. rewrite (G e) by left. apply IH. intros x Hx. apply G. by right. }
  assert (AP : forall a b : list (K * V), beside hash (t_bc s) k (a ++ b) = beside hash (t_bc s) k a ++ beside hash (t_bc s) k b).
  { intros a b. apply List.filter_app. }
  rewrite concat_app. cbn [concat]. rewrite !map_app, !AP.
  rewrite (NO (take _ cs)), (NO (drop _ cs)).
  - rewrite app_nil_r. cbn [app].
    assert (G : forall e, e ∈ c -> (hash (fst (snd e)) mod t_bc s =? hash k mod t_bc s)%Z = true).
    { intros e He. rewrite (IN _ _ _ Hc He). apply Nat.eqb_refl. }
    clear - G. unfold beside. induction c as [|e c IH]; [done|]. cbn. rewrite (G e) by left. f_equal. apply IH. intros x Hx. apply G. by right.
  - intros c' e Hc' He. apply elem_of_list_lookup in Hc' as [j Hj]. rewrite lookup_drop in Hj. rewrite (IN _ _ _ Hj He). apply Nat.eqb_neq. lia.
  - intros c' e Hc' He. apply elem_of_list_lookup in Hc' as [j Hj]. apply lookup_take_Some in Hj as [Hj L]. rewrite (IN _ _ _ Hj He). apply Nat.eqb_neq. lia.
Qed.

(** Searching. *)
Lemma slot_count s cs arrs cnt k n : TR s cs arrs cnt ->
  a_bucket_for_key p_ho k (s, n) = Ok (slot_of s k) (s, S n) /\ a_bucket_for_key_mut p_ho k (s, n) = Ok (slot_of s k) (s, S n).
Proof using Hnsz Hlay KH SU.
  intros R. destruct (TRep_slot _ _ _ _ _ k R) as (a & ps & by_ & p & c & _ & _ & _ & _ & _ & _ & _ & B1 & B2).
  pose proof (TRep_pos _ _ _ _ _ R) as Pos. pose proof (tr_bc _ _ _ _ _ _ _ _ _ _ R) as EB.
  split.
  - unfold bucket_for_key, a_bucket_for_key in *. rewrite bg. cbn [fst]. unfold bind at 1 in B1. unfold gets, id in B1.
    unfold bind at 1 in B1. destruct (hslice _ _ _) as [ss|]; [|done]. cbn [or_ub] in B1. unfold ret at 1 in B1.
    erewrite bo by reflexivity. unfold bind at 1 in B1. rewrite EB in *. rewrite (bucket_index_ok _ _ _ Pos) in B1.
    erewrite bk by (by apply index_count). destruct (_ <? _); [|done]. destruct (hadd _ _ _); [|done]. cbn in *. by injection B1 as ->.
  - unfold bucket_for_key_mut, a_bucket_for_key_mut in *. rewrite bg. cbn [fst]. unfold bind at 1 in B2. unfold gets, id in B2.
    unfold bind at 1 in B2. rewrite EB in *. rewrite (bucket_index_ok _ _ _ Pos) in B2.
    erewrite bk by (by apply index_count). destruct (hadd _ _ _); [|done]. cbn in *. by injection B2 as ->.
Qed.

Lemma from_count s cs arrs cnt k n : TR s cs arrs cnt -> exists o,
  a_find_from p_eo (slot_of s k) k (s, n) = Ok o (s, n + seen eqb k (beside hash (t_bc s) k (entries cs))) /\
  (o = None -> look eqb k (entries cs) = None) /\ find_from eqb (slot_of s k) k s = Ok o s.
Proof using Hnsz Hlay KH SU.
  intros R. destruct (TRep_slot _ _ _ _ _ k R) as (a & ps & by_ & p & c & EA & E & F & SL & Hp & Hc & C & _ & _).
  pose proof (find_from_agree eqb (slot_of s k) k s n) as AG. pose proof (find_from_ok _ _ _ _ _ k R) as FO.
  rewrite (beside_bucket _ _ _ _ _ _ R Hc).
  assert (ST : a_find_from p_eo (slot_of s k) k (s, n) = Ok ((fun e : enode => Ptr (fst e) 0) <$> List.find (fun e : enode => eqb (fst (snd e)) k) c) (s, n + seen eqb k (map snd c))).
  { unfold a_find_from. rewrite SL. erewrite bl by (by eapply read_slot_ok). rewrite bg. cbn [fst].
    apply find_count; [done|]. eapply chain_fuel; [apply (tr_wf _ _ _ _ _ _ _ _ _ _ R)|exact C|]. by eapply NoDup_chain. }
  destruct (look eqb k (entries cs)) as [kv|] eqn:LK.
  - destruct FO as (b & c1 & c2 & Hc' & Ek & N & FO). rewrite FO in AG. destruct AG as [n1 AG]. rewrite AG in ST. injection ST as EQ ->.
    exists (Some (Ptr b 0)). rewrite AG. split; [done|]. split; [done|exact FO].
  - rewrite FO in AG. destruct AG as [n1 AG]. rewrite AG in ST. injection ST as EQ ->. exists None. rewrite AG. split; [done|]. split; [done|exact FO].
Qed.
(** Growing. *)
Lemma rehash_bucket_count by_ nb n : 0 < n -> nb <> eb -> forall l f (s : tstate) m p ps cs,
  chain (t_h s) p l -> length l < f -> Slots by_ (t_h s) nb ps -> length ps = n -> Forall2 (chain (t_h s)) ps cs ->
  NoDup (map fst l ++ map fst (concat cs) ++ [nb]) -> eb ∉ map fst l ->
  exists h' ps', a_rehash_bucket eb p_ho f (Ptr nb 0) (Z.of_nat n) p (s, m) = Ok tt (with_h s h', m + length l) /\
    frame (nb :: map fst l) (t_h s) h' /\ length ps' = n /\ Slots by_ h' nb ps' /\
    Forall2 (chain h') ps' (push_all (Z.of_nat n) l cs).
Proof.
  intros Hn Nb. induction l as [|e l IH]; intros f s m p ps cs C L E Lp F ND NE; (destruct f as [|f]; [cbn in L; lia|]).
  - cbn in C. subst p. exists (t_h s), ps. cbn. rewrite Nat.add_0_r. split; [by destruct s|]. done.
  - destruct C as (nx & -> & EN & C). cbn [a_rehash_bucket].
    erewrite bl by exact (node_at_ok _ _ _ _ _ EN). cbv beta iota.
    erewrite bk by exact (index_count n _ s m Hn). rewrite bg. cbn [fst].
    set (i := idx (Z.of_nat n) (fst (snd e))).
    assert (Hi : i < n) by (by apply idx_lt).
    rewrite (proj2 (Z.ltb_lt _ _)) by lia.
    erewrite bo by (apply (hadd_slots _ _ _ _ i E); lia).
    assert (is_Some (ps !! i)) as [q Hq] by (apply lookup_lt_is_Some; lia).
    erewrite bl by exact (read_slot_ok _ _ _ _ _ _ E Hq).
    cbn [map] in ND, NE. rewrite <- app_comm_cons in ND. apply NoDup_cons in ND as [NI ND].
    apply not_elem_of_cons in NE as [NE1 NE2].
    rewrite !elem_of_app, elem_of_list_singleton in NI.
    assert (Ne : fst e <> nb) by tauto. assert (NE3 : fst e ∉ map fst l) by tauto. assert (NE4 : fst e ∉ map fst (concat cs)) by tauto.
    assert (NB : nb ∉ map fst l /\ nb ∉ map fst (concat cs)).
    { apply NoDup_app in ND as (_ & N1 & N2). apply NoDup_app in N2 as (_ & N2 & _). split; intros H.
      - apply (N1 nb H), elem_of_app. right. left.
      - apply (N2 nb H). left. }
    destruct NB as [NB1 NB2].
    erewrite bl by (by apply (store_node_ok _ _ _ _ _ _ EN)).
    set (h1 := hset (t_h s) (fst e) _).
    assert (E1 : Slots by_ (t_h (with_h s h1)) nb ps).
    { unfold Slots. cbn. rewrite lookup_insert_ne by done. exact E. }
    erewrite bl by (apply (write_slot_ok _ _ _ _ _ _ E1); (done || lia)).
    set (h2 := hset (t_h (with_h s h1)) nb _).
    assert (FR : frame [fst e; nb] (t_h s) h2).
    { eapply frame_trans; [apply frame_hset; left|apply frame_hset; right; left]. }
    assert (exists c, cs !! i = Some c) as [c Hc].
    { eapply Forall2_lookup_l in F as (c & Hc & _); [|exact Hq]. eauto. }
    assert (CQ : chain (t_h s) q c) by (by eapply Forall2_lookup_lr in F).
    assert (INC : forall b, b ∈ map fst c -> b ∈ map fst (concat cs)).
    { intros b Hb. apply elem_of_list_fmap in Hb as (x & -> & Hx). apply elem_of_list_fmap. exists x. split; [done|].
      apply elem_of_list_In, in_concat. exists c. rewrite <- !elem_of_list_In. split; [by eapply elem_of_list_lookup_2|done]. }
    assert (EPA : push_at (Z.of_nat n) cs e = <[i := e :: c]> cs).
    { unfold push_at. by rewrite (alter_insert _ _ _ c). }
    destruct (IH f (with_h (with_h s h1) h2) (S m) nx (<[i := Ptr (fst e) 0]> ps) (push_at (Z.of_nat n) cs e)) as (h' & ps' & R & FR' & L' & S' & F').
    + eapply chain_frame; [exact C|]. intros b Hb. apply FR. apply not2; congruence.
    + cbn in L. lia.
    + unfold Slots. cbn. by rewrite lookup_insert.
    + by rewrite insert_length.
    + rewrite EPA. apply Forall2_insert.
      * eapply chains_frame; [exact F|]. intros b Hb. apply FR. apply not2; congruence.
      * exists q. split; [done|]. split.
        -- cbn. rewrite lookup_insert_ne by done. by rewrite lookup_insert.
        -- eapply chain_frame; [exact CQ|]. intros b Hb. apply INC in Hb. apply FR. apply not2; congruence.
    + assert (P : concat (push_at (Z.of_nat n) cs e) ≡ₚ e :: concat cs).
      { apply push_at_perm. rewrite <- (Forall2_length _ _ _ F), Lp. done. }
      rewrite (Permutation_map fst P). cbn [map].
      assert (map fst l ++ (fst e :: map fst (concat cs)) ++ [nb] ≡ₚ fst e :: map fst l ++ map fst (concat cs) ++ [nb]) as -> by solve_Permutation.
      constructor; [|done]. rewrite !elem_of_app, elem_of_list_singleton. tauto.
    + done.
    + exists h', ps'. split; [rewrite R; do 2 f_equal; cbn [length]; lia|]. split; [|done].
      eapply frame_trans; (eapply frame_mono; [eassumption|]); cbn [map]; intros b; rewrite !elem_of_cons, ?elem_of_nil; tauto.
Qed.

Lemma rehash_loop_count by0 by2 (hh : thp) a nb n : 0 < n -> nb <> eb -> a <> nb -> forall ps' cs' i ps ps2 cs2 (s : tstate) m,
  (forall j, j <= length ps -> hadd hh (Ptr a 0) j = Some (Ptr a j)) ->
  heap_wf (t_h s) -> Slots by0 (t_h s) a ps -> drop i ps = ps' -> i <= length ps -> Forall2 (chain (t_h s)) ps' cs' ->
  Slots by2 (t_h s) nb ps2 -> length ps2 = n -> Forall2 (chain (t_h s)) ps2 cs2 ->
  NoDup (map fst (concat cs') ++ map fst (concat cs2) ++ [nb]) ->
  a ∉ map fst (concat cs') -> a ∉ map fst (concat cs2) -> eb ∉ map fst (concat cs') ->
  (a = eb -> concat cs' = []) ->
  exists h' ps2', for_each (seq i (length ps')) (fun i =>
        do slot <- or_ub (hadd hh (Ptr a 0) i);
        do p <- lift (read_slot slot);
        if is_null p then ret tt
        else
          do f <- gets (fun s => fuel (fst s));
          run a_rehash_bucket eb p_ho f (Ptr nb 0) (Z.of_nat n) p;
          lift (write_slot eb slot Null)) (s, m) = Ok tt (with_h s h', m + length (concat cs')) /\
    frame (nb :: a :: map fst (concat cs')) (t_h s) h' /\
    Slots by0 h' a (take i ps ++ replicate (length ps') Null) /\
    length ps2' = n /\ Slots by2 h' nb ps2' /\
    Forall2 (chain h') ps2' (push_all (Z.of_nat n) (concat cs') cs2).
Proof.
  intros Hn Nb Nanb. induction ps' as [|p ps' IH]; intros cs' i ps ps2 cs2 s m A W E D Li F E2 L2 F2 ND Na1 Na2 Ne Static.
  - apply Forall2_nil_inv_l in F as ->. exists (t_h s), ps2. cbn [concat length]. rewrite Nat.add_0_r. split; [by destruct s|]. split; [done|].
    split; [|done]. cbn [length replicate]. rewrite app_nil_r, firstn_all2; [exact E|].
    assert (length (drop i ps) = 0) as H by (by rewrite D). rewrite drop_length in H. lia.
  - apply Forall2_cons_inv_l in F as (c & cs & C & F & ->).
    cbn [concat] in *. rewrite map_app in *.
    assert (Hp : ps !! i = Some p).
    { rewrite <- (Nat.add_0_r i), <- lookup_drop, D. done. }
    assert (D' : drop (S i) ps = ps').
    { rewrite <- Nat.add_1_r, <- drop_drop, D. done. }
    assert (Li' : S i <= length ps) by (apply lookup_lt_Some in Hp; lia).
    assert (TK : take (S i) ps = take i ps ++ [p]) by (by apply take_S_r).
    rewrite app_length. cbn [length seq for_each]. rewrite bind_assoc. erewrite bo by (apply A; lia).
    rewrite bind_assoc. erewrite bl by exact (read_slot_ok _ _ _ _ _ _ E Hp). cbv beta.
    destruct c as [|e c].
    + cbn in C. subst p. cbn [is_null length]. erewrite bk by reflexivity.
      destruct (IH cs (S i) ps ps2 cs2 s m A W E D' Li' F E2 L2 F2 ND Na1 Na2 Ne Static) as (h' & ps2' & R & FR & S1 & R2).
      exists h', ps2'. split; [exact R|]. split; [exact FR|]. split; [|exact R2].
      rewrite TK, <- app_assoc in S1. exact S1.
    + assert (is_null p = false) as -> by (destruct C as (? & -> & _); done).
      set (c1 := e :: c) in *.
      assert (Neb : a <> eb) by (intros Hs; specialize (Static Hs); done).
      rewrite <- app_assoc in ND.
      apply not_elem_of_app in Na1 as [Na1 Na3]. apply not_elem_of_app in Ne as [Ne1 Ne2].
      assert (NDc : NoDup (map fst c1 ++ map fst (concat cs2) ++ [nb])).
      { apply NoDup_app in ND as (N1 & N2 & N3). apply NoDup_app. split; [done|]. split.
        - intros x Hx Hx'. apply (N2 x Hx). rewrite elem_of_app. by right.
        - by apply NoDup_app in N3 as (_ & _ & N3). }
      assert (NDc1 : NoDup (map fst c1)) by (by apply NoDup_app in ND as (N1 & _)).
      pose proof (chain_fuel _ _ _ W C NDc1) as FU.
      rewrite bind_assoc, bg. cbn [fst].
      destruct (rehash_bucket_count by2 nb n Hn Nb c1 (fuel s) s m p ps2 cs2 C FU E2 L2 F2 NDc Ne1) as (h1 & ps2a & R1 & FR1 & L1 & S1 & F1).
      rewrite bind_assoc. erewrite bk by exact R1.
      assert (Nbc : nb ∉ map fst c1 /\ nb ∉ map fst (concat cs) /\ nb ∉ map fst (concat cs2)).
      { apply NoDup_app in ND as (_ & N1 & N2). apply NoDup_app in N2 as (_ & N2 & N3). apply NoDup_app in N3 as (_ & N3 & _).
        split; [|split]; intros H.
        - apply (N1 nb H). rewrite !elem_of_app. right. right. left.
        - apply (N2 nb H). rewrite elem_of_app. right. left.
        - apply (N3 nb H). left. }
      destruct Nbc as (Nb1 & Nb2 & Nb3).
      assert (Dj : forall b, b ∈ map fst (concat cs) -> b ∉ map fst c1).
      { apply NoDup_app in ND as (_ & N1 & _). intros b Hb Hb'. apply (N1 b Hb'). rewrite !elem_of_app. by left. }
      assert (Ea1 : Slots by0 (t_h (with_h s h1)) a ps).
      { unfold Slots. cbn. rewrite (proj2 FR1); [exact E|]. rewrite not_elem_of_cons. done. }
      erewrite bl by (apply (write_slot_ok _ _ _ _ _ Null Ea1 Neb); lia).
      set (h2 := hset _ a _).
      assert (FR2 : frame (nb :: a :: map fst c1) (t_h s) h2).
      { eapply frame_trans; [eapply frame_mono; [exact FR1|]|apply frame_hset].
        - intros b. rewrite !elem_of_cons. tauto.
        - rewrite !elem_of_cons. tauto. }
      assert (FR3 : forall b, b <> a -> h_blk h2 !! b = h_blk h1 !! b).
      { intros b Hb. cbn. by rewrite lookup_insert_ne. }
      destruct (push_all_spec n c1 cs2 Hn) as (LP & PP & _).
      { by rewrite <- (Forall2_length _ _ _ F2). }
      destruct (IH cs (S i) (<[i := Null]> ps) ps2a (push_all (Z.of_nat n) c1 cs2) (with_h (with_h s h1) h2) (m + length c1)) as (h' & ps2' & R & FR & S1' & L2' & S2' & F2').
      * intros j Hj. apply A. rewrite insert_length in Hj. lia.
      * eapply frame_wf; [exact W|exact FR2|]. intros b [->|[->|Hb]%elem_of_cons]%elem_of_cons; [by eexists|by eexists|].
        by eapply chain_live.
      * unfold Slots. cbn. by rewrite lookup_insert.
      * rewrite drop_insert_gt by lia. done.
      * rewrite insert_length. lia.
      * eapply chains_frame; [exact F|]. intros b Hb. apply FR2. rewrite !not_elem_of_cons.
        split; [congruence|]. split; [congruence|]. by apply Dj.
      * unfold Slots. cbn [t_h with_h]. rewrite FR3 by done. exact S1.
      * done.
      * eapply chains_frame; [exact F1|]. intros b Hb. apply FR3. intros ->.
        rewrite (Permutation_map fst PP), map_app, elem_of_app in Hb. tauto.
      * rewrite (Permutation_map fst PP), map_app.
        assert (map fst (concat cs) ++ (map fst c1 ++ map fst (concat cs2)) ++ [nb] ≡ₚ map fst c1 ++ map fst (concat cs) ++ map fst (concat cs2) ++ [nb]) as -> by solve_Permutation.
        done.
      * done.
      * rewrite (Permutation_map fst PP), map_app, elem_of_app. tauto.
      * done.
      * done.
      * exists h', ps2'. split; [|split; [|split; [|split; [|split]]]].
        -- rewrite R. do 2 f_equal. lia.
        -- eapply frame_trans; (eapply frame_mono; [eassumption|]); intros b; rewrite !elem_of_cons, ?elem_of_app; tauto.
        -- rewrite (take_S_r _ i Null) in S1' by (rewrite list_lookup_insert by lia; done).
           rewrite take_insert in S1' by lia. rewrite <- app_assoc in S1'. exact S1'.
        -- done.
        -- done.
        -- unfold push_all in *. by rewrite fold_left_app.
Qed.

Lemma rehash_count by0 a ps cs n (s : tstate) m :
  t_arr s = Ptr a 0 -> t_bc s = Z.of_nat (length ps) -> 1 < n -> (Z.of_nat n + 1 < u32_lim)%Z ->
  heap_wf (t_h s) -> Slots by0 (t_h s) a ps -> Forall2 (chain (t_h s)) ps cs ->
  NoDup (map fst (concat cs)) -> a ∉ map fst (concat cs) -> eb ∉ map fst (concat cs) ->
  is_Some (h_blk (t_h s) !! eb) ->
  (a = eb -> length ps = 1 /\ concat cs = []) -> (a <> eb -> 1 < length ps) ->
  match a_rehash nsz nal eb chk p_ho (Z.of_nat n) (s, m) with Ok _ r | Panic r => snd r = m + length (concat cs) | UB => True end.
Proof.
  intros EA EB Hn Hn2 W E F ND NI Ne Le St Dy. set (nb := h_next (t_h s)).
  assert (Fr : h_blk (t_h s) !! nb = None) by (by apply wf_fresh).
  assert (Nb : nb <> eb) by (intros HH; rewrite HH in Fr; rewrite Fr in Le; by destruct Le).
  assert (Nanb : a <> nb) by (intros HH; unfold Slots in E; rewrite HH in E; congruence).
  assert (Nbi : nb ∉ map fst (concat cs)).
  { intros H. destruct (chains_live _ _ _ _ F H) as [? X]. congruence. }
  unfold a_rehash. erewrite bk by (apply u32_ok; lia).
  unfold bind at 1. unfold lift at 1. cbn [fst snd]. unfold allocate, default_alloc.
  rewrite (proj2 (Z.eqb_neq _ _)) by lia. unfold layout_ok. rewrite (proj2 (Z.leb_le _ _)) by (unfold isize_max, u32_lim in *; lia).
  cbn [fst snd]. rewrite Z.div_mul by lia.
  replace (Z.to_nat (Z.of_nat n + 1)) with (S n) by lia. fold nb.
  set (blk0 := Block _ _ _).
  set (h1 := halloc (t_h s) blk0). change (TState (t_arr s) (t_bc s) (t_ec s) (t_nr s) h1 (t_drops s)) with (with_h s h1).
  rewrite bg. cbn [fst snd t_h with_h].
  assert (E1 : h_blk h1 !! nb = Some blk0) by (cbn; by rewrite lookup_insert).
  assert (O1 : forall b, b <> nb -> h_blk h1 !! b = h_blk (t_h s) !! b) by (intros b Hb; cbn; by rewrite lookup_insert_ne).
  assert (W1 : heap_wf h1) by (by apply wf_halloc).
  assert (A1 : forall j, j <= S n -> hadd h1 (Ptr nb 0) j = Some (Ptr nb j)).
  { intros j Hj. apply (hadd_ok h1 nb 0 j blk0 E1). cbn. rewrite replicate_length. lia. }
  destruct (fill_null_ok h1 nb ((Z.of_nat n + 1) * 8) 8 Nb (S n) 0 (with_h s h1) (replicate (S n) None)) as (h2 & R2 & F2 & B2).
  { exact E1. }
  { rewrite replicate_length. lia. }
  { intros j Hj. rewrite replicate_length in Hj. by apply A1. }
  erewrite bl by exact R2. cbv beta. rewrite (proj2 (Z.ltb_lt _ _)) by lia.
  rewrite Nat2Z.id. rewrite A1 by lia. cbn [or_ub].
  rewrite take_0, drop_ge in B2 by (rewrite replicate_length; lia). rewrite app_nil_r in B2. cbn [app] in B2.
  set (s2 := with_h (with_h s h1) h2).
  erewrite bl by (unfold bind, ret; apply (store_ok s2 nb _ _ _ n TOnes B2 Nb); rewrite replicate_length; lia).
  assert (Sl : <[n:=Some (@TOnes K V)]> (replicate (S n) (Some (TSlot Null))) = slots (replicate n Null)).
  { unfold slots. rewrite replicate_S_end. rewrite insert_app_r_alt by (rewrite replicate_length; lia).
    rewrite replicate_length, Nat.sub_diag. cbn. f_equal. symmetry. apply (fmap_replicate (fun p => Some (TSlot p))). }
  rewrite Sl. set (h3 := hset _ nb _).
  assert (S3 : Slots ((Z.of_nat n + 1) * 8) h3 nb (replicate n Null)) by (unfold Slots; cbn; by rewrite lookup_insert).
  assert (O3 : forall b, b <> nb -> h_blk h3 !! b = h_blk (t_h s) !! b).
  { intros b Hb. cbn. rewrite lookup_insert_ne by done. rewrite (proj2 F2) by (by rewrite elem_of_list_singleton). by apply O1. }
  assert (N3 : h_next h3 = S nb) by (cbn; by rewrite (proj1 F2)).
  assert (W3 : heap_wf h3).
  { intros b Hb. rewrite N3. destruct (decide (b = nb)) as [->|N]; [lia|]. rewrite O3 in Hb by done. specialize (W b Hb). lia. }
  rewrite bg. cbn [fst t_arr t_bc t_h with_h s2].
  rewrite EA, EB. cbn [is_null]. rewrite Nat2Z.id.
  assert (Ea3 : Slots by0 h3 a ps) by (unfold Slots; rewrite O3 by done; exact E).
  assert (F3 : Forall2 (chain h3) ps cs).
  { eapply chains_frame; [exact F|]. intros b Hb. apply O3. intros ->. done. }
  set (s3 := with_h (with_h (with_h s h1) h2) h3).
  destruct (rehash_loop_count by0 ((Z.of_nat n + 1) * 8) h3 a nb n ltac:(lia) Nb Nanb ps cs 0 ps (replicate n Null) (replicate n []) s3 m)
    as (h4 & ps' & R4 & F4 & S4 & L4 & S4' & C4).
  { intros j Hj. apply (hadd_slots _ _ _ _ _ Ea3). lia. }
  { exact W3. }
  { exact Ea3. }
  { done. }
  { lia. }
  { exact F3. }
  { exact S3. }
  { apply replicate_length. }
  { apply empty_chains. }
  { rewrite concat_empty. cbn [map app]. apply NoDup_app. split; [done|]. split; [|apply NoDup_singleton].
    intros x Hx ->%elem_of_list_singleton. done. }
  { done. }
  { rewrite concat_empty. apply not_elem_of_nil. }
  { done. }
  { intros HH. by apply St. }
  change (with_h s2 h3) with s3. erewrite bk by exact R4.
  unfold bind, lift. cbn [fst snd]. destruct (free_buckets nsz nal eb (with_h s3 h4)) as [u s5|s5|]; [|done|done]. cbn [fst snd].
  by destruct (set_buckets (Ptr nb 0) (Z.of_nat n) s5).
Qed.


Lemma rehash_counted by0 a ps cs n (s : tstate) m :
  t_arr s = Ptr a 0 -> t_bc s = Z.of_nat (length ps) -> 1 < n -> (Z.of_nat n + 1 < u32_lim)%Z ->
  heap_wf (t_h s) -> Slots by0 (t_h s) a ps -> Forall2 (chain (t_h s)) ps cs ->
  NoDup (map fst (concat cs)) -> a ∉ map fst (concat cs) -> eb ∉ map fst (concat cs) ->
  is_Some (h_blk (t_h s) !! eb) ->
  (a = eb -> length ps = 1 /\ concat cs = []) -> (a <> eb -> 1 < length ps) ->
  exists s1, a_rehash nsz nal eb chk p_ho (Z.of_nat n) (s, m) = Ok tt (s1, m + length (concat cs)) /\ t_bc s1 = Z.of_nat n.
Proof.
  intros H1 H2 H3 H4 H5 H6 H7 H8 H9 H10 H11 H12 H13.
  pose proof (rehash_count by0 a ps cs n s m H1 H2 H3 H4 H5 H6 H7 H8 H9 H10 H11 H12 H13) as C.
  destruct (rehash_ok nsz nal eb chk hash eqb Hnsz Hlay by0 a ps cs n s H1 H2 H3 H4 H5 H6 H7 H8 H9 H10 H11 H12 H13) as (h' & ps' & RR & _).
  pose proof (rehash_agree nsz nal eb chk hash (Z.of_nat n) s m) as AG. rewrite RR in AG. destruct AG as [n1 AG]. rewrite AG in C. cbn in C. subst n1.
  eexists. split; [exact AG|done].
Qed.

(** Steps that change neither the counter nor the number of buckets. *)
Definition quiet {A} (p : M tstate A) : Prop := forall s, match p s with Ok _ r | Panic r => t_bc r = t_bc s | UB => True end.
Definition tracks {A} (m : M astate A) (s : astate) (n : nat) (bc : Z) : Prop :=
  match m s with Ok _ r | Panic r => snd r = n /\ t_bc (fst r) = bc | UB => True end.

Lemma quiet_ret {A} (a : A) : quiet (ret a). Proof using. done. Qed.
Lemma quiet_ub {A} : quiet (ub : M tstate A). Proof using. done. Qed.
Lemma quiet_panic {A} : quiet (panic : M tstate A). Proof using. done. Qed.
Lemma quiet_gets {A} (f : tstate -> A) : quiet (gets f). Proof using. done. Qed.
Lemma quiet_or_ub {A} (o : option A) : quiet (or_ub o). Proof using. intros s. by destruct o. Qed.
Lemma quiet_u32 z : quiet (u32 chk z). Proof using. intros s. unfold u32. destruct (_ && _); [done|]. by destruct chk. Qed.
Lemma quiet_bind {A B} (p : M tstate A) (k : A -> M tstate B) : quiet p -> (forall a, quiet (k a)) -> quiet (bind p k).
Proof using. clear. intros P Q s. unfold bind. specialize (P s). destruct (p s) as [a s1|s1|]; [|done|done]. specialize (Q a s1). destruct (k a s1); congruence. Qed.
Lemma quiet_unwind {A} l (p : M tstate A) : quiet p -> quiet (on_unwind (logged l) p).
Proof using. clear. intros P s. unfold on_unwind. specialize (P s). by destruct (p s). Qed.
Lemma quiet_modify f : (forall s : tstate, t_bc (f s) = t_bc s) -> quiet (modify f). Proof using. clear. intros H s. apply H. Qed.

Lemma tracks_lift {A B} (p : M tstate A) (k : A -> M astate B) s n N bc : quiet p -> t_bc s = bc -> n = N ->
  (forall a s', t_bc s' = bc -> tracks (k a) (s', n) N bc) -> tracks (bind (lift p) k) (s, n) N bc.
Proof using.
  clear. intros Q E -> H. unfold tracks, bind, lift. cbn [fst snd]. specialize (Q s). destruct (p s) as [a s1|s1|]; [|cbn; split; congruence|done].
  apply H. congruence.
Qed.
Lemma tracks_lift_last {A} (p : M tstate A) s n bc : quiet p -> t_bc s = bc -> tracks (lift p) (s, n) n bc.
Proof using. clear. intros Q E. unfold tracks, lift. cbn [fst snd]. specialize (Q s). destruct (p s); cbn; split; congruence. Qed.
Lemma tracks_ret {A} (a : A) s n bc : t_bc s = bc -> tracks (ret a) (s, n) n bc. Proof using. done. Qed.
Lemma tracks_unwind {A} l (m : M astate A) s n bc : tracks m s n bc -> tracks (on_unwind (alogged l) m) s n bc.
Proof using. clear. unfold tracks, on_unwind. by destruct (m s). Qed.
(** A last part after which nothing is evaluated. *)
Lemma tracks_bind {A B} (m : M astate A) (k : A -> M astate B) s n bc : tracks m s n bc ->
  (forall a s', t_bc s' = bc -> tracks (k a) (s', n) n bc) -> tracks (bind m k) s n bc.
Proof using.
  clear. intros T H. unfold tracks, bind in *. destruct (m s) as [a [s1 n1]|s1|]; [|done|done]. cbn in T. destruct T as [-> T]. by apply H.
Qed.
Lemma tracks_bk {A B} (m : M astate A) (k : A -> M astate B) s a s1 n bc : m s = Ok a s1 -> tracks (k a) s1 n bc -> tracks (bind m k) s n bc.
Proof using. clear. intros E. unfold tracks, bind. by rewrite E. Qed.

Lemma quiet_drop_all (l : list (K + V)) : quiet (drop_all l). Proof using. clear. unfold drop_all. by apply quiet_modify. Qed.
Lemma quiet_node_at p : quiet (node_at p).
Proof using. clear. unfold node_at. apply quiet_bind; [apply quiet_gets|]. intros h. destruct (hload h p) as [[]|]; try apply quiet_ub. apply quiet_ret. Qed.
Lemma quiet_store p c : quiet (store eb p c).
Proof using.
  clear. intros s. unfold store. unfold bind, gets. destruct p as [|b i]; [done|]. destruct (b =? eb); [done|]. by destruct (hstore _ _ _).
Qed.
Lemma quiet_read_slot p : quiet (read_slot p).
Proof using. clear. unfold read_slot. apply quiet_bind; [apply quiet_gets|]. intros h. destruct (hload h p) as [[]|]; try apply quiet_ub. apply quiet_ret. Qed.
Lemma quiet_write_slot p q : quiet (write_slot eb p q). Proof using. apply quiet_store. Qed.
Lemma quiet_set_ec z : quiet (set_ec z). Proof using. clear. by apply quiet_modify. Qed.
Lemma quiet_allocate a b c : quiet (allocate a b c).
Proof using. clear. intros s. unfold allocate. by destruct (default_alloc _ _ _ _) as [? []| |]. Qed.
Lemma quiet_deallocate p a b c : quiet (deallocate p a b c).
Proof using. clear. intros s. unfold deallocate. by destruct (default_free _ _ _ _) as [? []| |]. Qed.
Lemma quiet_read_place a : quiet (read_place a).
Proof using. clear. destruct a; cbn; [apply quiet_read_slot|]. apply quiet_bind; [apply quiet_node_at|]. intros ?. apply quiet_ret. Qed.
Lemma quiet_write_place a q : quiet (write_place eb a q).
Proof using. clear. destruct a; cbn; [apply quiet_write_slot|]. apply quiet_bind; [apply quiet_node_at|]. intros [[? ?] ?]. apply quiet_store. Qed.

Ltac qt := repeat first [apply quiet_ret | apply quiet_ub | apply quiet_panic | apply quiet_gets | apply quiet_or_ub | apply quiet_u32
  | apply quiet_drop_all | apply quiet_node_at | apply quiet_write_slot | apply quiet_store | apply quiet_read_slot | apply quiet_set_ec | apply quiet_allocate
  | apply quiet_deallocate | apply quiet_read_place | apply quiet_write_place | apply quiet_unwind
  | apply quiet_bind; [|intros ?]
  | match goal with |- quiet (match ?x with _ => _ end) => destruct x end].

(** Inserting a key that is not there. *)
Definition grown_by (s : tstate) (len : nat) (bc : Z) (N m : nat) : Prop :=
  N = m + (if (bc =? t_bc s)%Z then 0 else S len).

Lemma insert_impl_count s cs arrs cnt k v m : TR s cs arrs cnt -> exists N bc,
  tracks (a_insert_impl nsz nal eb chk p_ho (slot_of s k) k v) (s, m) N bc /\ grown_by s (length (concat cs)) bc N m.
Proof.
  intros R. destruct (tr_stage _ _ _ _ _ _ _ _ _ _ R) as [g G].
  destruct (tr_arr _ _ _ _ _ _ _ _ _ _ R) as (a & ps & by_ & EA & E & F & OR).
  assert (TAIL : forall (t nd : ptr) s1 n1, tracks (lift (do nx <- read_slot t; run store eb nd (TNode k v nx); run write_slot eb t nd;
    do s <- gets id; do ec <- u32 chk (t_ec s + 1); run set_ec ec; ret nd)) (s1, n1) n1 (t_bc s1)).
  { intros t nd s1 n1. apply tracks_lift_last; [|done]. qt. }
  destruct (Z.lt_ge_cases (t_ec s) (g_lasts g)) as [C|C].
  - pose proof (policy_quiet g _ _ _ chk G C) as Q.
    assert (RQ : rehash_required chk s = Ok None s) by (unfold rehash_required; rewrite Q; by destruct s).
    exists m, (t_bc s). split; [|unfold grown_by; rewrite Z.eqb_refl; lia].
    unfold a_insert_impl. apply tracks_bind.
    + apply tracks_unwind. eapply tracks_bk; [unfold lift; cbn [fst snd]; rewrite RQ; reflexivity|]. cbn [snd].
      eapply tracks_bk; [reflexivity|]. apply tracks_lift; [qt|done|done|]. intros nd s' E'. by apply tracks_ret.
    + intros [t nd] s1 E1. rewrite <- E1. apply TAIL.
  - assert (EL : t_ec s = g_lasts g) by (destruct G as (_ & _ & _ & B); lia).
    destruct (policy_turn g _ _ _ chk G EL) as [[-> P]|(g' & G' & D2 & Lt & BF & P)].
    + assert (RQ : rehash_required chk s = Panic s) by (unfold rehash_required; rewrite P; by destruct s).
      exists m, (t_bc s). split; [|unfold grown_by; rewrite Z.eqb_refl; lia].
      unfold a_insert_impl, tracks, bind at 1, on_unwind, bind at 1, lift at 1. cbn [fst snd]. rewrite RQ. done.
    + set (s0 := TState (t_arr s) (t_bc s) (t_ec s) (g_resize g') (t_h s) (t_drops s)).
      assert (RQ : rehash_required chk s = Ok (Some (g_buckets g')) s0) by (unfold rehash_required; by rewrite P).
      pose proof (stage_range _ _ _ _ G') as [RG _].
      pose proof (stage_range _ _ _ _ G) as [RG0 _].
      set (n := Z.to_nat (g_buckets g')).
      assert (En : g_buckets g' = Z.of_nat n) by (unfold n; lia).
      pose proof (Forall2_length _ _ _ F) as Lp. pose proof (tr_bc _ _ _ _ _ _ _ _ _ _ R) as EB.
      pose proof (tr_nodup _ _ _ _ _ _ _ _ _ _ R) as ND.
      pose proof (TRep_eb nsz nal eb hash eqb _ _ _ _ _ R) as NE. apply not_elem_of_app in NE as [NE1 NE2].
      assert (Ndisj : forall x, x ∈ map fst (concat cs) -> x ∉ arrs).
      { apply NoDup_app in ND as (_ & N & _). exact N. }
      assert (NDi : NoDup (map fst (concat cs))) by (by apply NoDup_app in ND as (N & _)).
      assert (NIa : a ∉ map fst (concat cs)).
      { intros H. destruct OR as [(-> & _)|(old & -> & _)]; [done|]. apply (Ndisj a H). left. }
      assert (LIVEEB : h_blk (t_h s) !! eb = h_blk h0 !! eb).
      { apply (tr_frame _ _ _ _ _ _ _ _ _ _ R). rewrite not_elem_of_app. done. }
      destruct (rehash_counted by_ a ps cs n s0 m) as (s1 & RC & BC1).
      * exact EA.
      * cbn. rewrite EB. by rewrite Lp.
      * lia.
      * unfold u32_lim. lia.
      * apply (tr_wf _ _ _ _ _ _ _ _ _ _ R).
      * exact E.
      * exact F.
      * done.
      * done.
      * done.
      * cbn. rewrite LIVEEB. pose proof (tr_static _ _ _ _ _ _ _ _ _ _ R) as S0. by eexists.
      * intros ->. destruct OR as [(_ & _ & B1)|(old & -> & _)].
        -- split; [lia|]. pose proof (tr_ec _ _ _ _ _ _ _ _ _ _ R) as Hec. destruct G as (Hg & E1 & E2 & B).
           assert (in_stage g 1 (t_nr s) (t_ec s)) as G1 by (split; [done|split; [congruence|done]]).
           pose proof (stage_first _ _ _ G1). destruct (concat cs); [done|]. cbn in Hec. lia.
        -- exfalso. apply NE2. left.
      * intros Na. destruct OR as [(? & _)|(old & _ & B1)]; [done|]. lia.
      * exists (S (m + length (concat cs))), (Z.of_nat n). split; [|unfold grown_by; rewrite (proj2 (Z.eqb_neq _ _)); lia].
        unfold a_insert_impl. apply tracks_bind.
        -- apply tracks_unwind. eapply tracks_bk; [unfold lift; cbn [fst snd]; rewrite RQ; reflexivity|]. cbn [snd].
           rewrite En. cbv iota. apply tracks_bind.
           ++ eapply tracks_bk; [exact RC|]. unfold a_bucket_for_key_mut. eapply tracks_bk; [reflexivity|]. cbn [fst]. rewrite BC1.
              eapply tracks_bk; [apply index_count; lia|]. unfold tracks. destruct (hadd _ _ _); cbn; [split; congruence|done].
           ++ intros t s2 E2. apply tracks_lift; [qt|done|done|]. intros nd s' E'. by apply tracks_ret.
        -- intros [t nd] s2 E2. rewrite <- E2. apply TAIL.
Qed.

(** One call. *)
Lemma search_count s cs arrs cnt k n l : TR s cs arrs cnt -> exists o,
  on_unwind (alogged l) (do target <- a_bucket_for_key_mut p_ho k; do o <- a_find_from p_eo target k; ret (target, o)) (s, n)
    = Ok (slot_of s k, o) (s, n + 1 + seen eqb k (beside hash (t_bc s) k (entries cs))).
Proof.
  intros R. destruct (slot_count _ _ _ _ k n R) as [_ B]. destruct (from_count _ _ _ _ k (S n) R) as (o & FC & _).
  exists o. unfold on_unwind. erewrite bk by exact B. erewrite bk by exact FC. cbn. do 3 f_equal. lia.
Qed.

Lemma entry_mod_count s cs arrs cnt k f n : TR s cs arrs cnt -> forall N, N = n + 1 + seen eqb k (beside hash (t_bc s) k (entries cs)) ->
  match a_entry_mod eb p_ho p_eo k f (s, n) with
  | Ok e r => snd r = N /\ t_bc (fst r) = t_bc s /\ match e with inl _ => True | inr (t, k') => t = slot_of s k /\ k' = k /\ fst r = s end
  | Panic r => snd r = N /\ t_bc (fst r) = t_bc s
  | UB => True
  end.
Proof.
  intros R N EN. destruct (search_count _ _ _ _ k n [inl k] R) as [o SC]. rewrite <- EN in SC.
  unfold a_entry_mod. unfold bind at 1. unfold a_entry. unfold bind at 1. rewrite SC. cbn [fst snd]. destruct o as [q|].
  - unfold bind at 1. unfold lift at 1. cbn. destruct f as [f|]; [|done]. cbn [and_modify].
    assert (Q : quiet (do n <- node_at q; let '(k0, v, nx) := n in store eb q (TNode k0 (f v) nx))) by qt.
    unfold lift. cbn [fst snd]. unfold bind at 1. specialize (Q (logged [inl k] s)). destruct (bind _ _ _); cbn in *; done.
  - cbn. destruct f; cbn; done.
Qed.

Lemma or_with_count s cs arrs cnt k f dflt n : TR s cs arrs cnt -> forall N0, N0 = n + 1 + seen eqb k (beside hash (t_bc s) k (entries cs)) ->
  forall e r, a_entry_mod eb p_ho p_eo k f (s, n) = Ok e r ->
  exists N bc, tracks (a_or_insert_with nsz nal eb chk p_ho e dflt) r N bc /\ grown_by s (length (concat cs)) bc N N0.
Proof.
  intros R N0 EN e r EE. pose proof (entry_mod_count _ _ _ _ k f n R N0 EN) as EM. rewrite EE in EM. destruct EM as (E1 & E2 & E3).
  destruct r as [s1 n1]. cbn in E1, E2, E3. subst n1. destruct e as [q|[t k']].
  - exists N0, (t_bc s). split; [|unfold grown_by; rewrite Z.eqb_refl; lia]. cbn [a_or_insert_with].
    apply tracks_lift; [qt|done|done|]. intros [[? ?] ?] s' E'. by apply tracks_ret.
  - destruct E3 as (-> & -> & ->). destruct (insert_impl_count _ _ _ _ k dflt N0 R) as (N & bc & T & GB). exists N, bc. split; [|done].
    cbn [a_or_insert_with]. apply tracks_bind; [exact T|]. intros p s' E'. apply tracks_lift; [qt|done|done|]. intros [[? ?] ?] s2 E''. by apply tracks_ret.
Qed.

Lemma call_count c s cs arrs cnt k n : TR s cs arrs cnt -> seeks c = Some k -> exists N bc,
  tracks (a_call nsz nal eb chk p_ho p_eo c) (s, n) N bc /\ grown_by s (length (concat cs)) bc N (n + 1 + seen eqb k (beside hash (t_bc s) k (entries cs))).
Proof.
  intros R SK. set (N0 := n + 1 + _).
  assert (SAME : grown_by s (length (concat cs)) (t_bc s) N0 N0) by (unfold grown_by; rewrite Z.eqb_refl; lia).
  assert (GET : tracks (a_get p_ho p_eo k) (s, n) N0 (t_bc s)).
  { destruct (slot_count _ _ _ _ k n R) as [B _]. destruct (from_count _ _ _ _ k (S n) R) as (o & FC & _).
    unfold a_get. eapply tracks_bk; [exact B|]. eapply tracks_bk; [exact FC|]. replace (S n + _) with N0 by (unfold N0; lia).
    destruct o; [|by apply tracks_ret]. apply tracks_lift; [qt|done|done|]. intros [[? ?] ?] s2 E2. by apply tracks_ret. }
  assert (REM : tracks (a_remove_entry nsz nal eb chk p_ho p_eo k) (s, n) N0 (t_bc s)).
  { destruct (slot_count _ _ _ _ k n R) as [_ B].
    destruct (TRep_slot _ _ _ _ _ k R) as (a & ps & by_ & p & c' & EA & E & F & SL & Hp & Hc & C & _ & _).
    unfold a_remove_entry. eapply tracks_bk; [exact B|]. eapply tracks_bk; [reflexivity|]. cbn [fst].
    destruct (find_place_count k c' (fuel s) (ASlot (slot_of s k)) p s (S n) C) as [pl FP].
    { cbn. rewrite SL. by eapply read_slot_ok. }
    { eapply chain_fuel; [apply (tr_wf _ _ _ _ _ _ _ _ _ _ R)|exact C|]. by eapply NoDup_chain. }
    eapply tracks_bk; [exact FP|]. rewrite <- (beside_bucket _ _ _ _ _ _ R Hc). replace (S n + _) with N0 by (unfold N0; lia).
    apply tracks_lift_last; [|done]. qt. }
  destruct c as [k' v|k'|k'|k' v|k'|k'|k' f v|k' f v|k' f|kvs| | | | |g]; cbn [seeks] in SK; try done; injection SK as ->; cbn [a_call].
  - destruct (search_count _ _ _ _ k n [inr v; inl k] R) as [o SC]. fold N0 in SC. destruct o as [q|].
    + exists N0, (t_bc s). split; [|done]. apply tracks_bind; [|intros ? ? ?; by apply tracks_ret].
      unfold a_insert. eapply tracks_bk; [exact SC|]. cbn [fst snd]. apply tracks_lift_last; [|done]. qt.
    + destruct (insert_impl_count _ _ _ _ k v N0 R) as (N & bc & T & GB). exists N, bc. split; [|done].
      apply tracks_bind; [|intros ? ? ?; by apply tracks_ret].
      unfold a_insert. eapply tracks_bk; [exact SC|]. cbn [fst snd]. apply tracks_bind; [exact T|]. intros ? ? ?. by apply tracks_ret.
  - exists N0, (t_bc s). split; [|done]. apply tracks_bind; [exact GET|]. intros ? ? ?. by apply tracks_ret.
  - exists N0, (t_bc s). split; [|done]. apply tracks_bind; [exact GET|]. intros ? ? ?. by apply tracks_ret.
  - exists N0, (t_bc s). split; [|done]. apply tracks_bind; [|intros ? ? ?; by apply tracks_ret].
    destruct (slot_count _ _ _ _ k n R) as [_ B]. destruct (from_count _ _ _ _ k (S n) R) as (o & FC & _).
    unfold a_get_mut_set. apply tracks_bind.
    + apply tracks_unwind. eapply tracks_bk; [exact B|]. unfold tracks. rewrite FC. cbn. split; [unfold N0; lia|done].
    + intros o' s' E'. destruct o' as [q|].
      * apply tracks_lift; [qt|done|done|]. intros [[? ?] ?] s2 E2. apply tracks_lift; [qt|done|done|]. intros ? s3 E3.
        apply tracks_lift; [qt|done|done|]. intros ? s4 E4. by apply tracks_ret.
      * apply tracks_lift; [qt|done|done|]. intros ? s2 E2. by apply tracks_ret.
  - exists N0, (t_bc s). split; [|done]. apply tracks_bind; [|intros ? ? ?; by apply tracks_ret].
    unfold a_remove. apply tracks_bind; [exact REM|]. intros [[? ?]|] s' E'; [|by apply tracks_ret].
    apply tracks_lift; [qt|done|done|]. intros ? s2 E2. by apply tracks_ret.
  - exists N0, (t_bc s). split; [|done]. apply tracks_bind; [exact REM|]. intros ? ? ?. by apply tracks_ret.
  - destruct (a_entry_mod eb p_ho p_eo k f (s, n)) as [e r|r|] eqn:EE.
    + destruct (or_with_count _ _ _ _ k f v n R N0 eq_refl e r EE) as (N & bc & T & GB). exists N, bc. split; [|done].
      eapply tracks_bk; [unfold on_unwind; rewrite EE; reflexivity|]. apply tracks_bind; [|intros ? ? ?; by apply tracks_ret].
      unfold a_or_insert. apply tracks_bind; [exact T|]. intros [b x] s' E'. cbn [fst snd]. destruct (negb b); [|by apply tracks_ret].
      apply tracks_lift; [qt|done|done|]. intros ? s2 E2. by apply tracks_ret.
    + exists N0, (t_bc s). split; [|done]. pose proof (entry_mod_count _ _ _ _ k f n R N0 eq_refl) as EM. rewrite EE in EM.
      unfold tracks, bind at 1, on_unwind. rewrite EE. exact EM.
    + exists N0, (t_bc s). split; [|done]. unfold tracks, bind at 1, on_unwind. by rewrite EE.
  - destruct (a_entry_mod eb p_ho p_eo k f (s, n)) as [e r|r|] eqn:EE.
    + destruct (or_with_count _ _ _ _ k f v n R N0 eq_refl e r EE) as (N & bc & T & GB). exists N, bc. split; [|done].
      eapply tracks_bk; [exact EE|]. apply tracks_bind; [exact T|]. intros ? ? ?. by apply tracks_ret.
    + exists N0, (t_bc s). split; [|done]. pose proof (entry_mod_count _ _ _ _ k f n R N0 eq_refl) as EM. rewrite EE in EM.
      unfold tracks, bind at 1. rewrite EE. exact EM.
    + exists N0, (t_bc s). split; [|done]. unfold tracks, bind at 1. by rewrite EE.
  - exists N0, (t_bc s). split; [|done]. pose proof (entry_mod_count _ _ _ _ k f n R N0 eq_refl) as EM.
    apply tracks_bind.
    + unfold tracks. destruct (a_entry_mod eb p_ho p_eo k f (s, n)); [tauto|done|done].
    + intros e s' E'. apply tracks_lift; [destruct e as [|[? ?]]; cbn [drop_entry]; qt|done|done|]. intros ? s2 E2. by apply tracks_ret.
Qed.
End count.
