(** Proofs of the properties stated in StringProps.v. *)
From Verif Require Import Base Heap HeapLemmas Alloc AllocContract Vector VectorSpec Hash String StringSpec.

(** The empty world over the heap [h], default allocator. *)
Notation start h := (World [] tt h []).
Notation s_wrun' := (s_wrun (DefaultAllocator Z)).
Notation s_wstep' := (s_wstep (DefaultAllocator Z)).

(** What a user can see of string [i]: its bytes, its capacity, and the byte
    its end pointer points at. *)
Definition seen (w : @world unit Z) (i : nat) : option sstr :=
  match w_vecs w !! i with
  | Some v =>
    let s := VState v (w_a w) (w_h w) (w_drops w) in
    match s_bytes s, capacity 1 s with
    | Ok bs _, Ok k _ => Some (SStr bs k (hload (w_h w) (v_end v)))
    | _, _ => None
    end
  | None => None
  end.

(** The calls meant to leave string [i] terminated. *)
Definition writes (w : @world unit Z) (o : sop) (i : nat) : Prop :=
  match o with
  | OFrom _ => i = length (w_vecs w)
  | OClone j => i = length (w_vecs w) /\ exists t, seen w j = Some t /\ sp_bytes t <> []
  | OCall j (SPush _) | OCall j (SInsert _ _) | OCall j (SAssign _) => i = j
  | OCall j SPop => i = j /\ exists t, seen w j = Some t /\ 0 < sp_room t
  | _ => False
  end.

(** Strings a call names. *)
Definition names (o : sop) : list nat :=
  match o with OClone i => [i] | OEq i j => [i; j] | OCall i _ => [i] | _ => [] end.

(** Calls that leave the byte behind the contents alone or terminated. *)
Definition keeps_nul (o : sop) : bool :=
  match o with
  | OWithCapacity _ | OCall _ (SRemove _) | OCall _ (SReserve _) => false
  | _ => true
  end.

Definition boundary (bs : list Z) (i : nat) : Prop := utf8 (take i bs) /\ utf8 (drop i bs).

(** Calls whose arguments respect UTF-8; of a char the code keeps the lowest byte. *)
Definition utf8_call (c : scall) (bs : list Z) : Prop :=
  match c with
  | SPush c => (c mod 256 < 128)%Z
  | SInsert i c => (c mod 256 < 128)%Z /\ ((i <= length bs)%nat -> boundary bs i)
  | SPop => forall b, last bs = Some b -> (b < 128)%Z
  | SRemove i => forall b, bs !! i = Some b -> (b < 128)%Z
  | SAssign buf => utf8 buf
  | _ => True
  end.
Definition utf8_op (w : @world unit Z) (o : sop) : Prop :=
  match o with
  | OFrom buf => utf8 buf
  | OCall i c => forall t, seen w i = Some t -> utf8_call c (sp_bytes t)
  | _ => True
  end.

From Verif Require Import VectorProofs VectorMore VectorFindings StringProofs.

Lemma wf_empty : heap_wf (Heap 0 (∅ : gmap nat (block Z))).
Proof. intros b [x Hx]. cbn in Hx. by rewrite lookup_empty in Hx. Qed.

Lemma SWRep_seen chk base w ts : SWRep chk base w ts -> forall i, seen w i = ts !! i.
Proof.
  intros W i. unfold seen.
  pose proof (wr_len _ _ _ _ _ _ _ (sw_rep _ _ _ _ W)) as L. rewrite map_length in L.
  destruct (w_vecs w !! i) as [v|] eqn:Hv.
  - destruct (lookup_lt_is_Some_2 ts i) as [t Ht]; [rewrite L; by eapply lookup_lt_Some|].
    pose proof (SWRep_at chk base w ts i v t W Hv Ht) as (R & M). unfold s_bytes.
    rewrite (as_slice_ok _ 1 1 eq_refl _ _ _ _ R), (capacity_ok _ 1 1 eq_refl _ _ _ _ R), Ht.
    unfold end_cell in M. cbn [st_h st_v] in M. rewrite M. by destruct t.
  - apply lookup_ge_None in Hv. symmetry. apply lookup_ge_None. lia.
Qed.

Lemma spec_None chk base w ts o : SWRep chk base w ts -> spec_sop string_fits o ts = None ->
  s_wstep' chk o w = None /\ exists i, i ∈ names o /\ length (w_vecs w) <= i.
Proof.
  intros W H. pose proof (wr_len _ _ _ _ _ _ _ (sw_rep _ _ _ _ W)) as L. rewrite map_length in L.
  assert (N : forall i, ts !! i = None -> w_vecs w !! i = None /\ length (w_vecs w) <= i).
  { intros i E. apply lookup_ge_None in E. split; [apply lookup_ge_None|]; lia. }
  destruct o; cbn [spec_sop] in H.
  - done.
  - unfold spec_new in H. by destruct (_ || _).
  - unfold spec_new in H. by destruct (string_fits _).
  - destruct (ts !! i) as [t|] eqn:E; [unfold spec_new in H; by destruct (_ || _)|].
    destruct (N _ E) as [E' Li]. cbn. rewrite E'. split; [done|]. exists i. split; [set_solver|done].
  - destruct (ts !! i) as [t|] eqn:E.
    + destruct (ts !! j) as [t'|] eqn:Ej; [done|]. destruct (N _ Ej) as [E' Li]. cbn. rewrite E'.
      split; [by destruct (w_vecs w !! i)|]. exists j. split; [set_solver|done].
    + destruct (N _ E) as [E' Li]. cbn. rewrite E'. split; [done|]. exists i. split; [set_solver|done].
  - destruct (ts !! i) as [t|] eqn:E; [by destruct (spec_scall _ _ _)|].
    destruct (N _ E) as [E' Li]. cbn. rewrite E'. split; [done|]. exists i. split; [set_solver|done].
Qed.

Lemma modest_first chk o os : chk = true \/ forallb o_modest (o :: os) = true ->
  (chk = true \/ o_modest o = true) /\ (chk = true \/ forallb o_modest os = true).
Proof.
  intros [HK|HK]; [by split; left|]. cbn [forallb] in HK. apply andb_prop in HK as [? ?]. by split; right.
Qed.

Lemma s_wrun_spec chk os : forall base w ts l w', chk = true \/ forallb o_modest os = true ->
  SWRep chk base w ts -> s_wrun' chk os w = Some (l, w') ->
  exists ts', spec_sops string_fits os ts = Some (l, ts') /\ SWRep chk base w' ts'.
Proof.
  induction os as [|o os IH]; intros base w ts l w' HK W H; cbn [s_wrun] in H.
  - simplify_eq. by exists ts.
  - cbn [spec_sops]. destruct (spec_sop string_fits o ts) as [[a ts1]|] eqn:E.
    + apply modest_first in HK as [HK1 HK].
      destruct (s_wstep_refines chk base o w ts a ts1 W E HK1) as (w1 & E1 & W1 & _).
      rewrite E1 in H. destruct (s_wrun' chk os w1) as [[l2 w2]|] eqn:E2; [|done]. simplify_eq.
      destruct (IH base w1 ts1 l2 w' HK W1 E2) as (ts2 & S2 & W2). rewrite S2. by exists ts2.
    + destruct (spec_None _ _ _ _ _ W E) as [E' _]. by rewrite E' in H.
Qed.

Lemma reached chk h os l w : heap_wf h -> chk = true \/ forallb o_modest os = true ->
  s_wrun' chk os (start h) = Some (l, w) ->
  exists ts, spec_sops string_fits os [] = Some (l, ts) /\ SWRep chk (h_blk h) w ts.
Proof. intros Hh HK E. eapply s_wrun_spec; [done| |done]. by apply SWRep_start. Qed.

Lemma step_spec chk base w ts o a w' : chk = true \/ o_modest o = true -> SWRep chk base w ts ->
  s_wstep' chk o w = Some (a, w') ->
  exists ts', spec_sop string_fits o ts = Some (a, ts') /\ SWRep chk base w' ts'.
Proof.
  intros HK W H. destruct (spec_sop string_fits o ts) as [[a' ts']|] eqn:E.
  - destruct (s_wstep_refines chk base o w ts a' ts' W E HK) as (w1 & E1 & W1 & _).
    rewrite H in E1. simplify_eq. by exists ts'.
  - destruct (spec_None _ _ _ _ _ W E) as [E' _]. by rewrite E' in H.
Qed.

Lemma SWRep_length chk base w ts : SWRep chk base w ts -> length ts = length (w_vecs w).
Proof. intros W. pose proof (wr_len _ _ _ _ _ _ _ (sw_rep _ _ _ _ W)) as L. by rewrite map_length in L. Qed.

(** What a call on one string does to what is seen. *)
Lemma call_spec chk base w ts i t c a w' : chk = true \/ s_modest c = true -> SWRep chk base w ts -> ts !! i = Some t ->
  s_wstep' chk (OCall i c) w = Some (a, w') ->
  spec_scall string_fits c t = (a, default t (seen w' i)) /\ seen w' i <> None /\
  (forall j, j <> i -> seen w' j = seen w j) /\ exists ts', SWRep chk base w' ts'.
Proof.
  intros HK W Ht H. destruct (step_spec chk _ _ _ (OCall i c) _ _ HK W H) as (ts' & S & W'). cbn [spec_sop] in S.
  rewrite Ht in S. destruct (spec_scall string_fits c t) as [a' t'] eqn:E. simplify_eq.
  rewrite (SWRep_seen _ _ _ _ W'). rewrite list_lookup_insert by (by eapply lookup_lt_Some).
  split; [done|]. split; [done|]. split; [|by eexists].
  intros j N. rewrite (SWRep_seen _ _ _ _ W'), (SWRep_seen _ _ _ _ W). by rewrite list_lookup_insert_ne.
Qed.

Lemma grow_to_inv k s ok r : grow_to string_fits k s ok = r -> r = ok \/ r = (SPanic, s).
Proof. unfold grow_to. destruct (_ || _); auto. Qed.

(** Dropping every string. *)
Lemma spec_sops_app os1 : forall os2 ss l1 ss1 l2 ss2,
  spec_sops string_fits os1 ss = Some (l1, ss1) ->
  spec_sops string_fits os2 ss1 = Some (l2, ss2) ->
  spec_sops string_fits (os1 ++ os2) ss = Some (l1 ++ l2, ss2).
Proof.
  induction os1 as [|o os1 IH]; intros os2 ss l1 ss1 l2 ss2 H1 H2; cbn [app spec_sops] in *.
  - by simplify_eq.
  - destruct (spec_sop string_fits o ss) as [[a ss']|]; [|done].
    destruct (spec_sops string_fits os1 ss') as [[l' ss'']|] eqn:E; [|done]. simplify_eq.
    by rewrite (IH _ _ _ _ _ _ E H2).
Qed.

Lemma drop_all m : forall k (ss : list sstr), k + m = length ss ->
  exists l, spec_sops string_fits (map (fun i => OCall i SDrop) (seq k m)) ss
    = Some (l, take k ss ++ replicate m new_str).
Proof.
  induction m as [|m IH]; intros k ss L.
  - exists []. cbn. by rewrite app_nil_r, take_ge by lia.
  - cbn [seq map spec_sops spec_sop].
    destruct (lookup_lt_is_Some_2 ss k) as [s Hs]; [lia|]. rewrite Hs. cbn [spec_scall].
    destruct (IH (S k) (<[k := new_str]> ss)) as (l & E); [rewrite insert_length; lia|].
    change (SStr [] 0 None) with new_str. rewrite E. exists (SUnit :: l).
    f_equal. f_equal. rewrite (take_S_r _ _ new_str) by (apply list_lookup_insert; lia).
    rewrite take_insert by lia. by rewrite <- app_assoc.
Qed.

(** *** UTF-8 *)
Lemma utf8_nil : utf8 [].
Proof. exists []. done. Qed.

Lemma utf8_app a b : utf8 a -> utf8 b -> utf8 (a ++ b).
Proof.
  intros (ca & Fa & ->) (cb & Fb & ->). exists (ca ++ cb). split; [by apply Forall_app|].
  by rewrite map_app, concat_app.
Qed.

Lemma utf8_ascii c : (0 <= c < 128)%Z -> utf8 [c].
Proof.
  intros H. exists [c]. split; [repeat constructor; unfold scalar; lia|].
  cbn. unfold utf8_encode. by replace (c <? 128)%Z with true by lia.
Qed.

(** A byte below 128 is a whole character. *)
Lemma encode_high c b : In b (utf8_encode c) -> scalar c -> (b < 128)%Z -> utf8_encode c = [b].
Proof.
  intros Hin Hc Hb. unfold utf8_encode, scalar in *.
  assert (P : forall x, (0 <= x)%Z -> (0 <= x mod 64 < 64)%Z) by (intros; apply Z.mod_pos_bound; lia).
  assert (D : forall x y, (0 <= x)%Z -> (0 < y)%Z -> (0 <= x / y)%Z) by (intros; by apply Z.div_pos).
  pose proof (D c 64%Z). pose proof (D c 4096%Z). pose proof (D c 262144%Z).
  pose proof (P c). pose proof (P (c / 64)%Z). pose proof (P (c / 4096)%Z).
  destruct (Z.ltb_spec c 128); [cbn in Hin; destruct Hin as [->|[]]; done|].
  destruct (Z.ltb_spec c 2048); [cbn in Hin; destruct Hin as [<-|[<-|[]]]; lia|].
  destruct (Z.ltb_spec c 65536); [cbn in Hin; destruct Hin as [<-|[<-|[<-|[]]]]; lia|].
  cbn in Hin. destruct Hin as [<-|[<-|[<-|[<-|[]]]]]; lia.
Qed.

Lemma encode_ne c : utf8_encode c <> [].
Proof. unfold utf8_encode. repeat destruct (_ <? _)%Z; done. Qed.

Lemma utf8_split_ascii bs i b : utf8 bs -> bs !! i = Some b -> (b < 128)%Z ->
  utf8 (take i bs) /\ utf8 (drop (S i) bs).
Proof.
  intros (cs & Fc & ->). revert i. induction cs as [|c cs IH]; intros i Hi Hb; [done|].
  apply Forall_cons in Fc as [Hc Fc]. cbn [map concat] in *.
  destruct (decide (i < length (utf8_encode c))) as [L|L].
  - rewrite lookup_app_l in Hi by done.
    pose proof (encode_high c b ltac:(apply elem_of_list_In, elem_of_list_lookup; eauto) Hc Hb) as E.
    rewrite E in *. cbn in L. assert (i = 0) as -> by lia. cbn [app]. rewrite take_0, skipn_cons, drop_0.
    split; [apply utf8_nil|]. by exists cs.
  - rewrite lookup_app_r in Hi by lia. destruct (IH Fc _ Hi Hb) as [U1 U2].
    rewrite take_app_ge, drop_app_ge by lia.
    replace (S i - length (utf8_encode c)) with (S (i - length (utf8_encode c))) by lia.
    split; [|done]. apply utf8_app; [|done]. exists [c]. split; [by constructor|]. cbn. by rewrite app_nil_r.
Qed.

Lemma not_utf8_lone b : (128 <= b)%Z -> ~ utf8 [b].
Proof.
  intros Hb (cs & Fc & E). destruct cs as [|c cs]; [done|]. apply Forall_cons in Fc as [Hc _]. cbn in E.
  unfold utf8_encode in E. destruct (Z.ltb_spec c 128); [cbn in E; injection E as ->; lia|].
  by repeat destruct (_ <? _)%Z.
Qed.

(** How many continuation bytes a byte calls for; in UTF-8 the balance is 0. *)
Definition wants (b : Z) : Z :=
  (if b <? 128 then 0 else if b <? 192 then -1 else if b <? 224 then 1 else if b <? 240 then 2 else 3)%Z.
Definition balance (bs : list Z) : Z := foldr Z.add 0%Z (map wants bs).
Lemma balance_app a b : balance (a ++ b) = (balance a + balance b)%Z.
Proof. unfold balance. induction a as [|x a IH]; [done|]. cbn in *. lia. Qed.
Lemma wants_high b : (128 <= b)%Z -> wants b <> 0%Z.
Proof. intros H. unfold wants. destruct (Z.ltb_spec b 128); [lia|]. destruct (b <? 192)%Z; [done|]. destruct (b <? 224)%Z; [done|]. by destruct (b <? 240)%Z. Qed.
Lemma encode_ranges c : scalar c ->
  (utf8_encode c = [c] /\ (c < 128)%Z) \/
  (exists a b, utf8_encode c = [a; b] /\ (192 <= a < 224 /\ 128 <= b < 192)%Z) \/
  (exists a b d, utf8_encode c = [a; b; d] /\ (224 <= a < 240 /\ 128 <= b < 192 /\ 128 <= d < 192)%Z) \/
  (exists a b d e, utf8_encode c = [a; b; d; e] /\ (240 <= a < 248 /\ 128 <= b < 192 /\ 128 <= d < 192 /\ 128 <= e < 192)%Z).
Proof.
  intros Hc. unfold utf8_encode, scalar in *. assert (P : forall x, (0 <= x mod 64 < 64)%Z) by (intros; apply Z.mod_pos_bound; lia).
  pose proof (P c). pose proof (P (c / 64)%Z). pose proof (P (c / 4096)%Z).
  destruct (Z.ltb_spec c 128); [by left|]. right.
  destruct (Z.ltb_spec c 2048).
  { left. eexists _, _. split; [done|]. assert (2 <= c / 64 < 32)%Z by (split; [apply Z.div_le_lower_bound|apply Z.div_lt_upper_bound]; lia). lia. }
  right. destruct (Z.ltb_spec c 65536).
  { left. eexists _, _, _. split; [done|]. assert (0 <= c / 4096 < 16)%Z by (split; [apply Z.div_le_lower_bound|apply Z.div_lt_upper_bound]; lia). lia. }
  right. eexists _, _, _, _. split; [done|]. assert (0 <= c / 262144 < 8)%Z by (split; [apply Z.div_le_lower_bound|apply Z.div_lt_upper_bound]; lia). lia.
Qed.
Lemma wants_cont b : (128 <= b < 192)%Z -> wants b = (-1)%Z.
Proof. intros H. unfold wants. rewrite (proj2 (Z.ltb_ge b 128)), (proj2 (Z.ltb_lt b 192)) by lia. done. Qed.
Lemma encode_balance c : scalar c -> balance (utf8_encode c) = 0%Z.
Proof.
  intros Hc. destruct (encode_ranges c Hc) as [(-> & ?)|[(a & b & -> & ?)|[(a & b & d & -> & ?)|(a & b & d & e & -> & ?)]]];
    unfold balance; cbn [map foldr].
  - unfold wants. rewrite (proj2 (Z.ltb_lt c 128)) by lia. done.
  - rewrite (wants_cont b) by lia. unfold wants. rewrite (proj2 (Z.ltb_ge a 128)), (proj2 (Z.ltb_ge a 192)), (proj2 (Z.ltb_lt a 224)) by lia. done.
  - rewrite (wants_cont b), (wants_cont d) by lia. unfold wants.
    rewrite (proj2 (Z.ltb_ge a 128)), (proj2 (Z.ltb_ge a 192)), (proj2 (Z.ltb_ge a 224)), (proj2 (Z.ltb_lt a 240)) by lia. done.
  - rewrite (wants_cont b), (wants_cont d), (wants_cont e) by lia. unfold wants.
    rewrite (proj2 (Z.ltb_ge a 128)), (proj2 (Z.ltb_ge a 192)), (proj2 (Z.ltb_ge a 224)), (proj2 (Z.ltb_ge a 240)) by lia. done.
Qed.
Lemma utf8_balance bs : utf8 bs -> balance bs = 0%Z.
Proof.
  intros (cs & F & ->). induction F as [|c cs Hc F IH]; [done|]. cbn [map concat]. by rewrite balance_app, encode_balance, IH.
Qed.
(** A string and a string with one more non-ASCII byte are not both UTF-8. *)
Lemma utf8_extra l b r : utf8 (l ++ r) -> utf8 (l ++ b :: r) -> (b < 128)%Z.
Proof.
  intros U1 U2. apply utf8_balance in U1, U2. rewrite balance_app in U1, U2. unfold balance at 2 in U2. cbn [map foldr] in U2. fold (balance r) in U2.
  destruct (Z.lt_ge_cases b 128) as [|H]; [done|]. pose proof (wants_high b H). lia.
Qed.
(** UTF-8 text is decoded from the left. *)
Lemma encode_prefix c d X Y : scalar c -> scalar d -> utf8_encode c ++ X = utf8_encode d ++ Y -> X = Y.
Proof.
  intros Hc Hd E. eapply app_inj_1; [|exact E].
  destruct (encode_ranges c Hc) as [(Ec & ?)|[(? & ? & Ec & ?)|[(? & ? & ? & Ec & ?)|(? & ? & ? & ? & Ec & ?)]]];
    destruct (encode_ranges d Hd) as [(Ed & ?)|[(? & ? & Ed & ?)|[(? & ? & ? & Ed & ?)|(? & ? & ? & ? & Ed & ?)]]];
    rewrite Ec, Ed in *; cbn in E; injection E; intros; subst; try done; lia.
Qed.
Lemma utf8_cancel a b : utf8 a -> utf8 (a ++ b) -> utf8 b.
Proof.
  intros (cs & F & ->). revert b. induction F as [|c cs Hc F IH]; intros b U; [done|]. apply IH. cbn [map concat] in U. rewrite <- app_assoc in U.
  destruct U as (ds & G & E). destruct G as [|d ds Hd G].
  - exfalso. cbn in E. apply app_eq_nil in E as [E _]. by apply (encode_ne c).
  - cbn [map concat] in E. apply encode_prefix in E; [|done|done]. rewrite E. by exists ds.
Qed.

Lemma removelast_take {X} (l : list X) : removelast l = take (length l - 1) l.
Proof.
  rewrite removelast_firstn_len. f_equal. lia.
Qed.

Lemma c_str_S (h : heap Z) p n : c_str h p (S n) =
  match hload h p with
  | None => None
  | Some b => if (b =? 0)%Z then Some []
              else match hadd h p 1 with
                   | Some q => match c_str h q n with Some bs => Some (b :: bs) | None => None end
                   | None => None
                   end
  end.
Proof. done. Qed.

Lemma c_str_scan (h : heap Z) b (bs : list Z) : forall pre bk junk, h_blk h !! b = Some bk ->
  bk_cells bk = (Some <$> pre) ++ (Some <$> bs) ++ Some 0%Z :: junk -> ~ In 0%Z bs ->
  c_str h (Ptr b (length pre)) (S (length bs)) = Some bs.
Proof.
  induction bs as [|x bs IH]; intros pre bk junk Hb Hc Hn.
  - rewrite c_str_S, (hload_at _ _ _ _ Hb), Hc. cbn [fmap list_fmap app].
    by rewrite lookup_app_r, fmap_length, Nat.sub_diag by (by rewrite fmap_length).
  - rewrite c_str_S, (hload_at _ _ _ _ Hb), Hc.
    rewrite lookup_app_r, fmap_length, Nat.sub_diag by (by rewrite fmap_length).
    cbn [length fmap list_fmap app lookup list_lookup mjoin option_join].
    destruct (Z.eqb_spec x 0) as [->|_]; [destruct Hn; by left|].
    assert (L : length pre + 1 <= length (bk_cells bk)).
    { rewrite Hc, !app_length, fmap_length. cbn. lia. }
    rewrite (hadd_ok h b (length pre) 1 bk Hb L).
    specialize (IH (pre ++ [x]) bk junk Hb). rewrite app_length in IH. cbn [length] in IH.
    rewrite IH; [done| |].
    + rewrite Hc. rewrite fmap_app, <- app_assoc. done.
    + intros Hin. apply Hn. by right.
Qed.

Lemma L_C14_string_is_a_byte_list :
forall (chk : bool) (h : heap Z) (os : list sop) l ts,
  heap_wf h -> spec_sops string_fits os [] = Some (l, ts) -> chk = true \/ forallb o_modest os = true ->
  exists w, s_wrun' chk os (start h) = Some (l, w) /\ length (w_vecs w) = length ts /\
    forall i, seen w i = ts !! i.
Proof.
  intros chk h os l ts Hh S K.
  destruct (s_wrun_refines chk (h_blk h) os _ [] l ts (SWRep_start chk h [] Hh) S K) as (w & E & W & _).
  exists w. split; [done|]. split; [symmetry; by eapply SWRep_length|]. by eapply SWRep_seen.
Qed.

Lemma L_C15_writers_terminate :
forall (chk : bool) (h : heap Z) (os : list sop) l w o a w' i,
  heap_wf h -> chk = true \/ forallb o_modest (o :: os) = true -> s_wrun' chk os (start h) = Some (l, w) ->
  writes w o i -> s_wstep' chk o w = Some (a, w') -> a <> SPanic ->
  (exists t, seen w' i = Some t /\ sp_mark t = Some 0%Z) /\
  (forall j, j <> i -> seen w' j = seen w j).
Proof.
  intros chk h os l w o a w' i Hh HK E Hw S NP. apply modest_first in HK as [HK1 HK]. destruct (reached chk h os l w Hh HK E) as (ts & _ & W).
  destruct (step_spec _ _ _ _ _ _ _ HK1 W S) as (ts' & SS & W').
  pose proof (SWRep_length _ _ _ _ W) as L. pose proof (SWRep_seen _ _ _ _ W) as V. pose proof (SWRep_seen _ _ _ _ W') as V'.
  assert (NEW : forall t, ts' = ts ++ [t] -> sp_mark t = Some 0%Z -> i = length (w_vecs w) ->
    (exists t, seen w' i = Some t /\ sp_mark t = Some 0%Z) /\ (forall j, j <> i -> seen w' j = seen w j)).
  { intros t -> M ->. rewrite <- L. split.
    - exists t. rewrite V', lookup_app_r, Nat.sub_diag by done. done.
    - intros j N. rewrite V', V. destruct (decide (j < length ts)); [by rewrite lookup_app_l|].
      rewrite (lookup_ge_None_2 ts), (lookup_ge_None_2 (ts ++ _)) by (rewrite ?app_length; cbn; lia). done. }
  assert (OLD : forall t t', ts !! i = Some t -> ts' = <[i := t']> ts -> sp_mark t' = Some 0%Z ->
    (exists t, seen w' i = Some t /\ sp_mark t = Some 0%Z) /\ (forall j, j <> i -> seen w' j = seen w j)).
  { intros t t' Ht -> M. split.
    - exists t'. rewrite V', list_lookup_insert by (by eapply lookup_lt_Some). done.
    - intros j N. by rewrite V', V, list_lookup_insert_ne. }
  destruct o as [|n|buf|j|j j'|j c]; cbn [writes] in Hw; try done; cbn [spec_sop] in SS.
  - unfold spec_new in SS. destruct (string_fits _); simplify_eq. by eapply NEW.
  - destruct Hw as (-> & t & Et & NE). rewrite V in Et. rewrite Et in SS. unfold spec_new in SS.
    destruct (_ || _); simplify_eq. eapply NEW; [done| |done]. cbn. destruct (sp_bytes t); done.
  - destruct (ts !! j) as [t|] eqn:Et; [|by destruct c].
    destruct (spec_scall string_fits c t) as [a' t'] eqn:SC. simplify_eq.
    destruct c; cbn [writes] in Hw; try done; cbn [spec_scall] in SC.
    + subst i. apply grow_to_inv in SC as [SC|SC]; simplify_eq. by eapply OLD.
    + destruct Hw as (-> & t0 & Et0 & R0). rewrite V, Et in Et0. simplify_eq.
      eapply OLD; [done|done|]. cbn. by destruct (Nat.eqb_spec (sp_room t0) 0); [lia|].
    + subst i. destruct (_ <=? _); [|by simplify_eq]. apply grow_to_inv in SC as [SC|SC]; simplify_eq. by eapply OLD.
    + subst i. apply grow_to_inv in SC as [SC|SC]; simplify_eq. by eapply OLD.
Qed.

Lemma L_C16_terminated_without_remove_and_reserve_partial :
forall (chk : bool) (h : heap Z) (os : list sop) l w i t,
  heap_wf h -> chk = true \/ forallb o_modest os = true -> s_wrun' chk os (start h) = Some (l, w) ->
  forallb keeps_nul os = true -> seen w i = Some t -> 0 < sp_room t -> sp_mark t = Some 0%Z.
Proof.
  intros chk h os l w i t Hh HK E Hk Hs Hr. destruct (reached chk h os l w Hh HK E) as (ts & S & W).
  rewrite (SWRep_seen _ _ _ _ W) in Hs.
  assert (G : Forall (fun t => 0 < sp_room t -> sp_mark t = Some 0%Z) ts).
  { clear HK E Hs Hr W. assert (G0 : Forall (fun t => 0 < sp_room t -> sp_mark t = Some 0%Z) []) by constructor.
    revert l ts S G0 Hk. generalize (@nil sstr).
    induction os as [|o os IH]; intros ss l ts S G0 Hk; cbn [spec_sops] in S; [by simplify_eq|].
    cbn [forallb] in Hk. apply andb_prop in Hk as [Ho Hk].
    destruct (spec_sop string_fits o ss) as [[a ss1]|] eqn:E; [|done].
    destruct (spec_sops string_fits os ss1) as [[l2 ss2]|] eqn:E2; [|done]. simplify_eq.
    apply (IH _ _ _ E2); [|done]. clear IH E2.
    destruct o as [|n|buf|j|j j'|j c]; cbn [spec_sop] in E; unfold spec_new in E; try done.
    - simplify_eq. apply Forall_app. split; [done|]. constructor; [cbn; lia|done].
    - destruct (string_fits _); simplify_eq; [|done]. apply Forall_app. split; [done|]. by repeat constructor.
    - destruct (ss !! j) as [s|]; [|done]. destruct (_ || _); simplify_eq; [|done].
      apply Forall_app. split; [done|]. constructor; [|done]. cbn. destruct (sp_bytes s); cbn; [lia|done].
    - destruct (ss !! j); [|done]. destruct (ss !! j'); [|done]. by simplify_eq.
    - destruct (ss !! j) as [s|] eqn:Ej; [|done].
      destruct (spec_scall string_fits c s) as [a' s'] eqn:SC. simplify_eq.
      apply Forall_insert; [done|].
      pose proof (proj1 (Forall_lookup _ _) G0 _ _ Ej) as Gs. cbn in Gs.
      destruct c; cbn [keeps_nul] in Ho; try done; cbn [spec_scall] in SC; try (by simplify_eq);
        try (apply grow_to_inv in SC as [SC|SC]; by simplify_eq).
      + simplify_eq. cbn. intros. by destruct (Nat.eqb_spec (sp_room s) 0); [lia|].
      + destruct (_ <=? _); [|by simplify_eq]. apply grow_to_inv in SC as [SC|SC]; by simplify_eq.
      + simplify_eq. cbn. lia. }
  by apply (proj1 (Forall_lookup _ _) G _ _ Hs).
Qed.

Lemma L_C16_remove_and_reserve_unterminate_refuted :
(forall (chk : bool) (h : heap Z) (os : list sop) l w i t,
  heap_wf h -> chk = true \/ forallb o_modest os = true -> s_wrun' chk os (start h) = Some (l, w) -> seen w i = Some t ->
  (forall k b w', sp_bytes t !! k = Some b -> s_wstep' chk (OCall i (SRemove k)) w = Some (SChar (Some b), w') ->
     option_map sp_mark (seen w' i) = Some (last (sp_bytes t))) /\
  (forall n w', chk = true \/ s_modest (SReserve n) = true -> s_wstep' chk (OCall i (SReserve n)) w = Some (SUnit, w') ->
     option_map sp_mark (seen w' i) = Some None) /\
  (forall n w', chk = true \/ o_modest (OWithCapacity n) = true -> s_wstep' chk (OWithCapacity n) w = Some (SUnit, w') ->
     option_map sp_mark (seen w' (length (w_vecs w))) = Some None)) /\
(exists (os : list sop) l w t, s_wrun' true os (start (Heap 0 ∅)) = Some (l, w) /\ seen w 0 = Some t /\
   sp_mark t <> Some 0%Z).
Proof.
  split.
  - intros chk h os l w i t Hh HK E Hs. destruct (reached chk h os l w Hh HK E) as (ts & S & W).
    pose proof (SWRep_seen _ _ _ _ W) as V. rewrite V in Hs. split; [|split].
    + intros k b w' Hb HS. destruct (call_spec _ _ _ _ _ _ (SRemove k) _ _ (or_intror eq_refl) W Hs HS) as (C & NN & _). cbn [spec_scall] in C.
      rewrite Hb in C. injection C as C. destruct (seen w' i); [|done]. cbn in *. by rewrite <- C.
    + intros n w' HK1 HS. destruct (call_spec _ _ _ _ _ _ _ _ _ HK1 W Hs HS) as (C & NN & _). cbn [spec_scall] in C.
      apply grow_to_inv in C as [C|C]; [|done]. destruct (seen w' i) as [t'|]; [|done]. cbn in *. injection C as ->. done.
    + intros n w' HK1 HS. destruct (step_spec _ _ _ _ _ _ _ HK1 W HS) as (ts' & C & W'). cbn [spec_sop] in C.
      unfold spec_new in C. destruct (_ || _); simplify_eq.
      rewrite (SWRep_seen _ _ _ _ W'), <- (SWRep_length _ _ _ _ W), lookup_app_r, Nat.sub_diag by done. done.
  - exists [OFrom [104; 105]%Z; OCall 0 (SRemove 0)].
    destruct (L_C14_string_is_a_byte_list true (Heap 0 ∅) [OFrom [104; 105]%Z; OCall 0 (SRemove 0)]
      [SUnit; SChar (Some 104%Z)] [SStr [105]%Z 3 (Some 105%Z)]) as (w & E & _ & V).
    + apply wf_empty.
    + vm_compute. reflexivity.
    + by left.
    + exists [SUnit; SChar (Some 104%Z)], w, (SStr [105]%Z 3 (Some 105%Z)). split; [done|]. split; [by rewrite V|done].
Qed.

Lemma L_C17_terminator_stays_inside :
forall (chk : bool) (h : heap Z) (os : list sop) l w, heap_wf h -> chk = true \/ forallb o_modest os = true -> s_wrun' chk os (start h) = Some (l, w) ->
  (forall o, (forall i, i ∈ names o -> i < length (w_vecs w)) -> chk = true \/ o_modest o = true -> s_wstep' chk o w <> None) /\
  (forall i v t, w_vecs w !! i = Some v -> seen w i = Some t -> 0 < sp_room t ->
     exists b bk, v_begin v = Ptr b 0 /\ h_blk (w_h w) !! b = Some bk /\ h_blk h !! b = None /\
       v_end v = Ptr b (length (sp_bytes t)) /\ length (sp_bytes t) <= sp_room t /\
       bk_bytes bk = (Z.of_nat (sp_room t) + 1)%Z /\ length (bk_cells bk) = sp_room t + 1) /\
  (exists l' w', s_wrun' chk (os ++ map (fun i => OCall i SDrop) (seq 0 (length (w_vecs w)))) (start h) = Some (l', w') /\
     h_blk (w_h w') = h_blk h).
Proof.
  intros chk h os l w Hh HK E. destruct (reached chk h os l w Hh HK E) as (ts & S & W). split; [|split].
  - intros o Hn HK1 HN. destruct (spec_sop string_fits o ts) as [[a ts']|] eqn:SO.
    + destruct (s_wstep_refines chk _ o w ts a ts' W SO HK1) as (w' & E' & _). by rewrite HN in E'.
    + destruct (spec_None _ _ _ _ _ W SO) as (_ & i & Hi & L). pose proof (Hn i Hi). lia.
  - intros i v t Hv Hs Hr. rewrite (SWRep_seen _ _ _ _ W) in Hs.
    destruct (SWRep_at _ _ _ _ _ _ _ W Hv Hs) as (R & _). pose proof (Rep_len _ _ _ _ _ _ _ R) as HL.
    destruct R as (_ & _ & [(E' & _ & C0)|(b & bk & j & E' & C0 & HL' & LB & Hb & Hc & Hl & HO)]); [cbn in *; lia|].
    cbn [st_v st_h] in *. subst v. exists b, bk. repeat (split; [done|]).
    destruct HO as [HO|HO]; [done|]. destruct HO as (B1 & _ & _ & B2).
    split; [|by repeat split].
    by eapply (wr_fresh _ _ _ _ _ _ _ (sw_rep _ _ _ _ W) i).
  - pose proof (SWRep_length _ _ _ _ W) as L. rewrite <- L.
    destruct (drop_all (length ts) 0 ts ltac:(lia)) as (l2 & S2). cbn [take app] in S2.
    assert (HK2 : chk = true \/ forallb o_modest (os ++ map (fun i => OCall i SDrop) (seq 0 (length ts))) = true).
    { destruct HK as [HK|HK]; [by left|right]. rewrite forallb_app, HK. cbn [andb]. apply forallb_forall.
      intros o Ho. by apply in_map_iff in Ho as (n & <- & _). }
    pose proof (spec_sops_app os _ [] _ _ _ _ S S2) as S3.
    destruct (s_wrun_refines chk (h_blk h) _ _ [] _ _ (SWRep_start chk h [] Hh) S3 HK2) as (w' & E' & W' & _).
    exists (l ++ l2), w'. split; [done|].
    apply (WRep_done _ 1 1 _ _ _ _ (sw_rep _ _ _ _ W')).
    apply Forall_map, Forall_replicate. done.
Qed.

Lemma L_C18_assign_appends_refuted :
(forall (chk : bool) (h : heap Z) (os : list sop) l w i t buf w',
  heap_wf h -> chk = true \/ forallb o_modest (OCall i (SAssign buf) :: os) = true -> s_wrun' chk os (start h) = Some (l, w) -> seen w i = Some t ->
  s_wstep' chk (OCall i (SAssign buf)) w = Some (SUnit, w') ->
  option_map sp_bytes (seen w' i) = Some (sp_bytes t ++ buf) /\
  (sp_bytes t <> [] -> option_map sp_bytes (seen w' i) <> Some buf)) /\
(exists (os : list sop) l w t, s_wrun' true (os ++ [OCall 0 (SAssign [98]%Z)]) (start (Heap 0 ∅)) = Some (l, w) /\
   ~ In SPanic l /\ seen w 0 = Some t /\ sp_bytes t <> [98]%Z).
Proof.
  split.
  - intros chk h os l w i t buf w' Hh HK E Hs HS. apply modest_first in HK as [HK1 HK]. destruct (reached chk h os l w Hh HK E) as (ts & S & W).
    rewrite (SWRep_seen _ _ _ _ W) in Hs. destruct (call_spec _ _ _ _ _ _ _ _ _ HK1 W Hs HS) as (C & NN & _).
    cbn [spec_scall] in C. apply grow_to_inv in C as [C|C]; [|done]. destruct (seen w' i) as [t'|]; [|done].
    cbn in *. injection C as ->. cbn. split; [done|]. intros NE [= E']. apply NE.
    apply (f_equal length) in E'. rewrite app_length in E'. destruct (sp_bytes t); [done|cbn in E'; lia].
  - exists [OFrom [97]%Z].
    destruct (L_C14_string_is_a_byte_list true (Heap 0 ∅) ([OFrom [97]%Z] ++ [OCall 0 (SAssign [98]%Z)])
      [SUnit; SUnit] [SStr [97; 98]%Z 4 (Some 0%Z)]) as (w & E & _ & V).
    + apply wf_empty.
    + vm_compute. reflexivity.
    + by left.
    + exists [SUnit; SUnit], w, (SStr [97; 98]%Z 4 (Some 0%Z)). split; [done|].
      split; [by intros [|[|[]]]|]. split; [by rewrite V|done].
Qed.

Lemma L_C18_assign_to_empty_partial :
forall (chk : bool) (h : heap Z) (os : list sop) l w i t buf w',
  heap_wf h -> chk = true \/ forallb o_modest (OCall i (SAssign buf) :: os) = true -> s_wrun' chk os (start h) = Some (l, w) -> seen w i = Some t -> sp_bytes t = [] ->
  s_wstep' chk (OCall i (SAssign buf)) w = Some (SUnit, w') ->
  option_map sp_bytes (seen w' i) = Some buf.
Proof.
  intros chk h os l w i t buf w' Hh HK E Hs He HS.
  destruct (proj1 L_C18_assign_appends_refuted chk h os l w i t buf w' Hh HK E Hs HS) as [-> _]. by rewrite He.
Qed.

Lemma L_C19_push_pop_partial :
forall (chk : bool) (h : heap Z) (os : list sop) l w i t c w1 a w2,
  heap_wf h -> chk = true \/ forallb o_modest os = true -> s_wrun' chk os (start h) = Some (l, w) -> seen w i = Some t ->
  s_wstep' chk (OCall i (SPush c)) w = Some (SUnit, w1) ->
  s_wstep' chk (OCall i SPop) w1 = Some (a, w2) ->
  a = SChar (Some (c mod 256)%Z) /\ ((0 <= c < 256)%Z -> a = SChar (Some c)) /\
  option_map sp_bytes (seen w2 i) = Some (sp_bytes t) /\
  (forall j, j <> i -> seen w2 j = seen w j).
Proof.
  intros chk h os l w i t c w1 a w2 Hh HK E Hs H1 H2. destruct (reached chk h os l w Hh HK E) as (ts & S & W).
  rewrite (SWRep_seen _ _ _ _ W) in Hs. destruct (call_spec _ _ _ _ _ _ (SPush c) _ _ (or_intror eq_refl) W Hs H1) as (C1 & NN1 & O1 & ts1 & W1).
  cbn [spec_scall] in C1. apply grow_to_inv in C1 as [C1|C1]; [|done].
  destruct (seen w1 i) as [t1|] eqn:Hs1; [|done]. cbn in C1. injection C1 as ->.
  rewrite (SWRep_seen _ _ _ _ W1) in Hs1.
  destruct (call_spec _ _ _ _ _ _ SPop _ _ (or_intror eq_refl) W1 Hs1 H2) as (C2 & NN2 & O2 & _).
  cbn [spec_scall sp_bytes] in C2. rewrite last_snoc, (List.removelast_last (sp_bytes t) (c mod 256)%Z) in C2.
  destruct (seen w2 i) as [t2|]; [|done]. cbn in C2. injection C2 as <- <-.
  split; [done|]. split; [intros; by rewrite Z.mod_small|]. split; [done|].
  intros j N. by rewrite O2, O1.
Qed.

Lemma L_C19_push_pop_refuted :
(forall (chk : bool) (h : heap Z) (os : list sop) l w i t c w1 a w2,
  heap_wf h -> chk = true \/ forallb o_modest os = true -> s_wrun' chk os (start h) = Some (l, w) -> seen w i = Some t ->
  s_wstep' chk (OCall i (SPush c)) w = Some (SUnit, w1) ->
  s_wstep' chk (OCall i SPop) w1 = Some (a, w2) -> (256 <= c)%Z -> a <> SChar (Some c)) /\
scalar 8364 /\
option_map fst (s_wrun' true [ONew; OCall 0 (SPush 8364); OCall 0 SPop] (start (Heap 0 ∅))) =
  Some [SUnit; SUnit; SChar (Some 172%Z)].
Proof.
  split.
  - intros chk h os l w i t c w1 a w2 Hh HK E Hs H1 H2 Hc.
    destruct (L_C19_push_pop_partial chk h os l w i t c w1 a w2 Hh HK E Hs H1 H2) as (-> & _).
    intros [= E']. pose proof (Z.mod_pos_bound c 256). lia.
  - split; [unfold scalar; lia|]. vm_compute. reflexivity.
Qed.

Lemma L_C20_ascii_calls_keep_utf8_partial :
forall (chk : bool) (h : heap Z) (os : list sop) l w o a w',
  heap_wf h -> chk = true \/ forallb o_modest (o :: os) = true -> s_wrun' chk os (start h) = Some (l, w) ->
  (forall i t, seen w i = Some t -> utf8 (sp_bytes t)) ->
  s_wstep' chk o w = Some (a, w') ->
  (utf8_op w o -> forall i t, seen w' i = Some t -> utf8 (sp_bytes t)) /\
  (a <> SPanic -> (forall i t, seen w' i = Some t -> utf8 (sp_bytes t)) -> utf8_op w o).
Proof.
  intros chk h os l w o a w' Hh HK E HU HS. apply modest_first in HK as [HK1 HK]. destruct (reached chk h os l w Hh HK E) as (ts & _ & W).
  destruct (step_spec _ _ _ _ _ _ _ HK1 W HS) as (ts' & S & W'). pose proof (SWRep_seen _ _ _ _ W) as V.
  pose proof (SWRep_seen _ _ _ _ W') as V'. clear W'.
  assert (G : forall i t, ts !! i = Some t -> utf8 (sp_bytes t)) by (intros; eapply HU; by rewrite V).
  split.
  { intros HO i t. rewrite V'.
  assert (NEW : forall b t0, spec_new b t0 ts = Some (a, ts') -> utf8 (sp_bytes t0) -> ts' !! i = Some t -> utf8 (sp_bytes t)).
  { intros b t0 EN U. unfold spec_new in EN. destruct b; simplify_eq; [|apply G].
    intros Hi. apply lookup_app_Some in Hi as [Hi|[_ Hi]]; [by eapply G|].
    by apply list_lookup_singleton_Some in Hi as [_ <-]. }
  assert (MB : forall c, (0 <= c mod 256)%Z) by (intros c; apply Z.mod_pos_bound; lia).
  destruct o as [|n|buf|j|j j'|j c]; cbn [spec_sop utf8_op] in *.
  - eapply NEW; [done|apply utf8_nil].
  - eapply NEW; [done|apply utf8_nil].
  - by eapply NEW.
  - destruct (ts !! j) as [s|] eqn:Ej; [|done]. eapply NEW; [done|]. cbn. by apply (G j).
  - destruct (ts !! j); [|done]. destruct (ts !! j'); [|done]. simplify_eq. apply G.
  - destruct (ts !! j) as [s|] eqn:Ej; [|done]. destruct (spec_scall string_fits c s) as [a' s'] eqn:SC. simplify_eq.
    specialize (HO s ltac:(by rewrite V)). pose proof (G _ _ Ej) as Us.
    assert (U' : utf8 (sp_bytes s')).
    { destruct c; cbn [spec_scall utf8_call] in *; try (by simplify_eq).
      - apply grow_to_inv in SC as [SC|SC]; simplify_eq; [|done]. cbn. apply utf8_app; [done|].
        apply utf8_ascii. split; [apply MB|done].
      - simplify_eq. cbn. destruct (last (sp_bytes s)) as [b|] eqn:EL.
        + rewrite removelast_take. rewrite last_lookup in EL.
          destruct (utf8_split_ascii _ _ _ Us EL (HO _ eq_refl)) as [U _].
          by replace (length (sp_bytes s) - 1) with (Nat.pred (length (sp_bytes s))) by lia.
        + apply last_None in EL. rewrite EL. apply utf8_nil.
      - destruct (Nat.leb_spec i0 (length (sp_bytes s))) as [LE|]; [|by simplify_eq]. destruct HO as (Hc & HB). destruct (HB LE) as [U1 U2].
        apply grow_to_inv in SC as [SC|SC]; simplify_eq; [|done]. cbn.
        apply utf8_app; [done|]. apply (utf8_app [_]); [apply utf8_ascii; split; [apply MB|done]|done].
      - destruct (sp_bytes s !! i0) as [b|] eqn:Eb; simplify_eq; [|done]. cbn.
        destruct (utf8_split_ascii _ _ _ Us Eb (HO _ eq_refl)) as [U1 U2]. by apply utf8_app.
      - apply grow_to_inv in SC as [SC|SC]; simplify_eq; done.
      - apply grow_to_inv in SC as [SC|SC]; simplify_eq; [|done]. cbn. by apply utf8_app.
      - simplify_eq. apply utf8_nil. }
    intros Hi. destruct (decide (i = j)) as [->|N].
    + rewrite list_lookup_insert in Hi by (by eapply lookup_lt_Some). by simplify_eq.
    + rewrite list_lookup_insert_ne in Hi by done. by eapply G. }
  intros NP HA. assert (G' : forall i t, ts' !! i = Some t -> utf8 (sp_bytes t)) by (intros i t Ht; eapply HA; by rewrite V').
  destruct o as [|n|buf|j|j j'|j c]; cbn [spec_sop utf8_op] in *; try done.
  - unfold spec_new in S. destruct (string_fits _); simplify_eq. apply (G' (length ts) (SStr buf (length buf + 1) (Some 0%Z))).
    rewrite lookup_app_r by lia. by rewrite Nat.sub_diag.
  - intros s Hs. rewrite V in Hs. rewrite Hs in S. destruct (spec_scall string_fits c s) as [a' s'] eqn:SC. simplify_eq.
    pose proof (G _ _ Hs) as Us. pose proof (G' j s' ltac:(apply list_lookup_insert; by eapply lookup_lt_Some)) as U'.
    destruct c; cbn [spec_scall utf8_call] in *; try done.
    + apply grow_to_inv in SC as [SC|SC]; simplify_eq. cbn in U'. eapply (utf8_extra (sp_bytes s) _ []); [by rewrite app_nil_r|exact U'].
    + intros b EL. assert (s' = SStr (removelast (sp_bytes s)) (sp_room s) (if Nat.eqb (sp_room s) 0 then None else Some 0%Z)) as -> by congruence.
      cbn [sp_bytes] in U'. apply last_Some in EL as [l' EB]. rewrite EB in Us. rewrite EB, removelast_app, app_nil_r in U' by done; cbn in U'; try rewrite app_nil_r in U'.
      apply (utf8_extra l' b []); [rewrite app_nil_r; exact U'|exact Us].
    + destruct (Nat.leb_spec i (length (sp_bytes s))) as [LE|]; [|by simplify_eq]. apply grow_to_inv in SC as [SC|SC]; simplify_eq. cbn in U'.
      assert (B : (c mod 256 < 128)%Z) by (eapply (utf8_extra (take i (sp_bytes s)) _ (drop i (sp_bytes s))); [by rewrite take_drop|exact U']). split; [done|]. intros _.
      destruct (utf8_split_ascii _ i (c mod 256)%Z U') as [U1 U2]; [|done|].
      { rewrite lookup_app_r by (rewrite take_length; lia). rewrite take_length. by replace (i - i `min` length (sp_bytes s)) with 0 by lia. }
      rewrite take_app_alt in U1 by (rewrite take_length; lia). split; [done|].
      rewrite drop_app_ge in U2 by (rewrite take_length; lia). rewrite take_length in U2.
      replace (S i - i `min` length (sp_bytes s)) with 1 in U2 by lia. exact U2.
    + intros b Eb. rewrite Eb in SC. simplify_eq. cbn in U'. rewrite <- (take_drop_middle _ _ _ Eb) in Us. eapply utf8_extra; [exact U'|exact Us].
    + apply grow_to_inv in SC as [SC|SC]; simplify_eq. cbn in U'. exact (utf8_cancel (sp_bytes s) buf Us U').
Qed.

Lemma L_C20_utf8_refuted :
exists (os1 os2 : list sop) l1 w1 t1 l2 w2 t2,
  s_wrun' true (ONew :: os1) (start (Heap 0 ∅)) = Some (l1, w1) /\ os1 = [OCall 0 (SPush 233)] /\
  seen w1 0 = Some t1 /\ ~ utf8 (sp_bytes t1) /\
  s_wrun' true (OFrom (utf8_encode 233) :: os2) (start (Heap 0 ∅)) = Some (l2, w2) /\ os2 = [OCall 0 (SRemove 0)] /\
  seen w2 0 = Some t2 /\ ~ utf8 (sp_bytes t2) /\ scalar 233.
Proof.
  exists [OCall 0 (SPush 233)], [OCall 0 (SRemove 0)].
  destruct (L_C14_string_is_a_byte_list true (Heap 0 ∅) [ONew; OCall 0 (SPush 233)]
      [SUnit; SUnit] [SStr [233]%Z 1 (Some 0%Z)]) as (w1 & E1 & _ & V1); [apply wf_empty|vm_compute; reflexivity|by left|].
  destruct (L_C14_string_is_a_byte_list true (Heap 0 ∅) [OFrom (utf8_encode 233); OCall 0 (SRemove 0)]
      [SUnit; SChar (Some 195%Z)] [SStr [169]%Z 3 (Some 169%Z)]) as (w2 & E2 & _ & V2); [apply wf_empty|vm_compute; reflexivity|by left|].
  exists [SUnit; SUnit], w1, (SStr [233]%Z 1 (Some 0%Z)), [SUnit; SChar (Some 195%Z)], w2, (SStr [169]%Z 3 (Some 169%Z)).
  repeat (split; [by rewrite ?V1, ?V2|]); try done.
  split; [apply not_utf8_lone; cbn; lia|]. split; [done|]. split; [done|]. split; [by rewrite V2|].
  split; [apply not_utf8_lone; cbn; lia|]. unfold scalar. lia.
Qed.

Lemma L_C21_equality_and_hash :
forall (chk : bool) (h : heap Z) (os : list sop) l w i j t u,
  heap_wf h -> chk = true \/ forallb o_modest os = true -> s_wrun' chk os (start h) = Some (l, w) -> seen w i = Some t -> seen w j = Some u ->
  exists e hi hj,
    s_wstep' chk (OEq i j) w = Some (SBool e, w) /\ (e = true <-> sp_bytes t = sp_bytes u) /\
    option_map fst (s_wstep' chk (OCall i SHash) w) = Some (SHashed hi) /\
    option_map fst (s_wstep' chk (OCall j SHash) w) = Some (SHashed hj) /\
    hi = fnv1 (sp_bytes t) /\ hj = fnv1 (sp_bytes u) /\ (e = true -> hi = hj).
Proof.
  intros chk h os l w i j t u Hh HK E Hi Hj. destruct (reached chk h os l w Hh HK E) as (ts & S & W).
  rewrite (SWRep_seen _ _ _ _ W) in Hi, Hj.
  assert (HH : forall k s, ts !! k = Some s -> option_map fst (s_wstep' chk (OCall k SHash) w) = Some (SHashed (fnv1 (sp_bytes s)))).
  { intros k s Hk. destruct (s_wstep_refines chk (h_blk h) (OCall k SHash) w ts (SHashed (fnv1 (sp_bytes s))) ts W) as (w' & E' & _).
    - cbn. rewrite Hk. f_equal. f_equal. by apply list_insert_id.
    - by right.
    - by rewrite E'. }
  exists (bool_decide (sp_bytes t = sp_bytes u)), (fnv1 (sp_bytes t)), (fnv1 (sp_bytes u)).
  split; [|split; [apply bool_decide_eq_true|]].
  - destruct (lookup_lt_is_Some_2 (w_vecs w) i) as [v Hv]; [rewrite <- (SWRep_length _ _ _ _ W); by eapply lookup_lt_Some|].
    destruct (lookup_lt_is_Some_2 (w_vecs w) j) as [v' Hv']; [rewrite <- (SWRep_length _ _ _ _ W); by eapply lookup_lt_Some|].
    cbn [s_wstep]. rewrite Hv, Hv'. unfold s_bytes.
    destruct (SWRep_at _ _ _ _ _ _ _ W Hv Hi) as (R1 & _). destruct (SWRep_at _ _ _ _ _ _ _ W Hv' Hj) as (R2 & _).
    rewrite (as_slice_ok _ 1 1 eq_refl _ _ _ _ R1), (as_slice_ok _ 1 1 eq_refl _ _ _ _ R2). done.
  - split; [by apply HH|]. split; [by apply HH|]. split; [done|]. split; [done|].
    intros e. apply bool_decide_eq_true in e. by rewrite e.
Qed.

Lemma L_C76_c_string_view :
forall (chk : bool) (h : heap Z) (os : list sop) l w i v t,
  heap_wf h -> chk = true \/ forallb o_modest os = true -> s_wrun' chk os (start h) = Some (l, w) -> w_vecs w !! i = Some v -> seen w i = Some t ->
  sp_mark t = Some 0%Z -> ~ In 0%Z (sp_bytes t) ->
  c_str (w_h w) (v_begin v) (S (length (sp_bytes t))) = Some (sp_bytes t).
Proof.
  intros chk h os l w i v t Hh HK E Hv Hs HM HN. destruct (reached chk h os l w Hh HK E) as (ts & S & W).
  rewrite (SWRep_seen _ _ _ _ W) in Hs. destruct (SWRep_at _ _ _ _ _ _ _ W Hv Hs) as (R & M).
  rewrite HM in M. destruct R as (_ & _ & [(E' & _)|(b & bk & j & E' & C0 & HL' & LB & Hb & Hc & Hl & HO)]).
  - unfold end_cell in M. rewrite E' in M. done.
  - unfold end_cell in M. rewrite E' in M. cbn [st_v st_h v_end] in *. subst v. cbn [v_begin].
    rewrite (hload_at _ _ _ _ Hb), Hc, lookup_app_r, fmap_length, Nat.sub_diag in M by (by rewrite fmap_length).
    destruct j as [|j0 j]; cbn in M; [done|]. subst j0.
    by apply (c_str_scan (w_h w) b (sp_bytes t) [] bk j Hb).
Qed.
