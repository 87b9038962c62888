(** Proofs of the properties stated in HashCppProps.v. *)
From Verif Require Import Base Heap Alloc HashTable HashTableSpec HashCpp.

From Verif Require Import HeapLemmas HashTableProofs HashTableMore.

Section cpp.
Context {K V : Type}.
Variables (nsz nal : Z) (eb : nat) (hash : K -> Z) (eqb : K -> K -> bool).
Hypothesis Hlay : layout_ok nsz nal = true.
Notation tstate := (tstate K V).
Notation enode := (nat * (K * V))%type.
Local Notation chain := (chain nsz nal).

(** The iterator stands before the entries [l]. *)
Definition CppAt (s : tstate) (a : nat) (ps : list ptr) (it : cpp_iter) (l : list enode) : Prop :=
  (exists i p c rcs, cp_bucket it = Ptr a i /\ i < length ps /\ cp_node it = CPtr p /\ chain (t_h s) p c /\ c <> [] /\
     Forall2 (chain (t_h s)) (drop (S i) ps) rcs /\ l = c ++ concat rcs) \/
  (cp_bucket it = Ptr a (length ps) /\ cp_node it = COnes /\ l = []).

Lemma read_word_ok by_ (s : tstate) a ps i p : Slots by_ (t_h s) a ps -> ps !! i = Some p -> read_word (Ptr a i) s = Ok (CPtr p) s.
Proof using All.
  intros E H. unfold read_word, bind, gets. by rewrite (hload_ok _ _ _ _ (TSlot p) E (slots_lookup ps i p H)).
Qed.
Lemma read_ones_ok by_ (s : tstate) a ps : Slots by_ (t_h s) a ps -> read_word (Ptr a (length ps)) s = Ok COnes s.
Proof using All.
  intros E. unfold read_word, bind, gets. rewrite (hload_ok _ _ _ _ TOnes E); [done|].
  cbn [bk_cells]. unfold slots. rewrite lookup_app_r by (by rewrite map_length). by rewrite map_length, Nat.sub_diag.
Qed.
Lemma read_past by_ (s : tstate) a ps : Slots by_ (t_h s) a ps -> read_word (Ptr a (S (length ps))) s = UB.
Proof using All.
  intros E. unfold read_word, bind, gets.
  assert (HN : hload (t_h s) (Ptr a (S (length ps))) = None); [|by rewrite HN].
  unfold hload, cells_of. unfold Slots in E. rewrite E. cbn.
  assert (HN : slots (K := K) (V := V) ps !! S (length ps) = None) by (apply lookup_ge_None_2; rewrite (slots_length nsz nal Hlay); lia).
  by rewrite HN.
Qed.

(** The same, with the whole bucket to come. *)
Definition CppFresh (s : tstate) (a : nat) (ps : list ptr) (it : cpp_iter) (l : list enode) : Prop :=
  (exists i p c rcs, cp_bucket it = Ptr a i /\ ps !! i = Some p /\ cp_node it = CPtr p /\ chain (t_h s) p c /\ c <> [] /\
     Forall2 (chain (t_h s)) (drop (S i) ps) rcs /\ l = c ++ concat rcs) \/
  (cp_bucket it = Ptr a (length ps) /\ cp_node it = COnes /\ l = []).
Lemma fresh_at s a ps it l : CppFresh s a ps it l -> CppAt s a ps it l.
Proof using.
  intros [(i & p & c & rcs & HB & Hi & H)|H]; [left; exists i, p, c, rcs|by right]. split; [done|]. split; [by eapply lookup_lt_Some|done].
Qed.

(** From before bucket [S i]. *)
Lemma seek_ok by_ (s : tstate) a ps : Slots by_ (t_h s) a ps -> forall rcs i f, i < length ps -> length ps - i <= f ->
  Forall2 (chain (t_h s)) (drop (S i) ps) rcs -> exists it, seek f (Ptr a i) s = Ok (Some it) s /\ CppFresh s a ps it (concat rcs).
Proof using All.
  intros E rcs. induction rcs as [|c rcs IH]; intros i f Li Lf F; (destruct f as [|f]; [lia|]); cbn [seek];
    unfold bind at 1, gets at 1; unfold bind at 1; rewrite (hadd_slots' nsz nal Hlay _ _ _ _ _ _ E) by lia; cbn [or_ub]; unfold ret at 1; replace (i + 1) with (S i) by lia.
  - pose proof (Forall2_length _ _ _ F) as Ln. rewrite drop_length in Ln. cbn in Ln. assert (S i = length ps) as -> by lia.
    unfold bind at 1. rewrite (read_ones_ok _ _ _ _ E). eexists. split; [reflexivity|]. by right.
  - pose proof (Forall2_length _ _ _ F) as Ln. rewrite drop_length in Ln. cbn in Ln.
    destruct (lookup_lt_is_Some_2 ps (S i)) as [q Hq]; [lia|]. rewrite (drop_S _ _ _ Hq) in F. apply Forall2_cons in F as [C F].
    unfold bind at 1. rewrite (read_word_ok _ _ _ _ _ _ E Hq). destruct c as [|e c].
    + cbn in C. subst q. apply (IH (S i) f); [lia|lia|done].
    + pose proof C as (nx & -> & _). eexists. split; [reflexivity|]. left. exists (S i), (Ptr (fst e) 0), (e :: c), rcs. cbn. done.
Qed.

Lemma cpp_next_ok by_ (s : tstate) a ps it e l : Slots by_ (t_h s) a ps -> t_bc s = Z.of_nat (length ps) -> CppAt s a ps it (e :: l) ->
  exists it' nx, cp_node it = CPtr (Ptr (fst e) 0) /\ node_at (Ptr (fst e) 0) s = Ok (fst (snd e), snd (snd e), nx) s /\
    cpp_next it s = Ok (Some it') s /\ CppAt s a ps it' l.
Proof using All.
  intros E EB [(i & p & c & rcs & HB & Li & HN & C & NE & F & EL)|(_ & _ & ?)]; [|done].
  destruct c as [|e' c]; [done|]. cbn in EL. injection EL as <- ->. pose proof C as (nx & -> & Eb & C').
  pose proof (node_at_ok nsz nal s _ _ _ _ Eb) as NA. unfold cpp_next. rewrite HN.
  assert (FU : length ps - i <= seek_fuel s) by (unfold seek_fuel; rewrite EB, Nat2Z.id; lia).
  destruct c as [|e2 c].
  - cbn in C'. subst nx. destruct (seek_ok _ _ _ _ E rcs i (seek_fuel s) Li FU F) as (it' & SK & AT%fresh_at). exists it', Null.
    split; [done|]. split; [done|]. split; [|done]. unfold bind at 1. rewrite NA. unfold bind at 1, gets at 1. cbn [is_null id]. by rewrite HB.
  - pose proof C' as (nx2 & -> & _). exists (CppIter (CPtr (Ptr (fst e2) 0)) (cp_bucket it)), (Ptr (fst e2) 0).
    split; [done|]. split; [done|]. split; [unfold bind at 1; by rewrite NA|]. left. exists i, (Ptr (fst e2) 0), (e2 :: c), rcs. cbn. done.
Qed.

Lemma cpp_all_ok by_ (s : tstate) a ps en : Slots by_ (t_h s) a ps -> t_bc s = Z.of_nat (length ps) -> cp_node en = COnes ->
  forall l it f, CppAt s a ps it l -> length l < f -> cpp_all f it en s = Ok (Some (map snd l)) s.
Proof using All.
  intros E EB EN. induction l as [|e l IH]; intros it f AT Lf; (destruct f as [|f]; [lia|]); cbn [cpp_all].
  - destruct AT as [(i & p & c & rcs & _ & _ & _ & _ & NE & _ & EL)|(_ & HN & _)]; [destruct c; [done|by cbn in EL]|].
    by rewrite decide_True by congruence.
  - destruct (cpp_next_ok _ _ _ _ _ _ _ E EB AT) as (it' & nx & HN & NA & NX & AT'). rewrite decide_False by congruence. rewrite HN.
    unfold bind at 1. rewrite NA. unfold bind at 1. rewrite NX. unfold bind at 1. rewrite (IH it' f AT') by (cbn in Lf; lia). destruct e as [b [k v]]. done.
Qed.

(** Towards a null end the loop never stops. *)
Lemma cpp_all_null by_ (s : tstate) a ps en : Slots by_ (t_h s) a ps -> t_bc s = Z.of_nat (length ps) -> cp_node en = CPtr Null ->
  forall l it f, CppAt s a ps it l -> length l < f -> cpp_all f it en s = UB.
Proof using All.
  intros E EB EN. induction l as [|e l IH]; intros it f AT Lf; (destruct f as [|f]; [lia|]); cbn [cpp_all].
  - destruct AT as [(i & p & c & rcs & _ & _ & _ & _ & NE & _ & EL)|(_ & HN & _)]; [destruct c; [done|by cbn in EL]|].
    rewrite decide_False by congruence. by rewrite HN.
  - destruct (cpp_next_ok _ _ _ _ _ _ _ E EB AT) as (it' & nx & HN & NA & NX & AT'). rewrite decide_False by congruence. rewrite HN.
    unfold bind at 1. rewrite NA. unfold bind at 1. rewrite NX. unfold bind at 1. rewrite (IH it' f AT') by (cbn in Lf; lia). done.
Qed.

(** [begin] and [end]. *)
Lemma cpp_begin_ok by_ (s : tstate) a ps cs : t_arr s = Ptr a 0 -> Slots by_ (t_h s) a ps -> t_bc s = Z.of_nat (length ps) -> 0 < length ps ->
  Forall2 (chain (t_h s)) ps cs -> exists it, cpp_begin s = Ok (Some it) s /\ CppFresh s a ps it (concat cs).
Proof using All.
  intros EA E EB LP F. unfold cpp_begin. unfold bind at 1, gets at 1. cbn [id]. rewrite EA.
  destruct (lookup_lt_is_Some_2 ps 0 LP) as [q Hq]. unfold bind at 1. rewrite (read_word_ok _ _ _ _ _ _ E Hq).
  destruct ps as [|q' ps]; [done|]. cbn in Hq. injection Hq as ->. apply Forall2_cons_inv_l in F as (c & rcs & C & F & ->).
  destruct c as [|e c].
  - cbn in C. subst q. cbn [concat app]. eapply (seek_ok _ _ _ _ E rcs 0 (seek_fuel s)); [done| |by rewrite skipn_cons, drop_0].
    unfold seek_fuel. rewrite EB, Nat2Z.id. lia.
  - pose proof C as (nx & -> & _). eexists. split; [reflexivity|]. left. exists 0, (Ptr (fst e) 0), (e :: c), rcs. cbn. rewrite drop_0. done.
Qed.
Lemma cpp_end_ok by_ (s : tstate) a ps : t_arr s = Ptr a 0 -> Slots by_ (t_h s) a ps -> t_bc s = Z.of_nat (length ps) ->
  cpp_end s = Ok (CppIter COnes (Ptr a (length ps))) s.
Proof using All.
  intros EA E EB. unfold cpp_end. unfold bind at 1, gets at 1. cbn [id]. rewrite EA, EB, Nat2Z.id. unfold bind at 1.
  rewrite (hadd_slots nsz nal Hlay _ _ _ _ _ E) by lia. cbn [or_ub]. unfold ret at 1. unfold bind at 1. by rewrite (read_ones_ok _ _ _ _ E).
Qed.

(** The C++ position read as a Rust iterator. *)
Lemma of_cpp_ok by_ (s : tstate) a ps ones it l : Slots by_ (t_h s) a ps -> CppFresh s a ps it l ->
  exists ri, from_compat (of_cpp ones it) (of_cpp ones (CppIter COnes (Ptr a (length ps)))) s = Ok ri s /\
    match l with
    | [] => ri_node ri = ones
    | _ => exists c r, c <> [] /\ l = c ++ r /\ IterAt nsz nal s a ps ri (c ++ l)
    end.
Proof using All.
  intros E AT.
  assert (FC : forall i q, i <= length ps -> from_compat (CompatIter q (Ptr a i)) (of_cpp ones (CppIter COnes (Ptr a (length ps)))) s = Ok (RawIter (Ptr a i) (length ps - i) q) s).
  { intros i q Li. unfold from_compat, bind, gets. cbn [ci_bucket ci_node of_cpp cp_bucket cp_node]. rewrite pdiff_ok by done. cbn [or_ub]. unfold ret.
    assert (HS : hslice (t_h s) (Ptr a i) (length ps - i) = Some (map TSlot (drop i ps))).
    { rewrite <- drop_length, <- (map_length (@TSlot K V) (drop i ps)). apply (hslice_ok _ _ _ _ _ E).
      - cbn [bk_cells]. rewrite (slots_length nsz nal Hlay), map_length, drop_length. lia.
      - cbn [bk_cells]. unfold slots. rewrite drop_app_le by (rewrite map_length; lia).
        rewrite <- map_drop || rewrite <- fmap_drop. rewrite take_app_alt by (by rewrite !map_length).
        unfold fmap, list_fmap. fold (map (@Some (tcell K V)) (map TSlot (drop i ps))). by rewrite map_map. }
    rewrite HS. done. }
  destruct AT as [(i & p & c & rcs & HB & Hi & HN & C & NE & F & ->)|(HB & HN & ->)]; destruct it as [nd bk]; cbn in HB, HN; subst nd bk;
    unfold of_cpp at 1; cbn [cp_node cp_bucket].
  - pose proof (lookup_lt_Some _ _ _ Hi) as Li. eexists. split; [apply FC; lia|]. destruct c as [|e c]; [done|]. cbn [app].
    exists (e :: c), (concat rcs). split; [done|]. split; [done|]. exists i, (e :: c), ((e :: c) :: rcs). cbn [ri_p ri_n ri_node].
    split; [done|]. split; [done|]. split; [lia|]. split; [done|]. split; [|done]. rewrite (drop_S _ _ _ Hi). by constructor.
  - eexists. split; [apply FC; lia|]. done.
Qed.

(** A Rust iterator read as a C++ pair. *)
Lemma to_cpp_ok by_ (s : tstate) a ps it e l : Slots by_ (t_h s) a ps -> t_bc s = Z.of_nat (length ps) -> IterAt nsz nal s a ps it (e :: l) ->
  exists b en, into_compat it s = Ok (b, en) s /\ exists f0, forall f, f0 < f -> cpp_all f (to_cpp b) (to_cpp en) s = UB.
Proof using All.
  intros E EB (i & c & rcs & EP & EN & L & C & F & EL & NE). destruct it as [ip n node]. cbn in EP, EN, C. subst ip n.
  exists (CompatIter node (Ptr a i)), (CompatIter Null (Ptr a (length ps))). split.
  - unfold into_compat, bind, gets. cbn [ri_p ri_n]. rewrite (hadd_slots' nsz nal Hlay _ _ _ _ _ _ E) by lia.
    replace (i + (length ps - i)) with (length ps) by lia. done.
  - unfold to_cpp. cbn [ci_node ci_bucket]. assert (NE' : c <> []) by (intros ->; rewrite NE in EL; done). clear EL NE e l.
    assert (Q : forall c p, chain (t_h s) p c -> c <> [] -> exists f0, forall f, f0 < f -> cpp_all f (CppIter (CPtr p) (Ptr a i)) (CppIter (CPtr Null) (Ptr a (length ps))) s = UB).
    2: { eauto. }
    clear c node C NE'. induction c as [|e c IH]; intros p C NE; [done|]. pose proof C as (nx & -> & Eb & C'). pose proof (node_at_ok nsz nal s _ _ _ _ Eb) as NA.
    destruct c as [|e2 c].
    + cbn in C'. subst nx. destruct (decide (i < length ps)) as [Li|Li].
      * pose proof (Forall2_length _ _ _ F) as Ln. rewrite drop_length in Ln. destruct rcs as [|c1 rcs]; [cbn in Ln; lia|].
        destruct (lookup_lt_is_Some_2 ps i Li) as [q Hq]. rewrite (drop_S _ _ _ Hq) in F. apply Forall2_cons in F as [_ F].
        destruct (seek_ok _ _ _ _ E rcs i (seek_fuel s) Li) as (it' & SK & AT%fresh_at); [unfold seek_fuel; rewrite EB, Nat2Z.id; lia|done|].
        exists (S (length (concat rcs))). intros f Lf. destruct f as [|f]; [lia|]. cbn [cpp_all cp_node].
        rewrite decide_False by congruence. unfold bind at 1. rewrite NA. unfold bind at 1, cpp_next. cbn [cp_node cp_bucket]. unfold bind at 1. rewrite NA.
        unfold bind at 1, gets at 1. cbn [is_null id]. rewrite SK. unfold bind at 1. by rewrite (cpp_all_null _ _ _ _ (CppIter (CPtr Null) (Ptr a (length ps))) E EB eq_refl _ _ _ AT) by lia.
      * assert (i = length ps) as -> by lia. exists 0. intros f Lf. destruct f as [|f]; [lia|]. cbn [cpp_all cp_node].
        rewrite decide_False by congruence. unfold bind at 1. rewrite NA. unfold bind at 1, cpp_next. cbn [cp_node cp_bucket]. unfold bind at 1. rewrite NA.
        unfold bind at 1, gets at 1. cbn [is_null id]. unfold seek_fuel. cbn [seek].
        unfold bind at 1, gets at 1. unfold bind at 1. rewrite (hadd_slots' nsz nal Hlay _ _ _ _ _ _ E) by lia. cbn [or_ub]. unfold ret at 1.
        replace (length ps + 1) with (S (length ps)) by lia. unfold bind at 1. by rewrite (read_past _ _ _ _ E).
    + pose proof C' as (nx2 & -> & _). destruct (IH _ C') as [f0 HF]; [done|]. exists (S f0). intros f Lf. destruct f as [|f]; [lia|]. cbn [cpp_all cp_node].
      rewrite decide_False by congruence. unfold bind at 1. rewrite NA. unfold bind at 1, cpp_next. cbn [cp_node cp_bucket]. unfold bind at 1. rewrite NA.
      unfold bind at 1, gets at 1. cbn [is_null]. unfold ret at 1. unfold bind at 1. by rewrite HF by lia.
Qed.
End cpp.

Lemma L_C83_cpp_iterates_rust_table :
  forall (K V : Type) nsz nal eb chk hash eqb (h0 : heap (tcell K V)), Setup nsz nal eb hash eqb h0 ->
  forall prog l s, built nsz nal eb chk hash eqb h0 prog l s ->
  exists b e es, cpp_begin s = Ok (Some b) s /\ cpp_end s = Ok e s /\
    h_call nsz nal eb chk hash eqb HIter s = Ok (HPairs es) s /\
    forall f, length es < f -> cpp_all f b e s = Ok (Some es) s.
Proof.
  intros K V nsz nal eb chk hash eqb h0 SU prog l s B. destruct (built_rep _ _ _ _ _ _ _ SU _ _ _ B) as (cs & arrs & R & _).
  pose proof (su_layout _ _ _ _ _ _ SU) as Hlay. destruct (tr_arr _ _ _ _ _ _ _ _ _ _ R) as (a & ps & by_ & EA & E & F & OR).
  pose proof (tr_bc _ _ _ _ _ _ _ _ _ _ R) as EB. rewrite <- (Forall2_length _ _ _ F) in EB.
  assert (LP : 0 < length ps) by (destruct OR as [(_ & _ & ?)|(old & _ & ?)]; lia).
  destruct (cpp_begin_ok nsz nal eb hash eqb Hlay by_ s a ps cs EA E EB LP F) as (it & BE & AT).
  exists it, (CppIter COnes (Ptr a (length ps))), (map snd (concat cs)). split; [done|]. split; [by eapply (cpp_end_ok nsz nal eb hash eqb Hlay)|].
  split; [by eapply iter_call|]. intros f Lf. rewrite map_length in Lf.
  eapply (cpp_all_ok nsz nal eb hash eqb Hlay); [done|done|done|by apply fresh_at|done].
Qed.

Lemma L_C84_cpp_iterators_given_to_rust_refuted :
  forall (K V : Type) nsz nal eb chk hash eqb (h0 : heap (tcell K V)), Setup nsz nal eb hash eqb h0 ->
  forall prog l s ones, built nsz nal eb chk hash eqb h0 prog l s -> ones <> Null -> hload (t_h s) ones = None ->
  exists b e es it, cpp_begin s = Ok (Some b) s /\ cpp_end s = Ok e s /\
    h_call nsz nal eb chk hash eqb HIter s = Ok (HPairs es) s /\
    from_compat (of_cpp ones b) (of_cpp ones e) s = Ok it s /\
    (es = [] -> iter_next it s = UB) /\
    (es <> [] -> exists first rest, first <> [] /\ es = first ++ rest /\
       forall f, length (first ++ es) < f -> iter_all f it s = Ok (first ++ es) s).
Proof.
  intros K V nsz nal eb chk hash eqb h0 SU prog l s ones B NN HL. destruct (built_rep _ _ _ _ _ _ _ SU _ _ _ B) as (cs & arrs & R & _).
  pose proof (su_layout _ _ _ _ _ _ SU) as Hlay. destruct (tr_arr _ _ _ _ _ _ _ _ _ _ R) as (a & ps & by_ & EA & E & F & OR).
  pose proof (tr_bc _ _ _ _ _ _ _ _ _ _ R) as EB. rewrite <- (Forall2_length _ _ _ F) in EB.
  assert (LP : 0 < length ps) by (destruct OR as [(_ & _ & ?)|(old & _ & ?)]; lia).
  destruct (cpp_begin_ok nsz nal eb hash eqb Hlay by_ s a ps cs EA E EB LP F) as (it & BE & AT).
  destruct (of_cpp_ok nsz nal eb hash eqb Hlay by_ s a ps ones it _ E AT) as (ri & FC & Q).
  exists it, (CppIter COnes (Ptr a (length ps))), (map snd (concat cs)), ri. split; [done|]. split; [by eapply (cpp_end_ok nsz nal eb hash eqb Hlay)|].
  split; [by eapply iter_call|]. split; [done|]. destruct (concat cs) as [|e0 l0].
  - split; [|done]. intros _. unfold iter_next. rewrite Q. destruct ones as [|ob oo]; [done|]. unfold bind at 1, node_at, bind, gets. by rewrite HL.
  - split; [done|]. intros _. destruct Q as (c & r & NE & EL & IT). exists (map snd c), (map snd r). split; [by destruct c|].
    split; [by rewrite EL, map_app|]. intros f Lf. rewrite <- map_app in *. rewrite map_length in Lf. eapply (iter_all_ok nsz nal Hlay); eauto.
Qed.

Lemma L_C84_rust_iterators_given_to_cpp_refuted :
  forall (K V : Type) nsz nal eb chk hash eqb (h0 : heap (tcell K V)), Setup nsz nal eb hash eqb h0 ->
  forall prog l s n, built nsz nal eb chk hash eqb h0 prog l s ->
  exists it nodes it' b e es, iter s = Ok it s /\ iter_take n it s = Ok (nodes, it') s /\ into_compat it' s = Ok (b, e) s /\
    h_call nsz nal eb chk hash eqb HIter s = Ok (HPairs es) s /\
    (n < length es -> exists f0, forall f, f0 < f -> cpp_all f (to_cpp b) (to_cpp e) s = UB).
Proof.
  intros K V nsz nal eb chk hash eqb h0 SU prog l s n B. destruct (built_rep _ _ _ _ _ _ _ SU _ _ _ B) as (cs & arrs & R & _).
  pose proof (su_layout _ _ _ _ _ _ SU) as Hlay. destruct (tr_arr _ _ _ _ _ _ _ _ _ _ R) as (a0 & ps0 & by0 & EA0 & E0 & F & OR).
  destruct (iter_ok _ _ _ _ _ Hlay _ _ _ _ _ R) as (a & ps & by_ & it & EA & E & IT & AT & _).
  assert (a0 = a) as -> by congruence. assert (length ps0 = length ps) as LE.
  { unfold Slots in *. rewrite E in E0. injection E0 as _ E0. apply (f_equal length) in E0. rewrite !(slots_length nsz nal Hlay) in E0. lia. }
  pose proof (tr_bc _ _ _ _ _ _ _ _ _ _ R) as EB. rewrite <- (Forall2_length _ _ _ F), LE in EB.
  destruct (iter_take_ok nsz nal Hlay by_ s a ps E n _ _ AT) as (it' & TK & AT').
  destruct (compat_ok nsz nal Hlay by_ s a ps it' _ E AT') as (b & e & IC & _).
  exists it, (map (fun e => Ptr (fst e) 0) (take n (concat cs))), it', b, e, (map snd (concat cs)).
  split; [done|]. split; [done|]. split; [done|]. split; [by eapply iter_call|]. rewrite map_length. intros Ln.
  destruct (drop n (concat cs)) as [|e0 l0] eqn:Q; [apply (f_equal length) in Q; rewrite drop_length in Q; cbn in Q; lia|].
  destruct (to_cpp_ok nsz nal eb hash eqb Hlay by_ s a ps it' e0 l0 E EB AT') as (b' & e' & IC' & H). rewrite IC in IC'. injection IC' as <- <-. done.
Qed.
