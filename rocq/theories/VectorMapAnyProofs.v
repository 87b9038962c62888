(** Proofs about a [VectorMap] whose comparator and equality answer anything or panic. *)
From Verif Require Import Base Heap HeapLemmas Alloc AllocContract Vector VectorSpec VectorProofs.
From Verif Require Import VectorMap VectorMapSpec VectorMapProofs VectorMapAny VectorMapAnySpec.

(** Not undefined, [Q] on return, [P] on a panic. *)
Definition post {S A} (r : outcome S A) (Q : A -> S -> Prop) (P : S -> Prop) : Prop :=
  match r with Ok a s => Q a s | Panic s => P s | UB => False end.

Lemma post_bind {S A B} (m : M S A) (k : A -> M S B) s Q P Q1 :
  post (m s) Q1 P -> (forall a s1, Q1 a s1 -> post (k a s1) Q P) -> post (bind m k s) Q P.
Proof. intros H1 H2. unfold bind. destruct (m s); cbn in *; auto. Qed.
Lemma post_mono {S A} (r : outcome S A) (Q Q' : A -> S -> Prop) (P P' : S -> Prop) :
  post r Q P -> (forall a s, Q a s -> Q' a s) -> (forall s, P s -> P' s) -> post r Q' P'.
Proof. destruct r; cbn; auto. Qed.
Lemma post_unwind {S A} f (m : M S A) s Q (P P' : S -> Prop) :
  post (m s) Q P -> (forall s1, P s1 -> P' (f s1)) -> post (on_unwind f m s) Q P'.
Proof. unfold on_unwind. destruct (m s); cbn; auto. Qed.

Section proofs.
Context {A K V : Type}.
Variable AI : AllocImpl A (K * V).
Variables sz al : Z.
Variable chk nd : bool.
Hypothesis Hsz : (0 < sz)%Z.
Hypothesis Hchk : chk = true \/ (sz <= isize_max)%Z.
Variable AS : AllocSpec AI sz al.
Variables co eo : nat -> K -> K -> option bool.

Notation mst := (mstate A K V).
Notation ast := (mastate A K V).
Notation Rep := (Rep AI sz al AS).
Notation Post := (Post AI sz al nd AS).
Notation frame := (frame AI sz al AS).
Notation ran := (ran nd).
Notation lone := (lone (K := K) (V := V) nd).

Lemma post_mlift {B} (m : M mst B) (s : ast) Q P :
  post (m (fst s)) (fun a s' => Q a (s', snd s)) (fun s' => P (s', snd s)) -> post (mlift m s) Q P.
Proof. unfold mlift. by destruct (m (fst s)). Qed.

Lemma ask_post o k k' (s : ast) : post (ask o k k' s) (fun _ s' => fst s' = fst s) (fun s' => fst s' = fst s).
Proof. unfold ask. by destruct (o (snd s) k k'). Qed.

Lemma lb_post xs key : forall fuel base size (s : ast), size <= fuel -> 0 < size -> base + size <= length xs ->
  post (a_lb_loop co xs key fuel base size s) (fun i s' => fst s' = fst s /\ i <= base + size) (fun s' => fst s' = fst s).
Proof using.
  clear Hsz Hchk eo. induction fuel as [|fuel IH]; intros b size s HF HS HB; [lia|]. cbn [a_lb_loop].
  destruct (Nat.ltb_spec 1 size) as [L|L].
  - pose proof (Nat.div_mod size 2 ltac:(lia)) as E. pose proof (Nat.mod_upper_bound size 2 ltac:(lia)).
    destruct (lookup_lt_is_Some_2 xs (b + size / 2)) as [kv Hx]; [lia|]. rewrite Hx.
    eapply post_bind; [apply ask_post|]. intros c s1 E1. cbn in E1.
    eapply post_mono; [apply (IH (if c then b + size / 2 else b) (size - size / 2) s1); destruct c; lia|..].
    + intros i s' [-> Hi]. split; [done|]. destruct c; lia.
    + intros s' ->. done.
  - destruct (lookup_lt_is_Some_2 xs b) as [kv Hx]; [lia|]. rewrite Hx.
    eapply post_bind; [apply ask_post|]. intros c s1 E1. cbn in *. split; [done|]. destruct c; lia.
Qed.

Lemma search_post xs cap (s : ast) key : Rep (ms_v (fst s)) xs cap ->
  post (a_search sz co eo key s) (fun r s' => fst s' = fst s /\ fst r <= length xs /\ (snd r = true -> fst r < length xs)) (fun s' => fst s' = fst s).
Proof using All.
  intros R. unfold a_search.
  assert (ES : as_slice sz (ms_v (fst s)) = Ok xs (ms_v (fst s))) by (by eapply as_slice_ok).
  eapply (post_bind _ _ _ _ _ (fun i s' => fst s' = fst s /\ i <= length xs)).
  { unfold a_lower_bound. eapply (post_bind _ _ _ _ _ (fun ys s' => fst s' = fst s /\ ys = xs)).
    - apply post_mlift. unfold base. rewrite ES. cbn. by rewrite MState_eta.
    - intros ys s1 [E1 ->]. destruct (Nat.eqb_spec (length xs) 0) as [L|L]; [cbn; split; [done|lia]|].
      eapply post_mono; [apply (lb_post xs key (length xs) 0 (length xs) s1); lia|..].
      + intros i s' [E2 Hi]. by rewrite E2.
      + intros s' E2. cbn in *. by rewrite E2. }
  intros i s1 [E1 Hi]. eapply (post_bind _ _ _ _ _ (fun f s' => fst s' = fst s /\ (f = true -> i < length xs))).
  - unfold a_found. eapply (post_bind _ _ _ _ _ (fun n s' => fst s' = fst s /\ n = length xs)).
    + apply post_mlift. unfold base. rewrite E1, (len_ok AI sz al Hsz AS _ _ _ R). cbn. by rewrite MState_eta.
    + intros n s2 [E2 ->]. destruct (Nat.ltb_spec i (length xs)) as [L|L]; [|done].
      destruct (lookup_lt_is_Some_2 xs i L) as [kv Hx].
      eapply (post_bind _ _ _ _ _ (fun p s' => fst s' = fst s)).
      * apply post_mlift. rewrite E2, (at_index_ok sz (fst s) xs i kv ES Hx). done.
      * intros p s3 E3. eapply post_mono; [apply ask_post|..].
        -- intros b s4 E4. by rewrite E4.
        -- intros s4 E4. cbn in *. by rewrite E4.
  - intros f s2 [E2 Hf]. done.
Qed.

(** From [s] holding [xs] to [s'] holding [xs']: what was given and held is dropped,
    handed out or still held. *)
Definition MA (inp out : list (K + V)) (s s' : mst) (xs xs' : list (K * V)) (cap' : nat) : Prop :=
  exists dP dl, Rep (ms_v s') xs' cap' /\ frame (ms_v s') = frame (ms_v s) /\
    st_drops (ms_v s') = st_drops (ms_v s) ++ ran dP /\ ms_lone s' = ms_lone s ++ lone dl /\
    inp ++ parts xs ≡ₚ parts dP ++ dl ++ out ++ parts xs'.

Lemma parts_app (l1 l2 : list (K * V)) : parts (l1 ++ l2) = parts l1 ++ parts l2.
Proof. unfold parts. by rewrite map_app, concat_app. Qed.
Lemma parts_cons (p : K * V) l : parts (p :: l) = [inl (fst p); inr (snd p)] ++ parts l.
Proof. done. Qed.
Lemma lone_app (a b : list (K + V)) : lone (a ++ b) = lone a ++ lone b.
Proof. unfold VectorMapProofs.lone. by destruct nd. Qed.
Lemma lone_nil : lone [] = [].
Proof. unfold VectorMapProofs.lone. by destruct nd. Qed.

Lemma MA_refl s xs cap : Rep (ms_v s) xs cap -> MA [] [] s s xs xs cap.
Proof. intros R. exists [], []. rewrite ran_nil, lone_nil, !app_nil_r. done. Qed.

Lemma MA_drop l inp out s s' xs xs' cap' : MA inp (l ++ out) s s' xs xs' cap' ->
  MA inp out s (MState (ms_v s') (ms_lone s' ++ (if nd then l else []))) xs xs' cap'.
Proof.
  intros (dP & dl & R & F & D & L & P). exists dP, (dl ++ l). cbn. split; [done|]. split; [done|]. split; [done|]. split.
  - by rewrite L, lone_app, <- app_assoc.
  - rewrite P. solve_Permutation.
Qed.
Lemma MA_perm inp inp' out out' s s' xs xs' cap' : MA inp out s s' xs xs' cap' -> inp ≡ₚ inp' -> out ≡ₚ out' -> MA inp' out' s s' xs xs' cap'.
Proof. intros (dP & dl & R & F & D & L & P) E1 E2. exists dP, dl. rewrite <- E1, <- E2. done. Qed.
Lemma MA_given l s xs cap : Rep (ms_v s) xs cap -> MA l l s s xs xs cap.
Proof. intros R. exists [], []. rewrite ran_nil, lone_nil, !app_nil_r. done. Qed.
Lemma MA_logged l inp s xs cap : Rep (ms_v s) xs cap -> inp ≡ₚ l ->
  MA inp [] s (MState (ms_v s) (ms_lone s ++ (if nd then l else []))) xs xs cap.
Proof. intros R E. apply MA_drop. eapply MA_perm; [by apply (MA_given l)| |by rewrite app_nil_r]. done. Qed.

Lemma MA_trans inp1 inp2 out1 out2 s s1 s2 xs xs1 xs2 c1 c2 :
  MA inp1 out1 s s1 xs xs1 c1 -> MA inp2 out2 s1 s2 xs1 xs2 c2 -> MA (inp1 ++ inp2) (out1 ++ out2) s s2 xs xs2 c2.
Proof.
  intros (dP1 & dl1 & R1 & F1 & D1 & L1 & P1) (dP2 & dl2 & R2 & F2 & D2 & L2 & P2).
  exists (dP1 ++ dP2), (dl1 ++ dl2). split; [done|]. split; [by rewrite F2|]. split; [by rewrite D2, D1, ran_app, app_assoc|].
  split; [by rewrite L2, L1, lone_app, app_assoc|]. rewrite parts_app.
  transitivity (inp2 ++ (inp1 ++ parts xs)); [solve_Permutation|]. rewrite P1.
  transitivity (parts dP1 ++ dl1 ++ out1 ++ (inp2 ++ parts xs1)); [solve_Permutation|]. rewrite P2. solve_Permutation.
Qed.

Lemma MA_rep inp out s s' xs xs' cap' : MA inp out s s' xs xs' cap' -> Rep (ms_v s') xs' cap'.
Proof. by intros (dP & dl & R & _). Qed.

(** Writing a value, inserting and removing at an index. *)
Lemma replace_post i v s xs cap : Rep (ms_v s) xs cap -> i < length xs ->
  exists l1 k0 old l2 s', xs = l1 ++ (k0, old) :: l2 /\ i = length l1 /\ base (replace_value sz i v) s = Ok old s' /\
    MA [inr v] [inr old] s s' xs (l1 ++ (k0, v) :: l2) cap.
Proof using All.
  intros R L. destruct (lookup_lt_is_Some_2 xs i L) as [[k0 old] Hx].
  destruct (replace_value_ok AI sz al nd Hsz AS (ms_v s) xs cap i v k0 old R Hx) as (v' & EV & PV).
  pose proof (take_drop_middle xs i (k0, old) Hx) as E.
  assert (EI : i = length (take i xs)) by (rewrite take_length; lia).
  exists (take i xs), k0, old, (drop (S i) xs), (MState v' (ms_lone s)).
  split; [done|]. split; [done|]. split; [unfold base; by rewrite EV|].
  rewrite <- E in PV at 1. rewrite EI in PV at 1. rewrite insert_nth_mid in PV. destruct PV as (R' & F' & _ & D').
  exists [], []. split; [done|]. split; [done|]. split; [done|]. split; [by rewrite lone_nil, app_nil_r|].
  rewrite <- E at 1. rewrite !parts_app, !parts_cons. cbn [fst snd]. cbn [parts map concat]. solve_Permutation.
Qed.

Lemma insert_post i k v s xs cap : Rep (ms_v s) xs cap -> i <= length xs ->
  post (base (insert AI sz al chk nd i (k, v)) s)
    (fun _ s' => exists l1 l2 cap', xs = l1 ++ l2 /\ i = length l1 /\ MA [inl k; inr v] [] s s' xs (l1 ++ (k, v) :: l2) cap')
    (fun s' => MA [inl k; inr v] [] s s' xs xs cap).
Proof using All.
  intros R L. unfold base. destruct ((need_one xs cap =? cap) || as_fits AS (need_one xs cap)) eqn:F.
  - destruct (insert_ok AI sz al chk nd Hsz AS (ms_v s) xs cap i (k, v) R L F) as (v' & EV & (R' & F' & _ & D')).
    rewrite EV. cbn. exists (take i xs), (drop i xs), (need_one xs cap). rewrite take_drop. split; [done|].
    split; [rewrite take_length; lia|]. exists [], []. split; [done|]. split; [done|]. split; [done|]. split; [by rewrite lone_nil, app_nil_r|].
    rewrite <- (take_drop i xs) at 1. rewrite !parts_app, !parts_cons. cbn [fst snd parts map concat]. solve_Permutation.
  - rewrite (insert_panic AI sz al chk nd Hsz AS (ms_v s) xs cap i (k, v) R L F Hchk). cbn.
    exists [(k, v)], []. split; [by destruct (ms_v s)|]. split; [by destruct (ms_v s)|]. split; [done|]. split; [by rewrite lone_nil, app_nil_r|].
    cbn. done.
Qed.

Lemma remove_post i s xs cap : Rep (ms_v s) xs cap -> i < length xs ->
  exists l1 p l2 s', xs = l1 ++ p :: l2 /\ base (remove sz chk i) s = Ok (Some p) s' /\
    MA [] [inl (fst p); inr (snd p)] s s' xs (l1 ++ l2) cap.
Proof using All.
  intros R L. destruct (lookup_lt_is_Some_2 xs i L) as [p Hx].
  destruct (remove_ok AI sz al chk nd Hsz AS (ms_v s) xs cap i p R Hx) as (v' & EV & (R' & F' & _ & D')).
  pose proof (take_drop_middle xs i p Hx) as E.
  exists (take i xs), p, (drop (S i) xs), (MState v' (ms_lone s)). split; [done|]. split; [unfold base; by rewrite EV|].
  exists [], []. split; [done|]. split; [done|]. split; [done|]. split; [by rewrite lone_nil, app_nil_r|].
  rewrite <- E at 1. rewrite !parts_app, !parts_cons. cbn [parts map concat]. solve_Permutation.
Qed.

(** ** The methods *)
Lemma vm_insert_post k v (s : ast) xs cap : Rep (ms_v (fst s)) xs cap ->
  post (a_vm_insert AI sz al chk nd co eo k v s)
    (fun o s' => exists xs' cap', MA [inl k; inr v] (match o with Some old => [inr old] | None => [] end) (fst s) (fst s') xs xs' cap' /\
       match o with None => added k v xs xs' | Some old => replaced v old xs xs' end)
    (fun s' => MA [inl k; inr v] [] (fst s) (fst s') xs xs cap).
Proof using All.
  intros R. unfold a_vm_insert. eapply post_bind.
  { eapply post_unwind; [by apply (search_post xs cap)|]. intros s1 E1. unfold mlogged. cbn [fst]. rewrite E1.
    apply MA_logged; [done|]. constructor. }
  intros [i f] s1 (E1 & Li & Lf). cbn [fst snd] in *. apply post_mlift. rewrite E1. destruct f.
  - destruct (replace_post i v (fst s) xs cap R (Lf eq_refl)) as (l1 & k0 & old & l2 & s2 & E & -> & ER & P).
    unfold bind at 1. rewrite ER. cbn. eexists _, cap. split; [|by eexists l1, k0, l2].
    apply (MA_drop [inl k]). eapply MA_perm; [exact (MA_trans [inl k] [inr v] [inl k] [inr old] _ _ _ _ _ _ _ _ (MA_given [inl k] _ _ _ R) P)|solve_Permutation|solve_Permutation].
  - eapply post_bind; [by apply (insert_post i k v (fst s) xs cap)|].
    intros [] s2 (l1 & l2 & cap' & E & -> & P). cbn. eexists _, cap'. split; [exact P|]. by exists l1, l2.
Qed.

Lemma entry_post k (s : ast) xs cap : Rep (ms_v (fst s)) xs cap ->
  post (a_vm_entry sz nd co eo k s)
    (fun e s' => match e with
                 | inl i => i < length xs /\ MA [inl k] [] (fst s) (fst s') xs xs cap
                 | inr i => i <= length xs /\ fst s' = fst s
                 end)
    (fun s' => MA [inl k] [] (fst s) (fst s') xs xs cap).
Proof using All.
  intros R. unfold a_vm_entry. eapply post_bind.
  { eapply post_unwind; [by apply (search_post xs cap)|]. intros s1 E1. unfold mlogged. cbn [fst]. rewrite E1.
    by apply MA_logged. }
  intros [i f] s1 (E1 & Li & Lf). cbn [fst snd] in *. apply post_mlift. rewrite E1. destruct f; cbn.
  - split; [by apply Lf|]. by apply (MA_logged [inl k]).
  - done.
Qed.

Lemma all_post kvs : forall (s : ast) xs cap, Rep (ms_v (fst s)) xs cap ->
  post (a_insert_all AI sz al chk nd co eo kvs s)
    (fun _ s' => exists xs' cap', MA (parts kvs) [] (fst s) (fst s') xs xs' cap' /\ all_put kvs xs xs')
    (fun s' => exists xs' cap', MA (parts kvs) [] (fst s) (fst s') xs xs' cap' /\
       exists done p rest, kvs = done ++ p :: rest /\ all_put done xs xs').
Proof using All.
  induction kvs as [|[k v] kvs IH]; intros s xs cap R; cbn [a_insert_all].
  - cbn. exists xs, cap. split; [by apply MA_refl|]. constructor.
  - eapply post_bind.
    { eapply post_unwind; [by apply vm_insert_post|]. intros s1 P. cbn [fst]. exists xs, cap. split.
      - destruct P as (dP & dl & R1 & F & D & L & P). exists (dP ++ kvs), dl. cbn. split; [by apply log_drops_Rep|].
        split; [by rewrite drops_frame|]. split; [by rewrite log_drops_drops, D, ran_app, app_assoc|]. split; [done|].
        fold (parts kvs). rewrite parts_app. change (([inl k; inr v] ++ parts kvs) ++ parts xs ≡ₚ (parts dP ++ parts kvs) ++ dl ++ parts xs).
        transitivity (parts kvs ++ ([inl k; inr v] ++ parts xs)); [solve_Permutation|]. rewrite P. solve_Permutation.
      - exists [], (k, v), kvs. split; [done|]. constructor. }
    intros o s1 (xs1 & cap1 & P1 & X). cbn in P1.
    eapply (post_bind _ _ _ _ _ (fun _ s2 => MA [inl k; inr v] [] (fst s) (fst s2) xs xs1 cap1)).
    { apply post_mlift. cbn. apply MA_drop. eapply MA_perm; [exact P1|done|]. rewrite app_nil_r. by destruct o. }
    intros [] s2 P2. assert (X' : added k v xs xs1 \/ exists old, replaced v old xs xs1) by (destruct o; eauto).
    eapply post_mono; [apply (IH s2 xs1 cap1 (MA_rep _ _ _ _ _ _ _ P2))|..].
    + intros _ s3 (xs3 & cap3 & P3 & Y). exists xs3, cap3. split; [exact (MA_trans _ _ _ _ _ _ _ _ _ _ _ _ P2 P3)|]. by econstructor.
    + intros s3 (xs3 & cap3 & P3 & done & p & rest & E & Y). exists xs3, cap3. split; [exact (MA_trans _ _ _ _ _ _ _ _ _ _ _ _ P2 P3)|].
      exists ((k, v) :: done), p, rest. split; [by rewrite E|]. by econstructor.
Qed.

Lemma at_index_rep s xs cap i p : Rep (ms_v s) xs cap -> xs !! i = Some p -> at_index sz i s = Ok p s.
Proof using All. intros R H. eapply at_index_ok; [by eapply as_slice_ok|exact H]. Qed.

Lemma nil_in (xs : list (K * V)) i : i < length xs -> exists p, xs !! i = Some p /\ In p xs.
Proof. intros L. destruct (lookup_lt_is_Some_2 xs i L) as [p Hp]. exists p. split; [done|]. by eapply elem_of_list_In, elem_of_list_lookup_2. Qed.

Lemma exec_post c (s : ast) xs cap : chk = true \/ m_modest sz c = true -> Rep (ms_v (fst s)) xs cap ->
  post (ma_exec AI sz al chk nd co eo c s)
    (fun a s' => exists xs' cap', MA (m_given c) (m_returned a) (fst s) (fst s') xs xs' cap' /\ edited c a xs xs')
    (fun s' => exists xs' cap', MA (m_given c) [] (fst s) (fst s') xs xs' cap' /\ edited c MPanic xs xs').
Proof using All.
  intros HK R.
  assert (GET : forall k (Q : option V -> Prop), Q None -> (forall p, In p xs -> Q (Some (snd p))) ->
    post (a_vm_get sz co eo k s) (fun r s' => fst s' = fst s /\ Q r) (fun s' => fst s' = fst s)).
  { intros k Q QN QS. unfold a_vm_get. eapply post_bind; [by apply (search_post xs cap)|].
    intros [i f] s1 (E1 & Li & Lf). cbn [fst snd] in *. destruct f; [|done].
    destruct (nil_in xs i (Lf eq_refl)) as (p & Hp & Hin).
    eapply (post_bind _ _ _ _ _ (fun q s' => fst s' = fst s /\ q = p)).
    - apply post_mlift. rewrite E1, (at_index_rep (fst s) xs cap i p R Hp). done.
    - intros q s2 [E2 ->]. cbn. split; [done|]. by apply QS. }
  assert (REM : forall k, post (a_vm_remove_entry sz chk co eo k s)
    (fun r s' => match r with None => fst s' = fst s | Some p => exists xs', MA [] [inl (fst p); inr (snd p)] (fst s) (fst s') xs xs' cap /\ taken p xs xs' end)
    (fun s' => fst s' = fst s)).
  { intros k. unfold a_vm_remove_entry. eapply post_bind; [by apply (search_post xs cap)|].
    intros [i f] s1 (E1 & Li & Lf). cbn [fst snd] in *. apply post_mlift. rewrite E1. destruct f; [|done].
    destruct (remove_post i (fst s) xs cap R (Lf eq_refl)) as (l1 & p & l2 & s2 & E & ER & P). rewrite ER. cbn.
    exists (l1 ++ l2). split; [done|]. by exists l1, l2. }
  destruct c as [k v|k|k v|k|k|k|k|k v|kvs|n| | | |]; cbn [ma_exec m_given].
  - eapply post_bind.
    + eapply post_mono; [by apply vm_insert_post|intros ? ? H; exact H|]. intros s' P. exists xs, cap. split; [exact P|]. by left.
    + intros o s' (xs' & cap' & P & X). cbn. exists xs', cap'. destruct o as [old|]; (split; [exact P|]); [right; right; by exists old|right; by left].
  - eapply post_bind.
    + eapply post_mono; [apply (GET k (fun r => r = None \/ exists p, In p xs /\ r = Some (snd p))); [by left|intros p H; right; by exists p]|intros ? ? H; exact H|].
      intros s' E. exists xs, cap. rewrite E. split; [by apply MA_refl|]. split; [done|]. by left.
    + intros r s' (E & X). cbn. exists xs, cap. rewrite E. split; [by apply MA_refl|]. split; [done|]. right.
      destruct X as [->|([k' v'] & H & ->)]; [by left|right]. by exists k', v'.
  - unfold a_vm_get_mut_set. eapply post_bind.
    { eapply (post_bind _ _ _ _ _ (fun r s' => fst s' = fst s /\ fst r <= length xs /\ (snd r = true -> fst r < length xs))).
      - eapply post_unwind; [by apply (search_post xs cap)|]. intros s1 E1. exists xs, cap. unfold mlogged. cbn [fst]. rewrite E1.
        split; [by apply MA_logged|]. left. split; [by left|done].
      - intros [i f] s1 (E1 & Li & Lf). cbn [fst snd] in *.
        apply (post_mlift _ _ (fun b s' => exists xs' cap', MA [inr v] [] (fst s) (fst s') xs xs' cap' /\ if b : bool then exists old, replaced v old xs xs' else xs' = xs)).
        cbn. rewrite E1. destruct f.
        + destruct (replace_post i v (fst s) xs cap R (Lf eq_refl)) as (l1 & k0 & old & l2 & s2 & E & -> & ER & P).
          unfold bind at 1. rewrite ER. cbn. eexists _, cap. split; [apply (MA_drop [inr old]); exact P|]. by exists old, l1, k0, l2.
        + cbn. exists xs, cap. split; [by apply (MA_logged [inr v])|done]. }
    intros b s' (xs' & cap' & P & X). cbn. exists xs', cap'. split; [exact P|]. destruct b; [right; by split|left]. split; [by right|done].
  - eapply post_bind.
    + eapply post_mono; [apply (GET k (fun r => match r with None => True | Some _ => xs <> [] end)); [done|by intros p H ->]|intros ? ? H; exact H|].
      intros s' E. exists xs, cap. rewrite E. split; [by apply MA_refl|]. split; [done|]. by left.
    + intros r s' (E & X). cbn. exists xs, cap. rewrite E. split; [by apply MA_refl|]. split; [done|]. right. destruct r; [by right|by left].
  - unfold a_vm_remove. eapply (post_bind _ _ _ _ _ (fun r s' => match r with
        | None => fst s' = fst s | Some v => exists xs' k, MA [] [inr v] (fst s) (fst s') xs xs' cap /\ taken (k, v) xs xs' end)).
    + eapply post_bind.
      * eapply post_mono; [apply (REM k)|intros ? ? H; exact H|]. intros s' E. exists xs, cap. rewrite E. split; [by apply MA_refl|]. left. split; [by left|done].
      * intros [[k' v']|] s1 X; [|done]. destruct X as (xs' & P & X). cbn. exists xs', k'. split; [|done]. by apply (MA_drop [inl k']).
    + intros [v'|] s1 X; cbn.
      * destruct X as (xs' & k' & P & X). exists xs', cap. split; [done|]. right. by exists k', v'.
      * exists xs, cap. rewrite X. split; [by apply MA_refl|]. left. split; [by right|done].
  - eapply post_bind.
    + eapply post_mono; [apply (REM k)|intros ? ? H; exact H|]. intros s' E. exists xs, cap. rewrite E. split; [by apply MA_refl|]. left. split; [by left|done].
    + intros [p|] s1 X; cbn.
      * destruct X as (xs' & P & X). exists xs', cap. split; [done|]. right. by exists p.
      * exists xs, cap. rewrite X. split; [by apply MA_refl|]. left. split; [by right|done].
  - unfold a_vm_entry_get. eapply (post_bind _ _ _ _ _ (fun e s' => MA [inl k] (m_returned (MEntry e)) (fst s) (fst s') xs xs cap /\ match e with inl p => In p xs | inr k' => k' = k end)).
    + eapply post_bind.
      * eapply post_mono; [by apply (entry_post k s xs cap)|intros ? ? H; exact H|]. intros s' P. exists xs, cap. split; [exact P|]. split; [done|]. by left.
      * intros [i|i] s1 X.
        -- destruct X as [L P]. destruct (nil_in xs i L) as (p & Hp & Hin).
           eapply (post_bind _ _ _ _ _ (fun q s' => fst s' = fst s1 /\ q = p)).
           ++ apply post_mlift. rewrite (at_index_rep (fst s1) xs cap i p (MA_rep _ _ _ _ _ _ _ P) Hp). done.
           ++ intros q s2 [E2 ->]. cbn. rewrite E2. done.
        -- destruct X as [L E]. cbn. rewrite E. split; [by apply (MA_given [inl k])|done].
    + intros e s1 [P X]. cbn. exists xs, cap. split; [exact P|]. split; [done|]. right. destruct e as [p|k']; [right; by exists p|left; by rewrite X].
  - unfold a_vm_entry_set. eapply (post_bind _ _ _ _ _ (fun r s' => exists xs' cap', MA [inl k; inr v] [] (fst s) (fst s') xs xs' cap' /\ snd r = v /\
        if fst r : bool then exists old, replaced v old xs xs' else added k v xs xs')).
    + eapply post_bind.
      * eapply post_unwind; [by apply (entry_post k s xs cap)|]. intros s1 P. exists xs, cap. unfold mlogged. cbn [fst]. split; [|by left].
        apply (MA_drop [inr v]). exact (MA_trans [inl k] [inr v] [] [inr v] _ _ _ _ _ _ _ _ P (MA_given [inr v] _ _ _ (MA_rep _ _ _ _ _ _ _ P))).
      * intros [i|i] s1 X.
        -- destruct X as [L P].
           apply (post_mlift _ _ (fun r s' => exists xs' cap', MA [inl k; inr v] [] (fst s) (fst s') xs xs' cap' /\ snd r = v /\
              if fst r : bool then exists old, replaced v old xs xs' else added k v xs xs')). cbn [fst].
           destruct (replace_post i v (fst s1) xs cap (MA_rep _ _ _ _ _ _ _ P) L) as (l1 & k0 & old & l2 & s2 & E & -> & ER & P2).
           unfold bind at 1. rewrite ER. unfold bind at 1. unfold drop_lone at 1, modify at 1.
           unfold bind at 1. erewrite at_index_rep; [|cbn [ms_v]; exact (MA_rep _ _ _ _ _ _ _ P2)|by rewrite lookup_app_r, Nat.sub_diag by lia].
           cbn. eexists _, cap. split; [apply (MA_drop [inr old]); exact (MA_trans [inl k] [inr v] [] [inr old] _ _ _ _ _ _ _ _ P P2)|]. split; [done|]. by exists old, l1, k0, l2.
        -- destruct X as [L E].
           apply (post_mlift _ _ (fun r s' => exists xs' cap', MA [inl k; inr v] [] (fst s) (fst s') xs xs' cap' /\ snd r = v /\
              if fst r : bool then exists old, replaced v old xs xs' else added k v xs xs')). cbn [fst]. rewrite E.
           eapply post_bind.
           ++ eapply post_mono; [by apply (insert_post i k v (fst s) xs cap)|intros ? ? H; exact H|]. intros s' P. exists xs, cap. split; [exact P|]. by left.
           ++ intros [] s2 (l1 & l2 & cap' & EX & -> & P). unfold bind at 1.
              erewrite at_index_rep; [|exact (MA_rep _ _ _ _ _ _ _ P)|by rewrite lookup_app_r, Nat.sub_diag by lia].
              cbn. eexists _, cap'. split; [exact P|]. split; [done|]. by exists l1, l2.
    + intros [b v'] s1 (xs' & cap' & P & Ev & X). cbn in *. subst v'. exists xs', cap'. split; [exact P|]. destruct b; [right; by right|right; by left].
  - eapply post_bind.
    + eapply post_mono; [by apply (all_post kvs s xs cap)|intros ? ? H; exact H|]. intros s' (xs' & cap' & P & X). exists xs', cap'. split; [exact P|]. by right.
    + intros [] s' (xs' & cap' & P & X). cbn. exists xs', cap'. split; [exact P|]. by left.
  - apply post_mlift. cbn [m_exec]. unfold bind, base. destruct (Nat.eq_dec n 0) as [->|N].
    + rewrite reserve_0. cbn. rewrite MState_eta. exists xs, cap. split; [by apply MA_refl|]. split; [done|]. by right.
    + destruct (as_fits AS (cap + n)) eqn:F.
      * destruct (reserve_ok AI sz al chk nd Hsz AS (ms_v (fst s)) xs cap n R ltac:(lia) F) as (v' & EV & (R' & F' & _ & D')). rewrite EV. cbn.
        exists xs, (cap + n). split; [|split; [done|by right]]. exists [], []. split; [done|]. split; [done|]. split; [done|]. by rewrite lone_nil, app_nil_r.
      * rewrite (reserve_panic AI sz al chk Hsz AS (ms_v (fst s)) xs cap n R ltac:(lia) F ltac:(destruct HK as [HK|HK]; [by left|right; unfold m_modest in HK; cbn [m_named] in HK; lia])). cbn. rewrite MState_eta.
        exists xs, cap. split; [by apply MA_refl|]. split; [done|]. by left.
  - apply post_mlift. cbn [m_exec]. unfold bind, base. rewrite (len_ok AI sz al Hsz AS _ _ _ R). cbn. rewrite MState_eta. exists xs, cap. split; [by apply MA_refl|done].
  - apply post_mlift. cbn [m_exec]. unfold bind, base. rewrite (is_empty_ok AI sz al Hsz AS _ _ _ R). cbn. rewrite MState_eta. exists xs, cap. split; [by apply MA_refl|]. split; [done|]. by destruct xs.
  - apply post_mlift. cbn [m_exec]. unfold bind, base. rewrite (capacity_ok AI sz al Hsz AS _ _ _ R). cbn. rewrite MState_eta. exists xs, cap. split; [by apply MA_refl|]. split; [done|]. exists cap. split; [|done]. by apply (Rep_len _ _ _ _ _ _ _ R).
  - apply post_mlift. cbn [m_exec]. unfold bind, base. destruct (clear_ok AI sz al chk nd Hsz AS (ms_v (fst s)) xs cap R) as (v' & EV & (R' & F' & _ & D')). rewrite EV. cbn.
    exists [], 0. split; [|done]. exists xs, []. split; [done|]. split; [done|]. split; [done|]. split; [by rewrite lone_nil, app_nil_r|]. by rewrite !app_nil_r.
Qed.

Lemma step_post c (s : ast) xs cap : chk = true \/ m_modest sz c = true -> Rep (ms_v (fst s)) xs cap ->
  exists a s' xs' cap', ma_step AI sz al chk nd co eo c s = Some (a, s') /\
    MA (m_given c) (m_returned a) (fst s) (fst s') xs xs' cap' /\ edited c a xs xs'.
Proof using All.
  intros HK R. pose proof (exec_post c s xs cap HK R) as P. unfold ma_step. destruct (ma_exec AI sz al chk nd co eo c s) as [a s'|s'|]; [..|done].
  - destruct P as (xs' & cap' & P & X). by exists a, s', xs', cap'.
  - destruct P as (xs' & cap' & P & X). by exists MPanic, s', xs', cap'.
Qed.

Lemma run_post cs : forall (s : ast) xs cap, chk = true \/ forallb (m_modest sz) cs = true -> Rep (ms_v (fst s)) xs cap ->
  exists l s' xs' cap', ma_run AI sz al chk nd co eo cs s = Some (l, s') /\
    MA (concat (map m_given cs)) (concat (map m_returned l)) (fst s) (fst s') xs xs' cap'.
Proof using All.
  induction cs as [|c cs IH]; intros s xs cap HK R.
  - exists [], s, xs, cap. split; [done|]. by apply MA_refl.
  - assert (HK1 : chk = true \/ m_modest sz c = true).
    { destruct HK as [HK|HK]; [by left|right]. cbn in HK. by apply andb_prop in HK as [? _]. }
    assert (HK2 : chk = true \/ forallb (m_modest sz) cs = true).
    { destruct HK as [HK|HK]; [by left|right]. cbn in HK. by apply andb_prop in HK as [_ ?]. }
    destruct (step_post c s xs cap HK1 R) as (a & s1 & xs1 & cap1 & E1 & P1 & _).
    destruct (IH s1 xs1 cap1 HK2 (MA_rep _ _ _ _ _ _ _ P1)) as (l & s2 & xs2 & cap2 & E2 & P2).
    exists (a :: l), s2, xs2, cap2. split; [cbn; by rewrite E1, E2|]. exact (MA_trans _ _ _ _ _ _ _ _ _ _ _ _ P1 P2).
Qed.
End proofs.
