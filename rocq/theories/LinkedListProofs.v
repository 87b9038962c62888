(** Proofs about linked lists. *)
From Verif Require Import Base Alloc AddrMem FixedPool FixedPoolSpec FixedPoolProofs LinkedList LinkedListSpec.
Local Open Scope Z_scope.

(** ** Rings *)
Definition link (w : gmap Z Z) (p : Z * Z) : Prop := w !! fst p = Some (snd p) /\ w !! (snd p + 8) = Some (fst p).
Definition ring (w : gmap Z Z) (s : Z) (ps : list Z) : Prop := Forall (link w) (zip (s :: ps) (ps ++ [s])).
(** The nodes are far enough apart that no [next] is a [prev]. *)
Definition sep (O : list Z) : Prop := forall x y, x ∈ O -> y ∈ O -> x <> y + 8.

Lemma relink_insert w O a b p Rest : sep O -> a ∈ O -> b ∈ O -> p ∈ O -> a <> p -> b <> p ->
  (forall c d, (c, d) ∈ Rest -> c ∈ O /\ d ∈ O /\ c <> a /\ d <> b /\ c <> p /\ d <> p) ->
  Forall (link w) Rest -> Forall (link (<[b + 8 := p]> (<[a := p]> (<[p + 8 := a]> (<[p := b]> w))))) ((a, p) :: (p, b) :: Rest).
Proof.
  intros SP Ha Hb Hp NA NB HR HF.
  assert (X : forall x y, x ∈ O -> y ∈ O -> x <> y + 8 /\ y + 8 <> x) by (intros x y Hx Hy; pose proof (SP x y Hx Hy); lia).
  constructor; [|constructor].
  - split; cbn.
    + rewrite lookup_insert_ne by (by apply X). by rewrite lookup_insert.
    + rewrite lookup_insert_ne by lia. rewrite lookup_insert_ne by (by apply X). by rewrite lookup_insert.
  - split; cbn.
    + rewrite lookup_insert_ne by (by apply X). rewrite lookup_insert_ne by done. rewrite lookup_insert_ne by (by apply X). by rewrite lookup_insert.
    + by rewrite lookup_insert.
  - rewrite Forall_forall in HF |- *. intros [c d] HI. destruct (HF _ HI) as [L1 L2]. cbn in L1, L2.
    destruct (HR c d HI) as (Hc & Hd & ? & ? & ? & ?). split; cbn.
    + rewrite lookup_insert_ne by (by apply X). rewrite lookup_insert_ne by done. rewrite lookup_insert_ne by (by apply X). by rewrite lookup_insert_ne.
    + rewrite lookup_insert_ne by lia. rewrite lookup_insert_ne by (by apply X). rewrite lookup_insert_ne by lia. rewrite lookup_insert_ne by (by apply X). done.
Qed.

Lemma relink_remove w O a b Rest : sep O -> a ∈ O -> b ∈ O ->
  (forall c d, (c, d) ∈ Rest -> c ∈ O /\ d ∈ O /\ c <> a /\ d <> b) ->
  Forall (link w) Rest -> Forall (link (<[a := b]> (<[b + 8 := a]> w))) ((a, b) :: Rest).
Proof.
  intros SP Ha Hb HR HF.
  assert (X : forall x y, x ∈ O -> y ∈ O -> x <> y + 8 /\ y + 8 <> x) by (intros x y Hx Hy; pose proof (SP x y Hx Hy); lia).
  constructor.
  - split; cbn.
    + by rewrite lookup_insert.
    + rewrite lookup_insert_ne by (by apply X). by rewrite lookup_insert.
  - rewrite Forall_forall in HF |- *. intros [c d] HI. destruct (HF _ HI) as [L1 L2]. cbn in L1, L2.
    destruct (HR c d HI) as (Hc & Hd & ? & ?). split; cbn.
    + rewrite lookup_insert_ne by done. by rewrite lookup_insert_ne by (by apply X).
    + rewrite lookup_insert_ne by (by apply X). by rewrite lookup_insert_ne by lia.
Qed.

Definition first_of (s : Z) (ps : list Z) : Z := hd s ps.
Definition last_of (s : Z) (ps : list Z) : Z := List.last ps s.

Lemma last_cons_default (p : Z) ps s : List.last (p :: ps) s = List.last ps p.
Proof.
  revert p s. induction ps as [|q ps IH]; intros p s; [done|]. change (List.last (p :: q :: ps) s) with (List.last (q :: ps) s).
  by rewrite !IH.
Qed.
Lemma zip_front (s : Z) (ps : list Z) (e : Z) : zip (s :: ps) (ps ++ [e]) = (s, hd e ps) :: zip ps (tl (ps ++ [e])).
Proof. by destruct ps. Qed.
Lemma zip_back (s : Z) (ps : list Z) (e : Z) : zip (s :: ps) (ps ++ [e]) = zip (s :: ps) ps ++ [(List.last ps s, e)].
Proof.
  revert s. induction ps as [|p ps IH]; intros s; [done|]. change (zip (s :: p :: ps) ((p :: ps) ++ [e])) with ((s, p) :: zip (p :: ps) (ps ++ [e])).
  rewrite IH. change (zip (s :: p :: ps) (p :: ps)) with ((s, p) :: zip (p :: ps) ps). cbn [app].
  by rewrite last_cons_default.
Qed.
Lemma last_of_in s ps : last_of s ps ∈ s :: ps.
Proof.
  unfold last_of. destruct ps as [|p ps _] using rev_ind; [constructor|]. rewrite List.last_last. set_solver.
Qed.
Lemma first_of_in s ps : first_of s ps ∈ s :: ps.
Proof. unfold first_of. destruct ps; cbn; set_solver. Qed.

Lemma elem_zip {A B} (l : list A) (k : list B) x y : (x, y) ∈ zip l k -> x ∈ l /\ y ∈ k.
Proof.
  revert k. induction l as [|a l IH]; intros [|b k] H; cbn in H; try (by apply elem_of_nil in H).
  apply elem_of_cons in H as [H|H]; [simplify_eq; split; constructor|]. destruct (IH _ H). split; by constructor.
Qed.
Lemma ring_push_back w s ps p : NoDup (s :: ps) -> p ∉ s :: ps -> sep (p :: s :: ps) -> ring w s ps ->
  ring (<[s + 8 := p]> (<[last_of s ps := p]> (<[p + 8 := last_of s ps]> (<[p := s]> w)))) s (ps ++ [p]).
Proof.
  intros ND NI SP R. unfold ring in *.
  replace (zip (s :: ps ++ [p]) ((ps ++ [p]) ++ [s])) with (zip (s :: ps) ps ++ [(last_of s ps, p)] ++ [(p, s)]).
  2: { symmetry. rewrite (zip_back s (ps ++ [p]) s), List.last_last.
       change (zip (s :: ps ++ [p]) (ps ++ [p])) with (zip ((s :: ps) ++ [p]) (ps ++ [p])).
       rewrite <- (app_nil_r (ps ++ [p])) at 1.
       replace (zip ((s :: ps) ++ [p]) ((ps ++ [p]) ++ [])) with (zip (s :: ps) (ps ++ [p])).
       - by rewrite zip_back, <- app_assoc.
       - rewrite zip_with_app by (rewrite app_length; cbn; lia). change (zip_with pair [p] []) with (@nil (Z * Z)). by rewrite app_nil_r. }
  rewrite zip_back in R. apply Forall_app in R as [R _].
  pose proof (relink_insert w (p :: s :: ps) (last_of s ps) s p (zip (s :: ps) ps)) as RI.
  assert (LI := last_of_in s ps).
  rewrite app_assoc, Permutation_app_comm. cbn. rewrite Permutation_app_comm. cbn.
  rewrite perm_swap. apply RI; [done|by constructor|apply elem_of_cons; right; by constructor|constructor|by intros E; rewrite E in LI|by intros ->; apply NI; constructor| |done].
  intros c d HI. pose proof (elem_zip _ _ _ _ HI) as [Hc Hd].
  assert (c <> last_of s ps).
  { intros ->. clear -ND HI. destruct ps as [|q ps _] using rev_ind; [by apply elem_of_nil in HI|].
    unfold last_of in HI. rewrite List.last_last in HI. 
    change (s :: ps ++ [q]) with ((s :: ps) ++ [q]) in *. rewrite <- (app_nil_r (ps ++ [q])) in HI.
    rewrite zip_with_app in HI by (rewrite app_length; cbn; lia). change (zip_with pair [q] []) with (@nil (Z * Z)) in HI. rewrite app_nil_r in HI.
    apply elem_zip in HI as [HI _]. apply NoDup_app in ND as (_ & ND & _). by apply (ND q HI), elem_of_list_singleton. }
  assert (d <> s) by (intros ->; apply NoDup_cons in ND as [ND _]; done).
  split; [by constructor|]. split; [apply elem_of_cons; right; by constructor|]. split; [done|]. split; [done|].
  split; intros ->; apply NI; [done|by constructor].
Qed.

Lemma ring_push_front w s ps p : NoDup (s :: ps) -> p ∉ s :: ps -> sep (p :: s :: ps) -> ring w s ps ->
  ring (<[first_of s ps + 8 := p]> (<[s := p]> (<[p + 8 := s]> (<[p := first_of s ps]> w)))) s (p :: ps).
Proof.
  intros ND NI SP R. unfold ring in *. cbn [app]. change (zip (s :: p :: ps) (p :: ps ++ [s])) with ((s, p) :: zip (p :: ps) (ps ++ [s])).
  rewrite zip_front in R |- *. apply Forall_cons in R as [_ R].
  assert (FI := first_of_in s ps).
  assert (Hs : s ∈ p :: s :: ps) by (apply elem_of_cons; right; constructor).
  assert (Hf : first_of s ps ∈ p :: s :: ps) by (by apply elem_of_cons; right).
  assert (Hsp : s <> p) by (intros ->; apply NI; constructor).
  assert (Hfp : first_of s ps <> p) by (intros E; by rewrite E in FI).
  apply (relink_insert w (p :: s :: ps)); [done|done|done|constructor|done|done| |done].
  intros c d HI. pose proof (elem_zip _ _ _ _ HI) as [Hc Hd].
  apply NoDup_cons in ND as [NS ND].
  assert (Hd' : d ∈ s :: ps).
  { clear -Hd. destruct ps as [|q ps]; cbn in Hd; [by apply elem_of_nil in Hd|]. apply elem_of_app in Hd as [Hd|Hd]; [apply elem_of_cons; right; by constructor|].
    apply elem_of_list_singleton in Hd as ->. constructor. }
  assert (d <> first_of s ps).
  { intros ->. destruct ps as [|q ps]; [by apply elem_of_nil in Hc|]. cbn in Hd. apply NoDup_cons in ND as [NQ _].
    apply elem_of_app in Hd as [Hd|Hd]; [done|]. apply elem_of_list_singleton in Hd as ->. apply NS. constructor. }
  split; [apply elem_of_cons; right; by constructor|]. split; [by constructor|]. split; [by intros ->|]. split; [done|].
  split; intros ->; apply NI; [by constructor|done].
Qed.

Lemma ring_pop_front w s p ps : NoDup (s :: p :: ps) -> sep (s :: p :: ps) -> ring w s (p :: ps) ->
  w !! s = Some p /\ w !! p = Some (first_of s ps) /\ w !! (p + 8) = Some s /\
  ring (<[s := first_of s ps]> (<[first_of s ps + 8 := s]> w)) s ps.
Proof.
  intros ND SP R. unfold ring in R. cbn [app] in R. change (zip (s :: p :: ps) (p :: ps ++ [s])) with ((s, p) :: zip (p :: ps) (ps ++ [s])) in R.
  rewrite zip_front in R. apply Forall_cons in R as [[R1 R2] R]. apply Forall_cons in R as [[R3 R4] R]. cbn in R1, R2, R3, R4.
  split; [done|]. split; [done|]. split; [done|]. unfold ring. rewrite zip_front.
  apply NoDup_cons in ND as [NS ND]. apply NoDup_cons in ND as [NP ND].
  assert (FI := first_of_in s ps).
  assert (SPs : sep (s :: ps)) by (intros x y Hx Hy; apply SP; set_solver).
  apply (relink_remove w (s :: ps)); [done|constructor|done| |done].
  intros c d HI. pose proof (elem_zip _ _ _ _ HI) as [Hc Hd].
  assert (Hd' : d ∈ s :: ps).
  { clear -Hd. destruct ps as [|q ps]; cbn in Hd; [by apply elem_of_nil in Hd|]. apply elem_of_app in Hd as [Hd|Hd]; [apply elem_of_cons; right; by constructor|].
    apply elem_of_list_singleton in Hd as ->. constructor. }
  assert (d <> first_of s ps).
  { intros ->. destruct ps as [|q ps]; [by apply elem_of_nil in Hc|]. cbn in Hd. apply NoDup_cons in ND as [NQ _].
    apply elem_of_app in Hd as [Hd|Hd]; [done|]. apply elem_of_list_singleton in Hd as ->. apply NS. apply elem_of_cons; right; by constructor. }
  split; [by constructor|]. split; [done|]. split; [|done]. intros ->. apply NS. by constructor.
Qed.

Lemma ring_pop_back w s p ps : NoDup (s :: ps ++ [p]) -> sep (s :: ps ++ [p]) -> ring w s (ps ++ [p]) ->
  w !! (s + 8) = Some p /\ w !! p = Some s /\ w !! (p + 8) = Some (last_of s ps) /\
  ring (<[last_of s ps := s]> (<[s + 8 := last_of s ps]> w)) s ps.
Proof.
  intros ND SP R. unfold ring in R. rewrite zip_back, List.last_last in R.
  apply Forall_app in R as [R RL]. apply Forall_cons in RL as [[R1 R2] _]. cbn in R1, R2.
  change (s :: ps ++ [p]) with ((s :: ps) ++ [p]) in R. rewrite <- (app_nil_r (ps ++ [p])) in R.
  rewrite zip_with_app in R by (rewrite app_length; cbn; lia). change (zip_with pair [p] []) with (@nil (Z * Z)) in R. rewrite app_nil_r in R.
  change (zip_with pair (s :: ps) (ps ++ [p])) with (zip (s :: ps) (ps ++ [p])) in R.
  rewrite zip_back in R. apply Forall_app in R as [R RL]. apply Forall_cons in RL as [[R3 R4] _]. cbn in R3, R4.
  split; [done|]. split; [done|]. split; [done|]. unfold ring. rewrite zip_back.
  change (s :: ps ++ [p]) with ((s :: ps) ++ [p]) in ND. apply NoDup_app in ND as (ND & _ & _).
  assert (LI := last_of_in s ps).
  assert (SPs : sep (s :: ps)) by (intros x y Hx Hy; apply SP; set_solver).
  rewrite Permutation_app_comm. cbn [app]. apply (relink_remove w (s :: ps)); [done|done|constructor| |done].
  intros c d HI. pose proof (elem_zip _ _ _ _ HI) as [Hc Hd].
  assert (c <> last_of s ps).
  { intros ->. clear -ND HI. destruct ps as [|q ps _] using rev_ind; [by apply elem_of_nil in HI|].
    unfold last_of in HI. rewrite List.last_last in HI.
    change (s :: ps ++ [q]) with ((s :: ps) ++ [q]) in *. rewrite <- (app_nil_r (ps ++ [q])) in HI.
    rewrite zip_with_app in HI by (rewrite app_length; cbn; lia). change (zip_with pair [q] []) with (@nil (Z * Z)) in HI. rewrite app_nil_r in HI.
    apply elem_zip in HI as [HI _]. apply NoDup_app in ND as (_ & ND & _). by apply (ND q HI), elem_of_list_singleton. }
  split; [done|]. split; [by constructor|]. split; [done|]. intros ->. apply NoDup_cons in ND as [ND _]. done.
Qed.

Lemma ring_ends w s ps : ring w s ps -> w !! s = Some (first_of s ps) /\ w !! (s + 8) = Some (last_of s ps).
Proof.
  intros R. split.
  - unfold ring in R. rewrite zip_front in R. apply Forall_cons in R as [[R _] _]. exact R.
  - unfold ring in R. rewrite zip_back in R. apply Forall_app in R as [_ R]. apply Forall_cons in R as [[_ R] _]. exact R.
Qed.

Lemma ring_frame w w' s ps : ring w s ps -> (forall x, x ∈ s :: ps -> w' !! x = w !! x /\ w' !! (x + 8) = w !! (x + 8)) -> ring w' s ps.
Proof.
  unfold ring. rewrite !Forall_forall. intros R H [c d] HI. destruct (R _ HI) as [R1 R2]. pose proof (elem_zip _ _ _ _ HI) as [Hc Hd].
  split; cbn in *.
  - by rewrite (proj1 (H c Hc)).
  - assert (d ∈ s :: ps) as Hd'. { apply elem_of_app in Hd as [Hd|Hd]; [by constructor|]. apply elem_of_list_singleton in Hd as ->. constructor. }
    by rewrite (proj2 (H d Hd')).
Qed.

(** The next pointers alone. *)
Fixpoint fwd (w : gmap Z Z) (x : Z) (ps : list Z) (e : Z) : Prop :=
  match ps with
  | [] => w !! x = Some e
  | p :: ps' => w !! x = Some p /\ fwd w p ps' e
  end.
Lemma seg_fwd w x ps e : Forall (link w) (zip (x :: ps) (ps ++ [e])) -> fwd w x ps e.
Proof.
  revert x. induction ps as [|p ps IH]; intros x H; cbn in H; apply Forall_cons in H as [[H1 _] H]; cbn in *; [done|].
  split; [done|]. by apply IH.
Qed.
Lemma fwd_frame w w' x ps e : fwd w x ps e -> (forall y, y ∈ x :: ps -> w' !! y = w !! y) -> fwd w' x ps e.
Proof.
  revert x. induction ps as [|p ps IH]; intros x H F; cbn in *.
  - by rewrite F by constructor.
  - destruct H as [H1 H2]. split; [by rewrite F by constructor|]. apply IH; [done|]. intros y Hy. apply F. by constructor.
Qed.
