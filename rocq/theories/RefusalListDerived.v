(** Proofs of the properties stated in RefusalListProps.v. *)
From Verif Require Import Base Alloc AddrMem FixedPool FixedPoolSpec LinkedList LinkedListSpec RefusalList.
Local Open Scope Z_scope.

From Verif Require Import FixedPoolProofs LinkedListProofs LinkedListCalls LinkedListRuns LinkedListFixed LinkedListDerived.

(** Two allocators that differ only in that one panics where the other returns null. *)
Section same.
Context {A T : Type}.
Variables (aaR aaD : AddrAlloc A T) (chk : bool) (nsz nal : Z).
Hypothesis Hf : aa_free aaR = aa_free aaD.
Hypothesis Ha : forall am, allocate aaR chk nsz nal 1 am = allocate aaD chk nsz nal 1 am \/
  exists am', allocate aaR chk nsz nal 1 am = Panic am' /\ allocate aaD chk nsz nal 1 am = Ok 0 am'.

Lemma same_create x s : create_node aaR chk nsz nal x s = create_node aaD chk nsz nal x s.
Proof using Ha.
  unfold create_node, bind, on_unwind, in_alloc.
  destruct (Ha (l_alloc s, l_mem s)) as [->|([a m] & -> & ->)]; [done|].
  cbn. done.
Qed.
Lemma same_push_back x s : push_back aaR chk nsz nal x s = push_back aaD chk nsz nal x s.
Proof using Ha. unfold push_back. unfold bind at 1 5. by rewrite same_create. Qed.
Lemma same_push_front x s : push_front aaR chk nsz nal x s = push_front aaD chk nsz nal x s.
Proof using Ha. unfold push_front. unfold bind at 1 6. by rewrite same_create. Qed.
Lemma same_extend xs : forall s, extend aaR chk nsz nal xs s = extend aaD chk nsz nal xs s.
Proof using Ha.
  induction xs as [|x xs IH]; [done|]. intros s. cbn [extend]. unfold bind, on_unwind. rewrite same_push_back.
  by destruct (push_back aaD chk nsz nal x s) as [[] s1| |].
Qed.
Lemma same_dealloc sz al p n : deallocate aaR chk sz al p n = deallocate aaD chk sz al p n.
Proof using Hf. unfold deallocate. by rewrite Hf. Qed.
Lemma same_remove p : remove_node aaR chk nsz p = remove_node aaD chk nsz p.
Proof using Hf. unfold remove_node. by rewrite same_dealloc. Qed.
Lemma same_pop_back s : pop_back aaR chk nsz s = pop_back aaD chk nsz s.
Proof using Hf.
  unfold pop_back, bind. destruct (gets l_node s) as [o s1| |]; [|done|done]. destruct (get_prev o s1) as [p s2| |]; [|done|done].
  destruct (p =? o); [done|]. by rewrite same_remove.
Qed.
Lemma same_pop_front s : pop_front aaR chk nsz s = pop_front aaD chk nsz s.
Proof using Hf.
  unfold pop_front, bind. destruct (gets l_node s) as [o s1| |]; [|done|done]. destruct (get_next o s1) as [p s2| |]; [|done|done].
  destruct (p =? o); [done|]. by rewrite same_remove.
Qed.
Lemma same_clear s : clear aaR chk nsz s = clear aaD chk nsz s.
Proof using Hf.
  assert (L : forall f p s, clear_loop aaR chk nsz f p s = clear_loop aaD chk nsz f p s).
  { induction f as [|f IH]; intros p s1; [done|]. cbn [clear_loop]. rewrite same_dealloc. unfold bind.
    repeat (first [apply IH | match goal with |- match ?o with _ => _ end = match ?o with _ => _ end => destruct o; try reflexivity end]).
    all: try done. all: destruct (_ =? _); try done. all: repeat (first [apply IH | match goal with |- match ?o with _ => _ end = match ?o with _ => _ end => destruct o; try reflexivity end]). }
  unfold clear, bind. repeat match goal with |- match ?o with _ => _ end = match ?o with _ => _ end => destruct o; try reflexivity end.
  all: by rewrite L.
Qed.
Lemma same_call c s : l_call aaR chk nsz nal c s = l_call aaD chk nsz nal c s.
Proof using Ha Hf.
  destruct c; cbn [l_call]; try reflexivity.
  - unfold bind. by rewrite same_push_back.
  - unfold bind. by rewrite same_push_front.
  - unfold bind. by rewrite same_pop_back.
  - unfold bind. by rewrite same_pop_front.
  - unfold bind. by rewrite same_clear.
  - unfold bind. by rewrite same_extend.
Qed.
Lemma same_run cs : forall s, l_run aaR chk nsz nal cs s = l_run aaD chk nsz nal cs s.
Proof using Ha Hf.
  induction cs as [|c cs IH]; [done|]. intros s. cbn [l_run]. rewrite same_call.
  destruct (l_call aaD chk nsz nal c s) as [a s1|s1|]; [| |done]; by rewrite IH.
Qed.
End same.

Definition pick_or {T} (pick : mem T -> Z -> Z -> Z) (refuse : mem T -> Z -> bool) : mem T -> Z -> Z -> Z :=
  fun m bytes align => if refuse m bytes then 0 else pick m bytes align.
Lemma pick_or_honest {T} (pick : mem T -> Z -> Z -> Z) refuse : honest pick -> honest (pick_or pick refuse).
Proof. intros H m b a Hb. unfold pick_or. destruct (refuse m b); [by left|by apply H]. Qed.

Lemma raw_same {T} (pick : mem T -> Z -> Z -> Z) strict refuse nsz nal u m : 0 < nsz -> layout_ok nsz nal = true ->
  aa_alloc (RefusingAddr pick strict refuse) nsz nal (u, m) = aa_alloc (DefaultAddrAlloc (pick_or pick refuse) strict) nsz nal (u, m) \/
  exists am', aa_alloc (RefusingAddr pick strict refuse) nsz nal (u, m) = Panic am' /\ aa_alloc (DefaultAddrAlloc (pick_or pick refuse) strict) nsz nal (u, m) = Ok 0 am'.
Proof.
  intros Hn HL. cbn [aa_alloc RefusingAddr DefaultAddrAlloc]. unfold default_alloc_raw, pick_or. cbn [fst snd].
  replace (nsz =? 0) with false by lia. rewrite HL. destruct (refuse m nsz); [right|by left].
  cbn. by exists (u, mem_tick m).
Qed.
Lemma one_req {A T} (aa : AddrAlloc A T) chk nsz nal s : node_layout nsz nal -> allocate aa chk nsz nal 1 s = aa_alloc aa nsz nal s.
Proof.
  intros NL. pose proof (node_layout_pos _ _ NL). unfold allocate, usizeZ, bind. rewrite Z.mul_1_l.
  replace ((0 <=? nsz) && (nsz <? usize_lim)) with true by lia. done.
Qed.
Lemma list_same {T} (pick : mem T -> Z -> Z -> Z) strict refuse chk nsz nal : node_layout nsz nal ->
  forall am, allocate (RefusingAddr pick strict refuse) chk nsz nal 1 am = allocate (DefaultAddrAlloc (pick_or pick refuse) strict) chk nsz nal 1 am \/
  exists am', allocate (RefusingAddr pick strict refuse) chk nsz nal 1 am = Panic am' /\ allocate (DefaultAddrAlloc (pick_or pick refuse) strict) chk nsz nal 1 am = Ok 0 am'.
Proof. intros NL [u m]. rewrite !one_req by done. destruct NL as (_ & H0 & _ & HL). by apply raw_same. Qed.
Lemma fixed_same {T} (pick : mem T -> Z -> Z -> Z) strict refuse chk nsz nal : node_layout nsz nal ->
  forall am, allocate (RefusingFixed pick strict chk nsz nal refuse) chk nsz nal 1 am = allocate (FixedListAlloc (pick_or pick refuse) strict chk nsz nal) chk nsz nal 1 am \/
  exists am', allocate (RefusingFixed pick strict chk nsz nal refuse) chk nsz nal 1 am = Panic am' /\ allocate (FixedListAlloc (pick_or pick refuse) strict chk nsz nal) chk nsz nal 1 am = Ok 0 am'.
Proof.
  intros NL [q m]. rewrite !one_req by done. pose proof NL as (_ & H0 & _ & HL).
  unfold RefusingFixed, FixedListAlloc, OPoolAlloc. cbn [aa_alloc]. unfold opool_alloc, bind.
  destruct (debug_assert chk (nsz =? nsz) (q, m)) as [[] s1|s1|]; [|by left|by left].
  destruct (debug_assert chk (nal =? nal) s1) as [[] s2|s2|]; [|by left|by left].
  destruct (in_pool _ s2) as [p [q' m']|s3|]; [|by left|by left].
  destruct (negb (p =? 0)); [by left|]. unfold in_over.
  destruct (raw_same pick strict refuse nsz nal (o_over q') m' H0 HL) as [->|([a m2] & -> & ->)]; [by left|].
  right. by eexists.
Qed.

Lemma L_C104_list :
forall (T : Type) (pick : mem T -> Z -> Z -> Z) (refuse : mem T -> Z -> bool) (chk : bool) (nsz nal obj : Z) (m0 : mem T) (prog : list (lcall T)),
  ListSetup m0 obj 24 nsz nal -> honest pick -> short prog ->
  exists s0 l s xs s', list_new obj tt m0 = Ok tt s0 /\ l_run (RefusingAddr pick false refuse) chk nsz nal prog s0 = Some (l, s) /\
    explains prog l (l_drops s) [] xs /\ contents chk nsz s xs /\
    list_drop (RefusingAddr pick false refuse) chk nsz s = Ok tt s' /\ l_drops s' = l_drops s ++ xs /\ m_live (l_mem s') ≡ₚ m_live m0.
Proof.
  intros T pick refuse chk nsz nal obj m0 prog LS HP0 SH. pose proof (pick_or_honest pick refuse HP0) as HP.
  pose proof (ls_node _ _ _ _ _ LS) as (NL & _).
  destruct (def_run (pick_or pick refuse) false chk nsz nal obj m0 prog LS HP SH (or_introl eq_refl) true ltac:(done)) as (l & s & ps & xs & (s0 & E0 & E1) & R & X & _).
  assert (AO := def_ao' (pick_or pick refuse) false chk nsz nal obj m0 prog LS HP).
  assert (FR := default_frees (pick_or pick refuse) false chk nsz nal obj 24 m0 true (peak prog 0) LS ltac:(done) eq_refl).
  destruct (drop_ok _ chk nsz nal obj _ true _ (def_sz _ _ _ _ LS) (ls_align _ _ _ _ _ LS) SH AO s xs ps FR R) as (s' & E & D & EL).
  exists s0, l, s, xs, s'. split; [done|]. split.
  { erewrite same_run; [exact E1|reflexivity|by apply list_same]. }
  split; [done|]. split.
  { by eapply (rep_contents (DefaultAddrAlloc (pick_or pick refuse) false) chk nsz nal obj _ true _ (def_sz _ _ _ _ LS) (ls_align _ _ _ _ _ LS) SH AO). }
  split. { unfold list_drop in *. erewrite same_clear; [exact E|reflexivity]. }
  split; [done|]. pose proof (di_live _ _ _ _ _ D) as L. cbn in L. by rewrite app_nil_r in L.
Qed.

Lemma L_C104_fixed_list :
forall (T : Type) (pick : mem T -> Z -> Z -> Z) (refuse : mem T -> Z -> bool) (chk : bool) (nsz nal obj : Z) (n : nat) (m0 : mem T) (prog : list (lcall T))
  (new : outcome (lstate (opool unit) T) unit),
  honest pick -> short prog ->
  (FixedSetup m0 obj nsz nal n /\ new = fixed_list_new chk nsz nal (Z.of_nat n) obj m0) \/
  (ConformantSetup m0 obj nsz nal n /\ new = conformant_new chk nsz nal (Z.of_nat n) obj m0) ->
  exists s0 l s xs s', new = Ok tt s0 /\ l_run (RefusingFixed pick false chk nsz nal refuse) chk nsz nal prog s0 = Some (l, s) /\
    explains prog l (l_drops s) [] xs /\ contents chk nsz s xs /\
    list_drop (RefusingFixed pick false chk nsz nal refuse) chk nsz s = Ok tt s' /\ l_drops s' = l_drops s ++ xs /\ m_live (l_mem s') ≡ₚ m_live m0.
Proof.
  intros T pick refuse chk nsz nal obj n m0 prog new HP0 SH HN. pose proof (pick_or_honest pick refuse HP0) as HP.
  assert (exists bytes base len, FX m0 nsz nal obj n bytes base len /\ new = fixed_new_at chk nsz nal obj base len m0) as (bytes & base & len & F & ->).
  { destruct HN as [[FS ->]|[FS ->]]; [pose proof (fixed_fx _ _ _ _ _ FS) as F|pose proof (conformant_fx _ _ _ _ _ FS) as F]; by eexists _, _, _. }
  destruct (fx_exists chk nsz nal obj n bytes base len m0 F) as [s0 E0].
  destruct (fx_general (pick_or pick refuse) false chk nsz nal obj n bytes base len m0 prog F HP true s0 E0 SH (or_introl eq_refl) ltac:(done)) as (l & s & ps & xs & E1 & _).
  destruct (fx_facts (pick_or pick refuse) false chk nsz nal obj n bytes base len m0 prog F HP s0 l s E0 SH eq_refl E1) as (ps' & xs' & X & C & _ & _ & s' & ED & EL & LV).
  destruct (fx_new chk nsz nal obj n bytes base len m0 F s0 E0) as (_ & _ & _ & (LS & _) & _).
  pose proof (ls_node _ _ _ _ _ LS) as (NL & _).
  exists s0, l, s, xs', s'. split; [done|]. split.
  { erewrite same_run; [exact E1|reflexivity|by apply fixed_same]. }
  split; [done|]. split; [done|]. split; [|done].
  unfold list_drop in *. erewrite same_clear; [exact ED|reflexivity].
Qed.
