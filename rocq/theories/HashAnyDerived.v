(** Proofs of the properties stated in HashAnyProps.v. *)
From Verif Require Import Base Heap HeapLemmas Alloc HashTable HashTableSpec HashAny HashAnySpec.
Local Open Scope nat_scope.

From Verif Require Import HashTableProofs HashTableMore HashAnyProofs HashAnyCalls HashAnyAgree.
Local Open Scope nat_scope.

Lemma dropped_entries {K V} (cs : list (list (nat * (K * V)))) : dropped cs ≡ₚ parts (map snd (concat cs)).
Proof. apply dropped_perm. Qed.

Lemma hx_heap_wf V : heap_wf (hx_heap (V := V)).
Proof. intros b [bk H]. cbn in *. apply lookup_singleton_Some in H as [<- _]. lia. Qed.

Lemma L_C88_any_functions :
forall (K V : Type) nsz nal eb chk (ho : nat -> K -> option Z) (eo : nat -> K -> K -> option bool) (h0 : heap (tcell K V)) (prog : list (hcall K V)),
  (0 < nsz)%Z -> layout_ok nsz nal = true -> heap_wf h0 -> static_ok eb h0 ->
  exists l s n es s',
    a_run nsz nal eb chk ho eo prog (ht_new eb h0 [], 0) = Some (l, (s, n)) /\
    (do it <- iter; do f <- gets fuel; iter_all f it) s = Ok es s /\
    ht_drop nsz nal eb s = Ok tt s' /\
    (forall b bk, h_blk h0 !! b = Some bk -> h_blk (t_h s') !! b = Some bk) /\
    (forallb no_rewrite prog = true -> exists lost,
       all_given prog l ≡ₚ t_drops s ++ all_taken prog l ++ parts es ++ lost /\
       all_given prog l ≡ₚ t_drops s' ++ all_taken prog l ++ lost).
Proof.
  intros *. intros Hn Hl Hw Hs. destruct (run_post nsz nal eb chk ho eo Hn Hl h0 Hs prog (ht_new eb h0 []) [[]] 0) as (l & s & n & cs & RUN & R & A).
  { by apply W_new. }
  destruct (W_free nsz nal eb ho eo Hn Hl h0 Hs _ _ R) as (h' & FB & R').
  exists l, s, n, (map snd (concat cs)), (TState (t_arr s) (t_bc s) (t_ec s) (t_nr s) h' (t_drops s ++ dropped cs)).
  split; [done|]. split; [by apply (W_iter_all nsz nal eb ho eo Hl h0)|]. split; [exact FB|].
  split; [intros b bk Hb; rewrite <- Hb; apply (w_keep _ _ _ _ _ _ _ R' b); by rewrite Hb|]. intros NR. destruct (A NR) as (d & lost & D & P & _).
  cbn in D. exists lost. rewrite D. cbn in P. rewrite app_nil_r in P. split; [done|]. cbn [t_drops]. rewrite ?D, dropped_entries. rewrite P. solve_Permutation.
Qed.

Lemma L_C88_calm_hash :
forall (K V : Type) nsz nal eb chk (ho : nat -> K -> option Z) (eo : nat -> K -> K -> option bool) (h0 : heap (tcell K V)) (prog : list (hcall K V)) l s n,
  (0 < nsz)%Z -> layout_ok nsz nal = true -> heap_wf h0 -> static_ok eb h0 -> hash_calm ho ->
  a_run nsz nal eb chk ho eo prog (ht_new eb h0 [], 0) = Some (l, (s, n)) ->
  exists es,
    (do it <- iter; do f <- gets fuel; iter_all f it) s = Ok es s /\
    len s = Ok (Z.of_nat (length es)) s /\
    (forallb no_rewrite prog = true -> forallb no_closure prog = true -> all_given prog l ≡ₚ t_drops s ++ all_taken prog l ++ parts es).
Proof.
  intros *. intros Hn Hl Hw Hs Hc RUN. destruct (run_post nsz nal eb chk ho eo Hn Hl h0 Hs prog (ht_new eb h0 []) [[]] 0) as (l' & s' & n' & cs & RUN' & R & A).
  { by apply W_new. }
  rewrite RUN in RUN'. injection RUN' as <- <- <-. exists (map snd (concat cs)).
  split; [by apply (W_iter_all nsz nal eb ho eo Hl h0)|].
  split; [unfold len, gets; by rewrite (proj1 (w_total _ _ _ _ _ _ _ R Hc)), map_length|].
  intros NR NC. destruct (A NR) as (d & lost & D & P & T). rewrite (T Hc NC) in P. cbn in D, P. rewrite !app_nil_r in P. by rewrite D.
Qed.

Lemma L_C88_pure_functions :
forall (K V : Type) nsz nal eb chk (hash : K -> Z) (eqb : K -> K -> bool) (h0 : heap (tcell K V)) (prog : list (hcall K V)),
  (0 < nsz)%Z -> layout_ok nsz nal = true -> heap_wf h0 -> static_ok eb h0 ->
  exists l s n,
    a_run nsz nal eb chk (fun _ k => Some (hash k)) (fun _ a b => Some (eqb a b)) prog (ht_new eb h0 [], 0) = Some (l, (s, n)) /\
    h_run nsz nal eb chk hash eqb prog (ht_new eb h0 []) = Some (l, s).
Proof.
  intros *. intros Hn Hl Hw Hs. apply (run_agree nsz nal eb chk hash eqb Hn Hl h0 Hs prog _ [[]] 0). by apply (W_new nsz nal eb (p_ho hash) (p_eo eqb) Hl h0 Hs).
Qed.

Lemma L_C89_panicking_hash_refuted :
exists bad prog l s n,
  forallb no_rewrite prog = true /\ ax_run bad prog = Some (l, (s, n)) /\
  (do it <- iter; do f <- gets fuel; iter_all f it) s = Ok [(6, 6); (4, 4)]%Z s /\
  len s = Ok 6%Z s /\
  t_drops s = [inr 5; inl 5]%Z /\
  all_taken prog l = [] /\
  all_given prog l = parts [(0, 0); (1, 1); (2, 2); (3, 3); (4, 4); (5, 5); (6, 6)]%Z.
Proof.
  destruct (L_C88_any_functions Z Z 24 8 0 true (fun n k => if n =? 16 then None else Some (hx_hash k)) (fun _ a b => Some (a =? b)%Z) hx_heap (inserts 7)) as (l & s & n & es & _ & E & IT & _);
    [done|done|apply hx_heap_wf|done|].
  assert (C : match ax_run 16 (inserts 7) with
              | Some (l, (s, n)) =>
                  match (do it <- iter; do f <- gets fuel; iter_all f it) s with
                  | Ok es _ => (es, t_ec s, t_drops s, all_taken (inserts 7) l, all_given (inserts 7) l) = ([(6, 6); (4, 4)]%Z, 6%Z, [inr 5; inl 5]%Z, [], parts [(0, 0); (1, 1); (2, 2); (3, 3); (4, 4); (5, 5); (6, 6)]%Z)
                  | _ => False
                  end
              | None => False
              end) by (vm_compute; reflexivity).
  unfold ax_run in C. rewrite E, IT in C. injection C as Ces Cec Cd Ct Cg.
  exists 16, (inserts 7), l, s, n. split; [done|]. split; [exact E|]. split; [by rewrite IT, Ces|].
  split; [unfold len, gets; by rewrite Cec|]. split; [exact Cd|]. split; [exact Ct|exact Cg].
Qed.

Lemma L_C89_panicking_hash_partial :
forall (K V : Type) nsz nal eb chk (ho : nat -> K -> option Z) (eo : nat -> K -> K -> option bool) (h0 : heap (tcell K V)) (prog : list (hcall K V)) k v l s n s' n',
  (0 < nsz)%Z -> layout_ok nsz nal = true -> heap_wf h0 -> static_ok eb h0 ->
  a_run nsz nal eb chk ho eo prog (ht_new eb h0 [], 0) = Some (l, (s, n)) ->
  a_insert nsz nal eb chk ho eo k v (s, n) = Panic (s', n') ->
  exists es es' gone,
    (do it <- iter; do f <- gets fuel; iter_all f it) s = Ok es s /\
    (do it <- iter; do f <- gets fuel; iter_all f it) s' = Ok es' s' /\
    es ≡ₚ es' ++ gone /\ t_drops s' = t_drops s ++ [inr v; inl k] /\ (hash_calm ho -> gone = []).
Proof.
  intros *. intros Hn Hl Hw Hs RUN INS. destruct (run_post nsz nal eb chk ho eo Hn Hl h0 Hs prog (ht_new eb h0 []) [[]] 0) as (l1 & s1 & n1 & cs & RUN' & R & _).
  { by apply W_new. }
  rewrite RUN in RUN'. injection RUN' as <- <- <-.
  pose proof (insert_panics nsz nal eb chk ho eo Hn Hl h0 Hs s cs k v n R) as IP. rewrite INS in IP. destruct IP as (cs' & R' & (lost & P & T) & D).
  exists (map snd (concat cs)), (map snd (concat cs')), (map snd lost).
  split; [by apply (W_iter_all nsz nal eb ho eo Hl h0)|]. split; [by apply (W_iter_all nsz nal eb ho eo Hl h0)|].
  split; [by rewrite <- P, map_app|]. split; [done|]. intros C. by rewrite (T C).
Qed.
