(** Facts about the block heap. *)
From Verif Require Import Base Heap.


Section heap.
Context {C : Type}.
Implicit Types h : heap C.

Lemma wf_fresh h : heap_wf h -> h_blk h !! h_next h = None.
Proof.
  intros W. destruct (h_blk h !! h_next h) eqn:E; [|done].
  specialize (W (h_next h) (ex_intro _ _ E)). lia.
Qed.

Lemma wf_halloc h bk : heap_wf h -> heap_wf (halloc h bk).
Proof.
  intros W b. cbn. destruct (decide (b = h_next h)) as [->|N].
  - lia.
  - rewrite lookup_insert_ne by done. intros Hb. specialize (W b Hb). lia.
Qed.

Lemma wf_hset h b bk : heap_wf h -> is_Some (h_blk h !! b) -> heap_wf (hset h b bk).
Proof.
  intros W Hb b'. cbn. destruct (decide (b' = b)) as [->|N].
  - intros _. by apply W.
  - rewrite lookup_insert_ne by done. apply W.
Qed.

Lemma wf_hdel h b : heap_wf h -> heap_wf (hdel h b).
Proof.
  intros W b'. cbn. destruct (decide (b' = b)) as [->|N].
  - rewrite lookup_delete. intros [? [=]].
  - rewrite lookup_delete_ne by done. apply W.
Qed.

Lemma cells_of_some h b bk : h_blk h !! b = Some bk -> cells_of h b = Some (bk_cells bk).
Proof. intros E. unfold cells_of. by rewrite E. Qed.

Lemma hadd_ok h b o n bk :
  h_blk h !! b = Some bk -> o + n <= length (bk_cells bk) -> hadd h (Ptr b o) n = Some (Ptr b (o + n)).
Proof.
  intros E L. unfold hadd. rewrite (cells_of_some _ _ _ E).
  by rewrite (proj2 (Nat.leb_le _ _) L).
Qed.

Lemma hsub_ok h b o n bk :
  h_blk h !! b = Some bk -> n <= o -> hsub h (Ptr b o) n = Some (Ptr b (o - n)).
Proof.
  intros E L. unfold hsub. rewrite (cells_of_some _ _ _ E).
  by rewrite (proj2 (Nat.leb_le _ _) L).
Qed.

Lemma pdiff_ok b o o' : o' <= o -> pdiff (Ptr b o) (Ptr b o') = Some (o - o').
Proof.
  intros L. unfold pdiff. rewrite Nat.eqb_refl.
  by rewrite (proj2 (Nat.leb_le _ _) L).
Qed.

Lemma hput_ok h b o vs bk :
  h_blk h !! b = Some bk -> o + length vs <= length (bk_cells bk) ->
  hput h (Ptr b o) vs =
    Some (hset h b (Block (bk_bytes bk) (bk_align bk)
            (take o (bk_cells bk) ++ vs ++ drop (o + length vs) (bk_cells bk)))).
Proof.
  intros E L. unfold hput. rewrite E. by rewrite (proj2 (Nat.leb_le _ _) L).
Qed.

Lemma hraw_ok h b o n bk :
  h_blk h !! b = Some bk -> o + n <= length (bk_cells bk) ->
  hraw h (Ptr b o) n = Some (take n (drop o (bk_cells bk))).
Proof.
  intros E L. unfold hraw. rewrite (cells_of_some _ _ _ E).
  by rewrite (proj2 (Nat.leb_le _ _) L).
Qed.

Lemma hload_ok h b o bk x :
  h_blk h !! b = Some bk -> bk_cells bk !! o = Some (Some x) -> hload h (Ptr b o) = Some x.
Proof.
  intros E L. unfold hload. rewrite (cells_of_some _ _ _ E). by rewrite L.
Qed.

Lemma mapM_id_Some (xs : list C) : mapM id (Some <$> xs) = Some xs.
Proof.
  induction xs as [|x xs IH]; [done|]. cbn. by rewrite IH.
Qed.

Lemma hslice_ok h b o bk xs :
  h_blk h !! b = Some bk -> o + length xs <= length (bk_cells bk) ->
  take (length xs) (drop o (bk_cells bk)) = Some <$> xs ->
  hslice h (Ptr b o) (length xs) = Some xs.
Proof.
  intros E L T. unfold hslice. rewrite (hraw_ok _ _ _ _ _ E L), T. apply mapM_id_Some.
Qed.

End heap.
