(** What the containers need from an allocator over the block heap, and that
    the default allocator provides it. *)
From Verif Require Import Base Heap HeapLemmas Alloc.

(** [as_fits n]: an array of [n] elements can be allocated.
    [as_layout n bk]: block [bk] has the layout of an [n]-element array.
    [as_pool a]: a block the allocator never frees (the inline buffer of a
    fixed container). *)
Record AllocSpec {A C : Type} (AI : AllocImpl A C) (sz al : Z) : Type := {
  as_fits : nat -> bool;
  as_pool : A -> option nat;
  as_layout : nat -> block C -> Prop;
  as_fits_bound : forall n, as_fits n = true -> (Z.of_nat n * sz <= isize_max)%Z;
  as_alloc_ok : forall a h n, 0 < n -> as_fits n = true ->
    exists bk tail,
      ai_alloc AI sz (Z.of_nat n * sz) al (a, h) = Ok (Ptr (h_next h) 0) (a, halloc h bk) /\
      bk_cells bk = replicate n None ++ tail /\ as_layout n bk;
  as_alloc_panic : forall a h n, 0 < n -> as_fits n = false ->
    (Z.of_nat n * sz < usize_lim)%Z ->
    ai_alloc AI sz (Z.of_nat n * sz) al (a, h) = Panic (a, h);
  as_free_own : forall a h b n bk, as_pool a <> Some b -> h_blk h !! b = Some bk ->
    as_layout n bk -> ai_free AI (Ptr b 0) (Z.of_nat n * sz) al (a, h) = Ok tt (a, hdel h b);
  as_free_pool : forall a h b n, as_pool a = Some b ->
    ai_free AI (Ptr b 0) (Z.of_nat n * sz) al (a, h) = Ok tt (a, h);
  as_layout_cells : forall n bk cs, as_layout n bk -> length cs = length (bk_cells bk) ->
    as_layout n (Block (bk_bytes bk) (bk_align bk) cs)
}.
Arguments as_fits {A C AI sz al}.
Arguments as_pool {A C AI sz al}.
Arguments as_layout {A C AI sz al}.
Arguments as_fits_bound {A C AI sz al}.
Arguments as_alloc_ok {A C AI sz al}.
Arguments as_alloc_panic {A C AI sz al}.
Arguments as_free_own {A C AI sz al}.
Arguments as_free_pool {A C AI sz al}.
Arguments as_layout_cells {A C AI sz al}.

(** Default allocator: arrays whose byte size, rounded up to the alignment,
    does not exceed [isize::MAX]. *)
Definition default_fits (sz al : Z) (n : nat) : bool :=
  (Z.of_nat n * sz <=? isize_max + 1 - al)%Z.

Definition DefaultSpec {C} (sz al : Z) (Hsz : (0 < sz)%Z) (Hal : (0 < al)%Z) :
  AllocSpec (DefaultAllocator C) sz al.
Proof.
  refine {|
    as_fits := default_fits sz al;
    as_pool := fun _ => None;
    as_layout := fun n bk =>
      bk_bytes bk = (Z.of_nat n * sz)%Z /\ bk_align bk = al /\ default_fits sz al n = true /\
      length (bk_cells bk) = n
  |}.
  - intros n E. unfold default_fits in E. lia.
  - intros a h n Hn F. unfold default_fits in F.
    exists (Block (Z.of_nat n * sz) al (replicate n None)), [].
    cbn. unfold default_alloc, layout_ok.
    destruct (Z.eqb_spec (Z.of_nat n * sz) 0); [nia|]. rewrite F.
    cbn. rewrite Z.div_mul by lia. rewrite Nat2Z.id, app_nil_r.
    unfold default_fits. repeat split; [done|]. apply replicate_length.
  - intros a h n Hn F B. unfold default_fits in F. cbn. unfold default_alloc, layout_ok.
    destruct (Z.eqb_spec (Z.of_nat n * sz) 0); [nia|]. by rewrite F.
  - intros a h b n bk _ E (EB & EA & F & _). cbn. unfold default_free, layout_ok.
    unfold default_fits in F. rewrite F. cbn. rewrite E, EB, EA, !Z.eqb_refl. done.
  - done.
  - intros n bk cs (? & ? & ? & <-) L. done.
Defined.
