(** Proofs of the properties stated in PrintStrProps.v. *)
From Verif Require Import Base Heap Alloc Vector VectorSpec Hash String StringSpec StringDerived Print PrintSpec.
Local Open Scope nat_scope.

From Verif Require Import PrintProofs.
From Verif Require ReadersProofs.

Lemma L_C102_string :
forall (chk : bool) (h : heap Z) (os : list sop) l ts i b,
  heap_wf h -> spec_sops string_fits os [] = Some (l, ts) -> chk = true \/ forallb o_modest os = true -> ts !! i = Some b ->
  exists w v, s_wrun' chk os (start h) = Some (l, w) /\ w_vecs w !! i = Some v /\
    let s := VState v (w_a w) (w_h w) (w_drops w) in
    string_display s = Ok (sp_bytes b) s /\
    exists t, string_debug s = Ok t s /\ between (lit """") (lit """") t = Some (sp_bytes b).
Proof.
  intros chk h os l ts i b H1 H2 H3 I. destruct (L_C14_string_is_a_byte_list chk h os l ts H1 H2 H3) as (w & E & _ & S).
  specialize (S i). rewrite I in S. unfold seen in S. destruct (w_vecs w !! i) as [v|] eqn:EV; [|done].
  exists w, v. split; [done|]. split; [done|]. cbn zeta in *. set (s := VState v (w_a w) (w_h w) (w_drops w)) in *.
  destruct (s_bytes s) as [bs s1|s1|] eqn:EB; [|done|done]. destruct (capacity 1 s) as [k s2|s2|] eqn:EC; [|done|done]. injection S as <-.
  assert (s1 = s) as ->.
  { pose proof (ReadersProofs.ro_as_slice (A := unit) (T := Z) 1 s) as Q. unfold s_bytes in EB. by rewrite EB in Q. }
  unfold string_display, string_debug, bind. rewrite EB. split; [done|]. eexists. split; [done|]. apply between_ok.
Qed.
