(** Property theorems.  Each is closed by the lemma of the same content in
    PrintStrDerived.v; examples show the hypotheses can be met. *)
From Verif Require Import Base Heap Alloc Vector VectorSpec Hash String StringSpec StringDerived Print PrintSpec.
Local Open Scope nat_scope.
From Verif Require Import PrintStrDerived.

(** C102, strings.  After any program each string displays as its bytes, and its debug form
    is those bytes between quotes. *)
Theorem C102_string :
forall (chk : bool) (h : heap Z) (os : list sop) l ts i b,
  heap_wf h -> spec_sops string_fits os [] = Some (l, ts) -> chk = true \/ forallb o_modest os = true -> ts !! i = Some b ->
  exists w v, s_wrun' chk os (start h) = Some (l, w) /\ w_vecs w !! i = Some v /\
    let s := VState v (w_a w) (w_h w) (w_drops w) in
    string_display s = Ok (sp_bytes b) s /\
    exists t, string_debug s = Ok t s /\ between (lit """") (lit """") t = Some (sp_bytes b).
Proof. exact L_C102_string. Qed.
Print Assumptions C102_string.

Example C102_string_case :
  match s_wrun' true [OFrom (lit "ab"); OCall 0 (SPush 99)]%Z (start (Heap 0 ∅)) with
  | Some (_, w) => match w_vecs w with
    | [v] => val (string_debug (VState v (w_a w) (w_h w) (w_drops w))) = Some (lit """abc""") /\
             val (string_display (VState v (w_a w) (w_h w) (w_drops w))) = Some (lit "abc")
    | _ => False
    end
  | None => False
  end.
Proof. by vm_compute. Qed.
