(** What the calls on a tree may do when the comparator answers anything: the answer
    ([None] is a panic), what is dropped, and the entries before and after. *)
From Verif Require Import Base Alloc AddrMem LinkedList LinkedListSpec RBTree RBTreeSpec TreeAny.
Local Open Scope Z_scope.

Section spec.
Context {K V : Type}.
Implicit Types es : list (K * V).

(** The value of one entry was replaced. *)
Definition value_replaced (v old : V) es es' : Prop :=
  exists l1 k l2, es = l1 ++ (k, old) :: l2 /\ es' = l1 ++ (k, v) :: l2.

Definition t_edited (c : tcall K V) (a : option (tanswer K V)) (dropped : list (K + V)) es es' : Prop :=
  match c with
  | TGet _ => es' = es /\ dropped = [] /\
      (a = None \/ a = Some (TVal None) \/ exists k v, In (k, v) es /\ a = Some (TVal (Some v)))
  | TContains _ => es' = es /\ dropped = [] /\
      (a = None \/ a = Some (TBool false) \/ es <> [] /\ a = Some (TBool true))
  | TGetMut _ v =>
      (a = None \/ a = Some (TBool false)) /\ es' = es /\ dropped = [inr v] \/
      a = Some (TBool true) /\ exists old, value_replaced v old es es' /\ dropped = [inr old]
  | c => (a, dropped, es') = tspec_call (fun _ _ => false) c es
  end.
(** A program: the answers and the drops call by call. *)
Inductive t_edits : list (tcall K V) -> list (option (tanswer K V)) -> list (list (K + V)) -> list (K * V) -> list (K * V) -> Prop :=
| t_edits_nil es : t_edits [] [] [] es es
| t_edits_cons c cs a l d ds es es1 es2 :
    t_edited c a d es es1 -> t_edits cs l ds es1 es2 -> t_edits (c :: cs) (a :: l) (d :: ds) es es2.
End spec.

(** For examples: at every third evaluation the comparator answers yes, whatever the
    keys, and it panics at every ninth. *)
Definition tx_odd (prog : list (tcall Z Z)) : option (list (option (tanswer Z Z)) * tastate unit Z Z) :=
  ta_run 40 (fun n _ _ => if (n mod 9 =? 8)%nat then None else Some (n mod 3 =? 0)%nat) prog (rx_state 2048 2176, O).
