(** Several hash tables in one memory, used in turn; two of them can be exchanged with
    [std::mem::swap].  All have the same key, value, hash and equality types, and they
    share the static array that tables without entries point to
    (src/internal/hash_table/mod.rs:25-30). *)
From Verif Require Import Base Heap Alloc HashTable.
Local Open Scope nat_scope.

(** A table object, mod.rs:36-47: the pointer to its buckets, their number, the number of
    entries, and the policy's next resize.  A place without a table has none. *)
Record htab : Type := HTab { hb_arr : ptr; hb_bc : Z; hb_ec : Z; hb_nr : Z }.
Record hworld (K V : Type) : Type := HWorld { hw_tabs : list (option htab); hw_heap : heap (tcell K V); hw_drops : list (K + V) }.
Arguments HWorld {K V}.
Arguments hw_tabs {K V}.
Arguments hw_heap {K V}.
Arguments hw_drops {K V}.

(** [TNew i] creates a table at place [i], [TCall i c] makes a call of the table there,
    [TDrop i] drops it, and [TSwap i j] is [mem::swap] of the tables at two places,
    which also stands for moving tables around. *)
Inductive hop (K V : Type) : Type :=
| TNew (i : nat) | TCall (i : nat) (c : hcall K V) | TDrop (i : nat) | TSwap (i j : nat).
Arguments TNew {K V}. Arguments TCall {K V}. Arguments TDrop {K V}. Arguments TSwap {K V}.

Section world.
Context {K V : Type}.
Variables (nsz nal : Z) (eb : nat) (chk : bool).
Variable hash : K -> Z.
Variable eqb : K -> K -> bool.

Definition the_table (w : hworld K V) (t : htab) : tstate K V :=
  TState (hb_arr t) (hb_bc t) (hb_ec t) (hb_nr t) (hw_heap w) (hw_drops w).
Definition back_at (w : hworld K V) (i : nat) (s : tstate K V) (alive : bool) : hworld K V :=
  HWorld (<[i := if alive then Some (HTab (t_arr s) (t_bc s) (t_ec s) (t_nr s)) else None]> (hw_tabs w)) (t_h s) (t_drops s).

(** The answer is [None] for a panic.  The result [None] stands for undefined
    behaviour, and for a use of a table that is not there, which Rust does not allow. *)
Definition hw_step (o : hop K V) (w : hworld K V) : option (option (hanswer K V) * hworld K V) :=
  match o with
  | TNew i =>
    match hw_tabs w !! i with
    | Some None => Some (Some HUnit, back_at w i (ht_new eb (hw_heap w) (hw_drops w)) true)
    | _ => None
    end
  | TCall i c =>
    match hw_tabs w !! i with
    | Some (Some t) =>
      match h_call nsz nal eb chk hash eqb c (the_table w t) with
      | Ok a s => Some (Some a, back_at w i s true)
      | Panic s => Some (None, back_at w i s true)
      | UB => None
      end
    | _ => None
    end
  | TDrop i =>
    match hw_tabs w !! i with
    | Some (Some t) =>
      match ht_drop nsz nal eb (the_table w t) with
      | Ok _ s => Some (Some HUnit, back_at w i s false)
      | Panic s => Some (None, back_at w i s false)
      | UB => None
      end
    | _ => None
    end
  | TSwap i j =>
    match hw_tabs w !! i, hw_tabs w !! j with
    | Some (Some t), Some (Some u) => Some (Some HUnit, HWorld (<[j := Some t]> (<[i := Some u]> (hw_tabs w))) (hw_heap w) (hw_drops w))
    | _, _ => None
    end
  end.

Fixpoint hw_run (os : list (hop K V)) (w : hworld K V) : option (list (option (hanswer K V)) * hworld K V) :=
  match os with
  | [] => Some ([], w)
  | o :: os' =>
    match hw_step o w with
    | Some (a, w') => match hw_run os' w' with Some (l, w'') => Some (a :: l, w'') | None => None end
    | None => None
    end
  end.

(** [n] places without tables. *)
Definition hw_start (n : nat) (h : heap (tcell K V)) : hworld K V := HWorld (replicate n None) h [].
End world.
