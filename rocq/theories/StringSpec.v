(** Independent specification of [String]: a byte list, a capacity, and the
    byte found just behind the contents (in C terms, where the NUL should be). *)
From Verif Require Import Base Vector VectorSpec String Hash.
#[local] Open Scope Z_scope.

(** [sp_mark = None]: nothing readable there (no buffer, or uninitialised). *)
Record sstr : Type := SStr { sp_bytes : list Z; sp_room : nat; sp_mark : option Z }.

Section spec.
Variable fits : nat -> bool.

Definition grow_to (k : nat) (s : sstr) (ok : sanswer * sstr) : sanswer * sstr :=
  if (Nat.eqb k (sp_room s)) || fits k then ok else (SPanic, s).

(** Doubling when full. *)
Definition one_more (s : sstr) : nat :=
  if Nat.eqb (length (sp_bytes s)) (sp_room s)
  then (if Nat.eqb (sp_room s) 0 then 1%nat else (2 * sp_room s)%nat)
  else sp_room s.

Definition spec_scall (c : scall) (s : sstr) : sanswer * sstr :=
  let bs := sp_bytes s in
  let k := sp_room s in
  match c with
  | SPush c => let k' := one_more s in grow_to k' s (SUnit, SStr (bs ++ [c mod 256]) k' (Some 0))
  | SInsert i c =>
    if (i <=? length bs)%nat
    then let k' := one_more s in
         grow_to k' s (SUnit, SStr (take i bs ++ c mod 256 :: drop i bs) k' (Some 0))
    else (SPanic, s)
  | SPop => (SChar (last bs), SStr (removelast bs) k (if Nat.eqb k 0 then None else Some 0))
  | SRemove i =>
    match bs !! i with
    | Some b => (SChar (Some b), SStr (take i bs ++ drop (S i) bs) k (last bs))
    | None => (SChar None, s)
    end
  | SReserve n => let k' := (k + n + 1)%nat in grow_to k' s (SUnit, SStr bs k' None)
  | SAssign buf =>
    let k' := (k + length buf + 1)%nat in grow_to k' s (SUnit, SStr (bs ++ buf) k' (Some 0))
  | SDrop => (SUnit, SStr [] 0 None)
  | SLen => (SNat (length bs), s)
  | SCapacity => (SNat k, s)
  | SIsEmpty => (SBool (Nat.eqb (length bs) 0), s)
  | SIsFull => (SBool (Nat.eqb (length bs) k), s)
  | SBytes => (SByteList bs, s)
  | SHash => (SHashed (fnv1 bs), s)
  end.

Fixpoint spec_srun (cs : list scall) (s : sstr) : list sanswer * sstr :=
  match cs with
  | [] => ([], s)
  | c :: cs' =>
    match spec_scall c s with
    | (a, s') => match spec_srun cs' s' with (l, s'') => (a :: l, s'') end
    end
  end.

Definition new_str : sstr := SStr [] 0 None.

Definition spec_new (ok : bool) (s : sstr) (ss : list sstr) : option (sanswer * list sstr) :=
  if ok then Some (SUnit, ss ++ [s]) else Some (SPanic, ss).

Definition spec_sop (o : sop) (ss : list sstr) : option (sanswer * list sstr) :=
  match o with
  | ONew => spec_new true new_str ss
  | OWithCapacity n => spec_new (Nat.eqb n 0 || fits n) (SStr [] n None) ss
  | OFrom buf => let k := (length buf + 1)%nat in spec_new (fits k) (SStr buf k (Some 0)) ss
  | OClone i =>
    match ss !! i with
    | Some s => let k := length (sp_bytes s) in
                spec_new (Nat.eqb k 0 || fits k)
                  (SStr (sp_bytes s) k (if Nat.eqb k 0 then None else Some 0)) ss
    | None => None
    end
  | OEq i j =>
    match ss !! i, ss !! j with
    | Some s, Some t => Some (SBool (bool_decide (sp_bytes s = sp_bytes t)), ss)
    | _, _ => None
    end
  | OCall i c =>
    match ss !! i with
    | Some s => match spec_scall c s with (a, s') => Some (a, <[i := s']> ss) end
    | None => None
    end
  end.

Fixpoint spec_sops (os : list sop) (ss : list sstr) : option (list sanswer * list sstr) :=
  match os with
  | [] => Some ([], ss)
  | o :: os' =>
    match spec_sop o ss with
    | None => None
    | Some (a, ss') =>
      match spec_sops os' ss' with
      | None => None
      | Some (l, ss'') => Some (a :: l, ss'')
      end
    end
  end.
End spec.

(** How many bytes a call asks to add room for, beside the doubling when full, and
    whether they are within [isize::MAX].  Only an explicit capacity can fail that. *)
Definition s_named (c : scall) : nat :=
  match c with
  | SReserve n => n + 1
  | SAssign buf => length buf + 1
  | _ => 0
  end.
Definition s_modest (c : scall) : bool := Z.of_nat (s_named c) <=? isize_max.
Definition o_modest (o : sop) : bool :=
  match o with
  | OWithCapacity n => Z.of_nat n <=? isize_max
  | OFrom buf => s_modest (SAssign buf)
  | OCall _ c => s_modest c
  | _ => true
  end.

(** Largest capacity of a string: one more byte is allocated than asked for. *)
Definition string_fits (n : nat) : bool := Z.of_nat n + 1 <=? isize_max.

(** ** UTF-8 (independent of the model) *)
Definition scalar (c : Z) : Prop := 0 <= c < 55296 \/ 57344 <= c < 1114112.

Definition utf8_encode (c : Z) : list Z :=
  if c <? 128 then [c]
  else if c <? 2048 then [192 + c / 64; 128 + c mod 64]
  else if c <? 65536 then [224 + c / 4096; 128 + (c / 64) mod 64; 128 + c mod 64]
  else [240 + c / 262144; 128 + (c / 4096) mod 64; 128 + (c / 64) mod 64; 128 + c mod 64].

Definition utf8 (bs : list Z) : Prop :=
  exists cs, Forall scalar cs /\ bs = concat (map utf8_encode cs).
