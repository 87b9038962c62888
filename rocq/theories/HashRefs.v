(** The references that hash tables make, checked when they are made, against rules that Rust has for references
    even if nothing is read or written through them:
    - [hr_static]: no mutable reference to the static array that all empty tables share, which is
      read-only (src/internal/hash_table/mod.rs:49 and 171);
    - [hr_reach]: a pointer made from a reference to one slot is used for that slot only
      (Stacked Borrows; [buckets_imut] and [buckets_mut], mod.rs:267-282);
    - [hr_held]: a function does not free what one of its own reference arguments
      refers to (Stacked and Tree Borrows; [free_bucket], mod.rs:322-332).
    Simplifications: each check is made at the start of the function that makes the reference; the other
    references that tables make (to nodes, and to new arrays) are not checked. *)
From Verif Require Import Base Heap Alloc HashTable.

Record hrules : Type := HRules { hr_static : bool; hr_reach : bool; hr_held : bool }.

Section refs.
Context {K V : Type}.
Variables nsz nal : Z.
Variable eb : nat.
Variable chk : bool.
Variable hash : K -> Z.
Variable eqb : K -> K -> bool.
Variable R : hrules.

Local Notation tstate := (tstate K V).

(** Does the table use the static array? *)
Definition on_static (s : tstate) : bool := bool_decide (t_arr s = Ptr eb 0).

(** mod.rs:276-282, [buckets_mut]: may the slice be made? *)
Definition buckets_mut_ok (s : tstate) : bool :=
  negb (hr_static R && on_static s) && negb (hr_reach R && (1 <? t_bc s)%Z).

(** mod.rs:267-273, [buckets_imut]. *)
Definition buckets_imut_ok (s : tstate) : bool := negb (hr_reach R && (1 <? t_bc s)%Z).

Definition allowed (ok : tstate -> bool) : M tstate unit := do s <- gets id; if ok s then ret tt else ub.

(** mod.rs:335-348, [free_buckets]: [free_bucket] frees its argument. *)
Definition free_buckets_r : M tstate unit :=
  do s <- gets id;
  if (1 <? t_bc s)%Z then
    let n := Z.to_nat (t_bc s) in
    run for_each (seq 0 n) (fun i =>
      do slot <- or_ub (hadd (t_h s) (t_arr s) i);
      do p <- read_slot slot;
      if is_null p then ret tt
      else if hr_held R then ub
      else do f <- gets fuel; free_bucket nsz nal f p);
    for_each (seq 0 n) (fun i =>
      do slot <- or_ub (hadd (t_h s) (t_arr s) i);
      write_slot eb slot Null)
  else ret tt.

(** mod.rs:388-418, [rehash], which takes the old buckets by [buckets_mut] (400).  The buckets are empty when it calls
    [free_buckets] (415), so no node is freed. *)
Definition rehash_r (bc : Z) : M tstate unit :=
  run allowed buckets_mut_ok; rehash nsz nal eb chk hash bc.

(** mod.rs:357-381, [insert_impl]. *)
Definition insert_impl_r (target : ptr) (k : K) (v : V) : M tstate ptr :=
  do tn <- on_unwind (logged [inr v; inl k]) (
    do o <- rehash_required chk;
    do target <- match o with
                 | Some bc => run rehash_r bc; bucket_for_key_mut hash k
                 | None => ret target
                 end;
    do node <- allocate nsz nal 1;
    ret (target, node));
  let '(target, node) := tn in
  do nx <- read_slot target;
  run store eb node (TNode k v nx);
  run write_slot eb target node;
  do s <- gets id;
  do ec <- u32 chk (t_ec s + 1);
  run set_ec ec;
  ret node.

(** mod.rs:122-133, [insert]. *)
Definition insert_r (k : K) (v : V) : M tstate (option V) :=
  do target <- on_unwind (logged [inr v; inl k]) (bucket_for_key_mut hash k);
  do o <- find_from eqb target k;
  match o with
  | Some p =>
    do n <- node_at p;
    let '(k0, old, nx) := n in
    run store eb p (TNode k0 v nx);
    run drop_all [inl k];
    ret (Some old)
  | None => run insert_impl_r target k v; ret None
  end.

(** mod.rs:80-93, [entry]: a vacant one holds a mutable reference to the slot (89). *)
Definition entry_r (k : K) : M tstate (ptr + ptr * K) :=
  do target <- on_unwind (logged [inl k]) (bucket_for_key_mut hash k);
  do o <- find_from eqb target k;
  match o with
  | Some p => run drop_all [inl k]; ret (inl p)
  | None => run allowed (fun s => negb (hr_static R && on_static s)); ret (inr (target, k))
  end.

(** entry.rs:50-61, [or_insert_with]. *)
Definition or_insert_with_r (e : ptr + ptr * K) (dflt : V) : M tstate (bool * V) :=
  match e with
  | inl p => do n <- node_at p; let '(k, v, nx) := n in ret (false, v)
  | inr (target, k) =>
    do p <- insert_impl_r target k dflt;
    do n <- node_at p;
    let '(k, v, nx) := n in ret (true, v)
  end.

(** entry.rs:41-43, [or_insert]. *)
Definition or_insert_r (e : ptr + ptr * K) (dflt : V) : M tstate V :=
  do r <- or_insert_with_r e dflt;
  if! negb (fst r) then drop_all [inr dflt];
  ret (snd r).

(** mod.rs:80-93 and entry.rs:28-34, [entry(k)], then [and_modify(f)] if wanted. *)
Definition entry_mod_r (k : K) (f : option (V -> V)) : M tstate (ptr + ptr * K) :=
  do e <- entry_r k;
  run match f with Some f => and_modify eb e f | None => ret tt end;
  ret e.

(** mod.rs:63-66, [clear]. *)
Definition clear_r : M tstate unit := run free_buckets_r; set_ec 0.

(** mod.rs:431-435, [Drop]. *)
Definition ht_drop_r : M tstate unit := free_buckets_r.

(** mod.rs:437-449, the loop of [FromIterator]. *)
Fixpoint insert_all_r (kvs : list (K * V)) : M tstate unit :=
  match kvs with
  | [] => ret tt
  | (k, v) :: kvs' =>
    do o <- on_unwind (logged (pair_parts kvs')) (insert_r k v);
    run match o with Some old => drop_all [inr old] | None => ret tt end;
    insert_all_r kvs'
  end.

(** mod.rs:142-151, [iter] and [iter_mut]. *)
Definition iter_r : M tstate raw_iter := run allowed buckets_imut_ok; iter.

(** One call of a method of [HashMap] (hash_map/mod.rs:44-144). *)
Definition h_call_r (c : hcall K V) : M tstate (hanswer K V) :=
  match c with
  | HInsert k v => do o <- insert_r k v; ret (HVal o)
  | HEntryOr k f v =>
    do e <- entry_mod_r k f;
    do v <- or_insert_r e v; ret (HRef true v)
  | HEntryWith k f v => do e <- entry_mod_r k f; do r <- or_insert_with_r e v; ret (HRef (fst r) (snd r))
  | HEntryDrop k f => do e <- entry_mod_r k f; run drop_entry e; ret (HBool (match e with inl _ => true | inr _ => false end))
  | HExtend kvs => run insert_all_r kvs; ret HUnit
  | HClear => run clear_r; ret HUnit
  | HIter => do it <- iter_r; do f <- gets fuel; do l <- iter_all f it; ret (HPairs l)
  | HIterMut g => do it <- iter_r; do f <- gets fuel; do l <- iter_mut_all eb f g it; ret (HPairs l)
  | _ => h_call nsz nal eb chk hash eqb c
  end.

(** A program (as [h_run] in HashTable.v; hash_map/mod.rs:44-144); [None]: a reference that breaks a rule, or other undefined behaviour. *)
Fixpoint h_run_r (cs : list (hcall K V)) (s : tstate) : option (list (option (hanswer K V)) * tstate) :=
  match cs with
  | [] => Some ([], s)
  | c :: cs' =>
    match h_call_r c s with
    | UB => None
    | Ok a s' => match h_run_r cs' s' with Some (l, s'') => Some (Some a :: l, s'') | None => None end
    | Panic s' => match h_run_r cs' s' with Some (l, s'') => Some (None :: l, s'') | None => None end
    end
  end.

End refs.
