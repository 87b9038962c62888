(** Property theorems.  Each is closed by the lemma of the same content in
    LookupHashDerived.v; examples show the hypotheses can be met. *)
From Verif Require Import Base Heap Alloc HashTable HashTableSpec HashAny HashAnySpec.
Local Open Scope nat_scope.
From Verif Require Import LookupHashDerived.



(** * C115, hash maps and sets

    The hash function and the equality are pure; the second part of a state is the number
    of times either was evaluated so far. *)
From Verif Require Import LookupHashSpec.

(** C115: a call that looks up a key evaluates the hash function once and the equality
    once for each entry of the key's bucket, up to the key itself; the entries of a bucket
    are those whose hash has the same remainder by the number of buckets.  A call that
    makes the table grow evaluates the hash once more for each entry and once for
    the key.  None of them is undefined. *)
Theorem C115_hash_lookup :
forall (K V : Type) nsz nal eb chk (hash : K -> Z) (eqb : K -> K -> bool) (h0 : heap (tcell K V)) (prog : list (hcall K V)) (c : hcall K V) (k : K) l s n,
  Setup nsz nal eb hash eqb h0 -> seeks c = Some k ->
  a_run nsz nal eb chk (fun _ k => Some (hash k)) (fun _ a b => Some (eqb a b)) prog (ht_new eb h0 [], 0) = Some (l, (s, n)) ->
  exists es s' n',
    (do it <- iter; do f <- gets fuel; iter_all f it) s = Ok es s /\
    after (a_call nsz nal eb chk (fun _ k => Some (hash k)) (fun _ a b => Some (eqb a b)) c (s, n)) = Some (s', n') /\
    n' = n + 1 + seen eqb k (beside hash (t_bc s) k es) + (if (t_bc s' =? t_bc s)%Z then 0 else length es + 1).
Proof. exact L_C115_hash_lookup. Qed.
Print Assumptions C115_hash_lookup.

(** Five keys with the same hash share a bucket.  Finding the first of them takes one hash
    and four comparisons; inserting a sixth one hash, five comparisons and, as the
    table grows, six more hashes. *)
Example C115_hash_lookup_case :
  let hash := fun _ : Z => 3%Z in
  let count cs := option_map (fun r => snd (snd r))
     (a_run 24 8 0 true (fun _ k => Some (hash k)) (fun _ a b => Some (a =? b)%Z) cs (ht_new 0 (hx_heap (V := Z)) [], 0)) in
  Setup 24 8 0 hash Z.eqb (hx_heap (V := Z)) /\
  (count (inserts 5), count (inserts 5 ++ [HGet 0%Z]), count (inserts 5 ++ [HGet 0%Z; HInsert 5%Z 5%Z])) = (Some 19, Some 24, Some 36).
Proof. split; [|by vm_compute]. destruct (HashTableDerived.hx_setup Z) as [H1 H2 _ H4 H5]. split; try done. split; intros; lia. Qed.
