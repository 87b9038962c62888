(** Property theorems.  Each is closed by the lemma of the same content in
    HashAnyDerived.v; examples show the hypotheses can be met. *)
From Verif Require Import Base Heap HeapLemmas Alloc HashTable HashTableSpec HashAny HashAnySpec.
Local Open Scope nat_scope.
From Verif Require Import HashAnyDerived.

(** Whatever the hash function and the equality answer, whenever they panic: no call of
    any program is undefined, iterating and dropping the table afterwards are defined,
    memory that is not the table's is as before, and keys and values that were given
    were dropped once, handed out once, or neither ([lost]). *)
Theorem C88_any_functions :
forall (K V : Type) nsz nal eb chk (ho : nat -> K -> option Z) (eo : nat -> K -> K -> option bool) (h0 : heap (tcell K V)) (prog : list (hcall K V)),
  (0 < nsz)%Z -> layout_ok nsz nal = true -> heap_wf h0 -> static_ok eb h0 ->
  exists l s n es s',
    a_run nsz nal eb chk ho eo prog (ht_new eb h0 [], 0) = Some (l, (s, n)) /\
    (do it <- iter; do f <- gets fuel; iter_all f it) s = Ok es s /\
    ht_drop nsz nal eb s = Ok tt s' /\
    (forall b bk, h_blk h0 !! b = Some bk -> h_blk (t_h s') !! b = Some bk) /\
    (forallb no_rewrite prog = true -> exists lost,
       all_given prog l ≡ₚ t_drops s ++ all_taken prog l ++ parts es ++ lost /\
       all_given prog l ≡ₚ t_drops s' ++ all_taken prog l ++ lost).
Proof. exact L_C88_any_functions. Qed.
Print Assumptions C88_any_functions.

(** A hash function that ignores the key and an equality that lies and panics. *)
Example C88_any_functions_case :
  option_map fst (ax_odd (inserts 6 ++ [HGet 3%Z; HRemove 3%Z; HLen; HIter]))
  = Some [Some (HVal None); Some (HVal None); Some (HVal None); Some (HVal (Some 2%Z)); Some (HVal (Some 0%Z)); None;
     Some (HPair (Some (1%Z, 1%Z))); None; Some (HNat 3); Some (HPairs [(2%Z, 3%Z); (0%Z, 4%Z); (1%Z, 1%Z)])].
Proof. vm_compute. reflexivity. Qed.

(** If the hash function never panics, nothing is lost however the equality behaves, and
    [len] is the number of entries that iterating yields. *)
Theorem C88_calm_hash :
forall (K V : Type) nsz nal eb chk (ho : nat -> K -> option Z) (eo : nat -> K -> K -> option bool) (h0 : heap (tcell K V)) (prog : list (hcall K V)) l s n,
  (0 < nsz)%Z -> layout_ok nsz nal = true -> heap_wf h0 -> static_ok eb h0 -> hash_calm ho ->
  a_run nsz nal eb chk ho eo prog (ht_new eb h0 [], 0) = Some (l, (s, n)) ->
  exists es,
    (do it <- iter; do f <- gets fuel; iter_all f it) s = Ok es s /\
    len s = Ok (Z.of_nat (length es)) s /\
    (forallb no_rewrite prog = true -> forallb no_closure prog = true -> all_given prog l ≡ₚ t_drops s ++ all_taken prog l ++ parts es).
Proof. exact L_C88_calm_hash. Qed.
Print Assumptions C88_calm_hash.

Example C88_calm_hash_case :
  option_map (fun r => t_ec (fst (snd r))) (ax_odd (inserts 6 ++ [HGet 3%Z; HRemove 3%Z; HLen; HIter]))
  = Some 3%Z.
Proof. vm_compute. reflexivity. Qed.

(** With a hash function and an equality that are pure, this table and that of the
    other theorems are the same. *)
Theorem C88_pure_functions :
forall (K V : Type) nsz nal eb chk (hash : K -> Z) (eqb : K -> K -> bool) (h0 : heap (tcell K V)) (prog : list (hcall K V)),
  (0 < nsz)%Z -> layout_ok nsz nal = true -> heap_wf h0 -> static_ok eb h0 ->
  exists l s n,
    a_run nsz nal eb chk (fun _ k => Some (hash k)) (fun _ a b => Some (eqb a b)) prog (ht_new eb h0 [], 0) = Some (l, (s, n)) /\
    h_run nsz nal eb chk hash eqb prog (ht_new eb h0 []) = Some (l, s).
Proof. exact L_C88_pure_functions. Qed.
Print Assumptions C88_pure_functions.

(** No evaluation of the hash function is the 1000th. *)
Example C88_pure_functions_case :
  option_map fst (ax_run 1000%nat (inserts 7 ++ [HIter])) = option_map fst (hx_run (inserts 7 ++ [HIter])).
Proof. vm_compute. reflexivity. Qed.

(** The hash function panics once, while the sixth of seven keys is inserted and the
    table grows: four keys inserted earlier are gone without having been dropped, and
    [len] is wrong from then on. *)
Theorem C89_panicking_hash_refuted :
exists bad prog l s n,
  forallb no_rewrite prog = true /\ ax_run bad prog = Some (l, (s, n)) /\
  (do it <- iter; do f <- gets fuel; iter_all f it) s = Ok [(6, 6); (4, 4)]%Z s /\
  len s = Ok 6%Z s /\
  t_drops s = [inr 5; inl 5]%Z /\
  all_taken prog l = [] /\
  all_given prog l = parts [(0, 0); (1, 1); (2, 2); (3, 3); (4, 4); (5, 5); (6, 6)]%Z.
Proof. exact L_C89_panicking_hash_refuted. Qed.
Print Assumptions C89_panicking_hash_refuted.

(** What is true: the table keeps working, and the entries it yields after a panic of
    the hash function in [insert] are among those before. *)
Theorem C89_panicking_hash_partial :
forall (K V : Type) nsz nal eb chk (ho : nat -> K -> option Z) (eo : nat -> K -> K -> option bool) (h0 : heap (tcell K V)) (prog : list (hcall K V)) k v l s n s' n',
  (0 < nsz)%Z -> layout_ok nsz nal = true -> heap_wf h0 -> static_ok eb h0 ->
  a_run nsz nal eb chk ho eo prog (ht_new eb h0 [], 0) = Some (l, (s, n)) ->
  a_insert nsz nal eb chk ho eo k v (s, n) = Panic (s', n') ->
  exists es es' gone,
    (do it <- iter; do f <- gets fuel; iter_all f it) s = Ok es s /\
    (do it <- iter; do f <- gets fuel; iter_all f it) s' = Ok es' s' /\
    es ≡ₚ es' ++ gone /\ t_drops s' = t_drops s ++ [inr v; inl k] /\ (hash_calm ho -> gone = []).
Proof. exact L_C89_panicking_hash_partial. Qed.
Print Assumptions C89_panicking_hash_partial.

Example C89_panicking_hash_partial_case :
  match ax_run 16 (inserts 5) with
  | Some (_, sn) => is_panic (a_insert 24 8 0 true (fun n k => if n =? 16 then None else Some (hx_hash k)) (fun _ a b => Some (a =? b)%Z) 5%Z 5%Z sn)
  | None => false
  end = true.
Proof. vm_compute. reflexivity. Qed.
