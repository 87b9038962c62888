(** Property theorems.  Each is closed by the lemma of the same content in
    HashDepthDerived.v; examples show the hypotheses can be met. *)
From Verif Require Import Base Heap Alloc RehashPolicy HashTable HashTableSpec HashDepth.
Local Open Scope nat_scope.
From Verif Require Import HashDepthDerived.

(** C99, the counting functions.  The functions that count nested calls do to the table
    exactly what [clear] (before it resets the length) and [drop] do. *)
Theorem C99_counting_is_faithful :
forall (K V : Type) nsz nal (eb : nat) (s : tstate K V),
  match free_buckets_depth nsz nal eb s with Ok _ s' => Ok tt s' | Panic s' => Panic s' | UB => UB end = ht_drop nsz nal eb s.
Proof. exact L_C99_counting_is_faithful. Qed.
Print Assumptions C99_counting_is_faithful.

(** C99, hash tables.  Dropping (or clearing) a table nests as many calls of the freeing
    function as there are entries in the fullest bucket: no bucket holds more entries than
    that, and some bucket holds that many.  So never more than the number of entries.
    Missing: nothing better than the number of entries holds, see
    [C99_table_drop_depth_refuted]. *)
Theorem C99_table_drop_depth_partial :
forall (K V : Type) nsz nal eb chk hash eqb (h0 : heap (tcell K V)), Setup nsz nal eb hash eqb h0 ->
  forall prog l s a dr m, built nsz nal eb chk hash eqb h0 prog l s -> spec_run eqb prog [] = (a, dr, m) ->
  let crowd i := length (List.filter (fun e => (hash (fst e) mod t_bc s =? i)%Z) m) in
  exists d s', free_buckets_depth nsz nal eb s = Ok d s' /\ d <= length m /\
    (forall i, crowd i <= d) /\ (d = 0 \/ exists i, crowd i = d).
Proof. exact L_C99_table_drop_depth_partial. Qed.
Print Assumptions C99_table_drop_depth_partial.

Example C99_table_drop_depth_partial_case :
  let prog := [HInsert 1 10; HInsert (2 ^ 32 + 1) 20; HInsert 5 30; HInsert (2 ^ 33 + 1) 40]%Z in
  match hx_run prog with
  | Some (_, s) => t_ec s = 4%Z /\ val (free_buckets_depth 24 8 0 s) = Some 3
  | None => False
  end.
Proof. by vm_compute. Qed.

(** C99, hash tables.  For every [n] the table can hold there are [n] distinct 64-bit
    integer keys such that dropping the table of these keys, with the crate's own integer
    hash, nests [n] calls. *)
Theorem C99_table_drop_depth_refuted :
forall chk n, (Z.of_nat n <= 2557710464)%Z ->
  exists (keys : list Z) l (s s' : tstate Z Z), length keys = n /\ NoDup keys /\ Forall (fun k => 0 <= k < 2 ^ 64)%Z keys /\
    built 24 8 0 chk hx_hash Z.eqb hx_heap (map (fun k => HInsert k k) keys) l s /\
    t_ec s = Z.of_nat n /\ free_buckets_depth 24 8 0 s = Ok n s'.
Proof. exact L_C99_table_drop_depth_refuted. Qed.
Print Assumptions C99_table_drop_depth_refuted.

Example C99_table_drop_depth_refuted_case :
  match hx_run (map (fun k => HInsert k k) [2 ^ 32; 2 ^ 33; 3 * 2 ^ 32; 2 ^ 34; 0]%Z) with
  | Some (_, s) => val (free_buckets_depth 24 8 0 s) = Some 5
  | None => False
  end.
Proof. by vm_compute. Qed.
