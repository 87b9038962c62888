(** Property theorems.  Each is closed by the lemma of the same content in
    HashFreshDerived.v; examples show the hypotheses can be met. *)
From Verif Require Import Base Heap Alloc HashTable HashTableSpec HashFresh.
Local Open Scope nat_scope.
From Verif Require Import HashFreshDerived.

(** C128.  Whatever has been done with a hash table, a program all of whose calls answer keeps the rule exactly when
    the table has the same array of buckets after it. *)
Theorem C128_programs_partial :
forall (K V : Type) (nsz nal : Z) (eb : nat) (chk : bool) (hash : K -> Z) (eqb : K -> K -> bool) (h0 : heap (tcell K V))
    (before cs : list (hcall K V)) (l0 l : list (option (hanswer K V))) (s s' : tstate K V),
  Setup nsz nal eb hash eqb h0 -> built nsz nal eb chk hash eqb h0 before l0 s ->
  h_run nsz nal eb chk hash eqb cs s = Some (l, s') -> None ∉ l ->
  (t_arr s' = t_arr s -> h_run_i nsz nal eb chk hash eqb cs s = Some (l, s')) /\
  (t_arr s' <> t_arr s -> h_run_i nsz nal eb chk hash eqb cs s = None).
Proof. exact L_C128_programs_partial. Qed.
Print Assumptions C128_programs_partial.

(** C128, new tables: a program all of whose calls answer keeps the rule exactly when no key is handed to the table. *)
Theorem C128_new_partial :
forall (K V : Type) (nsz nal : Z) (eb : nat) (chk : bool) (hash : K -> Z) (eqb : K -> K -> bool) (h0 : heap (tcell K V))
    (cs : list (hcall K V)) (l : list (option (hanswer K V))) (s : tstate K V),
  Setup nsz nal eb hash eqb h0 -> built nsz nal eb chk hash eqb h0 cs l s -> None ∉ l ->
  (keys_given cs = 0 -> h_run_i nsz nal eb chk hash eqb cs (ht_new eb h0 []) = Some (l, s)) /\
  (keys_given cs <> 0 -> h_run_i nsz nal eb chk hash eqb cs (ht_new eb h0 []) = None).
Proof. exact L_C128_new_partial. Qed.
Print Assumptions C128_new_partial.

(** C128, sets, in the same way. *)
Theorem C128_sets_partial :
forall (K : Type) (nsz nal : Z) (eb : nat) (chk : bool) (hash : K -> Z) (eqb : K -> K -> bool) (h0 : heap (tcell K unit))
    (before cs : list (scall K)) (l0 l : list (option (sanswer K))) (s s' : tstate K unit),
  Setup nsz nal eb hash eqb h0 -> set_run nsz nal eb chk hash eqb before (ht_new eb h0 []) = Some (l0, s) ->
  set_run nsz nal eb chk hash eqb cs s = Some (l, s') -> None ∉ l ->
  (t_arr s' = t_arr s -> set_run_i nsz nal eb chk hash eqb cs s = Some (l, s')) /\
  (t_arr s' <> t_arr s -> set_run_i nsz nal eb chk hash eqb cs s = None).
Proof. exact L_C128_sets_partial. Qed.
Print Assumptions C128_sets_partial.

(** C128 is false: inserting a key into a new table makes a slice of buckets that were never written. *)
Theorem C128_slices_refuted :
exists (cs : list (hcall Z Z)) (l : list (option (hanswer Z Z))) (s : tstate Z Z),
  Setup 24 8 0 hx_hash Z.eqb (hx_heap (V := Z)) /\ built 24 8 0 true hx_hash Z.eqb hx_heap cs l s /\ None ∉ l /\
  h_run_i 24 8 0 true hx_hash Z.eqb cs (ht_new 0 hx_heap []) = None.
Proof. exact L_C128_slices_refuted. Qed.
Print Assumptions C128_slices_refuted.

(** Programs: reading a new table keeps the rule, putting a key into it does not; afterwards keys
    can be put into it until it has to grow. *)
Example C128_example :
  let t cs := match h_run_i 24 8 0 true hx_hash Z.eqb cs (ht_new 0 hx_heap []) with Some (l, _) => Some (length l) | None => None end in
  let later n k := match hx_run (inserts n) with
    | Some (_, s) => match h_run_i 24 8 0 true hx_hash Z.eqb (firstn k (skipn n (inserts (n + k)))) s with Some (l, _) => Some (length l) | None => None end
    | None => None end in
  (t [HGet 3%Z; HEntryDrop 4%Z None; HRemove 5%Z; HClear; HIter], t [HGet 3%Z; HInsert 3%Z 4%Z], t [HEntryOr 1%Z None 2%Z], later 1 1, later 2 1, later 3 2, later 3 3) =
  (Some 5, None, None, Some 1, None, Some 2, None).
Proof. vm_compute. reflexivity. Qed.

(** Sets: two keys fit into the buckets made for the first; the third needs more. *)
Example C128_sets_example :
  match set_run 16 8 0 true hx_hash Z.eqb [SInsert 1%Z] (ht_new 0 hx_heap []) with
  | Some (_, s) =>
    let t cs := match set_run_i 16 8 0 true hx_hash Z.eqb cs s with Some (l, _) => Some (length l) | None => None end in
    (t [SContains 1%Z; SInsert 2%Z; SRemove 1%Z; SIter], t [SExtend [2; 3]%Z])
  | None => (None, None)
  end = (Some 4, None).
Proof. vm_compute. reflexivity. Qed.
