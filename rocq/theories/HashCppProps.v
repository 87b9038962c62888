(** Property theorems.  Each is closed by the lemma of the same content in
    HashCppDerived.v; examples show the hypotheses can be met. *)
From Verif Require Import Base Heap Alloc HashTable HashTableSpec HashCpp.
From Verif Require Import HashCppDerived.

(** C83.  The C++ loop over a table that was filled in Rust visits the entries that
    Rust's own iterator visits, in the same order, and stops at C++'s end. *)
Theorem C83_cpp_iterates_rust_table :
  forall (K V : Type) nsz nal eb chk hash eqb (h0 : heap (tcell K V)), Setup nsz nal eb hash eqb h0 ->
  forall prog l s, built nsz nal eb chk hash eqb h0 prog l s ->
  exists b e es, cpp_begin s = Ok (Some b) s /\ cpp_end s = Ok e s /\
    h_call nsz nal eb chk hash eqb HIter s = Ok (HPairs es) s /\
    forall f, length es < f -> cpp_all f b e s = Ok (Some es) s.
Proof. exact L_C83_cpp_iterates_rust_table. Qed.
Print Assumptions C83_cpp_iterates_rust_table.

Example C83_case : match hx_run [HInsert 1 10; HInsert 3 30; HInsert 2 20]%Z with
  | Some (_, s) => val ((do b <- cpp_begin; do e <- cpp_end; match b with Some b => cpp_all 9 b e | None => ub end) s) = Some (Some [(1, 10); (2, 20); (3, 30)]%Z)
  | None => False
  end.
Proof. vm_compute. reflexivity. Qed.

(** C84, refuted.  Rust made to iterate from C++'s begin to C++'s end: the entries of
    the first bucket in use come twice, for every table with an entry, and for an
    empty table the iterator reads a node at the all-ones address. *)
Theorem C84_cpp_iterators_given_to_rust_refuted :
  forall (K V : Type) nsz nal eb chk hash eqb (h0 : heap (tcell K V)), Setup nsz nal eb hash eqb h0 ->
  forall prog l s ones, built nsz nal eb chk hash eqb h0 prog l s -> ones <> Null -> hload (t_h s) ones = None ->
  exists b e es it, cpp_begin s = Ok (Some b) s /\ cpp_end s = Ok e s /\
    h_call nsz nal eb chk hash eqb HIter s = Ok (HPairs es) s /\
    from_compat (of_cpp ones b) (of_cpp ones e) s = Ok it s /\
    (es = [] -> iter_next it s = UB) /\
    (es <> [] -> exists first rest, first <> [] /\ es = first ++ rest /\
       forall f, length (first ++ es) < f -> iter_all f it s = Ok (first ++ es) s).
Proof. exact L_C84_cpp_iterators_given_to_rust_refuted. Qed.
Print Assumptions C84_cpp_iterators_given_to_rust_refuted.

(** Two buckets; key 1 comes twice. *)
Example C84_case : match hx_run [HInsert 1 10; HInsert 3 30; HInsert 2 20]%Z with
  | Some (_, s) => val ((do b <- cpp_begin; do e <- cpp_end; match b with
      | Some b => do it <- from_compat (of_cpp (Ptr 99 0) b) (of_cpp (Ptr 99 0) e); iter_all 9 it | None => ub end) s) = Some [(1, 10); (1, 10); (2, 20); (3, 30)]%Z
  | None => False
  end.
Proof. vm_compute. reflexivity. Qed.

(** C84, refuted.  The C++ loop given the pair that a Rust iterator converts to, fresh
    or after any number of steps: while an entry is left to come it ends in undefined behaviour, as it
    skips a bucket and never meets the null end. *)
Theorem C84_rust_iterators_given_to_cpp_refuted :
  forall (K V : Type) nsz nal eb chk hash eqb (h0 : heap (tcell K V)), Setup nsz nal eb hash eqb h0 ->
  forall prog l s n, built nsz nal eb chk hash eqb h0 prog l s ->
  exists it nodes it' b e es, iter s = Ok it s /\ iter_take n it s = Ok (nodes, it') s /\ into_compat it' s = Ok (b, e) s /\
    h_call nsz nal eb chk hash eqb HIter s = Ok (HPairs es) s /\
    (n < length es -> exists f0, forall f, f0 < f -> cpp_all f (to_cpp b) (to_cpp e) s = UB).
Proof. exact L_C84_rust_iterators_given_to_cpp_refuted. Qed.
Print Assumptions C84_rust_iterators_given_to_cpp_refuted.

(** Key 2 is passed over, and the loop runs into the end word. *)
Example C84_case2 : match hx_run [HInsert 1 10; HInsert 3 30; HInsert 2 20]%Z with
  | Some (_, s) => is_ub ((do it <- iter; do c <- into_compat it; cpp_all 9 (to_cpp (fst c)) (to_cpp (snd c))) s) = true
  | None => False
  end.
Proof. vm_compute. reflexivity. Qed.
