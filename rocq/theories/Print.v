(** How containers print themselves ([Debug], [Display]).  A text is the list of its UTF-8
    bytes; [dbg] is what the [Debug] of an element writes with [{:?}], taken to be a function
    of the element that always succeeds (simplification: the flags of the formatter, as in
    [{:#?}], and errors of the writer are not modelled). *)
From Coq Require Strings.Ascii Strings.String.
Export Coq.Strings.String.StringSyntax.
From Verif Require Import Base Vector.
From Verif Require String VectorMap Deque HashTable LinkedList RBTree.
Local Open Scope nat_scope.

Definition text : Type := list Z.
(** A literal of the source. *)
Definition lit (s : Coq.Strings.String.string) : text :=
  map (fun c => Z.of_nat (Ascii.nat_of_ascii c)) (Coq.Strings.String.list_ascii_of_string s).
Arguments lit s%string_scope.

(** [slice::join] of the standard library, [Itertools::format], and what
    [debug_list().entries(..)] writes between its brackets: the separator between every two. *)
Definition join (sep : text) (ts : list text) : text :=
  match ts with
  | [] => []
  | t :: ts' => t ++ flat_map (fun u => sep ++ u) ts'
  end.

Section print.
Context {T K V : Type}.

(** [debug_list] of the standard library, without [#]. *)
Definition debug_list (dbg : T -> text) (xs : list T) : text := lit "[" ++ join (lit ", ") (map dbg xs) ++ lit "]".

(** src/vector/mod.rs:323-327, [Debug for Vector]; also src/fixed_vector/mod.rs:111-117. *)
Definition vector_fmt {A} (sz : Z) (dbg : T -> text) : M (vstate A T) text :=
  do xs <- as_slice sz; ret (debug_list dbg xs).

(** src/deque/mod.rs:424-428, [Debug for Deque]; src/queue.rs:84-88, [Debug for Queue]. *)
Definition deque_fmt (sz : Z) (chk : bool) (dbg : T -> text) : M (Deque.dstate T) text :=
  do xs <- Deque.iter_all sz chk; ret (lit "[ " ++ join (lit ", ") (map dbg xs) ++ lit " ]").

(** src/list/mod.rs:222-226, [Debug for List]; src/fixed_list/mod.rs:79-85 and
    src/fixed_list/conformant.rs:165-173 print the list inside. *)
Definition list_fmt {A} (chk : bool) (nsz : Z) (dbg : T -> text) : M (LinkedList.lstate A T) text :=
  do xs <- LinkedList.iter_all chk nsz; ret (debug_list dbg xs).

(** [format!("{k:?}: {v:?}")] *)
Definition pair_fmt (dk : K -> text) (dv : V -> text) (e : K * V) : text := dk (fst e) ++ lit ": " ++ dv (snd e).
Definition map_fmt (dk : K -> text) (dv : V -> text) (es : list (K * V)) : text :=
  lit "{" ++ join (lit ",") (map (pair_fmt dk dv) es) ++ lit "}".

(** src/hash_map/mod.rs:146-159, [Debug for HashMap]. *)
Definition hash_map_fmt (dk : K -> text) (dv : V -> text) : M (HashTable.tstate K V) text :=
  do it <- HashTable.iter; do f <- gets HashTable.fuel; do es <- HashTable.iter_all f it; ret (map_fmt dk dv es).

(** src/hash_set/mod.rs:111-122, [Debug for HashSet]. *)
Definition hash_set_fmt (dk : K -> text) : M (HashTable.tstate K unit) text :=
  do ks <- HashTable.set_iter; ret (lit "{" ++ join (lit ",") (map dk ks) ++ lit "}").

(** src/map/mod.rs:151-162, [Debug for Map]. *)
Definition tree_map_fmt {A} (nsz : Z) (dk : K -> text) (dv : V -> text) : M (RBTree.tstate A K V) text :=
  do es <- RBTree.t_iter_all nsz; ret (map_fmt dk dv es).

(** src/vector_map/mod.rs:209-221, [Debug for VectorMap]. *)
Definition vector_map_fmt {A} (sz : Z) (dk : K -> text) (dv : V -> text) : M (vstate A (K * V)) text :=
  do es <- as_slice sz; ret (map_fmt dk dv es).
End print.

(** src/string/mod.rs:206-210, [Debug for String]: quotes around the bytes, no escapes. *)
Definition quoted (bytes : list Z) : text := lit """" ++ bytes ++ lit """".
Definition string_debug {A} : M (vstate A Z) text := do b <- String.s_bytes; ret (quoted b).
(** src/string/mod.rs:232-236, [Display for String]. *)
Definition string_display {A} : M (vstate A Z) text := String.s_bytes.
