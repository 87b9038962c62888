(** Property theorems.  Each is closed by the lemma of the same content in
    DequeCppDerived.v; examples show the hypotheses can be met. *)
From Verif Require Import Base Heap Alloc Deque DequeSpec DequeCpp.
Local Open Scope nat_scope.
From Verif Require Import DequeCppDerived.

(** EASTL's iterators, with the block size EASTL chooses for elements of this size, run
    over the begin and end that the Rust deque stores, forwards and backwards, and yield
    what Rust's iterator yields; [size()] agrees. *)
Theorem C90_cpp_iteration :
forall (T : Type) (sz al : Z) (chk : bool) (h0 : heap (dcell T)) prog l s xs (N f : nat), Setup sz al h0 ->
  built sz al chk h0 prog l s -> contents sz chk s xs -> eastl_block sz N -> length xs < f ->
  cpp_collect N f (d_b s) (d_e s) s = Ok (Some xs) s /\
  cpp_collect_back N f (d_b s) (d_e s) s = Ok (Some (rev xs)) s /\
  cpp_minus N (d_e s) (d_b s) s = Ok (Z.of_nat (length xs)) s.
Proof. exact L_C90_cpp_iteration. Qed.
Print Assumptions C90_cpp_iteration.

(** Forty elements of 8 bytes are in blocks of 32. *)
Example C90_cpp_iteration_case :
  eastl_block 8 32 /\
  match dx_run (push_many 40 ++ [DPushFront (-1)%Z]) with
  | Some (_, s) => val (cpp_collect 32 50 (d_b s) (d_e s) s) = Some (Some (map (fun i => Z.of_nat i - 1)%Z (seq 0 41)))
  | None => False
  end.
Proof. split; [split; [set_solver|lia]|]. vm_compute. done. Qed.

(** For elements of every size there is just one block size that EASTL may choose, and it is
    the one the Rust deque uses. *)
Theorem C90_block_choice :
forall (sz : Z) (N : nat), (0 < sz)%Z -> eastl_block sz N <-> N = subarray_size sz.
Proof. exact L_C90_block_choice. Qed.
Print Assumptions C90_block_choice.

Example C90_block_choice_case : eastl_block 8 32 /\ eastl_block 100 4 /\ subarray_size 8 = 32 /\ subarray_size 100 = 4.
Proof. split; [split; [set_solver|lia]|]. split; [split; [set_solver|lia]|]. done. Qed.

(** The blocks holding the elements have the size EASTL gives them, so either side can
    free them. *)
Theorem C90_block_sizes :
forall (T : Type) (sz al : Z) (chk : bool) (h0 : heap (dcell T)) prog l s xs (N : nat) i, Setup sz al h0 ->
  built sz al chk h0 prog l s -> contents sz chk s xs -> eastl_block sz N -> i < length xs ->
  exists it b cs, cpp_jump N (d_b s) (Z.of_nat i) s = Ok it s /\ di_begin it = Ptr b 0 /\
    h_blk (d_h s) !! b = Some (Block (Z.of_nat N * sz) al cs) /\ length cs = N /\ h_blk h0 !! b = None.
Proof. exact L_C90_block_sizes. Qed.
Print Assumptions C90_block_sizes.

Example C90_block_sizes_case :
  match dx_run (push_many 40) with
  | Some (_, s) => val ((do it <- cpp_jump 32 (d_b s) 35; ret (di_begin it)) s) = Some (Ptr 2 0) /\
      option_map bk_bytes (h_blk (d_h s) !! 2) = Some 256%Z
  | None => False
  end.
Proof. vm_compute. done. Qed.

(** Moving an EASTL iterator over the Rust deque by any distance, forwards or at most
    16777216 elements backwards, leads to the element that many places away. *)
Theorem C91_cpp_random_access :
forall (T : Type) (sz al : Z) (chk : bool) (h0 : heap (dcell T)) prog l s xs (N i j : nat), Setup sz al h0 ->
  built sz al chk h0 prog l s -> contents sz chk s xs -> eastl_block sz N ->
  i <= length xs -> j <= length xs -> (Z.of_nat i - Z.of_nat j <= 16777216)%Z ->
  exists it it', cpp_jump N (d_b s) (Z.of_nat i) s = Ok it s /\
    cpp_jump N it (Z.of_nat j - Z.of_nat i) s = Ok it' s /\ cpp_jump N (d_b s) (Z.of_nat j) s = Ok it' s /\
    cpp_minus N it' it s = Ok (Z.of_nat j - Z.of_nat i)%Z s /\
    (j = length xs -> it' = d_e s) /\
    forall x, xs !! j = Some x -> read_elem (di_cur it') s = Ok x s.
Proof. exact L_C91_cpp_random_access. Qed.
Print Assumptions C91_cpp_random_access.

Example C91_cpp_random_access_case :
  match dx_run (push_many 100 ++ [DPopFront]) with
  | Some (_, s) => val ((do it <- cpp_jump 32 (d_b s) 70; do it' <- cpp_jump 32 it (-60); read_elem (di_cur it')) s) = Some 11%Z
  | None => False
  end.
Proof. vm_compute. done. Qed.
