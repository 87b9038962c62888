(** Independent specification of lists shared by Rust and C++: a list. *)
From Verif Require Import Base Alloc AddrMem FixedPool FixedPoolSpec LinkedList LinkedListSpec ListCpp.
Local Open Scope Z_scope.

Section spec.
Context {T : Type}.

(** The answer, the elements dropped, the list after. *)
Definition mixed_call (c : mcall T) (xs : list T) : lanswer T * list T * list T :=
  match c with
  | Rust c => spec_call c xs
  | CInsert i x => (AUnit, [], take i xs ++ x :: drop i xs)
  | CErase i => (AUnit, take 1 (drop i xs), take i xs ++ drop (S i) xs)
  | CAssign i x => (AUnit, take 1 (drop i xs), <[i := x]> xs)
  | CWalk => (AList xs, [], xs)
  | CWalkBack => (AList (rev xs), [], xs)
  | CSize => (ANum (Z.of_nat (length xs)), [], xs)
  | CReverse => (AUnit, [], rev xs)
  end.
Fixpoint mixed_run (cs : list (mcall T)) (xs : list T) : list (lanswer T) * list T * list T :=
  match cs with
  | [] => ([], [], xs)
  | c :: cs' =>
    let '(a, d, xs1) := mixed_call c xs in
    let '(l, d', xs2) := mixed_run cs' xs1 in
    (a :: l, d ++ d', xs2)
  end.

(** What C++ must not do: use an iterator that is not there. *)
Definition in_range (c : mcall T) (n : nat) : Prop :=
  match c with
  | CInsert i _ => (i <= n)%nat
  | CErase i | CAssign i _ => (i < n)%nat
  | _ => True
  end.
(** Every iterator is in range, and no list on the way has more than [B] elements. *)
Fixpoint proper (B : nat) (cs : list (mcall T)) (xs : list T) : Prop :=
  match cs with
  | [] => True
  | c :: cs' =>
    let xs1 := snd (mixed_call c xs) in
    in_range c (length xs) /\ (length xs1 <= B)%nat /\ proper B cs' xs1
  end.

(** The elements handed over, and those handed out to the caller. *)
Definition m_given (c : mcall T) : list T :=
  match c with Rust c => given c | CInsert _ x | CAssign _ x => [x] | _ => [] end.
Definition m_taken (c : mcall T) (a : lanswer T) : list T :=
  match c with Rust c => taken c (Some a) | _ => [] end.
Fixpoint m_all_taken (cs : list (mcall T)) (l : list (lanswer T)) : list T :=
  match cs, l with c :: cs', a :: l' => m_taken c a ++ m_all_taken cs' l' | _, _ => [] end.
Definition m_no_rewrite (c : mcall T) : bool := match c with Rust c => no_rewrite c | _ => true end.

End spec.

(** A list over the default allocator, and a fixed list for [n] nodes, created in Rust
    and used by a program in both languages. *)
Definition shared {T} (pick : mem T -> Z -> Z -> Z) (chk : bool) (nsz nal obj : Z) (m0 : mem T)
    (prog : list (mcall T)) (l : list (option (lanswer T))) (s : lstate unit T) : Prop :=
  exists s0, list_new obj tt m0 = Ok tt s0 /\ m_run (DefaultAddrAlloc pick false) chk nsz nal prog s0 = Some (l, s).
Definition fixed_shared {T} (pick : mem T -> Z -> Z -> Z) (chk : bool) (nsz nal : Z) (n : nat) (obj : Z) (m0 : mem T)
    (prog : list (mcall T)) (l : list (option (lanswer T))) (s : lstate (opool unit) T) : Prop :=
  exists s0, fixed_list_new chk nsz nal (Z.of_nat n) obj m0 = Ok tt s0 /\
    m_run (FixedListAlloc pick false chk nsz nal) chk nsz nal prog s0 = Some (l, s).

(** What a list answers, drops and contains after a program in both languages, starting
    empty, and that the nodes are a consistent ring. *)
Definition as_a_shared_list {A T} (chk : bool) (nsz obj : Z) (prog : list (mcall T)) (l : list (option (lanswer T))) (s : lstate A T) : Prop :=
  exists answers xs ps, mixed_run prog [] = (answers, l_drops s, xs) /\ l = map Some answers /\
    iter_all chk nsz s = Ok xs s /\ ring_of nsz obj s ps xs.

(** For examples. *)
Definition mx_prog : list (mcall Z) :=
  [Rust (LPushBack 1); CInsert 0 2; CInsert 1 3; Rust LIter_; CReverse; CWalk; Rust LPopFront; CWalkBack;
   CAssign 1 9; Rust (LPushFront 4); CErase 1; Rust LIter_; CSize; Rust (LExtend [5; 6]); CErase 3; CWalk; Rust LPopBack; Rust LLen].
Definition mx_default (prog : list (mcall Z)) : option (list (option (lanswer Z)) * lstate unit Z) :=
  match list_new 4096 tt (lx_mem 24) with
  | Ok _ s0 => m_run (DefaultAddrAlloc lx_pick false) true 24 8 prog s0
  | _ => None
  end.
Definition mx_fixed (n : nat) (prog : list (mcall Z)) : option (list (option (lanswer Z)) * lstate (opool unit) Z) :=
  match fixed_list_new true 24 8 (Z.of_nat n) 4096 (lx_mem (fixed_list_bytes 24 8 (Z.of_nat n))) with
  | Ok _ s0 => m_run (FixedListAlloc lx_pick false true 24 8) true 24 8 prog s0
  | _ => None
  end.
