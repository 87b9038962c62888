(** Filling a container from an iterator is a program of the calls that add one element
    each. *)
From Verif Require Import Base Heap Alloc AddrMem Source.
From Verif Require Vector VectorMap Deque HashTable LinkedList.

Section drain.
Context {S T C A : Type}.
Variable f : T -> M S unit.
Variable mk : T -> C.
Variable step : C -> S -> option (A * S).
Variable refused : A -> Prop.
Variable run_ : list C -> S -> option (list A * S).
Hypothesis run_nil : forall s, run_ [] s = Some ([], s).
Hypothesis run_cons : forall c cs s, run_ (c :: cs) s =
  match step c s with
  | None => None
  | Some (a, s') => match run_ cs s' with None => None | Some (l, s'') => Some (a :: l, s'') end
  end.
Hypothesis sim : forall x s,
  match f x s with
  | Ok _ s' => exists a, step (mk x) s = Some (a, s') /\ ~ refused a
  | Panic s' => exists a, step (mk x) s = Some (a, s') /\ refused a
  | UB => step (mk x) s = None
  end.

Lemma drain_run xs bad s :
  match drain f xs bad s with
  | (Ok _ s', n) => bad = false /\ n = length xs /\
      exists l, run_ (map mk xs) s = Some (l, s') /\ Forall (fun a => ~ refused a) l
  | (Panic s', n) => n <= length xs /\
      exists l, run_ (map mk (take n xs)) s = Some (l, s') /\
        ((bad = true /\ n = length xs /\ Forall (fun a => ~ refused a) l) \/
         exists l1 a, l = l1 ++ [a] /\ refused a /\ Forall (fun a => ~ refused a) l1)
  | (UB, n) => run_ (map mk (take n xs)) s = None
  end.
Proof using All.
  revert s. induction xs as [|x xs IH]; intros s; cbn [drain].
  - destruct bad.
    + split; [done|]. exists []. split; [apply run_nil|]. by left.
    + split; [done|]. split; [done|]. exists []. split; [apply run_nil|done].
  - pose proof (sim x s) as H. destruct (f x s) as [u s1|s1|].
    + destruct H as (a & E & NR). specialize (IH s1). destruct (drain f xs bad s1) as [[u' s'|s'|] n].
      * destruct IH as (B & -> & l & El & F). split; [done|]. split; [done|].
        exists (a :: l). cbn [map]. rewrite run_cons, E, El. split; [done|]. by constructor.
      * destruct IH as (L & l & El & H). split; [cbn; lia|]. exists (a :: l). cbn [map take].
        change (take (Datatypes.S n) (x :: xs)) with (x :: take n xs). cbn [map]. rewrite run_cons, E, El. split; [done|].
        destruct H as [(B & -> & F)|(l1 & a' & -> & R & F)]; [left|right].
        -- split; [done|]. split; [done|]. by constructor.
        -- exists (a :: l1), a'. split; [done|]. split; [done|]. by constructor.
      * change (take (Datatypes.S n) (x :: xs)) with (x :: take n xs). cbn [map]. by rewrite run_cons, E, IH.
    + destruct H as (a & E & R). split; [cbn; lia|]. exists [a].
      change (take 1 (x :: xs)) with (x :: take 0 xs). rewrite take_0. cbn [map]. rewrite run_cons, E, run_nil. split; [done|].
      right. exists [], a. by split.
    + change (take 1 (x :: xs)) with (x :: take 0 xs). rewrite take_0. cbn [map]. by rewrite run_cons, H.
Qed.
End drain.

(** ** The containers *)
Lemma vector_sim {A T} (AI : AllocImpl A T) sz al chk nd clone x s :
  match Vector.push AI sz al chk nd x s with
  | Ok _ s' => exists a, Vector.step AI sz al chk nd clone (Vector.CPush x) s = Some (a, s') /\ ~ a = Vector.APanic
  | Panic s' => exists a, Vector.step AI sz al chk nd clone (Vector.CPush x) s = Some (a, s') /\ a = Vector.APanic
  | UB => Vector.step AI sz al chk nd clone (Vector.CPush x) s = None
  end.
Proof.
  unfold Vector.step. cbn [Vector.exec]. unfold bind. destruct (Vector.push _ _ _ _ _ x s) as [[] s1|s1|]; cbn; [|by eexists|done].
  by eexists.
Qed.

Lemma deque_sim {T} sz al chk (x : T) s :
  match Deque.push_back sz al chk x s with
  | Ok _ s' => exists a, match Deque.d_call sz al chk (Deque.DPushBack x) s with Ok a s' => Some (Some a, s') | Panic s' => Some (None, s') | UB => None end = Some (a, s') /\ ~ a = None
  | Panic s' => exists a, match Deque.d_call sz al chk (Deque.DPushBack x) s with Ok a s' => Some (Some a, s') | Panic s' => Some (None, s') | UB => None end = Some (a, s') /\ a = None
  | UB => match Deque.d_call sz al chk (Deque.DPushBack x) s with Ok a s' => Some (Some a, s') | Panic s' => Some (None, s') | UB => None end = None
  end.
Proof.
  cbn [Deque.d_call]. unfold bind. destruct (Deque.push_back _ _ _ x s) as [[] s1|s1|]; cbn; [|by eexists|done]. by eexists.
Qed.

Lemma list_sim {A T} (aa : AddrAlloc A T) chk nsz nal (x : T) s :
  match LinkedList.push_back aa chk nsz nal x s with
  | Ok _ s' => exists a, match LinkedList.l_call aa chk nsz nal (LinkedList.LPushBack x) s with Ok a s' => Some (Some a, s') | Panic s' => Some (None, s') | UB => None end = Some (a, s') /\ ~ a = None
  | Panic s' => exists a, match LinkedList.l_call aa chk nsz nal (LinkedList.LPushBack x) s with Ok a s' => Some (Some a, s') | Panic s' => Some (None, s') | UB => None end = Some (a, s') /\ a = None
  | UB => match LinkedList.l_call aa chk nsz nal (LinkedList.LPushBack x) s with Ok a s' => Some (Some a, s') | Panic s' => Some (None, s') | UB => None end = None
  end.
Proof.
  cbn [LinkedList.l_call]. unfold bind. destruct (LinkedList.push_back _ _ _ _ x s) as [[] s1|s1|]; cbn; [|by eexists|done]. by eexists.
Qed.

Lemma table_sim {K V} nsz nal eb chk hash eqb (kv : K * V) s :
  match table_put nsz nal eb chk hash eqb kv s with
  | Ok _ s' => exists a, match HashTable.h_call nsz nal eb chk hash eqb (HashTable.HExtend [kv]) s with Ok a s' => Some (Some a, s') | Panic s' => Some (None, s') | UB => None end = Some (a, s') /\ ~ a = None
  | Panic s' => exists a, match HashTable.h_call nsz nal eb chk hash eqb (HashTable.HExtend [kv]) s with Ok a s' => Some (Some a, s') | Panic s' => Some (None, s') | UB => None end = Some (a, s') /\ a = None
  | UB => match HashTable.h_call nsz nal eb chk hash eqb (HashTable.HExtend [kv]) s with Ok a s' => Some (Some a, s') | Panic s' => Some (None, s') | UB => None end = None
  end.
Proof.
  destruct kv as [k v]. unfold table_put. cbn [HashTable.h_call HashTable.insert_all fst snd]. unfold bind, on_unwind.
  destruct (HashTable.insert _ _ _ _ _ _ k v s) as [o s1|s1|]; cbn.
  - destruct o; cbn; by eexists.
  - eexists. split; [|done]. unfold HashTable.logged. cbn. rewrite app_nil_r. by destruct s1.
  - done.
Qed.

Lemma map_sim {A K V} (AI : AllocImpl A (K * V)) sz al chk nd cmp eqb (kv : K * V) s :
  match map_put AI sz al chk nd cmp eqb kv s with
  | Ok _ s' => exists a, VectorMap.m_step AI sz al chk nd cmp eqb (VectorMap.MExtend [kv]) s = Some (a, s') /\ ~ a = VectorMap.MPanic
  | Panic s' => exists a, VectorMap.m_step AI sz al chk nd cmp eqb (VectorMap.MExtend [kv]) s = Some (a, s') /\ a = VectorMap.MPanic
  | UB => VectorMap.m_step AI sz al chk nd cmp eqb (VectorMap.MExtend [kv]) s = None
  end.
Proof.
  destruct kv as [k v]. unfold map_put, VectorMap.m_step. cbn [VectorMap.m_exec VectorMap.insert_all fst snd]. unfold bind, on_unwind.
  destruct (VectorMap.vm_insert _ _ _ _ _ _ _ k v s) as [o s1|s1|]; cbn.
  - by eexists.
  - eexists. split; [|done]. by destruct s1.
  - done.
Qed.
