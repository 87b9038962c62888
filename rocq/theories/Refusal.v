(** Containers over an allocator of the caller that refuses some requests by panicking, and
    what becomes of a deque whose construction panics.

    [Vector] and [String] take any allocator already.  For the hash table and the deque the
    functions of OutOfMemory.v are used, which repeat those of HashTable.v and Deque.v with
    the allocator as a parameter. *)
From Verif Require Import Base Heap Alloc Vector HashTable Deque OutOfMemory.

(** An implementation of [Allocator], src/allocator.rs:9-86: [allocate] panics when it
    refuses, and otherwise is that of the default allocator, as is [deallocate]. *)
Definition Refusing {C} (refuse : heap C -> Z -> bool) : AllocImpl unit C :=
  {| ai_alloc := fun sz bytes align s => if refuse (snd s) bytes then Panic s else default_alloc sz bytes align s;
     ai_free := default_free |}.

Inductive made (T : Type) : Type :=
| Made (s : dstate T)          (* the caller has the deque *)
| Unwound (s : dstate T)       (* the panic reaches the caller; the destructor has run *)
| Aborted (s : dstate T)       (* a second panic during unwinding *)
| Undefined.
Arguments Made {T}. Arguments Unwound {T}. Arguments Aborted {T}. Arguments Undefined {T}.

Section new.
Context {T : Type}.
Variable AI : AllocImpl unit (dcell T).
Variables sz al : Z.
Variable chk : bool.

(** src/deque/mod.rs:437-456, [drop]; also for elements of size zero, for which the first
    thing it does, [offset_from] in src/deque/iter.rs:206-215, panics. *)
Definition drop_any_size : M (dstate T) unit := if (sz =? 0)%Z then panic else deque_drop sz al chk.

(** src/deque/mod.rs:101-111, [new_in] (and [new], [default]): when [init] panics, the
    half-built deque is dropped. *)
Definition new_in (h : heap (dcell T)) : made T :=
  match init_in AI sz al (empty_state h []) with
  | Ok _ s => Made s
  | Panic s => match drop_any_size s with Ok _ s' => Unwound s' | Panic s' => Aborted s' | UB => Undefined end
  | UB => Undefined
  end.
End new.

(** A program whose caller catches every panic ([None] among the answers); during each call
    the allocator has its own mind about what to refuse. *)
Fixpoint d_run_in {T} (sz al : Z) (chk : bool) (cs : list (dcall T * (heap (dcell T) -> Z -> bool))) (s : dstate T) :
    option (list (option (danswer T)) * dstate T) :=
  match cs with
  | [] => Some ([], s)
  | (c, refuse) :: cs' =>
    match d_call_in (Refusing refuse) sz al chk c s with
    | Ok a s' => option_map (fun r => (Some a :: fst r, snd r)) (d_run_in sz al chk cs' s')
    | Panic s' => option_map (fun r => (None :: fst r, snd r)) (d_run_in sz al chk cs' s')
    | UB => None
    end
  end.

(** A program of vector calls (Vector.v), each with the sizes in bytes the allocator refuses
    during it; the caller goes on after a panic. *)
Fixpoint v_run_in {T} (sz al : Z) (chk nd : bool) (clone : T -> option T) (cs : list (call T * (Z -> bool))) (s : vstate unit T)
    : option (list (answer T) * vstate unit T) :=
  match cs with
  | [] => Some ([], s)
  | (c, r) :: cs' =>
    match step (Refusing (fun _ => r)) sz al chk nd clone c s with
    | None => None
    | Some (a, s1) =>
      match v_run_in sz al chk nd clone cs' s1 with
      | None => None
      | Some (l, s2) => Some (a :: l, s2)
      end
    end
  end.

(** The same for hash tables. *)
Fixpoint h_run_in {K V} (nsz nal : Z) (eb : nat) (chk : bool) (hash : K -> Z) (eqb : K -> K -> bool)
    (cs : list (hcall K V * (heap (tcell K V) -> Z -> bool))) (s : tstate K V) : option (list (option (hanswer K V)) * tstate K V) :=
  match cs with
  | [] => Some ([], s)
  | (c, refuse) :: cs' =>
    match h_call_in (Refusing refuse) nsz nal eb chk hash eqb c s with
    | Ok a s' => option_map (fun r => (Some a :: fst r, snd r)) (h_run_in nsz nal eb chk hash eqb cs' s')
    | Panic s' => option_map (fun r => (None :: fst r, snd r)) (h_run_in nsz nal eb chk hash eqb cs' s')
    | UB => None
    end
  end.
