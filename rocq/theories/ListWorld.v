(** Several lists in one memory, over the default allocator, used in turn; two of them
    can be exchanged with [std::mem::swap].  All have the same element type. *)
From Verif Require Import Base Alloc AddrMem LinkedList.
Local Open Scope Z_scope.

(** A place for a list object, src/list/mod.rs:17-24: its address, where the sentinel
    lies, and the field [size] while a list lives there. *)
Record lslot : Type := LSlot { sl_at : Z; sl_size : option Z }.
Record lworld (T : Type) : Type := LWorld { lw_slots : list lslot; lw_mem : mem T; lw_drops : list T }.
Arguments LWorld {T}.
Arguments lw_slots {T}.
Arguments lw_mem {T}.
Arguments lw_drops {T}.

(** [WNew i] creates a list at place [i], [WCall i c] makes a call of the list there,
    [WDrop i] drops it, and [WSwap i j] is [mem::swap(&mut *a, &mut *b)] for the lists
    at two places.  Safe code can write it: [List] is [Unpin], so that the pinned
    reference from src/list/mod.rs:34-45 gives [&mut List]; fixed lists give one by
    [DerefMut] (src/fixed_list/mod.rs:100-102). *)
Inductive wop (T : Type) : Type :=
| WNew (i : nat) | WCall (i : nat) (c : lcall T) | WDrop (i : nat) | WSwap (i j : nat).
Arguments WNew {T}. Arguments WCall {T}. Arguments WDrop {T}. Arguments WSwap {T}.

Section world.
Context {T : Type}.
Variable pick : mem T -> Z -> Z -> Z.
Variable strict chk : bool.
Variables nsz nal : Z.

Definition live_at (w : lworld T) (i : nat) : option (Z * Z) :=
  match lw_slots w !! i with Some (LSlot a (Some n)) => Some (a, n) | _ => None end.
Definition the_list (w : lworld T) (a n : Z) : lstate unit T := LState a n tt (lw_mem w) (lw_drops w).
Definition back_to (w : lworld T) (i : nat) (s : lstate unit T) (alive : bool) : lworld T :=
  LWorld (<[i := LSlot (l_node s) (if alive then Some (l_size s) else None)]> (lw_slots w)) (l_mem s) (l_drops s).

(** Exchanging two words. *)
Definition swap_word (m : mem T) (a b : Z) : option (mem T) :=
  match load_word m a, load_word m b with
  | Some x, Some y => match store_word m a y with Some m' => store_word m' b x | None => None end
  | _, _ => None
  end.

(** The answer is [None] for a panic.  The result [None] stands for undefined
    behaviour, and for a use of a list that is not there, which Rust does not allow. *)
Definition w_step (o : wop T) (w : lworld T) : option (option (lanswer T) * lworld T) :=
  match o with
  | WNew i =>
    match lw_slots w !! i with
    | Some (LSlot a None) =>
      match list_new a tt (lw_mem w) with
      | Ok _ s => Some (Some AUnit, LWorld (<[i := LSlot a (Some (l_size s))]> (lw_slots w)) (l_mem s) (lw_drops w))
      | _ => None
      end
    | _ => None
    end
  | WCall i c =>
    match live_at w i with
    | Some (a, n) =>
      match l_call (DefaultAddrAlloc pick strict) chk nsz nal c (the_list w a n) with
      | Ok r s => Some (Some r, back_to w i s true)
      | Panic s => Some (None, back_to w i s true)
      | UB => None
      end
    | None => None
    end
  | WDrop i =>
    match live_at w i with
    | Some (a, n) =>
      match list_drop (DefaultAddrAlloc pick strict) chk nsz (the_list w a n) with
      | Ok _ s => Some (Some AUnit, back_to w i s false)
      | Panic s => Some (None, back_to w i s false)
      | UB => None
      end
    | None => None
    end
  | WSwap i j =>
    match live_at w i, live_at w j with
    | Some (a, n), Some (b, k) =>
      match swap_word (lw_mem w) a b with
      | Some m =>
        match swap_word m (a + 8) (b + 8) with
        | Some m' => Some (Some AUnit, LWorld (<[j := LSlot b (Some n)]> (<[i := LSlot a (Some k)]> (lw_slots w))) m' (lw_drops w))
        | None => None
        end
      | None => None
      end
    | _, _ => None
    end
  end.

Fixpoint w_run (os : list (wop T)) (w : lworld T) : option (list (option (lanswer T)) * lworld T) :=
  match os with
  | [] => Some ([], w)
  | o :: os' =>
    match w_step o w with
    | Some (a, w') => match w_run os' w' with Some (l, w'') => Some (a :: l, w'') | None => None end
    | None => None
    end
  end.

Definition w_start (addrs : list Z) (m : mem T) : lworld T := LWorld (map (fun a => LSlot a None) addrs) m [].
End world.
