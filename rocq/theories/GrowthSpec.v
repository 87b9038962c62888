(** How much copying the growth of a container causes (C101). *)
From Verif Require Import Base Heap Alloc Vector HashTable Deque.

(** Elements moved to another buffer by the calls of a program.  A call after which the
    vector lies in another buffer has moved everything it held; [clear] only destroys. *)
Fixpoint relocated {A T : Type} (AI : AllocImpl A T) (sz al : Z) (chk nd : bool) (clone : T -> option T)
    (cs : list (call T)) (s : vstate A T) : nat :=
  match cs with
  | [] => 0
  | c :: cs' =>
    match Vector.step AI sz al chk nd clone c s with
    | None => 0
    | Some (_, s') =>
      match c with
      | CClear => 0
      | _ => if decide (v_begin (st_v s') = v_begin (st_v s)) then 0
             else match Vector.len sz s with Ok n _ => n | _ => 0 end
      end + relocated AI sz al chk nd clone cs' s'
    end
  end.

(** Elements a program adds one by one. *)
Fixpoint added {T : Type} (cs : list (call T)) : nat :=
  match cs with
  | [] => 0
  | (CPush _ | CInsert _ _) :: cs' => S (added cs')
  | _ :: cs' => added cs'
  end.

(** The calls that never ask for a certain amount of room. *)
Definition one_by_one {T : Type} (c : call T) : bool :=
  match c with CReserve _ | CAppend _ | CAssign _ => false | _ => true end.

(** Entries put into new buckets by the calls of a program.  A call after which the number
    of buckets is another has redistributed every entry there was before it. *)
Fixpoint redistributed {K V} (nsz nal : Z) (eb : nat) (chk : bool) (hash : K -> Z) (eqb : K -> K -> bool)
    (cs : list (hcall K V)) (s : tstate K V) : Z :=
  match cs with
  | [] => 0
  | c :: cs' =>
    match h_call nsz nal eb chk hash eqb c s with
    | UB => 0
    | Ok _ s' | Panic s' =>
      (if (t_bc s' =? t_bc s)%Z then 0 else t_ec s) + redistributed nsz nal eb chk hash eqb cs' s'
    end
  end%Z.

(** How many element arrays a deque has. *)
Definition arrays {T} (s : dstate T) : nat :=
  match pdiff (di_arr (d_e s)) (di_arr (d_b s)) with Some d => S d | None => 0 end.

(** Pointers to element arrays moved by the calls of a program.  A push at the back after
    which the first array has another slot has moved the pointers to all the arrays there
    were, and so has a push at the front after which the last one has. *)
Fixpoint repointed {T} (sz al : Z) (chk : bool) (cs : list (dcall T)) (s : dstate T) : nat :=
  match cs with
  | [] => 0
  | c :: cs' =>
    match d_call sz al chk c s with
    | UB => 0
    | Ok _ s' | Panic s' =>
      match c with
      | DPushBack _ => if decide (di_arr (d_b s') = di_arr (d_b s)) then 0 else arrays s
      | DPushFront _ => if decide (di_arr (d_e s') = di_arr (d_e s)) then 0 else arrays s
      | _ => 0
      end + repointed sz al chk cs' s'
    end
  end.
