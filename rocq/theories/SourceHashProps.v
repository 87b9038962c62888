(** Property theorems.  Each is closed by the lemma of the same content in
    SourceHashDerived.v; examples show the hypotheses can be met. *)
(** C100, hash maps and sets: a panic of the iterator they are filled from, and of the closures
    of an entry. *)
From Verif Require Import Base Heap Alloc Source.
From Verif Require Import HashTable HashTableSpec.
From Verif Require Import SourceHashDerived.

(** Collecting pairs into a hash map, and keys into a hash set.  If all goes well, each key has
    the last value yielded for it, and dropping the map drops the rest.  Otherwise the map is gone
    and each key and value yielded so far was dropped once; below the largest size, that happens
    only if the iterator panics.  The memory is given back but for the bucket arrays that every
    dropped map leaks (C49). *)
Theorem C100_hash_from_iter :
forall (K V : Type) nsz nal eb chk hash eqb (h0 : heap (tcell K V)) (src : source (K * V)), Setup nsz nal eb hash eqb h0 ->
  match table_collect nsz nal eb chk hash eqb src h0 with
  | (Ok _ s, n) =>
    panics src = false /\ n = length (yields src) /\
    (forall k, exists o, get hash eqb k s = Ok o s /\
       option_map snd o = option_map snd (List.find (fun e => eqb (fst e) k) (rev (yields src)))) /\
    exists s', ht_drop nsz nal eb s = Ok tt s' /\ t_drops s' ≡ₚ parts (yields src)
  | (Panic s, n) =>
    t_drops s ≡ₚ parts (take n (yields src)) /\
    ((Z.of_nat (length (yields src)) <= max_entries)%Z -> panics src = true /\ n = length (yields src)) /\
    exists leaked, NoDup leaked /\ (forall b, b ∉ leaked -> h_blk (t_h s) !! b = h_blk h0 !! b) /\
      (forall b, b ∈ leaked -> h_blk h0 !! b = None /\ exists bk, h_blk (t_h s) !! b = Some bk /\
         last (bk_cells bk) = Some (Some TOnes))
  | (UB, _) => False
  end.
Proof. exact L_C100_hash_from_iter. Qed.
Print Assumptions C100_hash_from_iter.

Example C100_hash_from_iter_case :
  match table_collect 24 8 0 true hx_hash Z.eqb (Source [(5, 50); (3, 30); (5, 51)]%Z true) hx_heap with
  | (Panic s, n) => n = 3 /\ t_drops s = [inl 5; inr 50; inl 5; inr 51; inl 3; inr 30]%Z
  | _ => False
  end /\
  match table_collect 24 8 0 true hx_hash Z.eqb (Source [(5, 50); (3, 30); (5, 51)]%Z false) hx_heap with
  | (Ok _ s, n) => n = 3 /\ val (get hx_hash Z.eqb 5%Z s) = Some (Some (5, 51)%Z)
  | _ => False
  end.
Proof. vm_compute. repeat split. Qed.

(** A closure that panics: that of [and_modify] on a key that is there, after it changed the
    value, or that of [or_insert_with] on one that is not.  The key handed to [entry] is dropped
    once and nothing else is.  The table is then in a state that calls without panics lead to as
    well, so all that is proved of such states holds. *)
Theorem C100_entry_closures :
forall (K V : Type) nsz nal eb chk hash eqb (h0 : heap (tcell K V)), Setup nsz nal eb hash eqb h0 ->
  forall prog l s m k (f : V -> V) (bad : bool) (d : option V), built nsz nal eb chk hash eqb h0 prog l s -> holds hash eqb s m ->
  match m k with Some _ => bad = true | None => d = None end ->
  exists s', entry_chain nsz nal eb chk hash eqb k f bad d s = Panic s' /\
    t_drops s' = t_drops s ++ [inl k] /\
    holds hash eqb s' (fun k' => if eqb k k' then option_map (fun e => (fst e, f (snd e))) (m k') else m k') /\
    exists prog' l', built nsz nal eb chk hash eqb h0 prog' l' s'.
Proof. exact L_C100_entry_closures. Qed.
Print Assumptions C100_entry_closures.

Example C100_entry_closures_case :
  match hx_run [HInsert 5 50; HInsert 3 30]%Z with
  | Some (_, s) =>
    (** the closure of [and_modify] adds 1 and panics; that of [or_insert_with] panics *)
    (match entry_chain 24 8 0 true hx_hash Z.eqb 5%Z (fun v => v + 1)%Z true None s with
     | Panic s' => t_drops s' = [inl 5]%Z /\ val (get hx_hash Z.eqb 5%Z s') = Some (Some (5, 51)%Z)
     | _ => False
     end) /\
    (match entry_chain 24 8 0 true hx_hash Z.eqb 7%Z (fun v => v + 1)%Z true None s with
     | Panic s' => t_drops s' = [inl 7]%Z /\ val (get hx_hash Z.eqb 7%Z s') = Some None
     | _ => False
     end) /\
    (** and without panics *)
    val (entry_chain 24 8 0 true hx_hash Z.eqb 5%Z (fun v => v + 1)%Z false None s) = Some (false, 51%Z) /\
    val (entry_chain 24 8 0 true hx_hash Z.eqb 7%Z (fun v => v + 1)%Z false (Some 70%Z) s) = Some (true, 70%Z)
  | None => False
  end.
Proof. vm_compute. repeat split. Qed.

(** When no closure panics: on a key that is there only the closure of [and_modify] runs, and the
    one of [or_insert_with] does not matter, nor whether it would panic.  On a key that is not
    there only the closure of [or_insert_with] runs, and its value is stored, unless the table has
    its largest size; then key and value are dropped. *)
Theorem C100_entry_closures_return :
forall (K V : Type) nsz nal eb chk hash eqb (h0 : heap (tcell K V)), Setup nsz nal eb hash eqb h0 ->
  forall prog l s m k (f : V -> V) (bad : bool) (d : option V), built nsz nal eb chk hash eqb h0 prog l s -> holds hash eqb s m ->
  match m k with
  | Some e => bad = false ->
    exists s', entry_chain nsz nal eb chk hash eqb k f bad d s = Ok (false, f (snd e)) s' /\ t_drops s' = t_drops s ++ [inl k] /\
      holds hash eqb s' (fun k' => if eqb k k' then Some (fst e, f (snd e)) else m k')
  | None => forall v, d = Some v ->
    match entry_chain nsz nal eb chk hash eqb k f bad d s with
    | Ok r s' => r = (true, v) /\ t_drops s' = t_drops s /\ holds hash eqb s' (fun k' => if eqb k k' then Some (k, v) else m k')
    | Panic s' => t_ec s = max_entries /\ t_drops s' ≡ₚ t_drops s ++ [inl k; inr v] /\ holds hash eqb s' m
    | UB => False
    end
  end.
Proof. exact L_C100_entry_closures_return. Qed.
Print Assumptions C100_entry_closures_return.

Example C100_entry_closures_return_case :
  match hx_run [HInsert 5 50; HInsert 3 30]%Z with
  | Some (_, s) =>
    (** the second closure would panic, but does not run *)
    val (entry_chain 24 8 0 true hx_hash Z.eqb 5%Z (fun v => v + 1)%Z false None s) = Some (false, 51%Z) /\
    (** the first would, but does not run *)
    val (entry_chain 24 8 0 true hx_hash Z.eqb 7%Z (fun v => v + 1)%Z true (Some 70%Z) s) = Some (true, 70%Z)
  | None => False
  end.
Proof. vm_compute. repeat split. Qed.
