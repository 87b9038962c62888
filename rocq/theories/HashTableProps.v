(** Property theorems.  Each is closed by the lemma of the same content in
    HashTableDerived.v; examples show the hypotheses can be met. *)
From Coq Require Import Znumtheory Sorted.
From Verif Require Import Base Heap Alloc RehashPolicy HashTable HashTableSpec.
Local Open Scope nat_scope.
From Verif Require Import HashTableDerived.

(** C39.  Every program of map calls on a new table is free of undefined
    behaviour, and answers what a finite map answers ([None] is a panic; iteration
    order is free).  The keys and values dropped on the way are the map's too. *)
Theorem C39_hash_map_refines_finite_map :
  forall (K V : Type) nsz nal eb chk hash eqb (h0 : heap (tcell K V)), Setup nsz nal eb hash eqb h0 ->
  forall prog : list (hcall K V),
  let '(answers, dropped, m) := spec_run eqb prog [] in
  exists l s, built nsz nal eb chk hash eqb h0 prog l s /\ Forall2 same_answer l answers /\
    t_drops s ≡ₚ dropped /\ holds hash eqb s (fun k => look eqb k m).
Proof. exact L_C39_hash_map_refines_finite_map. Qed.
Print Assumptions C39_hash_map_refines_finite_map.

Example C39_setup : Setup (V := Z) 24 8 0 hx_hash Z.eqb hx_heap.
Proof. exact (hx_setup Z). Qed.
Example C39_case : option_map fst (hx_run [HInsert 1 10; HInsert 3 30; HInsert 1 11; HGet 3; HRemove 1; HContains 1; HLen; HGetMutSet 3 31; HRemoveEntry 3; HIsEmpty]%Z)
  = Some [Some (HVal None); Some (HVal None); Some (HVal (Some 10)); Some (HPair (Some (3, 30))); Some (HVal (Some 11)); Some (HBool false);
      Some (HNat 1); Some (HBool true); Some (HPair (Some (3, 31))); Some (HBool true)]%Z.
Proof. vm_compute. reflexivity. Qed.

(** C40.  On any table built by calls, iterating yields no key twice, exactly the
    entries that [get] finds, and as many as [len] says. *)
Theorem C40_iteration_yields_each_once :
  forall (K V : Type) nsz nal eb chk hash eqb (h0 : heap (tcell K V)), Setup nsz nal eb hash eqb h0 ->
  forall prog l s, built nsz nal eb chk hash eqb h0 prog l s ->
  exists es, h_call nsz nal eb chk hash eqb HIter s = Ok (HPairs es) s /\
    distinct eqb es /\
    (forall k e, (e ∈ es /\ eqb (fst e) k = true) <-> get hash eqb k s = Ok (Some e) s) /\
    h_call nsz nal eb chk hash eqb HLen s = Ok (HNat (Z.of_nat (length es))) s.
Proof. exact L_C40_iteration_yields_each_once. Qed.
Print Assumptions C40_iteration_yields_each_once.

Example C40_case : match hx_run [HInsert 1 10; HInsert 3 30; HInsert 2 20]%Z with
  | Some (_, s) => val (h_call 24 8 0 true hx_hash Z.eqb HIter s) = Some (HPairs [(1, 10); (2, 20); (3, 30)])%Z
  | None => False
  end.
Proof. vm_compute. reflexivity. Qed.

(** C40.  Mutable iteration visits the same entries once each, and changes exactly
    the values. *)
Theorem C40_iter_mut_visits_each_once :
  forall (K V : Type) nsz nal eb chk hash eqb (h0 : heap (tcell K V)), Setup nsz nal eb hash eqb h0 ->
  forall prog l s (g : K -> V -> V) m, built nsz nal eb chk hash eqb h0 prog l s -> holds hash eqb s m ->
  exists es es' s', h_call nsz nal eb chk hash eqb HIter s = Ok (HPairs es) s /\
    h_call nsz nal eb chk hash eqb (HIterMut g) s = Ok (HPairs es') s' /\ es' ≡ₚ es /\
    holds hash eqb s' (fun k => option_map (fun e => (fst e, g (fst e) (snd e))) (m k)) /\ t_ec s' = t_ec s.
Proof. exact L_C40_iter_mut_visits_each_once. Qed.
Print Assumptions C40_iter_mut_visits_each_once.

Example C40_mut_case : match hx_run [HInsert 1 10; HInsert 3 30; HIterMut (fun k v => v + k)]%Z with
  | Some (_, s) => val (h_call 24 8 0 true hx_hash Z.eqb HIter s) = Some (HPairs [(3, 33); (1, 11)])%Z
  | None => False
  end.
Proof. vm_compute. reflexivity. Qed.

(** C41.  An insert, whether or not it makes the table grow, stores the value and
    leaves every other key with its entry; a refused insert changes nothing. *)
Theorem C41_insert_keeps_the_others :
  forall (K V : Type) nsz nal eb chk hash eqb (h0 : heap (tcell K V)), Setup nsz nal eb hash eqb h0 ->
  forall prog l s m k v, built nsz nal eb chk hash eqb h0 prog l s -> holds hash eqb s m ->
  match h_call nsz nal eb chk hash eqb (HInsert k v) s with
  | Ok a s' => a = HVal (option_map snd (m k)) /\
      holds hash eqb s' (fun k' => if eqb k k' then Some (match m k with Some e => fst e | None => k end, v) else m k') /\
      t_ec s' = (if m k then t_ec s else t_ec s + 1)%Z
  | Panic s' => holds hash eqb s' m /\ t_ec s' = t_ec s /\ t_ec s = max_entries
  | UB => False
  end.
Proof. exact L_C41_insert_keeps_the_others. Qed.
Print Assumptions C41_insert_keeps_the_others.

(** The third insert makes the table grow from 2 to 5 buckets. *)
Example C41_case : match hx_run [HInsert 1 10; HInsert 3 30]%Z, hx_run [HInsert 1 10; HInsert 3 30; HInsert 2 20]%Z with
  | Some (_, s), Some (_, s') => (t_bc s, t_bc s', val (get hx_hash Z.eqb 1%Z s'), val (get hx_hash Z.eqb 2%Z s'), val (get hx_hash Z.eqb 3%Z s'))
      = (2, 5, Some (Some (1, 10)), Some (Some (2, 20)), Some (Some (3, 30)))%Z
  | _, _ => False
  end.
Proof. vm_compute. reflexivity. Qed.

(** C42.  The bucket array always has [bucket_count() + 1] words: that many node
    pointers, then the all-ones word. *)
Theorem C42_bucket_array_shape :
  forall (K V : Type) nsz nal eb chk hash eqb (h0 : heap (tcell K V)), Setup nsz nal eb hash eqb h0 ->
  forall prog l s, built nsz nal eb chk hash eqb h0 prog l s ->
  exists b bk, t_arr s = Ptr b 0 /\ h_blk (t_h s) !! b = Some bk /\
    Z.of_nat (length (bk_cells bk)) = (t_bc s + 1)%Z /\ last (bk_cells bk) = Some (Some TOnes) /\
    (forall i, (Z.of_nat i < t_bc s)%Z -> exists p, bk_cells bk !! i = Some (Some (TSlot p))).
Proof. exact L_C42_bucket_array_shape. Qed.
Print Assumptions C42_bucket_array_shape.

Example C42_case : match hx_run [HInsert 1 10; HInsert 3 30; HInsert 2 20]%Z with
  | Some (_, s) => match t_arr s with
      | Ptr b 0 => option_map (fun bk => map (fun c => match c with Some (TSlot p) => Some p | Some TOnes => None | _ => Some (Ptr 99 99) end) (bk_cells bk)) (h_blk (t_h s) !! b)
          = Some [Some Null; Some (Ptr 2 0); Some (Ptr 5 0); Some (Ptr 3 0); Some Null; None]
      | _ => False
      end
  | None => False
  end.
Proof. vm_compute. reflexivity. Qed.

(** C42.  No program changes the static empty array, nor any other memory that
    existed before the table. *)
Theorem C42_static_array_never_written :
  forall (K V : Type) nsz nal eb chk hash eqb (h0 : heap (tcell K V)), Setup nsz nal eb hash eqb h0 ->
  forall prog l s, built nsz nal eb chk hash eqb h0 prog l s ->
  h_blk (t_h s) !! eb = Some (Block (-1) 8 [Some (TSlot Null); Some TOnes]) /\
  forall b bk, h_blk h0 !! b = Some bk -> h_blk (t_h s) !! b = Some bk.
Proof. exact L_C42_static_array_never_written. Qed.
Print Assumptions C42_static_array_never_written.

Example C42_static_case : match hx_run [HClear; HRemove 1; HInsert 1 10; HClear]%Z with
  | Some (_, s) => option_map (fun bk => length (bk_cells bk)) (h_blk (t_h s) !! 0) = Some 2 /\ t_arr s <> Ptr 0 0
  | None => False
  end.
Proof. vm_compute. split; [reflexivity|discriminate]. Qed.

(** C43.  [entry(k)] is occupied exactly when the key is present, and taking and
    dropping it (after [and_modify(f)], if given) changes at most that value. *)
Theorem C43_entry_occupied_exactly_when_present :
  forall (K V : Type) nsz nal eb chk hash eqb (h0 : heap (tcell K V)), Setup nsz nal eb hash eqb h0 ->
  forall prog l s m k (f : option (V -> V)), built nsz nal eb chk hash eqb h0 prog l s -> holds hash eqb s m ->
  exists s', h_call nsz nal eb chk hash eqb (HEntryDrop k f) s = Ok (HBool (if m k then true else false)) s' /\
    holds hash eqb s' (fun k' => if eqb k k' then option_map (fun e => (fst e, match f with Some f => f (snd e) | None => snd e end)) (m k') else m k').
Proof. exact L_C43_entry_occupied_exactly_when_present. Qed.
Print Assumptions C43_entry_occupied_exactly_when_present.

Example C43_case : option_map fst (hx_run [HInsert 1 10; HEntryDrop 1 None; HEntryDrop 2 None; HEntryDrop 1 (Some (Z.add 5)); HGet 1]%Z)
  = Some [Some (HVal None); Some (HBool true); Some (HBool false); Some (HBool true); Some (HPair (Some (1, 15)))]%Z.
Proof. vm_compute. reflexivity. Qed.

(** C43.  [entry(k).and_modify(f).or_insert(v)], [and_modify] being optional: when
    the key is present its value is changed by [f] and returned; otherwise [v] is
    inserted and returned, whether or not the table grows. *)
Theorem C43_entry_or_insert :
  forall (K V : Type) nsz nal eb chk hash eqb (h0 : heap (tcell K V)), Setup nsz nal eb hash eqb h0 ->
  forall prog l s m k (f : option (V -> V)) v, built nsz nal eb chk hash eqb h0 prog l s -> holds hash eqb s m ->
  match m k with
  | Some e => let v' := match f with Some f => f (snd e) | None => snd e end in
    exists s', h_call nsz nal eb chk hash eqb (HEntryOr k f v) s = Ok (HRef true v') s' /\
      holds hash eqb s' (fun k' => if eqb k k' then Some (fst e, v') else m k')
  | None => t_ec s <> max_entries ->
    exists s', h_call nsz nal eb chk hash eqb (HEntryOr k f v) s = Ok (HRef true v) s' /\
      holds hash eqb s' (fun k' => if eqb k k' then Some (k, v) else m k')
  end.
Proof. exact L_C43_entry_or_insert. Qed.
Print Assumptions C43_entry_or_insert.

Example C43_or_case : option_map fst (hx_run [HEntryOr 1 None 10; HEntryOr 3 None 30; HEntryOr 2 (Some (Z.add 1)) 20; HEntryOr 1 (Some (Z.add 1)) 99; HGet 2; HLen]%Z)
  = Some [Some (HRef true 10); Some (HRef true 30); Some (HRef true 20); Some (HRef true 11); Some (HPair (Some (2, 20))); Some (HNat 3)]%Z.
Proof. vm_compute. reflexivity. Qed.

(** C43.  The same for [or_insert_with]; the first component of the answer says
    whether the closure ran, and it runs only for an absent key. *)
Theorem C43_entry_or_insert_with :
  forall (K V : Type) nsz nal eb chk hash eqb (h0 : heap (tcell K V)), Setup nsz nal eb hash eqb h0 ->
  forall prog l s m k (f : option (V -> V)) v, built nsz nal eb chk hash eqb h0 prog l s -> holds hash eqb s m ->
  match m k with
  | Some e => let v' := match f with Some f => f (snd e) | None => snd e end in
    exists s', h_call nsz nal eb chk hash eqb (HEntryWith k f v) s = Ok (HRef false v') s' /\
      holds hash eqb s' (fun k' => if eqb k k' then Some (fst e, v') else m k')
  | None => t_ec s <> max_entries ->
    exists s', h_call nsz nal eb chk hash eqb (HEntryWith k f v) s = Ok (HRef true v) s' /\
      holds hash eqb s' (fun k' => if eqb k k' then Some (k, v) else m k')
  end.
Proof. exact L_C43_entry_or_insert_with. Qed.
Print Assumptions C43_entry_or_insert_with.

Example C43_with_case : option_map fst (hx_run [HEntryWith 1 None 10; HEntryWith 1 None 11; HGet 1]%Z)
  = Some [Some (HRef true 10); Some (HRef false 10); Some (HPair (Some (1, 10)))]%Z.
Proof. vm_compute. reflexivity. Qed.

(** C44, up to 17961079 entries: there are never more entries than buckets.
    Beyond, see [C44_load_refuted] and [C44_load_slack]. *)
Theorem C44_load_at_most_one_partial :
  forall (K V : Type) nsz nal eb chk hash eqb (h0 : heap (tcell K V)), Setup nsz nal eb hash eqb h0 ->
  forall prog l s, built nsz nal eb chk hash eqb h0 prog l s -> (t_ec s <= 17961079 -> t_ec s <= t_bc s)%Z.
Proof. exact L_C44_load_at_most_one_partial. Qed.
Print Assumptions C44_load_at_most_one_partial.

Example C44_case : match hx_run (inserts 12) with Some (_, s) => (t_ec s, t_bc s) = (12, 23)%Z | None => False end.
Proof. vm_compute. reflexivity. Qed.

(** C44.  At any size the entries exceed the buckets by at most 195. *)
Theorem C44_load_slack :
  forall (K V : Type) nsz nal eb chk hash eqb (h0 : heap (tcell K V)), Setup nsz nal eb hash eqb h0 ->
  forall prog l s, built nsz nal eb chk hash eqb h0 prog l s -> (t_ec s <= t_bc s + 195)%Z.
Proof. exact L_C44_load_slack. Qed.
Print Assumptions C44_load_slack.

Example C44_slack_case : exists l s, built 24 8 0 true hx_hash Z.eqb hx_heap (inserts 3) l s /\ (t_ec s = 3)%Z.
Proof. unfold built. do 2 eexists. split; [vm_compute; reflexivity|]. vm_compute. reflexivity. Qed.

(** C44 as stated fails: the policy rounds the bucket count to single precision,
    so a table of 17961079 buckets takes up to two entries more. *)
Theorem C44_load_refuted :
  forall chk, exists prog l (s : tstate Z Z), built 24 8 0 chk hx_hash Z.eqb hx_heap prog l s /\ (t_bc s < t_ec s)%Z.
Proof. exact L_C44_load_refuted. Qed.
Print Assumptions C44_load_refuted.

(** C45.  Whatever the state of the policy, a bucket count it answers is a prime of
    the table; the table is sorted. *)
Theorem C45_policy_chooses_primes :
  (forall chk bc ec add nr p nr', get_rehash_required chk bc ec add nr = Ok (Some p) nr' -> p ∈ PRIMES /\ prime p) /\
  StronglySorted Z.le PRIMES.
Proof. exact L_C45_policy_chooses_primes. Qed.
Print Assumptions C45_policy_chooses_primes.

Example C45_case : get_rehash_required true 2 2 1 2%Z = Ok (Some 5%Z) 5%Z.
Proof. vm_compute. reflexivity. Qed.

(** C45.  The bucket count of any table is 1 (nothing was ever inserted) or a prime
    of the table. *)
Theorem C45_bucket_count_prime :
  forall (K V : Type) nsz nal eb chk hash eqb (h0 : heap (tcell K V)), Setup nsz nal eb hash eqb h0 ->
  forall prog l s, built nsz nal eb chk hash eqb h0 prog l s -> t_bc s = 1%Z \/ (t_bc s ∈ PRIMES /\ prime (t_bc s)).
Proof. exact L_C45_bucket_count_prime. Qed.
Print Assumptions C45_bucket_count_prime.

Example C45_count_case : match hx_run (inserts 30) with Some (_, s) => t_bc s = 47%Z | None => False end.
Proof. vm_compute. reflexivity. Qed.

(** C46.  A call that changes the bucket count at least doubles it. *)
Theorem C46_growth_doubles :
  forall (K V : Type) nsz nal eb chk hash eqb (h0 : heap (tcell K V)), Setup nsz nal eb hash eqb h0 ->
  forall prog l s c, built nsz nal eb chk hash eqb h0 prog l s ->
  match h_call nsz nal eb chk hash eqb c s with
  | Ok _ s' | Panic s' => (t_bc s' = t_bc s \/ 2 * t_bc s <= t_bc s')%Z
  | UB => False
  end.
Proof. exact L_C46_growth_doubles. Qed.
Print Assumptions C46_growth_doubles.

Example C46_case : match hx_run (inserts 5), hx_run (inserts 6) with
  | Some (_, s), Some (_, s') => (t_bc s, t_bc s') = (5, 11)%Z
  | _, _ => False
  end.
Proof. vm_compute. reflexivity. Qed.

(** C46.  Inserting n keys, among any other calls, rehashes at most log2(n)+1 times. *)
Theorem C46_rehashes_logarithmic :
  forall (K V : Type) nsz nal eb chk hash eqb (h0 : heap (tcell K V)), Setup nsz nal eb hash eqb h0 ->
  forall prog : list (hcall K V),
  (Z.of_nat (rehashes nsz nal eb chk hash eqb prog (ht_new eb h0 [])) <= Z.log2 (Z.of_nat (keys_given prog)) + 1)%Z.
Proof. exact L_C46_rehashes_logarithmic. Qed.
Print Assumptions C46_rehashes_logarithmic.

Example C46_log_case : rehashes 24 8 0 true hx_hash Z.eqb (inserts 20) (ht_new 0 hx_heap []) = 4.
Proof. vm_compute. reflexivity. Qed.

(** C47, for programs that hand over at most 2557710464 keys: no call panics.
    Beyond, see [C47_growth_refuted]. *)
Theorem C47_growth_never_panics_partial :
  forall (K V : Type) nsz nal eb chk hash eqb (h0 : heap (tcell K V)), Setup nsz nal eb hash eqb h0 ->
  forall prog : list (hcall K V), (Z.of_nat (keys_given prog) <= 2557710464)%Z ->
  exists l s, built nsz nal eb chk hash eqb h0 prog l s /\ Forall (fun a => a <> None) l.
Proof. exact L_C47_growth_never_panics_partial. Qed.
Print Assumptions C47_growth_never_panics_partial.

Example C47_case : (Z.of_nat (keys_given (inserts 8 ++ [HExtend [(1, 2)]; HClear])) = 9)%Z.
Proof. vm_compute. reflexivity. Qed.

(** C47 as stated fails: the 2557710465th distinct key makes the policy index past
    its table of primes and panic. *)
Theorem C47_growth_refuted :
  forall chk, exists prog k v l (s : tstate Z Z), built 24 8 0 chk hx_hash Z.eqb hx_heap (prog ++ [HInsert k v]) (l ++ [None]) s /\
    Forall (fun a => a <> None) l /\ (Z.of_nat (keys_given prog) = 2557710464)%Z.
Proof. exact L_C47_growth_refuted. Qed.
Print Assumptions C47_growth_refuted.

(** C48.  For programs whose closures do not rewrite values in place: after the
    table is dropped, the keys and values handed over are exactly those dropped and
    those handed back. *)
Theorem C48_conservation :
  forall (K V : Type) nsz nal eb chk hash eqb (h0 : heap (tcell K V)), Setup nsz nal eb hash eqb h0 ->
  forall prog l s, built nsz nal eb chk hash eqb h0 prog l s -> forallb no_rewrite prog = true ->
  exists s', ht_drop nsz nal eb s = Ok tt s' /\ all_given prog l ≡ₚ t_drops s' ++ all_taken prog l.
Proof. exact L_C48_conservation. Qed.
Print Assumptions C48_conservation.

Example C48_case : match hx_run [HInsert 1 10; HInsert 3 30; HInsert 1 11; HRemove 3; HEntryOr 1 None 12; HExtend [(5, 50); (5, 51)]]%Z with
  | Some (_, s) => match ht_drop 24 8 0 s with
      | Ok _ s' => t_drops s' = [inl 1; inl 3; inl 1; inr 12; inl 5; inr 50; inl 1; inr 11; inl 5; inr 51]%Z
      | _ => False
      end
  | None => False
  end.
Proof. vm_compute. reflexivity. Qed.

(** C48.  For all programs, the same about the keys. *)
Theorem C48_keys_conservation :
  forall (K V : Type) nsz nal eb chk hash eqb (h0 : heap (tcell K V)), Setup nsz nal eb hash eqb h0 ->
  forall prog l s, built nsz nal eb chk hash eqb h0 prog l s ->
  exists s', ht_drop nsz nal eb s = Ok tt s' /\ keys_of (all_given prog l) ≡ₚ keys_of (t_drops s' ++ all_taken prog l).
Proof. exact L_C48_keys_conservation. Qed.
Print Assumptions C48_keys_conservation.

Example C48_keys_case : match hx_run [HInsert 1 10; HEntryOr 1 (Some (Z.add 1)) 5; HIterMut (fun _ v => v * 2)]%Z with
  | Some (_, s) => match ht_drop 24 8 0 s with Ok _ s' => t_drops s' = [inl 1; inr 5; inl 1; inr 22]%Z | _ => False end
  | None => False
  end.
Proof. vm_compute. reflexivity. Qed.

(** C48.  After the drop no node is left: a block that did not exist before the
    table is a bucket array.  (Freeing one twice, or with another layout, would
    have been undefined.) *)
Theorem C48_nodes_freed :
  forall (K V : Type) nsz nal eb chk hash eqb (h0 : heap (tcell K V)), Setup nsz nal eb hash eqb h0 ->
  forall prog l s, built nsz nal eb chk hash eqb h0 prog l s ->
  exists s', ht_drop nsz nal eb s = Ok tt s' /\
  forall b bk, h_blk (t_h s') !! b = Some bk ->
    h_blk h0 !! b = Some bk \/ (last (bk_cells bk) = Some (Some TOnes) /\ forall k v nx, Some (TNode k v nx) ∉ bk_cells bk).
Proof. exact L_C48_nodes_freed. Qed.
Print Assumptions C48_nodes_freed.

Example C48_nodes_case : match hx_run (inserts 6) with
  | Some (_, s) => match ht_drop 24 8 0 s with Ok _ s' => (map_size (h_blk (t_h s)), map_size (h_blk (t_h s'))) = (10, 4) | _ => False end
  | None => False
  end.
Proof. vm_compute. reflexivity. Qed.

(** C49, what holds: after the drop the heap is the old one plus the bucket arrays
    the table ever used; their number is 0 exactly when nothing was ever inserted,
    and at most log2(n)+1 after inserting n keys. *)
Theorem C49_drop_leaks_bucket_arrays :
  forall (K V : Type) nsz nal eb chk hash eqb (h0 : heap (tcell K V)), Setup nsz nal eb hash eqb h0 ->
  forall prog l s, built nsz nal eb chk hash eqb h0 prog l s ->
  exists s' leaked, ht_drop nsz nal eb s = Ok tt s' /\ NoDup leaked /\
    (forall b, b ∉ leaked -> h_blk (t_h s') !! b = h_blk h0 !! b) /\
    (forall b, b ∈ leaked -> h_blk h0 !! b = None /\ exists bk, h_blk (t_h s') !! b = Some bk /\
       last (bk_cells bk) = Some (Some TOnes) /\ bk_bytes bk = (Z.of_nat (length (bk_cells bk)) * 8)%Z) /\
    (leaked = [] <-> t_bc s = 1%Z) /\
    (2 ^ (Z.of_nat (length leaked) - 1) <= Z.max 1 (Z.of_nat (keys_given prog)))%Z.
Proof. exact L_C49_drop_leaks_bucket_arrays. Qed.
Print Assumptions C49_drop_leaks_bucket_arrays.

Example C49_case : match hx_run (inserts 6) with
  | Some (_, s) => match ht_drop 24 8 0 s with
      | Ok _ s' => map (fun b => option_map (fun bk => length (bk_cells bk)) (h_blk (t_h s') !! b)) (seq 0 (h_next (t_h s')))
          = [Some 2; Some 3; None; None; Some 6; None; None; None; Some 12; None]
      | _ => False
      end
  | None => False
  end.
Proof. vm_compute. reflexivity. Qed.

(** C49 as stated fails: one insert and a drop leave a bucket array behind. *)
Theorem C49_drop_refuted :
  forall (K V : Type) nsz nal eb chk hash eqb (h0 : heap (tcell K V)) k v, Setup nsz nal eb hash eqb h0 ->
  exists l s s' b, built nsz nal eb chk hash eqb h0 [HInsert k v] l s /\ ht_drop nsz nal eb s = Ok tt s' /\
    h_blk h0 !! b = None /\ h_blk (t_h s') !! b <> None.
Proof. exact L_C49_drop_refuted. Qed.
Print Assumptions C49_drop_refuted.

(** C50, what holds: after any program, [insert] answers [true] when the key was
    present and [false] when it was not: the opposite of the claim. *)
Theorem C50_insert_answers_whether_present :
  forall (K : Type) nsz nal eb chk hash eqb (h0 : heap (tcell K unit)), Setup nsz nal eb hash eqb h0 ->
  forall prog l s k b, set_run nsz nal eb chk hash eqb prog (ht_new eb h0 []) = Some (l, s) ->
  val (set_call nsz nal eb chk hash eqb (SInsert k) s) = Some (SBool b) ->
  val (contains_key hash eqb k s) = Some b.
Proof. exact L_C50_insert_answers_whether_present. Qed.
Print Assumptions C50_insert_answers_whether_present.

Example C50_case : option_map fst (set_run 16 8 0 true hx_hash Z.eqb [SInsert 1; SInsert 1; SInsert 2; SRemove 1; SInsert 1]%Z (ht_new 0 hx_heap []))
  = Some [Some (SBool false); Some (SBool true); Some (SBool false); Some (SKey (Some 1)); Some (SBool false)]%Z.
Proof. vm_compute. reflexivity. Qed.

(** C50 as stated fails for every key: inserting into an empty set answers [false]. *)
Theorem C50_insert_refuted :
  forall (K : Type) nsz nal eb chk hash eqb (h0 : heap (tcell K unit)) (k : K), Setup nsz nal eb hash eqb h0 ->
  val (contains_key hash eqb k (ht_new eb h0 [])) = Some false /\
  val (set_call nsz nal eb chk hash eqb (SInsert k) (ht_new eb h0 [])) = Some (SBool false).
Proof. exact L_C50_insert_refuted. Qed.
Print Assumptions C50_insert_refuted.

(** C51.  Every program of set calls on a new set is free of undefined behaviour
    and answers what a set of keys answers, [insert] as in C50. *)
Theorem C51_hash_set_refines_set :
  forall (K : Type) nsz nal eb chk hash eqb (h0 : heap (tcell K unit)), Setup nsz nal eb hash eqb h0 ->
  forall prog : list (scall K), exists l s,
    set_run nsz nal eb chk hash eqb prog (ht_new eb h0 []) = Some (l, s) /\ Forall2 same_sanswer l (fst (sset_run eqb prog [])).
Proof. exact L_C51_hash_set_refines_set. Qed.
Print Assumptions C51_hash_set_refines_set.

Example C51_case : option_map fst (set_run 16 8 0 true hx_hash Z.eqb [SInsert 1; SInsert 3; SContains 3; SGet 4; SLen; SExtend [3; 4]; SLen; SIter; SClear; SIsEmpty]%Z (ht_new 0 hx_heap []))
  = Some [Some (SBool false); Some (SBool false); Some (SBool true); Some (SKey None); Some (SNat 2); Some SUnit; Some (SNat 3); Some (SKeys [1; 3; 4]); Some SUnit; Some (SBool true)]%Z.
Proof. vm_compute. reflexivity. Qed.

(** C52.  An iterator advanced any number of times, converted to the C++ form and
    back, is the same iterator and yields the same remaining entries; together
    with the nodes already yielded these are all entries. *)
Theorem C52_iterator_compat_roundtrip :
  forall (K V : Type) nsz nal eb chk hash eqb (h0 : heap (tcell K V)), Setup nsz nal eb hash eqb h0 ->
  forall prog l s n, built nsz nal eb chk hash eqb h0 prog l s ->
  exists it nodes it' b e es, iter s = Ok it s /\ iter_take n it s = Ok (nodes, it') s /\
    into_compat it' s = Ok (b, e) s /\ from_compat b e s = Ok it' s /\
    h_call nsz nal eb chk hash eqb HIter s = Ok (HPairs es) s /\
    length nodes = n `min` length es /\ iter_all (fuel s) it' s = Ok (drop n es) s.
Proof. exact L_C52_iterator_compat_roundtrip. Qed.
Print Assumptions C52_iterator_compat_roundtrip.

Example C52_case : match hx_run [HInsert 1 10; HInsert 3 30; HInsert 2 20]%Z with
  | Some (_, s) => val ((do it <- iter; do r <- iter_take 1 it; do c <- into_compat (snd r);
      do it' <- from_compat (fst c) (snd c); do f <- gets fuel; iter_all f it') s) = Some [(2, 20); (3, 30)]%Z
  | None => False
  end.
Proof. vm_compute. reflexivity. Qed.

(** C85, the part that holds: one mutable iterator never yields the same node twice,
    and in all yields one node per entry.  Missing: exclusivity against a clone of it. *)
Theorem C85_iter_mut_yields_each_node_once_partial :
  forall (K V : Type) nsz nal eb chk hash eqb (h0 : heap (tcell K V)), Setup nsz nal eb hash eqb h0 ->
  forall prog l s n, built nsz nal eb chk hash eqb h0 prog l s ->
  exists it nodes it' es, iter s = Ok it s /\ iter_take n it s = Ok (nodes, it') s /\
    h_call nsz nal eb chk hash eqb HIter s = Ok (HPairs es) s /\ length nodes = n `min` length es /\ NoDup nodes.
Proof. exact L_C85_iter_mut_yields_each_node_once_partial. Qed.
Print Assumptions C85_iter_mut_yields_each_node_once_partial.

Example C85_case : match hx_run [HInsert 1 10; HInsert 3 30; HInsert 2 20]%Z with
  | Some (_, s) => match val ((do it <- iter; iter_take 5 it) s) with Some (ns, _) => length ns = 3 | None => False end
  | None => False
  end.
Proof. vm_compute. reflexivity. Qed.

(** C85, refuted.  [IterMut] is [Clone] (iter.rs:283): at every position with an entry
    left, the iterator and its clone both yield a mutable reference to the value of
    the same node. *)
Theorem C85_cloned_iter_mut_aliases_refuted :
  forall (K V : Type) nsz nal eb chk hash eqb (h0 : heap (tcell K V)), Setup nsz nal eb hash eqb h0 ->
  forall prog l s n es, built nsz nal eb chk hash eqb h0 prog l s ->
  h_call nsz nal eb chk hash eqb HIter s = Ok (HPairs es) s -> n < length es ->
  exists it nodes it1 it2 p it1' it2', iter s = Ok it s /\ iter_take n it s = Ok (nodes, it1) s /\ it2 = it_clone it1 /\
    iter_next it1 s = Ok (Some p, it1') s /\ iter_next it2 s = Ok (Some p, it2') s /\
    exists k v nx, node_at p s = Ok (k, v, nx) s /\ es !! n = Some (k, v).
Proof. exact L_C85_cloned_iter_mut_aliases_refuted. Qed.
Print Assumptions C85_cloned_iter_mut_aliases_refuted.

Example C85_case2 : match hx_run [HInsert 1 10; HInsert 3 30]%Z with
  | Some (_, s) => val ((do it <- iter; do r <- iter_next it; do r' <- iter_next (it_clone it); ret (bool_decide (fst r = fst r' /\ fst r <> None))) s) = Some true
  | None => False
  end.
Proof. vm_compute. reflexivity. Qed.
