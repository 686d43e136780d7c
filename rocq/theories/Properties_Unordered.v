(* unordered_map (C23-C25, C68-C70) and unordered_set (C26, C71).  [keqb], [null], [hash] and the
   width [w] of its result are arbitrary; slots are numbered from 0.  [map_init null storage] is
   the map constructed over the given storage, [index_of hash w N k] the bucket (its first slot)
   of k in a table of N slots, [do_iops]/[do_mops] histories of calls with their answers. *)
From Verif Require Import Base Unordered_Spec Unordered_Model Unordered_Proofs.

(* ---- C23: find after any history of insert, try_emplace and insert_or_assign, for every
   table size and hash.  Excluded: storage whose last slot has the erased-mark bit set, and
   buckets that may run up to the end of the table (see the refutations). *)
Theorem C23_find : forall K (keqb : K -> K -> bool) null hash w, (forall a b, keqb a b = true <-> a = b) ->
  forall storage ops, clear_end storage -> fits (length storage) (index_of hash w (length storage)) (map op_key ops) ->
  exists rs s l, do_iops keqb null hash w ops (map_init null storage) = Ok (rs, s) /\ story keqb null ops rs [] l /\
    forall k, map_find keqb null hash w s k = Ok (alookup keqb k l).
Proof. exact (fun K => @C23_main K). Qed.
Print Assumptions C23_find.

(* A bucket filled up to the end of the table: find and insert of a further key of that bucket
   read past the end. *)
Theorem C177_table_end_refuted : forall K (keqb : K -> K -> bool) null hash w, (forall a b, keqb a b = true <-> a = b) ->
  forall storage kvs n x vx, bucket_keys null (index_of hash w (length storage)) n kvs ->
  n + length kvs = length storage -> 0 < length storage ->
  x <> null -> index_of hash w (length storage) x = n -> ~ In x (map fst kvs) ->
  exists s, do_mops keqb null hash w (inserts kvs) (map_init null storage) = Ok (repeat true (length kvs), s) /\
    map_find keqb null hash w s x = UB /\ map_insert keqb null hash w s x vx = UB.
Proof. exact (fun K => @C23_end K). Qed.
Print Assumptions C177_table_end_refuted.

(* The constructor does not clear the erased-mark: over some storage, find on the empty map reads
   past the end. *)
Theorem C177_uninitialised_refuted : forall K (keqb : K -> K -> bool) null hash w, (forall a b, keqb a b = true <-> a = b) ->
  forall N k, k <> null -> index_of hash w N k < 64 -> 0 < N ->
  exists storage, length storage = N /\ map_find keqb null hash w (map_init null storage) k = UB.
Proof. exact (fun K => @C23_uninit K). Qed.
Print Assumptions C177_uninitialised_refuted.

Definition id_hash (k : nat) : N := N.of_nat k.
Example C23_case :
  let st := repeat (0, 0%N) 8 in
  let ops := [Insert 3 30%N; Insert 5 50%N; Insert 3 31%N; InsertOrAssign 5 51%N; TryEmplace 2 20%N] in
  clear_end st /\ fits 8 (index_of id_hash 32 8) [3; 5; 2] /\
  fits 8 (index_of id_hash 32 8) [1; 2; 4; 6; 8; 10; 3; 5] /\
  (exists s, do_iops Nat.eqb 0 id_hash 32 ops (map_init 0 st) = Ok ([true; true; false; true; true], s) /\
     map_find Nat.eqb 0 id_hash 32 s 5 = Ok (Some 51%N)) /\
  bucket_keys 0 (index_of id_hash 32 8) 4 [(1, 10%N); (3, 30%N); (5, 50%N); (7, 70%N)] /\
  index_of id_hash 32 8 9 = 4 /\ index_of id_hash 32 8 2 = 0.
Proof.
  cbv zeta. split; [split; [cbn; auto with arith|]; exists (0, 0%N); split; reflexivity|].
  split; [apply fits_check; reflexivity|]. split; [apply fits_check; reflexivity|].
  split; [eexists; split; reflexivity|]. split; [|split; reflexivity].
  split; [|repeat constructor; discriminate]. repeat constructor; cbn; intuition discriminate.
Qed.

(* ---- C24: over histories in which insert and try_emplace are called for absent keys only and
   buckets stay within their depth, the live keys are distinct.  See C25 for the hypotheses. *)
Theorem C24_unique : forall K (keqb : K -> K -> bool) null hash w, (forall a b, keqb a b = true <-> a = b) ->
  forall storage ops m, clear_end storage -> length storage = 4 * m -> m <= 16 -> (2 <= w)%N ->
  mhistory_ok keqb null (length storage) bucket_depth (index_of hash w (length storage)) ops [] ->
  exists s, do_mops keqb null hash w ops (map_init null storage) = Ok (manswers keqb ops [], s) /\
    NoDup (live_keys keqb null s).
Proof. exact (fun K => @C24_main K). Qed.
Print Assumptions C24_unique.

(* Without erasures the hypothesis on absent keys is not needed: C23_find. *)
Theorem C24_insertions : forall K (keqb : K -> K -> bool) null hash w, (forall a b, keqb a b = true <-> a = b) ->
  forall storage ops, clear_end storage -> fits (length storage) (index_of hash w (length storage)) (map op_key ops) ->
  exists rs s, do_iops keqb null hash w ops (map_init null storage) = Ok (rs, s) /\ NoDup (live_keys keqb null s).
Proof. exact (fun K => @C24_ins K). Qed.
Print Assumptions C24_insertions.

(* A key that is present: insert and both forms of try_emplace answer the element and false and
   change nothing, and m[k] denotes that element. *)
Theorem C24_present : forall K (keqb : K -> K -> bool) null hash w, (forall a b, keqb a b = true <-> a = b) ->
  forall storage ops, clear_end storage -> fits (length storage) (index_of hash w (length storage)) (map op_key ops) ->
  exists rs s, do_iops keqb null hash w ops (map_init null storage) = Ok (rs, s) /\
    forall k v x, map_find keqb null hash w s k = Ok (Some v) ->
    exists i, nth_error s i = Some (k, v) /\
      map_insert keqb null hash w s k x = Ok (Some i, false, s) /\
      map_try_emplace keqb null hash w s k x = Ok (Some i, false, s) /\
      map_try_emplace0 keqb null hash w s k = Ok (Some i, false, s) /\
      map_at keqb null hash w s k = Ok (i, s).
Proof. exact (fun K => @C24_present_lemma K). Qed.
Print Assumptions C24_present.

(* For any two keys of one bucket: insert both, erase the first, insert the second again.  The
   call answers true and the key is then stored twice. *)
Theorem C178_duplicate_refuted : forall K (keqb : K -> K -> bool) null hash w, (forall a b, keqb a b = true <-> a = b) ->
  forall storage a va b vb vb' n, bucket_keys null (index_of hash w (length storage)) n [(a, va); (b, vb)] ->
  n + 2 <= length storage ->
  exists s, do_mops keqb null hash w [MInsert a va; MInsert b vb; MErase a; MInsert b vb'] (map_init null storage) =
      Ok ([true; true; true; true], s) /\ ~ NoDup (live_keys keqb null s).
Proof. exact (fun K => @C24_dup K). Qed.
Print Assumptions C178_duplicate_refuted.

Definition ops24 : list (mop nat N) :=
  [MInsert 1 10%N; MInsert 3 30%N; MInsert 5 50%N; MErase 1; MStore 7 70%N; MErase 5; MInsertOrAssign 3 31%N; MGc 3; MInsert 2 20%N].
Example C24_case :
  let st := repeat (0, 0%N) 8 in
  mhistory_ok Nat.eqb 0 (length st) bucket_depth (index_of id_hash 32 (length st)) ops24 [] /\ clear_end st /\ length st = 4 * 2 /\
  manswers Nat.eqb ops24 [] = repeat true 9 /\
  mrun Nat.eqb ops24 [] = [(2, 20%N); (3, 31%N); (7, 70%N)] /\
  bucket_keys 0 (index_of id_hash 32 8) 4 [(1, 10%N); (3, 30%N)].
Proof.
  cbv zeta. split.
  { cbn [mhistory_ok ops24 mop_step]. unfold mop_ok. repeat (split; [vm_compute; repeat split; try discriminate; auto 20; intros; repeat constructor|]); exact I. }
  split; [split; [cbn; auto with arith|]; exists (0, 0%N); split; reflexivity|]. split; [reflexivity|]. split; [reflexivity|].
  split; [reflexivity|]. split; [|repeat constructor; discriminate]. repeat constructor; cbn; intuition discriminate.
Qed.

(* ---- C25: histories with erasures.  Every answer and every lookup is that of a finite map, for
   tables of 4 m slots, m <= 16, when buckets stay within their depth, insert and try_emplace
   are called for absent keys and no key of bucket 0 is erased.  The refutations show that each
   of these hypotheses is needed. *)
Theorem C25_erase : forall K (keqb : K -> K -> bool) null hash w, (forall a b, keqb a b = true <-> a = b) ->
  forall storage ops m, clear_end storage -> length storage = 4 * m -> m <= 16 -> (2 <= w)%N ->
  mhistory_ok keqb null (length storage) bucket_depth (index_of hash w (length storage)) ops [] ->
  exists s, do_mops keqb null hash w ops (map_init null storage) = Ok (manswers keqb ops [], s) /\
    forall k, map_find keqb null hash w s k = Ok (alookup keqb k (mrun keqb ops [])).
Proof. exact (fun K => @C25_find K). Qed.
Print Assumptions C25_erase.

(* One erasure: the key is gone, every other key keeps its value. *)
Theorem C25_erase_one : forall K (keqb : K -> K -> bool) null hash w, (forall a b, keqb a b = true <-> a = b) ->
  forall storage ops m k, clear_end storage -> length storage = 4 * m -> m <= 16 -> (2 <= w)%N ->
  mhistory_ok keqb null (length storage) bucket_depth (index_of hash w (length storage)) ops [] ->
  index_of hash w (length storage) k <> 0 ->
  exists s s' b, do_mops keqb null hash w ops (map_init null storage) = Ok (manswers keqb ops [], s) /\
    map_erase keqb null hash w s k = Ok (b, s') /\
    (b = true <-> exists v, map_find keqb null hash w s k = Ok (Some v)) /\
    map_find keqb null hash w s' k = Ok None /\
    forall x, x <> k -> map_find keqb null hash w s' x = map_find keqb null hash w s x.
Proof. exact (fun K => @C25_one K). Qed.
Print Assumptions C25_erase_one.

(* Bucket numbers from 64 on do not fit the 6 bits of the mark: erasing the first key of such a
   bucket makes the second unfindable. *)
Theorem C179_high_bucket_refuted : forall K (keqb : K -> K -> bool) null hash w, (forall a b, keqb a b = true <-> a = b) ->
  forall storage a va b vb n, bucket_keys null (index_of hash w (length storage)) n [(a, va); (b, vb)] ->
  n + 2 <= length storage -> 64 <= n ->
  exists s, do_mops keqb null hash w [MInsert a va; MInsert b vb; MErase a] (map_init null storage) = Ok ([true; true; true], s) /\
    map_find keqb null hash w s b = Ok None /\ In b (live_keys keqb null s).
Proof. exact (fun K => @C25_high K). Qed.
Print Assumptions C179_high_bucket_refuted.

(* Erase a key, of a bucket that runs into the next, from a slot where the next bucket starts,
   and insert a key of that bucket: the keys behind it are unfindable. *)
Theorem C179_overflow_refuted : forall K (keqb : K -> K -> bool) null hash w, (forall a b, keqb a b = true <-> a = b) ->
  forall storage kvs n i k v b vb x vx, bucket_keys null (index_of hash w (length storage)) n kvs ->
  n + length kvs <= length storage ->
  nth_error kvs i = Some (k, v) -> nth_error kvs (S i) = Some (b, vb) -> 0 < i ->
  x <> null -> index_of hash w (length storage) x = n + i ->
  exists s, do_mops keqb null hash w (inserts kvs ++ [MErase k; MInsert x vx]) (map_init null storage) =
      Ok (repeat true (length kvs) ++ [true; true], s) /\
    map_find keqb null hash w s b = Ok None /\ In b (live_keys keqb null s).
Proof. exact (fun K => @C25_steal K). Qed.
Print Assumptions C179_overflow_refuted.

(* Erasing the only key of bucket 0 reads before the table. *)
Theorem C179_bucket0_refuted : forall K (keqb : K -> K -> bool) null hash w, (forall a b, keqb a b = true <-> a = b) ->
  forall storage a va, bucket_keys null (index_of hash w (length storage)) 0 [(a, va)] -> 0 < length storage ->
  (1 < length storage -> exists c, nth_error storage 1 = Some c /\ marked (snd c) = false) ->
  do_mops keqb null hash w [MInsert a va; MErase a] (map_init null storage) = UB.
Proof. exact (fun K => @C25_zero K). Qed.
Print Assumptions C179_bucket0_refuted.

Example C25_case :
  let st := repeat (0, 0%N) 80 in
  bucket_keys 0 (index_of id_hash 32 80) 64 [(16, 1%N); (36, 2%N)] /\
  bucket_keys 0 (index_of id_hash 32 8) 0 [(2, 1%N); (4, 2%N); (6, 3%N); (8, 4%N); (10, 5%N); (12, 6%N)] /\
  nth_error [(2, 1%N); (4, 2%N); (6, 3%N); (8, 4%N); (10, 5%N); (12, 6%N)] 4 = Some (10, 5%N) /\
  index_of id_hash 32 8 1 = 0 + 4 /\
  bucket_keys 0 (index_of id_hash 32 8) 0 [(2, 1%N)] /\ index_of id_hash 32 8 3 <> 0.
Proof.
  cbv zeta. repeat split; try discriminate; try (repeat constructor; cbn; intuition discriminate).
Qed.

(* ---- C26: erasing the last key of a bucket, or the first of a bucket that is not that of the
   null key, in any set built by insertions and such erasures. *)
Theorem C26_erase_end : forall K (keqb : K -> K -> bool) null hash w, (forall a b, keqb a b = true <-> a = b) ->
  forall N U s k, 0 < N -> fits N (index_of hash w N) U -> set_reach keqb null hash w N U s ->
  set_end_key keqb null hash w s k ->
  exists s', set_erase keqb null hash w s k = Ok (true, s') /\ set_contains keqb null hash w s k = Ok true /\
    set_contains keqb null hash w s' k = Ok false /\
    forall x, x <> k -> set_contains keqb null hash w s' x = set_contains keqb null hash w s x.
Proof. exact (fun K => @C26_main K). Qed.
Print Assumptions C26_erase_end.

(* Erasing any other key: every key behind it in the bucket is lost. *)
Theorem C180_middle_refuted : forall K (keqb : K -> K -> bool) null hash w, (forall a b, keqb a b = true <-> a = b) ->
  forall N U s k l1 l2, 0 < N -> fits N (index_of hash w N) U -> set_reach keqb null hash w N U s ->
  set_bucket keqb null hash w s (index hash w s k) = Ok (l1 ++ k :: l2) -> l1 <> [] ->
  exists s', set_erase keqb null hash w s k = Ok (true, s') /\
    forall x, In x l2 -> set_contains keqb null hash w s x = Ok true /\ set_contains keqb null hash w s' x = Ok false.
Proof. exact (fun K => @C26_middle K). Qed.
Print Assumptions C180_middle_refuted.

(* Erasing the first of two keys of the null key's bucket reads past the end of the table. *)
Theorem C180_null_bucket_refuted : forall K (keqb : K -> K -> bool) null hash w, (forall a b, keqb a b = true <-> a = b) ->
  forall N a b n, index_of hash w N null = n -> index_of hash w N a = n -> index_of hash w N b = n ->
  n + 2 < N -> a <> null -> b <> null -> a <> b ->
  forall storage, length storage = N ->
  exists s, (' (_, _, s1) <- set_insert keqb null hash w (set_init null storage) a ;;
             ' (_, _, s2) <- set_insert keqb null hash w s1 b ;; Ok s2)%res = Ok s /\
    set_contains keqb null hash w s a = Ok true /\ set_contains keqb null hash w s b = Ok true /\
    set_erase keqb null hash w s a = UB.
Proof. exact (fun K => @C26_null K). Qed.
Print Assumptions C180_null_bucket_refuted.

(* a bucket [1; 3; 5]: 1 and 5 meet the first theorem's hypothesis, 3 the second's *)
Lemma case26 : set_reach Nat.eqb 0 id_hash 32 8 [1; 3; 5] [0; 0; 0; 0; 1; 3; 5; 0].
Proof.
  assert (H0 : set_reach Nat.eqb 0 id_hash 32 8 [1; 3; 5] (set_init 0 (repeat 7 8))) by (apply reach_init; reflexivity).
  apply (reach_insert _ _ _ _ _ _ [0; 0; 0; 0; 1; 3; 0; 0] 5 (Some 6) true); [|cbn; auto|reflexivity].
  apply (reach_insert _ _ _ _ _ _ [0; 0; 0; 0; 1; 0; 0; 0] 3 (Some 5) true); [|cbn; auto|reflexivity].
  apply (reach_insert _ _ _ _ _ _ _ 1 (Some 4) true _ H0); [cbn; auto|reflexivity].
Qed.
Example C26_case :
  fits 8 (index_of id_hash 32 8) [1; 3; 5] /\
  set_end_key Nat.eqb 0 id_hash 32 [0; 0; 0; 0; 1; 3; 5; 0] 1 /\ set_end_key Nat.eqb 0 id_hash 32 [0; 0; 0; 0; 1; 3; 5; 0] 5 /\
  set_bucket Nat.eqb 0 id_hash 32 [0; 0; 0; 0; 1; 3; 5; 0] 4 = Ok ([1] ++ 3 :: [5]) /\
  index_of id_hash 32 8 0 = 0 /\ index_of id_hash 32 8 2 = 0 /\ index_of id_hash 32 8 4 = 0.
Proof.
  split; [apply fits_check; reflexivity|]. split.
  - exists [1; 3; 5]. split; [reflexivity|]. right. split; [exists [3; 5]; reflexivity|]. vm_compute. discriminate.
  - split; [|repeat split]. exists [1; 3; 5]. split; [reflexivity|]. left. exists [1; 3]. reflexivity.
Qed.

(* ---- C68: for every table whatsoever (of the map: [ckey] is fst; of the set: the slot itself),
   looping from begin() to end() reads past the end of the table: the position is only compared
   with the end after the slot has been read. *)
Theorem C68_iteration_refuted : forall K C (keqb : K -> K -> bool) null (ckey : C -> K) s, iterate keqb null ckey s = UB.
Proof. exact (fun K C => @iterate_off K C). Qed.
Print Assumptions C68_iteration_refuted.

Example C68_case : iterate Nat.eqb 0 (@fst nat nat) [(1, 10); (2, 20); (3, 30); (0, 0)] = UB.
Proof. reflexivity. Qed.

(* ---- C69: a new key of a bucket with room is accepted, in tables as in C25. *)
Theorem C69_accepted : forall K (keqb : K -> K -> bool) null hash w, (forall a b, keqb a b = true <-> a = b) ->
  forall storage ops m k v o, clear_end storage -> length storage = 4 * m -> m <= 16 -> (2 <= w)%N ->
  mhistory_ok keqb null (length storage) bucket_depth (index_of hash w (length storage)) ops [] ->
  k <> null -> present keqb k (mrun keqb ops []) = false ->
  load_of (index_of hash w (length storage)) (index_of hash w (length storage) k) (mrun keqb ops []) <
    (if Nat.eqb (index_of hash w (length storage) k + 4) (length storage) then 3 else 4) ->
  In o [MInsert k v; MTryEmplace k v; MInsertOrAssign k v; MStore k v] ->
  exists s s', do_mops keqb null hash w ops (map_init null storage) = Ok (manswers keqb ops [], s) /\
    do_mop keqb null hash w o s = Ok (true, s') /\ map_find keqb null hash w s' k = Ok (Some v) /\
    forall x, x <> k -> map_find keqb null hash w s' x = map_find keqb null hash w s x.
Proof. exact (fun K => @C69_main K). Qed.
Print Assumptions C69_accepted.

(* When another bucket has overflowed into the (otherwise empty) bucket of x, insert refuses x
   and m[x] = v dereferences a null pointer. *)
Theorem C210_overflow_refuted : forall K (keqb : K -> K -> bool) null hash w, (forall a b, keqb a b = true <-> a = b) ->
  forall storage kvs n i k v x vx, bucket_keys null (index_of hash w (length storage)) n kvs ->
  n + length kvs <= length storage -> nth_error kvs i = Some (k, v) -> 0 < i -> x <> null ->
  index_of hash w (length storage) x = n + i ->
  exists s, do_mops keqb null hash w (inserts kvs) (map_init null storage) = Ok (repeat true (length kvs), s) /\
    map_insert keqb null hash w s x vx = Ok (None, false, s) /\ map_store keqb null hash w s x vx = UB.
Proof. exact (fun K => @C69_null K). Qed.
Print Assumptions C210_overflow_refuted.

Example C69_case :
  present Nat.eqb 1 (mrun Nat.eqb ops24 []) = false /\ load_of (index_of id_hash 32 8) (index_of id_hash 32 8 1) (mrun Nat.eqb ops24 []) = 2 /\
  index_of id_hash 32 8 1 + 4 = 8 /\ load_of (index_of id_hash 32 8) 0 (mrun Nat.eqb ops24 []) = 1.
Proof. vm_compute. repeat split. Qed.

(* ---- C70 *)
Theorem C70_gc : forall K (keqb : K -> K -> bool) null hash w, (forall a b, keqb a b = true <-> a = b) ->
  forall storage ops m k, clear_end storage -> length storage = 4 * m -> m <= 16 -> (2 <= w)%N ->
  mhistory_ok keqb null (length storage) bucket_depth (index_of hash w (length storage)) ops [] ->
  exists s s', do_mops keqb null hash w ops (map_init null storage) = Ok (manswers keqb ops [], s) /\
    do_mop keqb null hash w (MGc k) s = Ok (present keqb k (mrun keqb ops []), s') /\
    (forall x, map_find keqb null hash w s' x = map_find keqb null hash w s x) /\
    tsize keqb null fst s' = tsize keqb null fst s.
Proof. exact (fun K => @C70_gc_lemma K). Qed.
Print Assumptions C70_gc.

(* After clear() the map behaves like a new one. *)
Theorem C70_clear : forall K (keqb : K -> K -> bool) null hash w, (forall a b, keqb a b = true <-> a = b) ->
  forall storage ops1 ops2 m, clear_end storage -> length storage = 4 * m -> m <= 16 -> (2 <= w)%N ->
  mhistory_ok keqb null (length storage) bucket_depth (index_of hash w (length storage)) ops1 [] ->
  mhistory_ok keqb null (length storage) bucket_depth (index_of hash w (length storage)) ops2 [] ->
  exists s, do_mops keqb null hash w (ops1 ++ MClear :: ops2) (map_init null storage) =
      Ok (manswers keqb ops1 [] ++ true :: manswers keqb ops2 [], s) /\
    (forall k, map_find keqb null hash w s k = Ok (alookup keqb k (mrun keqb ops2 []))) /\
    tsize keqb null fst s = length (mrun keqb ops2 []).
Proof. exact (fun K => @C70_clear_lemma K). Qed.
Print Assumptions C70_clear.

(* size() is the number of entries *)
Theorem C70_size : forall K (keqb : K -> K -> bool) null hash w, (forall a b, keqb a b = true <-> a = b) ->
  forall storage ops m, clear_end storage -> length storage = 4 * m -> m <= 16 -> (2 <= w)%N ->
  mhistory_ok keqb null (length storage) bucket_depth (index_of hash w (length storage)) ops [] ->
  exists s, do_mops keqb null hash w ops (map_init null storage) = Ok (manswers keqb ops [], s) /\
    tsize keqb null fst s = length (mrun keqb ops []) /\
    tempty keqb null fst s = (match mrun keqb ops [] with [] => true | _ => false end).
Proof. exact (fun K => @C70_size_lemma K). Qed.
Print Assumptions C70_size.

(* gc_active moves an entry: 3 from slot 5 to slot 4 *)
Example C70_case :
  exists s, do_mops Nat.eqb 0 id_hash 32 [MInsert 1 10%N; MInsert 3 30%N; MErase 1; MGc 3] (map_init 0 (repeat (0, 0%N) 8)) =
    Ok ([true; true; true; true], s) /\ nth_error s 4 = Some (3, 30%N) /\ map_find Nat.eqb 0 id_hash 32 s 3 = Ok (Some 30%N).
Proof. eexists. split; [reflexivity|]. split; reflexivity. Qed.

(* ---- C71 *)
Theorem C71_set_insert : forall K (keqb : K -> K -> bool) null hash w, (forall a b, keqb a b = true <-> a = b) ->
  forall N U s k, 0 < N -> fits N (index_of hash w N) U -> set_reach keqb null hash w N U s -> In k U ->
  exists p ok s', set_insert keqb null hash w s k = Ok (p, ok, s') /\
    (set_contains keqb null hash w s k = Ok true -> ok = false) /\ (ok = false -> s' = s) /\
    (ok = true -> set_contains keqb null hash w s' k = Ok true) /\
    forall x, x <> k -> set_contains keqb null hash w s' x = set_contains keqb null hash w s x.
Proof. exact (fun K => @C26_insert K). Qed.
Print Assumptions C71_set_insert.
Theorem C71_bucket : forall K (keqb : K -> K -> bool) null hash w, (forall a b, keqb a b = true <-> a = b) ->
  forall N U s n, 0 < N -> fits N (index_of hash w N) U -> set_reach keqb null hash w N U s -> n < N ->
  exists l, set_bucket keqb null hash w s n = Ok l /\ NoDup l /\
    forall x, In x l <-> index hash w s x = n /\ set_contains keqb null hash w s x = Ok true.
Proof. exact (fun K => @set_bucket_keys K). Qed.
Print Assumptions C71_bucket.
Theorem C71_count : forall K (keqb : K -> K -> bool) null hash w, (forall a b, keqb a b = true <-> a = b) ->
  forall N U s x, 0 < N -> fits N (index_of hash w N) U -> set_reach keqb null hash w N U s ->
  exists b, set_contains keqb null hash w s x = Ok b /\ count keqb null hash w skey ssparse s x = Ok (if b then 1 else 0).
Proof. exact (fun K => @set_count_spec K). Qed.
Print Assumptions C71_count.

Example C71_case :
  set_reach Nat.eqb 0 id_hash 32 8 [1; 3; 5] [0; 0; 0; 0; 1; 3; 5; 0] /\ fits 8 (index_of id_hash 32 8) [1; 3; 5] /\
  set_bucket Nat.eqb 0 id_hash 32 [0; 0; 0; 0; 1; 3; 5; 0] 4 = Ok [1; 3; 5].
Proof. split; [exact case26|]. split; [apply fits_check; reflexivity|reflexivity]. Qed.
