(* unordered_map: erase(iterator) (C448, C449), bucket_size and count (C450), erase_and_gc (C451,
   C452).  Notation as in Properties_Unordered: [keqb], [null], [hash] and the width [w] of its
   result are arbitrary; iterators are slot numbers, [find_ll s k = Ok (Some i)] is find(k)
   returning the iterator to slot i, a slot is empty when its key is [null]; [mrun] is the
   contents after a history, as a list of pairs.  The histories are those of C25. *)
From Verif Require Import Base BaseLemmas Unordered_Spec Unordered_Model Unordered_Proofs Uerase_Proofs.

(* ---- C448: erasing at the iterator of a key behind which the table holds another key: the
   iterator returned is that of the next element in the order of iteration, which is left as it
   is; the key is gone and every other key keeps its value. *)
Theorem C448_erase_at : forall K (keqb : K -> K -> bool) null hash w, (forall a b, keqb a b = true <-> a = b) ->
  forall storage ops m k i s, clear_end storage -> length storage = 4 * m -> m <= 16 -> (2 <= w)%N ->
  mhistory_ok keqb null (length storage) bucket_depth (index_of hash w (length storage)) ops [] ->
  index_of hash w (length storage) k <> 0 ->
  do_mops keqb null hash w ops (map_init null storage) = Ok (manswers keqb ops [], s) ->
  find_ll keqb null hash w fst (is_sparse keqb null) s k = Ok (Some i) ->
  (exists j c, i < j /\ nth_error s j = Some c /\ fst c <> null) ->
  exists nx s' y, map_erase_at keqb null hash w s i = Ok (nx, s') /\
    i < nx /\ nth_error s nx = Some y /\ fst y <> null /\ nth_error s' nx = Some y /\
    (forall j c, i < j < nx -> nth_error s j = Some c -> fst c = null) /\
    map_find keqb null hash w s' k = Ok None /\
    forall x, x <> k -> map_find keqb null hash w s' x = map_find keqb null hash w s x.
Proof. intros. eapply (erase_at_main keqb null hash w); eauto. Qed.
Print Assumptions C448_erase_at.

(* ---- C449: nothing behind the erased element: the search for the next one reads past the end
   of the table, whatever the history. *)
Theorem C449_erase_last_refuted : forall K (keqb : K -> K -> bool) null hash w, (forall a b, keqb a b = true <-> a = b) ->
  forall storage ops m k i s, clear_end storage -> length storage = 4 * m -> m <= 16 -> (2 <= w)%N ->
  mhistory_ok keqb null (length storage) bucket_depth (index_of hash w (length storage)) ops [] ->
  index_of hash w (length storage) k <> 0 ->
  do_mops keqb null hash w ops (map_init null storage) = Ok (manswers keqb ops [], s) ->
  find_ll keqb null hash w fst (is_sparse keqb null) s k = Ok (Some i) ->
  (forall j c, i < j -> nth_error s j = Some c -> fst c = null) ->
  map_erase_at keqb null hash w s i = UB.
Proof. intros. eapply (erase_at_main keqb null hash w); eauto. Qed.
Print Assumptions C449_erase_last_refuted.

(* 12 slots; bucket 4 has the keys 1, 4 and 7 in slots 4-6, bucket 8 has 2 *)
Definition id_hash (k : nat) : N := N.of_nat k.
Definition ops448 : list (mop nat N) := [MInsert 1 10%N; MInsert 4 40%N; MInsert 2 20%N; MInsert 7 70%N; MErase 4].
Example C448_case :
  let st := repeat (0, 0%N) 12 in
  clear_end st /\ length st = 4 * 3 /\ mhistory_ok Nat.eqb 0 12 bucket_depth (index_of id_hash 32 12) ops448 [] /\
  (exists s, do_mops Nat.eqb 0 id_hash 32 ops448 (map_init 0 st) = Ok (manswers Nat.eqb ops448 [], s) /\
     find_ll Nat.eqb 0 id_hash 32 fst (is_sparse Nat.eqb 0) s 1 = Ok (Some 4) /\
     find_ll Nat.eqb 0 id_hash 32 fst (is_sparse Nat.eqb 0) s 2 = Ok (Some 8) /\
     (exists s', map_erase_at Nat.eqb 0 id_hash 32 s 4 = Ok (6, s')) /\
     map_erase_at Nat.eqb 0 id_hash 32 s 8 = UB) /\
  index_of id_hash 32 12 1 = 4 /\ index_of id_hash 32 12 2 = 8.
Proof.
  cbv zeta. split; [split; [cbn; auto with arith|]; exists (0, 0%N); split; reflexivity|]. split; [reflexivity|]. split.
  { cbn [mhistory_ok ops448 mop_step]. unfold mop_ok. repeat (split; [vm_compute; repeat split; try discriminate; auto 20; intros; repeat constructor|]); exact I. }
  split; [|split; reflexivity].
  eexists. split; [vm_compute; reflexivity|]. split; [vm_compute; reflexivity|]. split; [vm_compute; reflexivity|].
  split; [eexists; vm_compute; reflexivity|vm_compute; reflexivity].
Qed.

(* ---- C450: bucket_size(n) is the number of keys of the map whose bucket is n, count(k) is 1 or
   0, after every history; erased slots inside a bucket are not counted and do not end it. *)
Theorem C450_bucket_size : forall K (keqb : K -> K -> bool) null hash w, (forall a b, keqb a b = true <-> a = b) ->
  forall storage ops m, clear_end storage -> length storage = 4 * m -> m <= 16 -> (2 <= w)%N ->
  mhistory_ok keqb null (length storage) bucket_depth (index_of hash w (length storage)) ops [] ->
  exists s, do_mops keqb null hash w ops (map_init null storage) = Ok (manswers keqb ops [], s) /\
    (forall n, n < length storage ->
       bucket_size keqb null hash w fst (is_sparse keqb null) s n =
         Ok (length (filter (fun p => Nat.eqb (index_of hash w (length storage) (fst p)) n) (mrun keqb ops [])))) /\
    (forall k, count keqb null hash w fst (is_sparse keqb null) s k =
       Ok (match alookup keqb k (mrun keqb ops []) with Some _ => 1 | None => 0 end)).
Proof.
  intros K keqb null hash w Hk storage ops m A B C D E. destruct (reached keqb null hash w Hk storage ops m A B C D E) as (s & R & I & _ & L).
  exists s. split; [exact R|]. split.
  - intros n Hn. rewrite (bucket_size_main keqb null hash w Hk s _ n I) by lia. unfold load_of, index. now rewrite L.
  - intros k. rewrite (count_main keqb null hash w Hk s _ k I). unfold present. now destruct (alookup _ _ _).
Qed.
Print Assumptions C450_bucket_size.
Example C450_case :
  let st := repeat (0, 0%N) 12 in
  exists s, do_mops Nat.eqb 0 id_hash 32 ops448 (map_init 0 st) = Ok (manswers Nat.eqb ops448 [], s) /\
    bucket_size Nat.eqb 0 id_hash 32 fst (is_sparse Nat.eqb 0) s 4 = Ok 2 /\
    bucket_size Nat.eqb 0 id_hash 32 fst (is_sparse Nat.eqb 0) s 5 = Ok 0 /\
    count Nat.eqb 0 id_hash 32 fst (is_sparse Nat.eqb 0) s 7 = Ok 1 /\ count Nat.eqb 0 id_hash 32 fst (is_sparse Nat.eqb 0) s 4 = Ok 0.
Proof. cbv zeta. eexists. split; [vm_compute; reflexivity|]. repeat split; vm_compute; reflexivity. Qed.

(* ---- C451: erase_and_gc of the key of a bucket that has no other key of its bucket behind it *)
Theorem C451_erase_and_gc : forall K (keqb : K -> K -> bool) null hash w, (forall a b, keqb a b = true <-> a = b) ->
  forall storage ops m k i s, clear_end storage -> length storage = 4 * m -> m <= 16 -> (2 <= w)%N ->
  mhistory_ok keqb null (length storage) bucket_depth (index_of hash w (length storage)) ops [] ->
  do_mops keqb null hash w ops (map_init null storage) = Ok (manswers keqb ops [], s) ->
  find_ll keqb null hash w fst (is_sparse keqb null) s k = Ok (Some i) ->
  (forall j x v, i < j -> nth_error s j = Some (x, v) -> x <> null ->
     index_of hash w (length storage) x <> index_of hash w (length storage) k) ->
  exists s', map_erase_and_gc keqb null hash w s i = Ok s' /\
    (forall j, j <> i -> nth_error s' j = nth_error s j) /\
    map_find keqb null hash w s' k = Ok None /\
    forall x, x <> k -> map_find keqb null hash w s' x = map_find keqb null hash w s x.
Proof.
  intros K keqb null hash w Hk storage ops m k i s A B C D E R F Last.
  destruct (reached keqb null hash w Hk storage ops m A B C D E) as (s0 & R0 & I & Al & L). rewrite R in R0. injection R0 as <-.
  pose proof (find_at keqb null hash w Hk _ _ _ _ I F) as Lv. pose proof Lv as ((k' & v) & Hc & Ek & Dk). cbn in Ek. subst k'.
  destruct (erase_gc_last keqb null hash w Hk s _ k i v I Al Hc Dk) as [Eg I'].
  { intros j x ((x' & vx) & Hx & Ex & Dx) Ix. cbn in Ex. subst x'. destruct (Nat.le_gt_cases j i); [assumption|]. exfalso.
    unfold index in Ix. rewrite L in Ix. exact (Last _ _ _ H Hx Dx Ix). }
  exists (upd s i (null, v)). split; [exact Eg|]. split; [intros j Dj; apply nth_error_upd_neq; lia|].
  destruct I as (He & Hr & Hu & Hh & _). destruct I' as (He' & Hr' & Hu' & Hh' & _). split.
  - rewrite (map_find_spec keqb null hash w Hk _ _ k He' Hr' Hu' Hh'), (alookup_remove keqb Hk), (proj2 (Hk k k) eq_refl). reflexivity.
  - intros x Dx. rewrite (map_find_spec keqb null hash w Hk _ _ x He' Hr' Hu' Hh'), (map_find_spec keqb null hash w Hk s _ x He Hr Hu Hh).
    rewrite (alookup_remove keqb Hk). destruct (keqb k x) eqn:Ex; [|reflexivity]. apply Hk in Ex. congruence.
Qed.
Print Assumptions C451_erase_and_gc.
Example C451_case :
  let st := repeat (0, 0%N) 12 in
  exists s, do_mops Nat.eqb 0 id_hash 32 ops448 (map_init 0 st) = Ok (manswers Nat.eqb ops448 [], s) /\
    find_ll Nat.eqb 0 id_hash 32 fst (is_sparse Nat.eqb 0) s 7 = Ok (Some 6) /\
    (forall j x v, 6 < j -> nth_error s j = Some (x, v) -> x <> 0 -> index_of id_hash 32 12 x <> index_of id_hash 32 12 7) /\
    (exists s', map_erase_and_gc Nat.eqb 0 id_hash 32 s 6 = Ok s' /\ map_find Nat.eqb 0 id_hash 32 s' 1 = Ok (Some 10%N)).
Proof.
  cbv zeta. eexists. split; [vm_compute; reflexivity|]. split; [vm_compute; reflexivity|]. split.
  - intros j x v Hj. do 7 (destruct j as [|j]; [lia|]).
    do 5 (destruct j as [|j]; [cbn [nth_error]; intros [= <- <-] D; first [congruence|vm_compute; discriminate]|]).
    cbn [nth_error]. destruct j; discriminate.
  - eexists. split; vm_compute; reflexivity.
Qed.

(* ---- C452: erase_and_gc of a key of a bucket that is neither its first nor its last: all later
   keys of the bucket are still in the table, and no longer found.  (The mapped value is even: its
   lowest bit is where a mark would be.) *)
Theorem C452_middle_refuted : forall K (keqb : K -> K -> bool) null hash w, (forall a b, keqb a b = true <-> a = b) ->
  forall storage n kvs i k v j b vb, bucket_keys null (index_of hash w (length storage)) n kvs ->
  n + length kvs <= length storage -> nth_error kvs i = Some (k, v) -> nth_error kvs j = Some (b, vb) -> 0 < i < j ->
  N.even v = true ->
  exists s s', do_mops keqb null hash w (inserts kvs) (map_init null storage) = Ok (repeat true (length kvs), s) /\
    find_ll keqb null hash w fst (is_sparse keqb null) s k = Ok (Some (n + i)) /\ map_find keqb null hash w s b = Ok (Some vb) /\
    map_erase_and_gc keqb null hash w s (n + i) = Ok s' /\ map_find keqb null hash w s' b = Ok None /\ In b (live_keys keqb null s').
Proof. exact (fun K => @erase_gc_middle K). Qed.
Print Assumptions C452_middle_refuted.
Example C452_case :
  bucket_keys 0 (index_of id_hash 32 12) 4 [(1, 10%N); (4, 40%N); (7, 70%N)] /\ nth_error [(1, 10%N); (4, 40%N); (7, 70%N)] 1 = Some (4, 40%N) /\
  N.even 40 = true /\ 4 + 3 <= 12.
Proof. split; [split; [repeat constructor; cbn; intuition discriminate|repeat constructor; discriminate]|]. repeat split; vm_compute; auto 20. Qed.
