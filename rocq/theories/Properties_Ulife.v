(* unordered_map with mapped values, and keys, of a class type (C412-C417).  [keqb], [null],
   [hash] and the width [w] of its result are as in Properties_Unordered.v; [bytes] and [dead],
   the bytes of an object before and after its destructor, are arbitrary.  [l_init null kc
   storage] is the map constructed over the given storage, [do_lops] a history of calls with its
   answers, kc whether the keys are of class type too.  Mapped objects are numbered in the order
   in which they are made: [made] of them so far, [died] those whose destructor has run,
   [living] those in the map. *)
From Coq Require Import Permutation.
From Verif Require Import Base Unordered_Spec Unordered_Model Ulife_Spec Ulife_Model Unordered_Proofs Ulife_Proofs.

(* ---- C412: after any history of insert, emplace and try_emplace of new keys, erase, and
   assignment to m[k] for a present k, find gives the element last put under each key, and every
   mapped object made was destroyed once or is in the map, none twice: one was made by each
   insertion, one destroyed by each erasure, and one is there for each element. *)
Theorem C412_life : forall K V (keqb : K -> K -> bool) null hash w, (forall a b, keqb a b = true <-> a = b) ->
  forall (bytes dead : V -> N) storage ops m, clear_end storage -> length storage = 4 * m -> m <= 16 -> (2 <= w)%N ->
  mhistory_ok keqb null (length storage) bucket_depth (index_of hash w (length storage)) ops [] ->
  plain_history keqb ops [] ->
  exists st, do_lops keqb null hash w bytes dead false ops (l_init null false storage) = Ok (manswers keqb ops [], st) /\
    (forall k, l_find keqb null hash w st k = Ok (alookup keqb k (mrun keqb ops []))) /\
    Permutation (seq 0 (made st)) (died st ++ living st) /\
    made st = added ops /\ length (died st) = removed keqb ops [] /\ length (living st) = length (mrun keqb ops []).
Proof. exact (fun K V => @C412_main K V). Qed.
Print Assumptions C412_life.

Definition ul_ops : list (mop nat nat) :=
  [MInsert 1 10; MTryEmplace 3 30; MInsert 2 20; MErase 1; MStore 3 31; MErase 9; MInsert 5 50].
Definition ul_hash (k : nat) : N := N.of_nat k.
Definition ul_storage : list (nat * N) := repeat (0, 0%N) 8.
Example C412_case :
  clear_end ul_storage /\ length ul_storage = 4 * 2 /\
  mhistory_ok Nat.eqb 0 (length ul_storage) bucket_depth (index_of ul_hash 32 (length ul_storage)) ul_ops [] /\
  plain_history Nat.eqb ul_ops [] /\
  (exists st, do_lops Nat.eqb 0 ul_hash 32 (fun v => N.of_nat v) (fun _ => 127%N) false ul_ops (l_init 0 false ul_storage) =
     Ok ([true; true; true; true; true; false; true], st) /\
     made st = 4 /\ died st = [0] /\ living st = [2; 3; 1] /\
     l_find Nat.eqb 0 ul_hash 32 st 3 = Ok (Some 31)).
Proof.
  split; [split; [cbn; lia|]; exists (0, 0%N); split; reflexivity|]. split; [reflexivity|].
  split; [vm_compute; repeat split; try discriminate; try lia|]. split; [cbn; auto 10|].
  eexists. split; [vm_compute; reflexivity|]. vm_compute. auto.
Qed.

(* ---- C413: every element is destroyed by clear() or with the map.  clear() is undefined after
   every such history, for it runs the destructor in empty slots too; and the end of the map
   destroys no element. *)
Theorem C413_clear_refuted : forall K V (keqb : K -> K -> bool) null hash w, (forall a b, keqb a b = true <-> a = b) ->
  forall (bytes dead : V -> N) storage ops m, clear_end storage -> length storage = 4 * m -> m <= 16 -> (2 <= w)%N ->
  mhistory_ok keqb null (length storage) bucket_depth (index_of hash w (length storage)) ops [] ->
  plain_history keqb ops [] ->
  exists st, do_lops keqb null hash w bytes dead false ops (l_init null false storage) = Ok (manswers keqb ops [], st) /\
    l_clear null dead false st = UB.
Proof. exact (fun K V => @C413_clear K V). Qed.
Print Assumptions C413_clear_refuted.
Theorem C413_end_refuted : forall K V (keqb : K -> K -> bool) null hash w, (forall a b, keqb a b = true <-> a = b) ->
  forall (bytes dead : V -> N) storage ops m, clear_end storage -> length storage = 4 * m -> m <= 16 -> (2 <= w)%N ->
  mhistory_ok keqb null (length storage) bucket_depth (index_of hash w (length storage)) ops [] ->
  plain_history keqb ops [] ->
  exists st st', do_lops keqb null hash w bytes dead false ops (l_init null false storage) = Ok (manswers keqb ops [], st) /\
    l_end false st = Ok st' /\ made st' = length (died st') + length (mrun keqb ops []).
Proof. exact (fun K V => @C413_end K V). Qed.
Print Assumptions C413_end_refuted.
Example C413_case : length (mrun Nat.eqb ul_ops []) = 3.
Proof. reflexivity. Qed.

(* ---- C414: m[k] for a new key makes an element.  It sets the key only: reading or assigning
   the mapped value is undefined, and after try_emplace(k) so is using or erasing the element. *)
Theorem C414_new_refuted : forall K V (keqb : K -> K -> bool) null hash w, (forall a b, keqb a b = true <-> a = b) ->
  forall (bytes dead : V -> N) storage ops m, clear_end storage -> length storage = 4 * m -> m <= 16 -> (2 <= w)%N ->
  mhistory_ok keqb null (length storage) bucket_depth (index_of hash w (length storage)) ops [] ->
  plain_history keqb ops [] ->
  forall k, k <> null -> present keqb k (mrun keqb ops []) = false ->
  load_of (index_of hash w (length storage)) (index_of hash w (length storage) k) (mrun keqb ops []) <
    (if Nat.eqb (index_of hash w (length storage) k + bucket_depth) (length storage) then bucket_depth - 1 else bucket_depth) ->
  exists st, do_lops keqb null hash w bytes dead false ops (l_init null false storage) = Ok (manswers keqb ops [], st) /\
    l_load keqb null hash w false st k = UB /\ (forall v, l_store keqb null hash w bytes false st k v = UB) /\
    exists p st', l_try_emplace0 keqb null hash w false st k = Ok (Some p, st') /\
      l_find keqb null hash w st' k = UB /\ l_erase keqb null hash w dead false st' k = UB.
Proof. exact (fun K V => @C414_new K V). Qed.
Print Assumptions C414_new_refuted.
Example C414_case : present Nat.eqb 4 (mrun Nat.eqb ul_ops []) = false /\
  load_of (index_of ul_hash 32 8) (index_of ul_hash 32 8 4) (mrun Nat.eqb ul_ops []) = 1 /\
  l_store Nat.eqb 0 ul_hash 32 (fun v => N.of_nat v) false (l_init 0 false ul_storage) 4 40 = UB.
Proof. repeat split. Qed.

(* ---- C415: insert_or_assign on a present key loses no object.  The object that was there is
   neither destroyed nor in the map afterwards. *)
Theorem C415_over_refuted : forall K V (keqb : K -> K -> bool) null hash w, (forall a b, keqb a b = true <-> a = b) ->
  forall (bytes dead : V -> N) storage ops m, clear_end storage -> length storage = 4 * m -> m <= 16 -> (2 <= w)%N ->
  mhistory_ok keqb null (length storage) bucket_depth (index_of hash w (length storage)) ops [] ->
  plain_history keqb ops [] ->
  forall k v, present keqb k (mrun keqb ops []) = true ->
  exists st st' lost, do_lops keqb null hash w bytes dead false ops (l_init null false storage) = Ok (manswers keqb ops [], st) /\
    In lost (living st) /\ l_insert_or_assign keqb null hash w bytes false st k v = Ok (true, st') /\
    l_find keqb null hash w st' k = Ok (Some v) /\ Permutation (seq 0 (made st')) (lost :: died st' ++ living st').
Proof. exact (fun K V => @C415_over K V). Qed.
Print Assumptions C415_over_refuted.
Example C415_case : present Nat.eqb 3 (mrun Nat.eqb ul_ops []) = true.
Proof. reflexivity. Qed.

(* ---- C416: the compacting calls move elements.  gc_active of an element with a hole before it
   in its bucket, and erase_and_gc of an element with another in the next slot, swap with a
   destroyed object. *)
Theorem C416_gc_refuted : forall K V (keqb : K -> K -> bool) null hash w, (forall a b, keqb a b = true <-> a = b) ->
  forall (bytes dead : V -> N) storage ops m, clear_end storage -> length storage = 4 * m -> m <= 16 -> (2 <= w)%N ->
  mhistory_ok keqb null (length storage) bucket_depth (index_of hash w (length storage)) ops [] ->
  plain_history keqb ops [] ->
  exists st, do_lops keqb null hash w bytes dead false ops (l_init null false storage) = Ok (manswers keqb ops [], st) /\
    forall k i j b, find_ll keqb null hash w fst (is_sparse keqb null) (tab st) k = Ok (Some i) ->
      index hash w (tab st) k <= j < i -> nth_error (tab st) j = Some (null, b) ->
      do_lop keqb null hash w bytes dead false (MGc k) st = UB.
Proof. exact (fun K V => @C416_gc K V). Qed.
Print Assumptions C416_gc_refuted.
Theorem C416_erase_refuted : forall K V (keqb : K -> K -> bool) null hash w, (forall a b, keqb a b = true <-> a = b) ->
  forall (bytes dead : V -> N) storage ops m, clear_end storage -> length storage = 4 * m -> m <= 16 -> (2 <= w)%N ->
  mhistory_ok keqb null (length storage) bucket_depth (index_of hash w (length storage)) ops [] ->
  plain_history keqb ops [] ->
  exists st, do_lops keqb null hash w bytes dead false ops (l_init null false storage) = Ok (manswers keqb ops [], st) /\
    forall i k b k2 b2, nth_error (tab st) i = Some (k, b) -> k <> null ->
      nth_error (tab st) (i + 1) = Some (k2, b2) -> k2 <> null ->
      l_erase_and_gc keqb null hash w dead false st i = UB.
Proof. exact (fun K V => @C416_erase K V). Qed.
Print Assumptions C416_erase_refuted.
Example C416_case :
  exists st, do_lops Nat.eqb 0 ul_hash 32 (fun v => N.of_nat v) (fun _ => 127%N) false [MInsert 1 10; MInsert 3 30; MErase 1]
      (l_init 0 false ul_storage) = Ok ([true; true; true], st) /\
    find_ll Nat.eqb 0 ul_hash 32 fst (is_sparse Nat.eqb 0) (tab st) 3 = Ok (Some 5) /\
    index ul_hash 32 (tab st) 3 = 4 /\ exists b, nth_error (tab st) 4 = Some (0, b).
Proof. eexists. split; [vm_compute; reflexivity|]. vm_compute. eauto. Qed.

(* ---- C482: they are right where nothing has to move.  gc_active of an element with no hole
   before it in its bucket changes nothing; erase_and_gc of an element with a free slot right
   behind it destroys its object, once, and frees its slot. *)
Theorem C482_gc_still : forall K V (keqb : K -> K -> bool) null hash w, (forall a b, keqb a b = true <-> a = b) ->
  forall (bytes dead : V -> N) storage ops m, clear_end storage -> length storage = 4 * m -> m <= 16 -> (2 <= w)%N ->
  mhistory_ok keqb null (length storage) bucket_depth (index_of hash w (length storage)) ops [] ->
  plain_history keqb ops [] ->
  exists st, do_lops keqb null hash w bytes dead false ops (l_init null false storage) = Ok (manswers keqb ops [], st) /\
    forall k i, find_ll keqb null hash w fst (is_sparse keqb null) (tab st) k = Ok (Some i) ->
      (forall j, index hash w (tab st) k <= j < i -> exists k' b, nth_error (tab st) j = Some (k', b) /\ k' <> null) ->
      do_lop keqb null hash w bytes dead false (MGc k) st = Ok (true, st).
Proof. exact (fun K V => @C482_gc K V). Qed.
Print Assumptions C482_gc_still.
Theorem C482_erase_last : forall K V (keqb : K -> K -> bool) null hash w, (forall a b, keqb a b = true <-> a = b) ->
  forall (bytes dead : V -> N) storage ops m, clear_end storage -> length storage = 4 * m -> m <= 16 -> (2 <= w)%N ->
  mhistory_ok keqb null (length storage) bucket_depth (index_of hash w (length storage)) ops [] ->
  plain_history keqb ops [] ->
  exists st, do_lops keqb null hash w bytes dead false ops (l_init null false storage) = Ok (manswers keqb ops [], st) /\
    forall i k b b2, nth_error (tab st) i = Some (k, b) -> k <> null -> nth_error (tab st) (i + 1) = Some (null, b2) ->
      exists st' id v, nth_error (objs st) i = Some (Some (id, v)) /\
        l_erase_and_gc keqb null hash w dead false st i = Ok st' /\ made st' = made st /\ died st' = died st ++ [id] /\
        objs st' = upd (objs st) i None /\ tab st' = upd (tab st) i (null, dead v).
Proof. exact (fun K V => @C482_erase K V). Qed.
Print Assumptions C482_erase_last.
Example C482_case :
  exists st st', do_lops Nat.eqb 0 ul_hash 32 (fun v => N.of_nat v) (fun _ => 127%N) false [MInsert 1 10; MInsert 3 30]
      (l_init 0 false ul_storage) = Ok ([true; true], st) /\
    do_lop Nat.eqb 0 ul_hash 32 (fun v => N.of_nat v) (fun _ => 127%N) false (MGc 3) st = Ok (true, st) /\
    find_ll Nat.eqb 0 ul_hash 32 fst (is_sparse Nat.eqb 0) (tab st) 3 = Ok (Some 5) /\
    l_erase_and_gc Nat.eqb 0 ul_hash 32 (fun _ => 127%N) false st 5 = Ok st' /\ died st' = [1] /\ living st' = [0].
Proof. eexists; eexists. split; [vm_compute; reflexivity|]. vm_compute. repeat split; reflexivity. Qed.

(* ---- C417: keys may be of class type.  Every insertion loses a key object (made over the null
   key, or itself, never destroyed), and erasing a present key is undefined: the destroyed key is
   assigned to. *)
Theorem C417_lost_refuted : forall K V (keqb : K -> K -> bool) null hash w, (forall a b, keqb a b = true <-> a = b) ->
  forall (bytes dead : V -> N) storage ops m, clear_end storage -> length storage = 4 * m -> m <= 16 -> (2 <= w)%N ->
  mhistory_ok keqb null (length storage) bucket_depth (index_of hash w (length storage)) ops [] ->
  plain_history keqb ops [] -> removed keqb ops [] = 0 ->
  exists st st', do_lops keqb null hash w bytes dead true ops (l_init null true storage) = Ok (manswers keqb ops [], st) /\
    l_end true st = Ok st' /\ kmade st' = kdied st' + added ops.
Proof. exact (fun K V => @C417_lost K V). Qed.
Print Assumptions C417_lost_refuted.
Theorem C417_erase_refuted : forall K V (keqb : K -> K -> bool) null hash w, (forall a b, keqb a b = true <-> a = b) ->
  forall (bytes dead : V -> N) storage ops m, clear_end storage -> length storage = 4 * m -> m <= 16 -> (2 <= w)%N ->
  mhistory_ok keqb null (length storage) bucket_depth (index_of hash w (length storage)) ops [] ->
  plain_history keqb ops [] ->
  forall k, removed keqb ops [] = 0 -> present keqb k (mrun keqb ops []) = true ->
  exists st, do_lops keqb null hash w bytes dead true ops (l_init null true storage) = Ok (manswers keqb ops [], st) /\
    l_erase keqb null hash w dead true st k = UB.
Proof. exact (fun K V => @C417_erase K V). Qed.
Print Assumptions C417_erase_refuted.
Example C417_case : let ops := [MInsert 1 10; MInsert 3 30; MErase 7] in
  plain_history Nat.eqb ops [] /\ removed Nat.eqb ops [] = 0 /\ added ops = 2 /\ present Nat.eqb 3 (mrun Nat.eqb ops []) = true.
Proof. cbn. auto. Qed.
