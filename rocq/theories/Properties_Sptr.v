(* Theorems about shared_ptr (memory.h). *)
From Verif Require Import Base BaseLemmas MachInt Sptr_Model Sptr_Spec Sptr_Proofs.

(* The program before any pointer exists: room for nb masters and nf followers. *)
Definition no_world (nb nf : nat) : world := World (repeat None nb) (repeat None nf) [] [].
Definition no_owners (nb nf : nat) : owners := Owners (repeat None nb) (repeat None nf).
Definition counted (w : Z) (s : owners) : Prop := forall b, (Z.of_nat (owner_count s b) < 2 ^ w)%Z.

(* C112.  legal excludes the four uses refuted or excluded below - a copy of a follower
   whose master has been reset, more than 2^w - 1 owners, assignment to itself, and a master that
   goes away before its followers. *)
Theorem C112_history (w : Z) (nb nf : nat) (ops : list op) :
  (1 <= w)%Z -> all_legal w (no_owners nb nf) ops ->
  exists y, run_ops w ops (no_world nb nf) = Ok y /\
    shows y (effects (no_owners nb nf) ops) /\ counted w (effects (no_owners nb nf) ops).
Proof.
  intros Hw L. destruct (history_run w Hw _ _ ops (inv_start w Hw nb nf) L) as (y & R & I).
  exists y. split; [exact R|]. now apply inv_shows.
Qed.
(* One operation, from any state. *)
Theorem C112_step (w : Z) (x : world) (s : owners) (p : op) :
  (1 <= w)%Z -> shows x s -> counted w s -> legal w s p ->
  exists y, run_op w p x = Ok y /\ shows y (effect s p) /\ counted w (effect s p).
Proof.
  intros Hw S C L. destruct (step_run w Hw s x p (proj2 (inv_shows w x s) (conj S C)) L) as (y & R & I).
  exists y. split; [exact R|]. now apply inv_shows.
Qed.
(* No leak and no double deletion: when the owners of b are gone, every object it made was deleted. *)
Theorem C112_all_deleted (x : world) (s : owners) (b : nat) :
  shows x s -> owner_count s b = 0 ->
  count_occ Nat.eq_dec (w_dead x) b = count_occ Nat.eq_dec (w_made x) b.
Proof.
  intros (_ & _ & _ & A & _ & D) N. specialize (A b). specialize (D b). destruct (alive x b).
  - assert (0 < owner_count s b) by now apply A. lia.
  - lia.
Qed.

(* C113 *)
Theorem C113_held_object_usable (w : Z) (x : world) (s : owners) (k b : nat) :
  shows x s -> counted w s -> nth_error (o_followers s) k = Some (Some (Some b)) ->
  use k x = Ok b /\ use_count k x = Ok (Z.of_nat (owner_count s b)) /\ 0 < owner_count s b.
Proof.
  intros S C E. pose proof (proj2 (inv_shows w x s) (conj S C)) as I.
  destruct (use_held w x s k b I E) as (U & V). split; [exact U|]. split; [exact V|].
  apply followers_ge in E. unfold owner_count. lia.
Qed.
Theorem C113_master_count (w : Z) (x : world) (s : owners) (b : nat) (a : bool) :
  shows x s -> counted w s -> nth_error (o_masters s) b = Some (Some a) ->
  master_use_count b x = Ok (if a then Z.of_nat (owner_count s b) else 0%Z).
Proof. intros S C. apply (master_counts w). now apply inv_shows. Qed.
Theorem C113_null_count (w : Z) (x : world) (s : owners) (k : nat) :
  shows x s -> counted w s -> nth_error (o_followers s) k = Some (Some None) -> use_count k x = Ok 0%Z.
Proof. intros S C E. apply (use_null w x s k); [now apply inv_shows | exact E]. Qed.
(* get() of a null layer3 pointer reads through a null pointer to a control block; use_count() is 0. *)
Theorem C234_null_get_refuted (w : Z) (x : world) (s : owners) (k : nat) :
  shows x s -> counted w s -> nth_error (o_followers s) k = Some (Some None) ->
  use k x = UB /\ use_count k x = Ok 0%Z.
Proof. intros S C. apply (use_null w). now apply inv_shows. Qed.

(* C114: a copy of the only owner left after its master was reset is not counted. *)
Theorem C114_copy_counts_refuted (w : Z) (x : world) (s : owners) (k j b : nat) :
  shows x s -> counted w s ->
  nth_error (o_followers s) j = Some (Some (Some b)) -> nth_error (o_followers s) k = Some None ->
  master_owns s b = false -> owner_count s b = 1 ->
  exists y, run_ops w [Copy k j; Destroy j] x = Ok y /\
    get_follower k y = Ok (Some b) /\ use k y = UB /\ w_dead y = w_dead x ++ [b].
Proof. intros S C. apply copy_orphan. now apply inv_shows. Qed.

(* C115: a = a lets go of the object: a is null afterwards, and the object is deleted if a was
   its only owner. *)
Theorem C115_self_assignment_refuted (w : Z) (x : world) (s : owners) (k b : nat) :
  (1 <= w)%Z -> shows x s -> counted w s -> nth_error (o_followers s) k = Some (Some (Some b)) ->
  exists y, run_op w (Assign k k) x = Ok y /\ get_follower k y = Ok None /\
    shows y (effect s (Reset k)) /\ (owner_count s b = 1 -> alive y b = false).
Proof.
  intros Hw S C E. pose proof (proj2 (inv_shows w x s) (conj S C)) as I.
  destruct (self_assign w x s k _ I Hw E) as (y & R & Iy). exists y. split; [exact R|].
  pose proof Iy as (F & H & _). split; [|split].
  - apply (get_f y _ k None F). cbn. apply nth_error_upd_eq. apply nth_error_Some. congruence.
  - now apply (inv_shows w) in Iy.
  - intros N. rewrite (cinv_alive y _ _ b H). pose proof (owners_with_f s k _ (Some None) b E) as Q.
    cbn [h1] in Q. rewrite Nat.eqb_refl in Q. apply Nat.ltb_ge. lia.
Qed.

(* C116: with a count of v bits, 2^v followers and their master are 2^v + 1 owners; the first one
   destroyed deletes the object under all the others. *)
Theorem C116_many_owners_refuted (v : nat) :
  0 < v ->
  exists y, run_ops (Z.of_nat v) (Master2 0 :: map (fun k => FromMaster k 0) (seq 0 (2 ^ v)) ++ [Destroy 0])
      (no_world 1 (2 ^ v)) = Ok y /\
    (forall k, 0 < k < 2 ^ v -> get_follower k y = Ok (Some 0) /\ use k y = UB) /\ w_dead y = [0].
Proof. exact (wraps v). Qed.

(* ---------- cases ---------- *)
Definition sptr_story : list op :=
  [Master1 0; Construct 0; Master2 1; FromMaster 0 0; Copy 1 0; FromMaster 2 1; Swap 1 2; MReset 0;
   Assign 0 1; Move 3 2; Reset 3].
Lemma sptr_story_legal : all_legal 16 (no_owners 2 5) sptr_story.
Proof.
  cbn. unfold exists_m, exists_f. cbn. repeat split; eauto; try (vm_compute; reflexivity).
Qed.
Example C112_case :
  exists y, run_ops 16 sptr_story (no_world 2 5) = Ok y /\
    shows y (effects (no_owners 2 5) sptr_story) /\
    use_count 0 y = Ok 3%Z /\ master_use_count 1 y = Ok 3%Z /\ master_use_count 0 y = Ok 0%Z /\ w_dead y = [0].
Proof.
  destruct (C112_history 16 2 5 _ ltac:(lia) sptr_story_legal) as (y & R & S & _).
  exists y. split; [exact R|]. split; [exact S|]. vm_compute in R. injection R as <-. now vm_compute.
Qed.
Example C113_case :
  exists y, run_ops 16 [Master2 0; FromMaster 0 0; Copy 1 0; MReset 0; Reset 0] (no_world 1 2) = Ok y /\
    use 1 y = Ok 0 /\ use_count 1 y = Ok 1%Z /\ use 0 y = UB.
Proof. eexists. split; [vm_compute; reflexivity|now vm_compute]. Qed.
Example C114_case :
  exists y, run_ops 16 [Master2 0; FromMaster 0 0; MReset 0; Copy 1 0; Destroy 0] (no_world 1 2) = Ok y /\
    get_follower 1 y = Ok (Some 0) /\ alive y 0 = false /\ use 1 y = UB.
Proof. eexists. split; [vm_compute; reflexivity|now vm_compute]. Qed.
Example C115_case :
  exists y, run_ops 16 [Master2 0; FromMaster 0 0; MReset 0; Assign 0 0] (no_world 1 1) = Ok y /\
    get_follower 0 y = Ok None /\ alive y 0 = false.
Proof. eexists. split; [vm_compute; reflexivity|now vm_compute]. Qed.
Example C116_case :
  exists y, run_ops 2 (Master2 0 :: map (fun k => FromMaster k 0) (seq 0 4) ++ [Destroy 0]) (no_world 1 4) = Ok y /\
    get_follower 3 y = Ok (Some 0) /\ use 3 y = UB.
Proof. eexists. split; [vm_compute; reflexivity|now vm_compute]. Qed.

Print Assumptions C112_history.
Print Assumptions C112_step.
Print Assumptions C112_all_deleted.
Print Assumptions C113_held_object_usable.
Print Assumptions C113_master_count.
Print Assumptions C113_null_count.
Print Assumptions C234_null_get_refuted.
Print Assumptions C114_copy_counts_refuted.
Print Assumptions C115_self_assignment_refuted.
Print Assumptions C116_many_owners_refuted.
