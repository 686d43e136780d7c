(* Shared pointers in a memory pool (exp/memory/memory_pool.h).  pruns w N kept nf tr s x: a program that keeps to
   the rules of Psp_Spec has made the calls tr, s says who owns what, and x is the state of the code. *)
From Coq Require Import ZArith.
From Verif Require Import Base BaseLemmas MachInt Mp_Model Sptr_Model Sptr_Spec Sptr_Proofs Psp_Model Psp_Spec Psp_Proofs.
Local Open Scope res_scope.

(* C438: where what is written to a block survives the constructor of the pointer in it *)
Theorem C438_starts : forall N nf, 0 < N -> (Z.of_nat N < 2 ^ 31)%Z -> exists x, pstart N nf = Ok x.
Proof. intros N nf H0 H1. destruct (pstart_ok 1 N ltac:(lia) H0 H1 nf) as (x & E & _). eauto. Qed.
Theorem C438_safe : forall w N nf tr s x p, (1 <= w)%Z -> 0 < N -> (Z.of_nat N < 2 ^ 31)%Z ->
  pruns w N true nf tr s x -> plegal w s p ->
  exists y r, prun_op w N true p x = Ok (y, r) /\ panswers s p r.
Proof.
  intros w N nf tr s x p Hw H0 H1 R L. destruct (pstep_ok w N Hw H0 H1 x s p (pruns_inv w N Hw H0 H1 _ _ _ _ _ R) L) as (y & r & E & A & _). eauto.
Qed.
Theorem C438_state : forall w N nf tr s x, (1 <= w)%Z -> 0 < N -> (Z.of_nat N < 2 ^ 31)%Z ->
  pruns w N true nf tr s x ->
  w_followers (ptrs x) = o_followers s /\ map (option_map c_active) (w_blocks (ptrs x)) = o_masters s /\
  (forall k b, nth_error (o_followers s) k = Some (Some (Some b)) ->
     use k (ptrs x) = Ok b /\ use_count k (ptrs x) = Ok (Z.of_nat (owner_count s b)) /\ exists_m s b) /\
  (forall b a, nth_error (o_masters s) b = Some (Some a) ->
     master_use_count b (ptrs x) = Ok (if a then Z.of_nat (owner_count s b) else 0%Z)) /\
  count_free1 N (pool x) = Ok (Z.of_nat (free_blocks s)).
Proof.
  intros w N nf tr s x Hw H0 H1 R. destruct (pshows w N H0 H1 x s (pruns_inv w N Hw H0 H1 _ _ _ _ _ R)) as (A & B & C & D & E & _). auto 6.
Qed.

(* C439: the destructor of the managed object is called for none of them *)
Theorem C439_never_refuted : forall w N kept nf tr s x, (1 <= w)%Z -> 0 < N -> (Z.of_nat N < 2 ^ 31)%Z ->
  pruns w N kept nf tr s x -> w_dead (ptrs x) = [].
Proof. intros w N kept nf tr s x Hw H0 H1 R. apply (pshows w N H0 H1 x s (pruns_inv w N Hw H0 H1 _ _ _ _ _ R)). Qed.
Theorem C439_last_owner_refuted : forall w N nf tr s x b, (1 <= w)%Z -> 0 < N -> (Z.of_nat N < 2 ^ 31)%Z ->
  pruns w N true nf tr s x -> master_owns s b = true -> owner_count s b = 1 ->
  exists y, prun_op w N true (PReset b) x = Ok (y, None) /\
    alive (ptrs x) b = true /\ nth_error (w_blocks (ptrs y)) b = Some None /\ w_dead (ptrs y) = [].
Proof.
  intros w N nf tr s x b Hw H0 H1 R O C. pose proof (pruns_inv w N Hw H0 H1 _ _ _ _ _ R) as P. pose proof (owns_nth s b O) as E.
  destruct (pstep_ok w N Hw H0 H1 x s (PReset b) P) as (y & r & Ey & A & Py); [exists true; exact E|]. cbn [panswers] in A. subst r.
  exists y. split; [exact Ey|]. split; [|split].
  - unfold alive. rewrite (pget w N x s b true P E), C. reflexivity.
  - destruct (pshows w N H0 H1 y _ Py) as (_ & M & _). cbn [peffect] in M. rewrite O in M. unfold swept in M.
    rewrite (owners_with_m s b _ (Some false) b E), Nat.eqb_refl in M. unfold owner_count in C. rewrite O in C. replace (followers_of b (o_followers s)) with 0 in M by lia.
    cbn [m1 Nat.add Nat.eqb] in M. pose proof (f_equal (fun l => nth_error l b) M) as Mb. cbn in Mb. rewrite nth_error_map in Mb.
    rewrite nth_error_upd_eq in Mb by (rewrite upd_length; apply nth_error_Some; congruence). destruct (nth_error (w_blocks (ptrs y)) b) as [[c|]|]; cbn in Mb; congruence.
  - apply (pshows w N H0 H1 y _ Py).
Qed.

(* C440: where it does not survive - and the language does not say that it does - the last owner must not go *)
Theorem C440_pointer_refuted : forall w N nf tr s x b, (1 <= w)%Z -> 0 < N -> (Z.of_nat N < 2 ^ 31)%Z ->
  pruns w N false nf tr s x -> master_owns s b = true -> owner_count s b = 1 -> prun_op w N false (PReset b) x = UB.
Proof. intros w N nf tr s x b Hw H0 H1 R. apply last_ptr_ub. exact (pruns_inv w N Hw H0 H1 _ _ _ _ _ R). Qed.
Theorem C440_follower_refuted : forall w N nf tr s x k b, (1 <= w)%Z -> 0 < N -> (Z.of_nat N < 2 ^ 31)%Z ->
  pruns w N false nf tr s x -> nth_error (o_followers s) k = Some (Some (Some b)) -> owner_count s b = 1 ->
  prun_op w N false (PFReset k) x = UB /\ prun_op w N false (PFDestroy k) x = UB.
Proof. intros w N nf tr s x k b Hw H0 H1 R. apply last_follower_ub. exact (pruns_inv w N Hw H0 H1 _ _ _ _ _ R). Qed.

(* C441: pool.destroy of a pointer that is the only owner puts its block on the free list twice *)
Theorem C441_sole_owner_refuted : forall w N nf tr s x b, (1 <= w)%Z -> 0 < N -> (Z.of_nat N < 2 ^ 31)%Z ->
  pruns w N true nf tr s x -> master_owns s b = true -> owner_count s b = 1 ->
  exists y z1 z2, prun_op w N true (PDestroy b) x = Ok (y, None) /\
    make_shared w N y = Ok (z1, b) /\ make_shared w N z1 = Ok (z2, b) /\
    forall fuel n, distance1 N fuel (pool y) (front (pool y)) 0 <> Ok n.
Proof.
  intros w N nf tr s x b Hw H0 H1 R O C. destruct (destroy_sole w N Hw H0 H1 x s b (pruns_inv w N Hw H0 H1 _ _ _ _ _ R) O C) as (y & E & L & Lb & Ly).
  eexists y, _, _. cbn [prun_op]. rewrite E. cbn [quiet bind]. split; [reflexivity|].
  pose proof (looped_alloc N H0 H1 b _ Lb L) as A. split; [eapply (make_at w N Hw H0); [reflexivity|exact A|exact Ly]|].
  split; [eapply (make_at w N Hw H0); [reflexivity|exact A|cbn [ptrs w_blocks]; rewrite upd_length; exact Ly]|].
  intros fuel n. rewrite (proj1 L). apply (looped_distance N H0 H1 b); assumption.
Qed.
(* C441: and under the other owners when there are some *)
Theorem C441_other_owners_refuted : forall w N nf tr s x k b, (1 <= w)%Z -> 0 < N -> (Z.of_nat N < 2 ^ 31)%Z ->
  pruns w N true nf tr s x -> master_owns s b = true -> nth_error (o_followers s) k = Some (Some (Some b)) ->
  exists y z, prun_op w N true (PDestroy b) x = Ok (y, None) /\ use k (ptrs y) = UB /\
    make_shared w N y = Ok (z, b) /\ use k (ptrs z) = Ok b /\ use_count k (ptrs z) = Ok 1%Z.
Proof.
  intros w N nf tr s x k b Hw H0 H1 R O E. destruct (destroy_shared w N Hw H0 H1 x s k b (pruns_inv w N Hw H0 H1 _ _ _ _ _ R) O E) as (y & z & Ey & H).
  exists y, z. cbn [prun_op]. rewrite Ey. cbn [quiet bind]. auto.
Qed.

(* C442: make_shared on a pool that is used up constructs at the null pointer *)
Theorem C442_full_refuted : forall w N kept nf tr s x, (1 <= w)%Z -> 0 < N -> (Z.of_nat N < 2 ^ 31)%Z ->
  pruns w N kept nf tr s x -> free_blocks s = 0 -> prun_op w N kept PMake x = UB /\ prun_op w N kept PNew x = UB.
Proof.
  intros w N kept nf tr s x Hw H0 H1 R F. destruct (make_full w N H0 H1 x s (pruns_inv w N Hw H0 H1 _ _ _ _ _ R)) as (A & B).
  - intros b E. unfold free_blocks in F. apply nth_error_In in E.
    assert (K : In None (filter is_free (o_masters s))) by (apply filter_In; auto). destruct (filter is_free (o_masters s)); [destruct K|discriminate].
  - cbn [prun_op]. rewrite A, B. auto.
Qed.

(* C443: a pointer from pool.construct() keeps its block although nobody owns anything: reset does nothing, and a
   follower made from it is null *)
Theorem C443_no_object_refuted : forall w N kept nf tr s x b, (1 <= w)%Z -> 0 < N -> (Z.of_nat N < 2 ^ 31)%Z ->
  pruns w N kept nf tr s x -> nth_error (o_masters s) b = Some (Some false) ->
  prun_op w N kept (PReset b) x = Ok (x, None) /\
  forall k, nth_error (o_followers s) k = Some None ->
    exists y, prun_op w N kept (PFrom k b) x = Ok (y, None) /\ get_follower k (ptrs y) = Ok None /\ pool y = pool x /\ w_blocks (ptrs y) = w_blocks (ptrs x).
Proof.
  intros w N kept nf tr s x b Hw H0 H1 R E. pose proof (pruns_inv w N Hw H0 H1 _ _ _ _ _ R) as P. pose proof (pget w N x s b false P E) as G.
  pose proof P as ((d & (F & _)) & _). cbn in F. split.
  - cbn [prun_op]. unfold ptr_reset, get_block. rewrite G. reflexivity.
  - intros k Ek. cbn [prun_op]. unfold from_master, get_block. rewrite G. cbn [bind c_active]. unfold new_follower. rewrite F, Ek. cbn [acquire on_ptrs quiet bind].
    eexists. split; [reflexivity|]. unfold get_follower. cbn [ptrs set_follower w_followers w_blocks pool]. rewrite F, nth_error_upd_eq by (apply nth_error_Some; congruence). auto.
Qed.

(* C444: a copy made after the pointer was reset is not counted; the block goes back under it and is handed out again *)
Theorem C444_copy_refuted : forall w N nf tr s x k j b, (1 <= w)%Z -> 0 < N -> (Z.of_nat N < 2 ^ 31)%Z ->
  pruns w N true nf tr s x -> nth_error (o_followers s) j = Some (Some (Some b)) -> nth_error (o_followers s) k = Some None ->
  master_owns s b = false -> owner_count s b = 1 ->
  exists x1 y z, prun_op w N true (PCopy k j) x = Ok (x1, None) /\ prun_op w N true (PFDestroy j) x1 = Ok (y, None) /\
    get_follower k (ptrs y) = Ok (Some b) /\ use k (ptrs y) = UB /\
    make_shared w N y = Ok (z, b) /\ use k (ptrs z) = Ok b /\ use_count k (ptrs z) = Ok 1%Z.
Proof. intros w N nf tr s x k j b Hw H0 H1 R. apply copy_then_drop; auto. exact (pruns_inv w N Hw H0 H1 _ _ _ _ _ R). Qed.

Print Assumptions C438_starts.
Print Assumptions C438_safe.
Print Assumptions C438_state.
Print Assumptions C439_never_refuted.
Print Assumptions C439_last_owner_refuted.
Print Assumptions C440_pointer_refuted.
Print Assumptions C440_follower_refuted.
Print Assumptions C441_sole_owner_refuted.
Print Assumptions C441_other_owners_refuted.
Print Assumptions C442_full_refuted.
Print Assumptions C443_no_object_refuted.
Print Assumptions C444_copy_refuted.

(* ---------- cases ---------- *)
Definition owners_of (s : owners) : list (option bool) * list (option (option nat)) := (o_masters s, o_followers s).
Fixpoint prun_all (w : Z) (N : nat) (kept : bool) (l : list pop) (s : owners) (x : pworld) (tr : list (pop * option nat)) : result (owners * pworld * list (pop * option nat)) :=
  match l with
  | [] => Ok (s, x, tr)
  | p :: l' => ' (y, r) <- prun_op w N kept p x ;; prun_all w N kept l' (peffect s p r) y (tr ++ [(p, r)])
  end.
Fixpoint plegal_all (w : Z) (N : nat) (kept : bool) (l : list pop) (s : owners) (x : pworld) : Prop :=
  match l with
  | [] => True
  | p :: l' => plegal w s p /\ match prun_op w N kept p x with Ok (y, r) => plegal_all w N kept l' (peffect s p r) y | _ => False end
  end.
Lemma prun_all_runs w N kept nf : forall l s x tr s' x' tr', pruns w N kept nf tr s x -> plegal_all w N kept l s x ->
  prun_all w N kept l s x tr = Ok (s', x', tr') -> pruns w N kept nf tr' s' x'.
Proof.
  induction l as [|p l IH]; intros s x tr s' x' tr' R L E; cbn [prun_all plegal_all] in *.
  - injection E as <- <- <-. exact R.
  - destruct L as (L & L2). destruct (prun_op w N kept p x) as [[y r]| |] eqn:Ep; try contradiction. cbn [bind] in E.
    exact (IH _ _ _ _ _ _ (pruns_step w N kept nf tr s x p r y R L Ep) L2 E).
Qed.
Definition story_start (N nf : nat) : pworld := PWorld (World (repeat None N) (repeat None nf) [] []) (match init1 N with Ok q => q | _ => Pool1 [] [] 0 end).
(* two objects, shared and let go; the first block is handed out again *)
Definition pool_story : list pop :=
  [PMake; PNew; PConstruct 1; PFrom 0 0; PCopy 1 0; PReset 0; PFReset 0; PAssignPtr 0 1; PReset 1; PSwap 0 1; PFDestroy 0; PMake; PAssignPtr 1 0].
Lemma story_of : forall l N nf kept s x tr, pstart N nf = Ok (story_start N nf) -> plegal_all 16 N kept l (Owners (repeat None N) (repeat None nf)) (story_start N nf) ->
  prun_all 16 N kept l (Owners (repeat None N) (repeat None nf)) (story_start N nf) [] = Ok (s, x, tr) -> pruns 16 N kept nf tr s x.
Proof. intros l N nf kept s x tr E L R. eapply prun_all_runs; [constructor; exact E|exact L|exact R]. Qed.
Ltac legal_story := vm_compute; repeat split; try discriminate; eauto; try (now exists 0); try (now exists 1).
Example C438_case : exists tr s x, pruns 16 2 true 2 tr s x /\
  map snd tr = [Some 0; Some 1; None; None; None; None; None; None; None; None; None; Some 0; None] /\
  owners_of s = ([Some true; None], [None; Some (Some 0)]) /\ use_count 1 (ptrs x) = Ok 2%Z /\ count_free1 2 (pool x) = Ok 1%Z.
Proof.
  eexists _, _, _. split; [apply (story_of pool_story 2 2 true); [reflexivity| |vm_compute; reflexivity]|].
  - unfold pool_story. legal_story.
  - vm_compute. auto.
Qed.
Example C439_case : exists tr s x, pruns 16 1 true 0 tr s x /\ map fst tr = [PMake; PReset 0; PMake; PReset 0] /\
  w_made (ptrs x) = [0; 0] /\ w_dead (ptrs x) = [] /\ owners_of s = ([None], []) /\ count_free1 1 (pool x) = Ok 1%Z.
Proof.
  eexists _, _, _. split; [apply (story_of [PMake; PReset 0; PMake; PReset 0] 1 0 true); [reflexivity| |vm_compute; reflexivity]|].
  - legal_story.
  - vm_compute. auto 6.
Qed.
Example C440_case : exists tr s x, pruns 16 2 false 1 tr s x /\ master_owns s 0 = true /\ owner_count s 0 = 1 /\
  nth_error (o_followers s) 0 = Some (Some (Some 1)) /\ owner_count s 1 = 1 /\
  prun_op 16 2 false (PReset 0) x = UB /\ prun_op 16 2 false (PFDestroy 0) x = UB.
Proof.
  eexists _, _, _. split; [apply (story_of [PMake; PMake; PFrom 0 1; PReset 1] 2 1 false); [reflexivity| |vm_compute; reflexivity]|].
  - legal_story.
  - vm_compute. auto 7.
Qed.
Example C441_case : exists tr s x, pruns 16 2 true 1 tr s x /\ master_owns s 0 = true /\ owner_count s 0 = 1 /\
  master_owns s 1 = true /\ nth_error (o_followers s) 0 = Some (Some (Some 1)).
Proof.
  eexists _, _, _. split; [apply (story_of [PMake; PMake; PFrom 0 1] 2 1 true); [reflexivity| |vm_compute; reflexivity]|].
  - legal_story.
  - vm_compute. auto 6.
Qed.
Example C442_case : exists tr s x, pruns 16 2 true 0 tr s x /\ free_blocks s = 0 /\ prun_op 16 2 true PMake x = UB.
Proof.
  eexists _, _, _. split; [apply (story_of [PMake; PMake] 2 0 true); [reflexivity| |vm_compute; reflexivity]|].
  - legal_story.
  - vm_compute. auto 6.
Qed.
Example C443_case : exists tr s x, pruns 16 2 true 1 tr s x /\ nth_error (o_masters s) 0 = Some (Some false) /\ nth_error (o_followers s) 0 = Some None /\
  count_free1 2 (pool x) = Ok 1%Z.
Proof.
  eexists _, _, _. split; [apply (story_of [PNew; PReset 0] 2 1 true); [reflexivity| |vm_compute; reflexivity]|].
  - legal_story.
  - vm_compute. auto 6.
Qed.
Example C444_case : exists tr s x, pruns 16 2 true 2 tr s x /\ nth_error (o_followers s) 0 = Some (Some (Some 0)) /\ nth_error (o_followers s) 1 = Some None /\
  master_owns s 0 = false /\ owner_count s 0 = 1.
Proof.
  eexists _, _, _. split; [apply (story_of [PMake; PFrom 0 0; PReset 0] 2 2 true); [reflexivity| |vm_compute; reflexivity]|].
  - legal_story.
  - vm_compute. auto 6.
Qed.
