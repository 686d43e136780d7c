(* C268-C272: exp/memory/memory_pool.h memory_pool_1, memory_pool2.h memory_pool.  A trace lists the calls
   made and the answers given; the client frees, fills and destroys only live blocks. *)
From Coq Require Import ZArith.
From Verif Require Import Base MachInt Pool_Spec Pool_Proofs Mp_Spec Mp_Model Mp_Proofs.

(* C268 *)
Theorem C268_exclusive : forall A N (tr : list (pop_ A * answer)) p op, 0 < N -> (Z.of_nat N < 2 ^ 31)%Z ->
  execs (init1 N) (step1 N) (allowed1 N) tr p -> allowed1 N (live tr) op ->
  exists p' r, step1 N p op = Ok (p', r) /\ answers_well N (live tr) op r.
Proof.
  intros A N tr p op H0 H1 E M. eapply (execs_exclusive _ _ _ _ N (inv1 N)); eauto.
  - apply init1_inv; assumption.
  - apply step1_inv; assumption.
  - intros l q fl I. apply (i1_parts _ _ _ _ I).
Qed.
Print Assumptions C268_exclusive.
Theorem C268_contents : forall A N (tr : list (pop_ A * answer)) p, 0 < N -> (Z.of_nat N < 2 ^ 31)%Z ->
  execs (init1 N) (step1 N) (allowed1 N) tr p ->
  NoDup (blocks (live tr)) /\ Forall (fun b => b < N) (blocks (live tr)) /\
  (forall b v, In (b, Some v) (live tr) -> get1 p b = Ok v) /\
  count_free1 N p = Ok (Z.of_nat N - Z.of_nat (length (live tr)))%Z /\
  map snd tr = spare (seq 0 N) (map fst tr).
Proof.
  intros A N tr p H0 H1 E.
  pose proof (execs_inv _ _ _ _ N (inv1 N) (init1_inv N H0 H1) (step1_inv N H0 H1) _ _ E) as I.
  assert (Hp : forall l q fl, inv1 (A := A) N l q fl -> parts N l fl) by (intros l q fl J; apply (i1_parts _ _ _ _ J)).
  destruct (execs_live _ _ _ _ N (inv1 N) (init1_inv N H0 H1) (step1_inv N H0 H1) Hp _ _ E) as (D & F).
  split; [exact D|]. split; [exact F|]. split; [|split].
  - intros b v K. unfold get1, rd. rewrite (i1_val _ _ _ _ I _ _ K). reflexivity.
  - rewrite (count1_ok N H0 H1 _ _ _ I). f_equal. pose proof (parts_count _ _ _ (i1_parts _ _ _ _ I)). lia.
  - exact (execs_reuse _ _ _ _ N (inv1 N) (init1_inv N H0 H1) (step1_inv N H0 H1) _ _ E).
Qed.
Print Assumptions C268_contents.
Theorem C268_starts : forall A N, 0 < N -> (Z.of_nat N < 2 ^ 31)%Z -> exists p : pool1 A, init1 N = Ok p.
Proof. intros A N H0 H1. apply init1_starts; assumption. Qed.
Print Assumptions C268_starts.

(* C269 *)
Theorem C269_exclusive : forall A N (tr : list (pop_ A * answer)) p op,
  execs (init2 N) (step2 N) allowed2 tr p -> allowed2 (live tr) op ->
  exists p' r, step2 N p op = Ok (p', r) /\ answers_well N (live tr) op r.
Proof.
  intros A N tr p op E M. eapply (execs_exclusive _ _ _ _ N (inv2 N)); eauto.
  - apply init2_inv.
  - apply step2_inv.
  - intros l q fl I. apply (i2_parts _ _ _ _ I).
Qed.
Print Assumptions C269_exclusive.
Theorem C269_contents : forall A N (tr : list (pop_ A * answer)) p,
  execs (init2 N) (step2 N) allowed2 tr p ->
  NoDup (blocks (live tr)) /\ Forall (fun b => b < N) (blocks (live tr)) /\
  (forall b v, In (b, Some v) (live tr) -> get2 p b = Ok v) /\
  map snd tr = spare (seq 0 N) (map fst tr).
Proof.
  intros A N tr p E. pose proof (execs_inv _ _ _ _ N (inv2 N) (init2_inv N) (step2_inv N) _ _ E) as I.
  assert (Hp : forall l q fl, inv2 (A := A) N l q fl -> parts N l fl) by (intros l q fl J; apply (i2_parts _ _ _ _ J)).
  destruct (execs_live _ _ _ _ N (inv2 N) (init2_inv N) (step2_inv N) Hp _ _ E) as (D & F).
  split; [exact D|]. split; [exact F|]. split.
  - intros b v K. unfold get2, rd. rewrite (i2_val _ _ _ _ I _ _ K). reflexivity.
  - exact (execs_reuse _ _ _ _ N (inv2 N) (init2_inv N) (step2_inv N) _ _ E).
Qed.
Print Assumptions C269_contents.
Theorem C269_starts : forall A N, exists p : pool2 A, init2 N = Ok p.
Proof. intros A N. destruct (init2_ok (A := A) N) as (p & E & _). eauto. Qed.
Print Assumptions C269_starts.

(* C270: count_free of the second pool.  Refuted: it counts the items that follow the next block to be
   handed out in the array, whichever of them are live. *)
Theorem C270_count_position_refuted : forall A N (tr : list (pop_ A * answer)) p,
  execs (init2 N) (step2 N) allowed2 tr p ->
  exists c, count_free2 N p = Ok c /\
    (forall p' b, step2 N p Alloc = Ok (p', Some b) -> c = N - b) /\ (forall p', step2 N p Alloc = Ok (p', None) -> c = 0).
Proof.
  intros A N tr p E. pose proof (execs_inv _ _ _ _ N (inv2 N) (init2_inv N) (step2_inv N) _ _ E) as I.
  eexists. split; [eapply count2_position; exact I|].
  destruct (step2_inv N _ _ _ Alloc I (conj Logic.I Logic.I)) as (q & E' & _). rewrite E'. destruct (spare_of N (map fst tr)) as [|b t]; cbn; split; intros; try congruence; try lia.
Qed.
Print Assumptions C270_count_position_refuted.
Theorem C270_count_refuted : forall A N, 2 <= N -> exists (tr : list (pop_ A * answer)) p,
  execs (init2 N) (step2 N) allowed2 tr p /\ length (live tr) = 1 /\ count_free2 N p = Ok N.
Proof.
  intros A N H. destruct (init2_ok (A := A) N) as (p0 & E0 & I0).
  assert (X0 : execs (A := A) (init2 N) (step2 N) allowed2 [] p0) by (constructor; exact E0).
  destruct N as [|[|N]]; try lia. cbn [seq] in I0. set (M := S (S N)) in *.
  destruct (step2_inv M _ _ _ Alloc I0 (conj Logic.I Logic.I)) as (p1 & E1 & I1). cbn in E1, I1.
  destruct (step2_inv M _ _ _ Alloc I1 (conj Logic.I Logic.I)) as (p2 & E2 & I2). cbn in E2, I2.
  destruct (step2_inv M _ _ _ (Free 0) I2) as (p3 & E3 & I3); [split; [cbn; auto|exact Logic.I]|]. cbn in E3, I3.
  exists [(Alloc, Some 0); (Alloc, Some 1); (Free 0, None)], p3. split; [|split; [reflexivity|]].
  - apply (execs_step _ _ _ [(Alloc, Some 0); (Alloc, Some 1)] p2); [|split; [cbn; auto|exact Logic.I]|exact E3].
    apply (execs_step _ _ _ [(Alloc, Some 0)] p1); [|split; exact Logic.I|exact E2].
    apply (execs_step _ _ _ [] p0); [exact X0|split; exact Logic.I|exact E1].
  - rewrite (count2_position M _ _ _ I3). reflexivity.
Qed.
Print Assumptions C270_count_refuted.

(* C271: construct reports that the pool is used up.  Refuted: it constructs at the null pointer. *)
Theorem C271_construct_refuted : forall A N (tr : list (pop_ A * answer)) p v, 0 < N -> (Z.of_nat N < 2 ^ 31)%Z ->
  execs (init1 N) (step1 N) (allowed1 N) tr p -> length (live tr) = N -> step1 N p (Emplace v) = UB.
Proof.
  intros A N tr p v H0 H1 E L. pose proof (execs_inv _ _ _ _ N (inv1 N) (init1_inv N H0 H1) (step1_inv N H0 H1) _ _ E) as I.
  pose proof (parts_count _ _ _ (i1_parts _ _ _ _ I)) as C. destruct (spare_of N (map fst tr)) as [|b t]; [|cbn in C; lia].
  cbn [step1]. eapply construct_full; eauto.
Qed.
Print Assumptions C271_construct_refuted.

(* C272: the blocks of memory_pool_1 are aligned for their type.  Refuted: wherever the pool is, if the
   type needs more alignment than the handle has bytes, one of the first two blocks is not. *)
Theorem C272_alignment_refuted : forall base sz wid al,
  (0 < wid < al)%Z -> (sz mod wid = 0)%Z -> (sz mod al = 0)%Z ->
  ~ ((block_address base sz wid 0 mod al = 0)%Z /\ (block_address base sz wid 1 mod al = 0)%Z).
Proof. intros base sz wid al H1 H2 H3 (H4 & H5). exact (misaligned base sz wid al H1 H2 H3 H4 H5). Qed.
Print Assumptions C272_alignment_refuted.
Example C272_case : block_address 4096 4 1 1 = 4101%Z /\ (4101 mod 4 = 1)%Z.
Proof. split; reflexivity. Qed.

(* two blocks, used up, both given back, used again *)
Definition mp_trace : list (pop_ nat * answer) :=
  [(Alloc, Some 0); (Emplace 5, Some 1); (Write 0 7, None); (Alloc, None); (Erase 1, None); (Free 0, None); (Alloc, Some 0); (Write 0 9, None)].
Lemma execs_go {A S} (init : result S) (step : S -> pop_ A -> result (S * answer)) allowed : forall tr0 tr p, execs init step allowed tr p ->
  (fix go (t done : list (pop_ A * answer)) (q : S) : Prop :=
     match t with
     | [] => True
     | (op, r) :: t' => allowed (live done) op /\ match step q op with Ok (q', r') => r' = r /\ go t' (done ++ [(op, r)]) q' | _ => False end
     end) tr0 tr p -> exists q, execs init step allowed (tr ++ tr0) q.
Proof.
  induction tr0 as [|[op r] t IH]; intros tr p E H.
  - exists p. now rewrite app_nil_r.
  - destruct H as [M H]. destruct (step p op) as [[q' r']| |] eqn:St; try contradiction. destruct H as [-> H].
    destruct (IH (tr ++ [(op, r)]) q') as [q Q]; [econstructor; eassumption|exact H|]. exists q. rewrite <- app_assoc in Q. exact Q.
Qed.
Example C268_case : live mp_trace = [(0, Some 9)] /\ exists p, execs (init1 2) (step1 2) (allowed1 2) mp_trace p.
Proof.
  split; [reflexivity|]. apply (execs_go _ _ _ mp_trace [] (Pool1 [None; None] [Some 1%Z; Some 255%Z] 0%Z)); [constructor; reflexivity|].
  unfold mp_trace. repeat (split; [split; cbn; auto|]; try (eexists; right; left; reflexivity); vm_compute; split; [reflexivity|]). exact I.
Qed.
Definition mp_trace2 : list (pop_ nat * answer) :=
  [(Alloc, Some 0); (Alloc, Some 1); (Write 0 7, None); (Write 1 5, None); (Alloc, None); (Free 0, None); (Alloc, Some 0); (Write 0 9, None)].
Example C269_case : live mp_trace2 = [(0, Some 9); (1, Some 5)] /\ exists p, execs (init2 2) (step2 2) allowed2 mp_trace2 p.
Proof.
  split; [reflexivity|]. apply (execs_go _ _ _ mp_trace2 [] (Pool2 [Link 1; Link 2] 0)); [constructor; reflexivity|].
  cbn. unfold allowed2. cbn. tauto.
Qed.
Example C270_case : exists (tr : list (pop_ nat * answer)) p, execs (init2 10) (step2 10) allowed2 tr p /\ length (live tr) = 1 /\ count_free2 10 p = Ok 10.
Proof. apply C270_count_refuted. lia. Qed.
Example C271_case : exists (tr : list (pop_ nat * answer)) p, execs (init1 1) (step1 1) (allowed1 1) tr p /\ length (live tr) = 1 /\ step1 1 p (Emplace 4) = UB.
Proof.
  exists [(Emplace 3, Some 0)]. eexists. split; [|split; [reflexivity|]].
  - apply (execs_step _ _ _ [] (Pool1 [None] [Some 255%Z] 0%Z)); [constructor; reflexivity|split; cbn; auto|reflexivity].
  - reflexivity.
Qed.
