(* The fixed memory pool (C37, C38, C79, C80).  [exec N tr p]: p is the state of a pool of N
   blocks after the calls and answers of the trace tr, whose client freed, erased and wrote
   only live blocks. *)
From Verif Require Import Base MachInt Pool_Spec Pool_Model Pool_Proofs.

(* ---- C37 *)
Theorem C37_exclusive : forall A N (tr : list (pop_ A * answer)) p op, 0 < N ->
  exec N tr p -> may (live tr) op ->
  exists p' r, step p op = Ok (p', r) /\ answers_well N (live tr) op r.
Proof. exact (fun A => @exclusive A). Qed.
Print Assumptions C37_exclusive.

Theorem C37_accounting : forall A N (tr : list (pop_ A * answer)) p, 0 < N -> exec N tr p ->
  exists a, available p = Ok a /\ a + length (live tr) = N /\ (full p = true <-> length (live tr) = N).
Proof. exact (fun A => @accounting A). Qed.
Print Assumptions C37_accounting.

Theorem C37_starts : forall A N, 0 < N -> exists p : pool A, pool_init N = Ok p.
Proof. exact (fun A => @starts A). Qed.
Print Assumptions C37_starts.

Definition pool_case_trace : list (pop_ nat * answer) :=
  [(Alloc, Some 0); (Emplace 5, Some 1); (Write 0 7, None); (Alloc, None); (Erase 1, None); (Free 0, None);
   (Alloc, Some 0); (Write 0 9, None)].
Lemma run_case : exists p, exec 2 pool_case_trace p.
Proof.
  assert (forall (tr0 tr : list (pop_ nat * answer)) p, exec 2 tr p ->
    (fix go (t : list (pop_ nat * answer)) (done : list (pop_ nat * answer)) (q : pool nat) : Prop :=
       match t with
       | [] => True
       | (op, r) :: t' => may (live done) op /\ match step q op with
                                               | Ok (q', r') => r' = r /\ go t' (done ++ [(op, r)]) q'
                                               | _ => False
                                               end
       end) tr0 tr p -> exists q, exec 2 (tr ++ tr0) q) as G.
  { induction tr0 as [|[op r] t IH]; intros tr p E H.
    - exists p. now rewrite app_nil_r.
    - destruct H as [M H]. destruct (step p op) as [[q' r']| |] eqn:St; try contradiction. destruct H as [-> H].
      destruct (IH (tr ++ [(op, r)]) q') as [q Q]; [econstructor; eassumption|exact H|].
      exists q. rewrite <- app_assoc in Q. exact Q. }
  apply (G pool_case_trace [] (Pool [Next (Some 1); Next None] (Some 0))); [constructor; reflexivity|].
  cbn. repeat split; auto. exists 5; right; now left.
Qed.
Example C37_case : live pool_case_trace = [(0, Some 9)] /\ exists p, exec 2 pool_case_trace p.
Proof. split; [reflexivity|exact run_case]. Qed.

(* ---- C38: after every history the live blocks are distinct, inside the pool, and each holds
   what the client put there last. *)
Theorem C38_live_blocks_kept : forall A N (tr : list (pop_ A * answer)) p, 0 < N -> exec N tr p ->
  NoDup (blocks (live tr)) /\ Forall (fun b => b < N) (blocks (live tr)) /\
  (forall b v, In (b, Some v) (live tr) -> get p b = Ok v).
Proof. exact (fun A => @contents A). Qed.
Print Assumptions C38_live_blocks_kept.
Example C38_case : In (0, Some 9) (live pool_case_trace) /\ exists p, exec 2 pool_case_trace p.
Proof. split; [now left|exact run_case]. Qed.

(* ---- C79: handles name blocks: up to 128 of them. *)
Theorem C79_handle : forall N b, b < N -> b < 128 -> from_handle N (to_handle b) = Ok b.
Proof. exact handle_ok. Qed.
Print Assumptions C79_handle.
Theorem C214_handle_refuted : forall N b, 128 <= b -> from_handle N (to_handle b) <> Ok b.
Proof. exact handle_bad. Qed.
Print Assumptions C214_handle_refuted.
Example C79_case : from_handle 200 (to_handle 127) = Ok 127 /\ from_handle 200 (to_handle 128) = UB.
Proof. split; reflexivity. Qed.

(* ---- C80: the answers are those of a stack of free blocks. *)
Theorem C80_reuse_order : forall A N (tr : list (pop_ A * answer)) p, 0 < N -> exec N tr p ->
  map snd tr = spare (seq 0 N) (map fst tr).
Proof. exact (fun A => @reuse A). Qed.
Print Assumptions C80_reuse_order.
Example C80_case : map snd pool_case_trace = spare [0; 1] (map fst pool_case_trace) /\ exists p, exec 2 pool_case_trace p.
Proof. split; [reflexivity|exact run_case]. Qed.

(* ---- C479: a copy of a pool with a free block hands out that block of the original, which the
   original hands out as well; once it is in use the copy follows its contents as a link *)
Theorem C479_same_block_refuted : forall A N (tr : list (pop_ A * answer)) p, 0 < N -> exec N tr p ->
  length (live tr) < N ->
  exists p' b, alloc p = Ok (p', Some b) /\ exists q c, copy_alloc p' (copy p) = Ok (q, c, Some b).
Proof. exact (fun A => @copy_same A). Qed.
Print Assumptions C479_same_block_refuted.

Theorem C479_used_block_refuted : forall A N (tr : list (pop_ A * answer)) p v, 0 < N -> exec N tr p ->
  length (live tr) < N ->
  exists p' b, emplace p v = Ok (p', Some b) /\ copy_alloc p' (copy p) = UB.
Proof. exact (fun A => @copy_used A). Qed.
Print Assumptions C479_used_block_refuted.

Example C479_case : (exists p, exec 2 pool_case_trace p) /\ length (live pool_case_trace) = 1.
Proof. split; [exact run_case|reflexivity]. Qed.
