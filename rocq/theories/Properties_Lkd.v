(* C382-C387: containers over memory that must be locked. *)
From Coq Require Import ZArith Lia.
From Verif Require Import Base Lkd_Spec Lkd_Model Lkd_Proofs.

(* memory of the right size *)
Definition fits (c : nat -> scon) (rest : nat -> list Z) : Prop :=
  forall k, s_alloc (c k) = true -> length (block (c k) (rest k)) = s_cap (c k).

Theorem C382_text_over_moving_memory : forall moves junk nest pad c rest g os obs t,
  (forall k, s_start (c k)) -> fits c rest -> srun nest pad (SS c (fun _ => None)) os = Some (obs, t) ->
  exists s, run moves junk nest pad (start c rest g) os = Ok (obs, s) /\
    (forall k, locks (mm s) k = s_lk (s_c t k)) /\
    (forall k, s_alloc (s_c t k) = true -> exists r, cont (mm s) k = block (s_c t k) r).
Proof.
  intros moves junk nest pad c rest g os obs t Hs Hf Hr.
  destruct (run_ok moves junk nest pad os _ _ _ _ (start_R nest c rest g Hs Hf) Hr) as (s & E & HR).
  exists s. split; [exact E|]. split; [intros k; apply HR|]. intros k. now apply (R_memory nest).
Qed.
Print Assumptions C382_text_over_moving_memory.

Theorem C383_locks_are_given_back : forall moves junk pad s o obs s',
  (match o with LLock _ _ _ | LData _ _ | LUnlock _ => False | _ => True end) ->
  step moves junk true pad s o = Ok (obs, s') -> forall k, locks (mm s') k = locks (mm s) k.
Proof. intros moves junk pad s o obs s' Hi H k. apply (step_lk moves junk pad k s o obs s'); [now destruct o|exact H]. Qed.
Print Assumptions C383_locks_are_given_back.

(* an allocator that moves whatever it may *)
Definition restless (n b : nat) : bool := true.

Lemma start_size (c : nat -> scon) (rest : nat -> list Z) k : (forall k, s_start (c k)) -> s_nt (c k) = true ->
  strlen (block (c k) (rest k)) = Ok (length (s_l (c k))) /\ s_alloc (c k) = true.
Proof.
  intros Hs Hn. destruct (Hs k) as (_ & _ & H3 & H4). destruct (H4 Hn) as [Hl Ht]. split.
  - unfold block. rewrite Hn. apply s_text_clean in Ht. apply strlen_app. exact (Ht Hn).
  - destruct (s_alloc (c k)); [reflexivity|]. specialize (H3 eq_refl). lia.
Qed.
(* asking a null terminated string for its size releases an uncounted lock *)
Lemma stale s k n : c_alloc (cs s k) = true -> c_nt (cs s k) = true -> strlen (cont (mm s) k) = Ok n -> locks (mm s) k = 1 ->
  exists s', size restless false s k = Ok (n, s') /\ gen (mm s') k = S (gen (mm s) k) /\ ptrs s' = ptrs s /\ cs s' = cs s /\ cont (mm s') = cont (mm s) /\ locks (mm s') k = 0.
Proof.
  intros Ha Hn Hs Hl. unfold size. rewrite Ha, Hn. cbn [negb]. unfold lock. rewrite Ha. cbn [bind].
  unfold loadn at 1. cbn [r_blk r_gen r_pos mm with_mem gen cont compact]. rewrite Nat.eqb_refl. cbn [andb].
  change (0 + length (cont (mm s) k)) with (length (cont (mm s) k)). rewrite Nat.leb_refl. cbn [bind skipn]. rewrite firstn_all, Hs. cbn [bind].
  unfold unlock. cbn [mm with_mem locks compact]. unfold set_at at 1. rewrite Nat.eqb_refl. cbn [bind].
  eexists. split; [reflexivity|]. cbn. unfold set_at. rewrite Nat.eqb_refl. cbn. rewrite Hl. cbn. repeat split.
Qed.
Lemma loadn_stale s k g i n : g < gen (mm s) k -> loadn s (Ref k g i) n = UB.
Proof. intros H. unfold loadn. cbn [r_blk r_gen]. now rewrite (proj2 (Nat.eqb_neq _ _)) by lia. Qed.

(* a lock the user holds does not survive a call of size() when locks are not counted *)
Theorem C384_size_releases_users_lock_refuted : forall junk pad c rest g k v,
  (forall k, s_start (c k)) -> s_nt (c k) = true -> s_l (c k) <> [] ->
  run restless junk false pad (start c rest g) [LLock v k 0; LSize k; LLoad v] = UB.
Proof.
  intros junk pad c rest g k v Hs Hn Hl. destruct (start_size c rest k Hs Hn) as [H1 H2].
  cbn [run step]. unfold lock. cbn [start cs c_alloc]. rewrite H2. cbn [bind mm with_mem ptrs cs].
  match goal with |- context [St ?m ?c ?p] => set (s1 := St m c p) end.
  destruct (stale s1 k (length (s_l (c k)))) as (s2 & E & G & P & C & D & _); auto.
  { cbn. unfold set_at. now rewrite Nat.eqb_refl. }
  rewrite E. cbn [answer bind]. rewrite P. cbn [s1 ptrs]. unfold set_at. rewrite Nat.eqb_refl. unfold load.
  rewrite loadn_stale; [reflexivity|]. rewrite G. apply Nat.lt_succ_diag_r.
Qed.
Print Assumptions C384_size_releases_users_lock_refuted.

Lemma calm s k n : c_alloc (cs s k) = true -> c_nt (cs s k) = true -> strlen (cont (mm s) k) = Ok n -> locks (mm s) k = 0 ->
  exists s', size restless false s k = Ok (n, s') /\ gen (mm s) k <= gen (mm s') k /\ cs s' = cs s /\ cont (mm s') = cont (mm s) /\ locks (mm s') k = 0.
Proof.
  intros Ha Hn Hs Hl. unfold size. rewrite Ha, Hn. cbn [negb]. unfold lock. rewrite Ha. cbn [bind].
  unfold loadn at 1. cbn [r_blk r_gen r_pos mm with_mem gen cont compact]. rewrite Nat.eqb_refl. cbn [andb].
  change (0 + length (cont (mm s) k)) with (length (cont (mm s) k)). rewrite Nat.leb_refl. cbn [bind skipn]. rewrite firstn_all, Hs. cbn [bind].
  unfold unlock. cbn [mm with_mem locks compact]. unfold set_at at 1. rewrite Nat.eqb_refl. cbn [bind].
  eexists. split; [reflexivity|]. cbn. unfold set_at. rewrite Nat.eqb_refl. cbn. rewrite Hl. cbn. repeat split. lia.
Qed.
Lemma lock_stale s k p n : c_alloc (cs s k) = true -> c_nt (cs s k) = true -> strlen (cont (mm s) k) = Ok n -> locks (mm s) k = 0 ->
  exists g s1 s2, lock restless false s k p = Ok (Ref k g p, s1) /\ size restless false s1 k = Ok (n, s2) /\
    g < gen (mm s2) k /\ cs s2 = cs s /\ cont (mm s2) = cont (mm s) /\ locks (mm s2) k = 0.
Proof.
  intros Ha Hn Hs Hl. unfold lock. rewrite Ha. cbn [bind].
  match goal with |- context [Ok (Ref k ?g p, ?s)] => set (s1 := s); exists g end.
  exists s1.
  destruct (stale s1 k n) as (s2 & E & G & P & C & D & K); auto.
  { cbn. unfold set_at. now rewrite Nat.eqb_refl. }
  exists s2. split; [reflexivity|]. split; [exact E|]. rewrite G, C, D. split; [|auto]. cbn. lia.
Qed.

(* nor does the address the container itself works with *)
Theorem C384_own_address_goes_stale_refuted : forall junk pad c rest g k pos cnt ch t o,
  (forall k, s_start (c k)) -> s_nt (c k) = true -> pos < length (s_l (c k)) ->
  In o [LErase k pos cnt; LFindCh k ch pos; LFirstOf k t pos; LCopy k (S cnt) pos] ->
  run restless junk false pad (start c rest g) [o] = UB.
Proof.
  intros junk pad c rest g k pos cnt ch t o Hs Hn Hp Ho. destruct (start_size c rest k Hs Hn) as [H1 H2].
  set (n := length (s_l (c k))) in *. cbn [run].
  assert (A : forall p, exists g' s1 s2, lock restless false (start c rest g) k p = Ok (Ref k g' p, s1) /\ size restless false s1 k = Ok (n, s2) /\
    g' < gen (mm s2) k /\ cs s2 = cs (start c rest g) /\ cont (mm s2) = cont (mm (start c rest g)) /\ locks (mm s2) k = 0).
  { intros p. now apply lock_stale. }
  destruct Ho as [<-|[<-|[<-|[<-|[]]]]]; cbn [step quietly answer].
  - unfold erase. destruct (calm (start c rest g) k n) as (s0 & E0 & _ & C0 & D0 & L0); auto. rewrite E0. cbn [bind].
    unfold erase_. destruct (lock_stale s0 k pos n) as (g' & s1 & s2 & E1 & E2 & G & C & D & L); auto; try (now rewrite C0 || now rewrite D0).
    rewrite E1. cbn [bind]. rewrite E2. cbn [bind]. rewrite C, C0. cbn [start cs c_nt]. rewrite Hn. cbn [bind].
    unfold at_. cbn [r_blk r_gen r_pos]. rewrite loadn_stale by exact G. reflexivity.
  - unfold find_ch. destruct (A 0) as (g' & s1 & s2 & E1 & E2 & G & _). rewrite E1. cbn [bind]. rewrite E2. cbn [bind].
    destruct (n - pos) as [|d] eqn:E; [lia|]. cbn [scan]. unfold load, at_. cbn [r_blk r_gen r_pos]. rewrite loadn_stale by exact G. reflexivity.
  - unfold find_first_of. destruct (A 0) as (g' & s1 & s2 & E1 & E2 & G & _). rewrite E1. cbn [bind]. rewrite E2. cbn [bind].
    assert (F : n <? pos = false) by (apply Nat.ltb_ge; lia). rewrite F.
    destruct (n - pos) as [|d] eqn:E; [lia|]. cbn [scan]. unfold load, at_. cbn [r_blk r_gen r_pos]. rewrite loadn_stale by exact G. reflexivity.
  - unfold copy. destruct (A pos) as (g' & s1 & s2 & E1 & E2 & G & C & D & L). rewrite E1. cbn [bind]. rewrite E2. cbn [bind].
    destruct (n <? pos + S cnt); cbn [bind].
    + destruct (calm s2 k n) as (s3 & E3 & G3 & _); try (now rewrite C || now rewrite D). { exact L. }
      rewrite E3. cbn [bind]. rewrite loadn_stale by lia. reflexivity.
    + rewrite loadn_stale by exact G. reflexivity.
Qed.
Print Assumptions C384_own_address_goes_stale_refuted.

(* a container inserted into itself: the memory grows, and may move, while its old address is in use *)
Theorem C385_insert_self_stale_refuted : forall junk nest pad c rest g k pos,
  (forall k, s_start (c k)) -> fits c rest -> s_nt (c k) = false -> s_alloc (c k) = true -> s_l (c k) <> [] ->
  pos <= length (s_l (c k)) -> s_cap (c k) < length (s_l (c k)) + length (s_l (c k)) ->
  run restless junk nest pad (start c rest g) [LInsertC k pos k] = UB.
Proof.
  intros junk nest pad c rest g k pos Hs Hf Hn Ha Hl Hp Hc. cbn [run step quietly]. unfold insert_str.
  unfold lock at 1. cbn [start cs c_alloc]. rewrite Ha. cbn [bind].
  unfold size at 1. cbn [with_mem cs start c_alloc c_nt c_sz]. rewrite Ha, Hn. cbn [negb bind].
  unfold raw_insert. unfold size at 1. cbn [with_mem cs start c_alloc c_nt c_sz]. rewrite Ha, Hn. cbn [negb bind].
  unfold ensure_total_size, ensure_total_capacity. cbn [with_mem cs start c_cap]. apply Nat.ltb_lt in Hc. rewrite Hc.
  unfold set_size. match goal with |- context [c_nt (cs ?s k)] => set (s2 := s) end.
  assert (E2 : c_nt (cs s2 k) = false) by (cbn; rewrite set_same; exact Hn). rewrite E2. cbn [bind].
  assert (A2 : c_alloc (cs s2 k) = true) by (cbn; now rewrite set_same).
  assert (L2 : locks (mm s2) k <> 0) by (cbn; rewrite set_same; destruct nest; discriminate).
  assert (G2 : gen (compact restless (mm (start c rest g))) k < gen (mm s2) k).
  { cbn. rewrite Nat.eqb_refl. cbn. lia. }
  set (g1 := gen (compact restless (mm (start c rest g))) k) in *.
  match goal with |- context [with_con s2 k ?x] => set (s3 := with_con s2 k x) end.
  unfold lock at 1. cbn [s3 with_con cs]. rewrite set_same. cbn [c_alloc]. rewrite A2. cbn [bind].
  match goal with |- context [loadn ?s (at_ ?d pos) ?m] => set (s4 := s); set (data := d) end.
  assert (G4 : gen (mm s4) k = gen (mm s2) k).
  { cbn [s4 s3 with_con with_mem mm gen compact]. apply Nat.eqb_neq in L2. rewrite L2. reflexivity. }
  clearbody s4.
  assert (LN : forall s p m, loadn s p m = UB \/ exists l, loadn s p m = Ok l).
  { intros s p m. unfold loadn. destruct (_ && _); [right; eauto|now left]. }
  assert (SN : forall s p m, storen s p m = UB \/ exists s', storen s p m = Ok s' /\ gen (mm s') = gen (mm s)).
  { intros s p m. unfold storen. destruct (_ && _); [right; eexists; split; reflexivity|now left]. }
  destruct (LN s4 (at_ data pos) (length (s_l (c k)) - pos)) as [->|(l & ->)]; [reflexivity|]. cbn [bind].
  match goal with |- context [storen s4 ?p l] => destruct (SN s4 p l) as [->|(s5 & -> & G5)]; [reflexivity|] end. cbn [bind].
  rewrite loadn_stale; [reflexivity|]. rewrite G5, G4. exact G2.
Qed.
Print Assumptions C385_insert_self_stale_refuted.

(* the address that data() gives is locked for good: nothing but an unlock of the user's gives it back *)
Theorem C386_data_keeps_the_lock_refuted : forall moves junk pad s v k os obs s',
  Forall (fun o => match o with LUnlock _ => False | _ => True end) os ->
  run moves junk true pad s (LData v k :: os) = Ok (obs, s') -> locks (mm s) k < locks (mm s') k.
Proof.
  intros moves junk pad s v k os obs s' Hos H. cbn [run step] in H.
  destruct (lock moves true s k 0) as [[r s1]| |] eqn:E; try discriminate. cbn [bind] in H.
  apply (lock_lk moves k) in E. unfold one in E. rewrite Nat.eqb_refl in E.
  match type of H with context [run _ _ _ _ ?x os] => set (s2 := x) in H end.
  destruct (run moves junk true pad s2 os) as [[bs s3]| |] eqn:E2; try discriminate. cbn [bind] in H. injection H as <- <-.
  assert (L2 : locks (mm s) k < locks (mm s2) k) by (cbn; lia). clearbody s2. clear E.
  revert s2 bs s3 L2 E2. induction Hos as [|o os Ho _ IH]; intros s2 bs s3 L2 E2; cbn [run] in E2; [now injection E2 as _ <-|].
  destruct (step moves junk true pad s2 o) as [[b s4]| |] eqn:F; try discriminate. cbn [bind] in E2.
  destruct (run moves junk true pad s4 os) as [[bs' s5]| |] eqn:F2; try discriminate. cbn [bind] in E2. injection E2 as _ <-.
  apply (IH s4 bs' s5); [|exact F2]. destruct (inner o) eqn:Ei.
  - now rewrite (step_lk moves junk pad k s2 o b s4 Ei F).
  - destruct o; try discriminate; try contradiction; cbn [step] in F;
      match type of F with context [lock _ _ _ ?k0 ?p0] => destruct (lock moves true s2 k0 p0) as [[r' s6]| |] eqn:E; try discriminate end;
      cbn [bind] in F; injection F as _ <-; apply (lock_lk moves k) in E; cbn [mm]; lia.
Qed.
Print Assumptions C386_data_keeps_the_lock_refuted.

(* a container that never had memory has nothing to lock *)
Theorem C387_no_memory_to_lock_refuted : forall moves junk nest pad c rest g k j pos cnt ch t buf v o,
  (forall k, s_start (c k)) -> s_alloc (c k) = false -> s_alloc (c j) = false ->
  In o [LAppend k []; LErase k pos cnt; LInit k buf; LFindCh k ch pos; LFind k t pos; LFirstOf k t pos; LLastOf k t (Some pos);
        LStartsCh k ch; LStartsC k j; LEndsC k j; LEqC k j; LCmpC k j; LCopy k cnt pos; LData v k] ->
  run moves junk nest pad (start c rest g) [o] = UB.
Proof.
  intros moves junk nest pad c rest g k j pos cnt ch t buf v o Hs Ha Hj Ho.
  assert (Hn : s_nt (c k) = false).
  { destruct (Hs k) as (_ & _ & H3 & H4). destruct (s_nt (c k)); [|reflexivity]. specialize (H3 Ha). destruct (H4 eq_refl). lia. }
  assert (Hc : s_cap (c k) = 0) by (destruct (Hs k) as (_ & _ & H3 & _); now apply H3).
  assert (LK : forall p, lock moves nest (start c rest g) k p = UB) by (intros; unfold lock; cbn [start cs c_alloc]; now rewrite Ha).
  assert (LJ : forall p, lock moves nest (start c rest g) j p = UB) by (intros; unfold lock; cbn [start cs c_alloc]; now rewrite Hj).
  assert (SK : size moves nest (start c rest g) k = Ok (0, start c rest g)) by (unfold size; cbn [start cs c_alloc]; now rewrite Ha).
  assert (SJ : size moves nest (start c rest g) j = Ok (0, start c rest g)) by (unfold size; cbn [start cs c_alloc]; now rewrite Hj).
  repeat (destruct Ho as [<-|Ho]); [..|contradiction]; cbn [run step quietly answer].
  - unfold append, grow. rewrite SK. cbn [bind length Nat.add]. unfold ensure_total_capacity. cbn [Nat.ltb Nat.leb].
    unfold set_size. cbn [start cs c_nt]. rewrite Hn. cbn [bind]. unfold copy_from, lock. cbn [with_con cs]. rewrite set_same. cbn [c_alloc start cs]. now rewrite Ha.
  - unfold erase. rewrite SK. cbn [bind]. unfold erase_. now rewrite LK.
  - unfold init_list. now rewrite LK.
  - unfold find_ch. now rewrite LK.
  - unfold find. now rewrite LK.
  - unfold find_first_of. now rewrite LK.
  - unfold find_last_of. cbn [bind]. now rewrite LK.
  - unfold starts_with_ch. now rewrite LK.
  - unfold both. now rewrite LK.
  - unfold both. now rewrite LK.
  - unfold equals. rewrite SK. cbn [bind]. rewrite SJ. cbn [bind Nat.eqb negb]. now rewrite LK.
  - unfold compare. now rewrite LJ.
  - unfold copy. now rewrite LK.
  - now rewrite LK.
Qed.
Print Assumptions C387_no_memory_to_lock_refuted.

(* two vectors, without memory and with some, and a null terminated string "ab" in memory for eight *)
Definition ex_c (k : nat) : scon :=
  match k with
  | 0 => SC false false 0 [] 0
  | 1 => SC false true 4 [5; 6; 7]%Z 0
  | _ => SC true true 8 [97; 98]%Z 0
  end.
Definition ex_rest (k : nat) : list Z := match k with 0 => [] | 1 => [9%Z] | _ => [1; 1; 1; 1; 1]%Z end.
Lemma ex_start k : s_start (ex_c k).
Proof. destruct k as [|[|k]]; cbn; unfold s_start; cbn; repeat split; intros; try discriminate; try lia. Qed.
Lemma ex_fits : fits ex_c ex_rest.
Proof. intros [|[|k]] H; cbn in *; [discriminate|reflexivity|reflexivity]. Qed.
Definition ex_prog : list lop :=
  [LAppendC 0 1; LPush 0 8%Z; LLock 7 0 1; LLoad 7; LStore 7 4%Z; LEndsC 0 1; LUnlock 0; LInsertC 2 1 0; LErase 2 0 2;
   LFindCh 2 8%Z 0; LCopy 2 3 0; LLock 3 2 0; LSize 2; LLoad 3; LAssign 1 [1; 2; 3; 4; 5]%Z; LCmpC 1 0; LEqC 0 0].
Definition ex_obs : list lobs :=
  [LoChar 6%Z; LoBool false; LoPos (Some 2); LoText [4; 7; 8]%Z; LoNat 4; LoChar 4%Z; LoInt 1%Z; LoBool true].
Definition ex_run (moves : nat -> nat -> bool) (nest : bool) (pad : nat) (os : list lop) : option (list lobs * list nat) :=
  match run moves (fun n i => Z.of_nat (n + i)) nest pad (start ex_c ex_rest (fun _ => 0)) os with
  | Ok (o, s) => Some (o, map (locks (mm s)) [0; 1; 2])
  | _ => None
  end.
Definition ex_srun (nest : bool) (pad : nat) (os : list lop) : option (list lobs) :=
  match srun nest pad (SS ex_c (fun _ => None)) os with Some (o, _) => Some o | None => None end.
Example C382_case : (forall k, s_start (ex_c k)) /\ fits ex_c ex_rest /\
  ex_srun true 2 ex_prog = Some ex_obs /\ ex_run restless true 2 ex_prog = Some (ex_obs, [0; 0; 1]).
Proof. split; [exact ex_start|]. split; [exact ex_fits|]. split; vm_compute; reflexivity. Qed.
Example C383_case : ex_run restless true 2 [LInsertC 1 1 2] = Some ([], [0; 0; 0]).
Proof. vm_compute. reflexivity. Qed.
Example C384_case : (forall k, s_start (ex_c k)) /\ s_nt (ex_c 2) = true /\ s_l (ex_c 2) <> [] /\
  ex_srun true 0 [LLock 0 2 0; LSize 2; LLoad 0] = Some [LoNat 2; LoChar 97%Z] /\
  ex_run restless false 0 [LLock 0 2 0; LSize 2; LLoad 0] = None /\
  ex_run (fun _ _ => false) false 0 [LLock 0 2 0; LSize 2; LLoad 0] = Some ([LoNat 2; LoChar 97%Z], [0; 0; 0]).
Proof. split; [exact ex_start|]. split; [reflexivity|]. split; [discriminate|]. repeat split; vm_compute; reflexivity. Qed.
Example C385_case : s_nt (ex_c 1) = false /\ s_cap (ex_c 1) < length (s_l (ex_c 1)) + length (s_l (ex_c 1)) /\
  ex_run restless true 0 [LInsertC 1 1 1] = None /\ ex_run (fun _ _ => false) true 0 [LInsertC 1 1 1] <> None.
Proof. split; [reflexivity|]. split; [cbn; lia|]. split; vm_compute; [reflexivity|discriminate]. Qed.
Example C386_case : ex_run restless true 0 [LData 0 2; LSize 2; LErase 2 0 1; LData 0 2] = Some ([LoNat 2], [0; 0; 2]).
Proof. vm_compute. reflexivity. Qed.
Example C387_case : s_alloc (ex_c 0) = false /\ ex_run restless true 0 [LEqC 0 0] = None /\
  ex_run restless true 0 [LSize 0; LAppend 0 [1%Z]; LEqC 0 0] = Some ([LoNat 0; LoBool true], [0; 0; 0]).
Proof. split; [reflexivity|]. split; vm_compute; reflexivity. Qed.
