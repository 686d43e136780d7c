(* C153-C163: mutexes, lock_guard and unique_lock under every schedule, and semaphores. *)
From Coq Require Import List Arith Bool ZArith QArith Lia.
From Verif Require Import Base MachInt Ratio_Spec Ratio_Model Ratio_Proofs Chrono_Spec Chrono_Model Chrono_Proofs
  Lock_Spec Lock_Model Lock_Proofs.
Import ListNotations.
Local Open Scope nat_scope.

(* Two threads that add to variable 7 under mutex 1, one of them inside a scope of mutex 0, with an
   exception thrown and caught; and a third that uses mutex 2 recursively. *)
Definition kinds (m : nat) : kind := match m with 0 => KStd | 1 => KMutex | 2 => KRec | _ => KBinary end.
Definition adder : prog := Guard 0 (Seq (Guard 1 (Incr 7)) Skip).
Definition thrower : prog := Catch (Guard 1 (Seq (Incr 7) Throw)) (Guard 1 (Incr 7)).
Definition nester : prog := Guard 2 (Guard 2 (Seq (Guard 2 Skip) Throw)).
Definition zeros (v : nat) : Z := 0%Z.
Definition outcome {A} (f : world -> A) (r : result world) : option A := match r with Ok w => Some (f w) | _ => None end.

(* ---- C153 *)
(* Threads whose mutexes are locked by lock_guards alone: under every schedule no operation is
   undefined and no mutex is ever held by two threads. *)
Theorem C153_mutual_exclusion : forall K vs ps sched, Forall (guarded K []) ps ->
  exists w, run K (start K vs ps) sched = Ok w /\ exclusive (trace w).
Proof.
  intros K vs ps sched G. destruct (inv_run K sched _ (inv_start K vs ps G)) as (w & R & I). exists w. split; [exact R|apply I].
Qed.
Print Assumptions C153_mutual_exclusion.

Example C153_case : Forall (guarded kinds []) [adder; thrower; nester] /\
  outcome trace (run kinds (start kinds zeros [adder; thrower; nester]) [0; 1; 1; 0; 0; 2; 0; 0; 1; 1; 1; 1; 0; 1; 0]) =
    Some [Acquired 0 0; Acquired 1 1; Acquired 2 2; Updated 1 7; Released 1 1; Acquired 0 1] /\
  (* locking a std::mutex twice is undefined *)
  run kinds (start kinds zeros [Guard 0 (Guard 0 Skip)]) [0; 0] = UB.
Proof.
  split; [|split; vm_compute; reflexivity].
  repeat (apply Forall_cons; [cbn; intuition discriminate|]). apply Forall_nil.
Qed.

(* ---- C154 *)
(* A thread holds a mutex exactly while the destructor of one of its lock_guards is still to run. *)
Theorem C154_held_exactly_in_scope : forall K vs ps sched w t m, Forall (guarded K []) ps -> run K (start K vs ps) sched = Ok w ->
  (holds (trace w) t m <-> In (Leave m) (items w t)).
Proof.
  intros K vs ps sched w t m G R. destruct (inv_run K sched _ (inv_start K vs ps G)) as (w' & R' & I).
  rewrite R in R'. injection R' as <-. rewrite (holds_counts w (i_trace K w I)). unfold counts.
  assert (H : In (Leave m) (items w t) <-> In m (leaves (items w t))).
  { induction (items w t) as [|i k IH]; cbn; [tauto|]. destruct i; cbn; rewrite <- IH; intuition (first [discriminate|left; congruence|auto]). }
  rewrite H. pose proof (times_0 m (leaves (items w t))) as T. split; intros X.
  - destruct (in_dec Nat.eq_dec m (leaves (items w t))) as [|N]; [assumption|]. apply T in N. lia.
  - destruct (times m (leaves (items w t))); [exfalso; now apply T|lia].
Qed.
Print Assumptions C154_held_exactly_in_scope.
(* A thread that has ended, by an exception or not, has released each mutex as often as it took it. *)
Theorem C154_ended_thread_released_all : forall K vs ps sched w t, Forall (guarded K []) ps -> run K (start K vs ps) sched = Ok w ->
  finished w t -> forall m, released (trace w) t m = acquired (trace w) t m.
Proof.
  intros K vs ps sched w t G R F m. destruct (inv_run K sched _ (inv_start K vs ps G)) as (w' & R' & I).
  rewrite R in R'. injection R' as <-. rewrite (i_trace K w I t m). unfold counts. rewrite F. cbn. lia.
Qed.
Print Assumptions C154_ended_thread_released_all.
(* When every thread has ended each mutex is as it was when new. *)
Theorem C154_all_free_at_the_end : forall K vs ps sched w, Forall (guarded K []) ps -> run K (start K vs ps) sched = Ok w ->
  (forall t, finished w t) -> forall m, locks w m = fresh (K m).
Proof.
  intros K vs ps sched w G R F m. destruct (inv_run K sched _ (inv_start K vs ps G)) as (w' & R' & I).
  rewrite R in R'. injection R' as <-. pose proof (i_locks K w I m) as L.
  assert (Z : forall t, counts w t m = 0) by (intros t; unfold counts; rewrite F; reflexivity).
  destruct (locks w m) as [|o d|] eqn:LK.
  - destruct (K m) eqn:KM; try reflexivity. destruct (i_bin K w I m 0 KM). congruence.
  - destruct L as (L1 & L2 & _). rewrite Z in L2. lia.
  - destruct L as [-> _]. reflexivity.
Qed.
Print Assumptions C154_all_free_at_the_end.

Example C154_case : outcome (fun w => (items w 2, trace w, locks w 2)) (run kinds (start kinds zeros [adder; thrower; nester]) (repeat 2 8)) =
  Some ([Leave 2], [Acquired 2 2; Acquired 2 2; Acquired 2 2; Released 2 2; Released 2 2], Held 2 1) /\
  outcome (fun w => (items w 2, trace w, locks w 2)) (run kinds (start kinds zeros [adder; thrower; nester]) (repeat 2 12)) =
  Some ([], [Acquired 2 2; Acquired 2 2; Acquired 2 2; Released 2 2; Released 2 2; Released 2 2], Free).
Proof. split; vm_compute; reflexivity. Qed.

(* ---- C155 *)
(* If moreover each variable is updated only in the scope of the mutex assigned to it, no update
   is lost: under every schedule its value is the first one plus the number of updates made. *)
Theorem C155_no_lost_update : forall K prot vs ps sched, Forall (guarded K []) ps -> Forall (protected prot []) ps ->
  exists w, run K (start K vs ps) sched = Ok w /\ forall v, vals w v = (vs v + Z.of_nat (updates (trace w) v))%Z.
Proof.
  intros K prot vs ps sched G P. destruct (both_run K prot vs sched _ (inv_start K vs ps G) (vinv_start K prot vs ps P)) as (w & R & _ & V).
  exists w. split; [exact R|apply V].
Qed.
Print Assumptions C155_no_lost_update.

Example C155_case : Forall (protected (fun _ => 1) []) [adder; thrower; nester] /\
  outcome (fun w => (vals w 7, updates (trace w) 7)) (run kinds (start kinds zeros [adder; thrower; nester]) (concat (repeat [0; 1; 2; 0] 20))) = Some (3%Z, 3) /\
  (* without the mutex an update is lost *)
  outcome (fun w => (vals w 7, updates (trace w) 7)) (run kinds (start kinds zeros [Incr 7; Incr 7]) [0; 1; 0; 1]) = Some (1%Z, 2).
Proof.
  split; [|split; vm_compute; reflexivity]. repeat (apply Forall_cons; [cbn; tauto|]). apply Forall_nil.
Qed.

(* ---- C156 *)
(* If moreover every thread takes its mutexes in increasing order, the threads never all wait: in
   every reachable state a thread that can go on exists, or all have ended. *)
Theorem C156_never_stuck : forall K vs ps sched w, Forall (guarded K []) ps -> Forall (ordered []) ps ->
  run K (start K vs ps) sched = Ok w ->
  (forall t, finished w t) \/ (exists t w', t < length ps /\ step K w t = Some (Ok w')).
Proof.
  intros K vs ps sched w G O R. destruct (round_progress K (length ps) sched _ (start_live K vs ps G O)) as (w1 & R1 & L & _).
  rewrite R in R1. injection R1 as <-.
  assert (D : forall n, (forall t, t < n -> step K w t = None) \/ exists t, t < n /\ step K w t <> None).
  { induction n as [|n [IH|(t & T & E)]]; [left; lia| |right; exists t; split; [lia|exact E]].
    destruct (step K w n) eqn:E; [right; exists n; split; [lia|congruence]|]. left. intros t T. destruct (Nat.eq_dec t n) as [-> |]; [exact E|]. apply IH. lia. }
  destruct (D (length ps)) as [N|(t & T & E)].
  - left. apply (no_deadlock K (length ps) w); try apply L. exact N.
  - right. exists t. destruct (step K w t) as [r|] eqn:S1; [|congruence]. destruct (live_step K _ w t r L S1) as (w' & -> & _). now exists w'.
Qed.
Print Assumptions C156_never_stuck.
(* Every schedule that lets each thread try at least once per round ends all of them, within as
   many rounds as the programs have steps. *)
Theorem C156_fair_schedules_finish : forall K vs ps rounds, Forall (guarded K []) ps -> Forall (ordered []) ps ->
  fair_rounds (length ps) rounds -> list_sum (map size ps) <= length rounds ->
  exists w, run K (start K vs ps) (concat rounds) = Ok w /\ forall t, finished w t.
Proof.
  intros K vs ps rounds G O F L. rewrite <- (start_total K vs ps) in L.
  destruct (fair_finishes K (length ps) rounds F _ (start_live K vs ps G O) L) as (w & R & _ & FN). now exists w.
Qed.
Print Assumptions C156_fair_schedules_finish.

Example C156_case : Forall (ordered []) [adder; thrower; nester] /\ list_sum (map size [adder; thrower; nester]) = 29 /\
  outcome (fun w => map (items w) [0; 1; 2]) (run kinds (start kinds zeros [adder; thrower; nester]) (concat (repeat [0; 1; 2] 29))) = Some [[]; []; []] /\
  (* the other order can block both threads for ever *)
  (forall n, outcome (fun w => map (items w) [0; 1]) (run kinds (start kinds zeros [Guard 0 (Guard 1 Skip); Guard 1 (Guard 0 Skip)]) ([0; 1] ++ concat (repeat [0; 1] n))) =
    Some [[Do (Guard 1 Skip); Leave 0]; [Do (Guard 0 Skip); Leave 1]]).
Proof.
  split; [|split; [reflexivity|split; [vm_compute; reflexivity|]]].
  - repeat (apply Forall_cons; [cbn; intuition auto|]). apply Forall_nil.
  - intros n. cbn [app run step start items nth_error do_lock take locks kinds fresh]. cbn. induction n as [|n IH]; [reflexivity|]. exact IH.
Qed.

(* ---- C157 *)
(* unique_lock has no destructor.  A thread whose code is { unique_lock<mutex> l(m); a }, with a not
   touching m otherwise, never releases m: once it has locked it - so when it has ended - it
   holds m, and from then on no thread ever takes m again. *)
Theorem C157_unique_lock_never_unlocks_refuted : forall K vs ps t m a sched w, K m = KStd \/ K m = KMutex ->
  nth_error ps t = Some (Unique m Locking a) -> ignores m a -> run K (start K vs ps) sched = Ok w ->
  released (trace w) t m = 0 /\ (finished w t -> holds (trace w) t m) /\
  (holds (trace w) t m -> forall later w', run K w later = Ok w' -> forall u, acquired (trace w') u m = acquired (trace w) u m).
Proof.
  intros K vs ps t m a sched w KM NE IG R. destruct (unique_stuck K vs ps t m a sched w KM NE IG R) as [H R0]. split; [exact R0|].
  unfold holds. rewrite R0. split.
  - intros F. destruct H as [[IT _]|(_ & _ & ->)]; [unfold finished in F; congruence|lia].
  - intros A later w' RL u. destruct H as [[_ A0]|(L & UT & _)]; [lia|].
    destruct (stuck_run K m t 1 later KM w w' L UT RL) as [_ AR]. now destruct (AR u).
Qed.
Print Assumptions C157_unique_lock_never_unlocks_refuted.

Example C157_case : ignores 0 (Incr 7) /\
  outcome (fun w => (items w 0, items w 1, locks w 0, vals w 7)) (run kinds (start kinds zeros [Unique 0 Locking (Incr 7); Guard 0 (Incr 7)]) (concat (repeat [0; 1] 20))) =
    Some ([], [Do (Guard 0 (Incr 7))], Held 0 1, 1%Z).
Proof. split; [exact I|vm_compute; reflexivity]. Qed.

(* ---- C158 *)
(* unique_lock(m, try_to_lock) does not remember whether it got the mutex: the thread goes on with
   the same code either way, so while another thread holds m the code of the scope runs
   without it ... *)
Theorem C158_try_to_lock_goes_on_unlocked_refuted : forall K w t m a k o d, K m <> KBinary -> o <> t ->
  items w t = Do (Unique m Trying a) :: k -> locks w m = Held o d ->
  exists w', step K w t = Some (Ok w') /\ locks w' m = Held o d /\ trace w' = trace w /\
    forall v c, locks v m = Free -> items v t = items w t -> step K v t = Some (Ok c) -> items c t = items w' t.
Proof.
  intros K w t m a k o d KM N IT L. unfold step. rewrite IT. unfold do_try, take. rewrite L. destruct (Nat.eqb_spec o t); [contradiction|].
  eexists. split; [reflexivity|]. split; [exact L|]. split; [reflexivity|]. intros v c LF IV. rewrite IV. rewrite LF.
  intros E. injection E as <-. cbn. now rewrite !set_same.
Qed.
Print Assumptions C158_try_to_lock_goes_on_unlocked_refuted.
(* ... and its unlock() is then undefined. *)
Theorem C158_unlock_after_failed_try_refuted : forall K w t m k o d, K m = KStd \/ K m = KMutex -> o <> t ->
  items w t = Do (Unique m Trying (Unlock m)) :: k -> locks w m = Held o d -> run K w [t; t] = UB.
Proof.
  intros K w t m k o d KM N IT L. unfold run, step. rewrite IT. unfold do_try, take. rewrite L. destruct (Nat.eqb_spec o t); [contradiction|].
  cbn [goes items]. rewrite set_same. unfold do_unlock, give. cbn [goes locks]. rewrite L. destruct (Nat.eqb_spec o t); [contradiction|].
  destruct KM as [-> | ->]; reflexivity.
Qed.
Print Assumptions C158_unlock_after_failed_try_refuted.

Example C158_case :
  outcome (fun w => (items w 1, locks w 0)) (run kinds (start kinds zeros [Guard 0 Skip; Unique 0 Trying (Unlock 0)]) [0]) = Some ([Do (Unique 0 Trying (Unlock 0))], Held 0 1) /\
  run kinds (start kinds zeros [Guard 0 Skip; Unique 0 Trying (Unlock 0)]) [0; 1; 1] = UB /\
  outcome (fun w => locks w 0) (run kinds (start kinds zeros [Guard 0 Skip; Unique 0 Trying (Unlock 0)]) [1; 1]) = Some Free.
Proof. repeat split; vm_compute; reflexivity. Qed.

(* ---- C159 *)
(* mutex(true): the binary semaphore is created empty.  Unless some thread unlocks it before it was
   ever locked, nobody can lock it. *)
Theorem C159_binary_mutex_cannot_be_locked_refuted : forall K vs ps m sched w, K m = KBinary -> Forall (never_unlocks m) ps ->
  run K (start K vs ps) sched = Ok w ->
  (forall t, acquired (trace w) t m = 0) /\ forall t a k, items w t = Do (Guard m a) :: k -> step K w t = None.
Proof.
  intros K vs ps m sched w KM F R. destruct (empty_forever K vs ps m sched w KM F R) as [L A]. split; [exact A|].
  intros t a k IT. unfold step. rewrite IT. unfold do_lock, take. now rewrite L.
Qed.
Print Assumptions C159_binary_mutex_cannot_be_locked_refuted.

Example C159_case : kinds 3 = KBinary /\ never_unlocks 3 (Guard 3 (Incr 7)) /\
  outcome (fun w => (items w 0, trace w)) (run kinds (start kinds zeros [Guard 3 (Incr 7)]) (repeat 0 50)) = Some ([Do (Guard 3 (Incr 7))], []) /\
  (* after an unlock it works *)
  outcome (fun w => (items w 0, vals w 7)) (run kinds (start kinds zeros [Seq (Unlock 3) (Guard 3 (Incr 7))]) (repeat 0 50)) = Some ([], 1%Z).
Proof. repeat split; vm_compute; reflexivity. Qed.

(* ---- C160 *)
(* Every history of a semaphore: no more acquisitions succeed than its first count plus the
   releases, and the count never exceeds the maximum. *)
Theorem C160_no_over_acquisition : forall max desired ops, desired <= max ->
  let (s, l) := sem_run (counting max desired) ops in
  available s + through l <= desired + releases l /\ available s <= max.
Proof.
  intros max desired ops D. pose proof (sem_bound ops (counting max desired)) as H. destruct (sem_run _ _) as [s l].
  destruct H as (A & _ & C). cbn [available maximum counting] in *. auto.
Qed.
Print Assumptions C160_no_over_acquisition.
(* As long as the releases never exceed the room, the count is exact. *)
Theorem C160_count_exact : forall max desired ops,
  let (s, l) := sem_run (counting max desired) ops in
  (forall p q, l = p ++ q -> desired + releases p <= max + through p) -> available s + through l = desired + releases l.
Proof. intros max desired ops. exact (sem_exact ops (counting max desired)). Qed.
Print Assumptions C160_count_exact.
(* acquire() waits and try_acquire() fails exactly when nothing is available. *)
Theorem C160_waits_when_none : forall s,
  (sem_op s Acquire = None <-> available s = 0) /\
  (exists s', sem_op s TryAcquire = Some (s', negb (available s =? 0)) /\ available s' = available s - 1 /\ maximum s' = maximum s) /\
  sem_op s Release <> None.
Proof.
  intros [a m]. unfold sem_op. cbn. repeat split.
  - now destruct a.
  - intros ->. reflexivity.
  - destruct a; eexists; split; try reflexivity; cbn; split; reflexivity || lia.
  - discriminate.
Qed.
Print Assumptions C160_waits_when_none.

Example C160_case : sem_run (counting 3 1) [Acquire; Acquire; Release; TryAcquire; TryAcquire; Release; Release] =
  (Sem 2 3, [(Acquire, true); (Release, true); (TryAcquire, true); (TryAcquire, false); (Release, true); (Release, true)]) /\
  through (snd (sem_run (counting 3 1) [Acquire; Acquire; Release; TryAcquire; TryAcquire; Release; Release])) = 2.
Proof. split; reflexivity. Qed.

(* ---- C161 *)
(* A release of a full semaphore is lost without notice: its result is that of any other. *)
Theorem C161_release_when_full_lost_refuted : forall s n, available s = maximum s ->
  sem_run s (repeat Release n) = (s, repeat (Release, true) n) /\
  sem_run s (repeat Release n ++ repeat Acquire (S (maximum s))) = sem_run s (repeat Release n ++ repeat Acquire (maximum s)).
Proof.
  intros s n E. assert (R : sem_op s Release = Some (s, true)) by (unfold sem_op; rewrite E, Nat.ltb_irrefl; reflexivity).
  assert (RR : forall tl, sem_run s (repeat Release n ++ tl) = let (s', l) := sem_run s tl in (s', repeat (Release, true) n ++ l)).
  { intros tl. induction n as [|n IH]; cbn [repeat sem_run app]; [now destruct (sem_run s tl)|]. rewrite R, IH. now destruct (sem_run s tl). }
  split.
  - specialize (RR []). rewrite app_nil_r in RR. rewrite RR. cbn [sem_run]. now rewrite app_nil_r.
  - rewrite !RR. destruct s as [a m]. cbn in E. subst a. cbn [maximum].
    assert (H : forall a x, sem_run (Sem a x) (repeat Acquire (S a)) = sem_run (Sem a x) (repeat Acquire a)); [|now rewrite H].
    induction a as [|a IHa]; intros x; [reflexivity|]. change (repeat Acquire (S (S a))) with (Acquire :: repeat Acquire (S a)).
    change (sem_run (Sem (S a) x) (repeat Acquire (S a))) with (sem_run (Sem (S a) x) (Acquire :: repeat Acquire a)).
    cbn [sem_run sem_op available maximum]. now rewrite IHa.
Qed.
Print Assumptions C161_release_when_full_lost_refuted.

Example C161_case : sem_run (counting 1 0) [Release; Release; Acquire; Acquire] = (Sem 0 1, [(Release, true); (Release, true); (Acquire, true)]).
Proof. reflexivity. Qed.

(* ---- C162 *)
Lemma truncated_bounds (q : Q) : (0 <= q)%Q -> (0 <= inject_Z (truncated q) /\ inject_Z (truncated q) <= q /\ q < inject_Z (truncated q + 1))%Q.
Proof.
  destruct q as [n d]. unfold truncated, Qle, Qlt, inject_Z. cbn. intros H.
  assert (N : (0 <= n)%Z) by lia. rewrite Z.quot_div_nonneg by lia. pose proof (Z.div_mod n (Zpos d) ltac:(lia)). pose proof (Z.mod_pos_bound n (Zpos d) ltac:(lia)).
  pose proof (Z.div_pos n (Zpos d) ltac:(lia) ltac:(lia)). repeat split; nia.
Qed.
(* The ticks that try_lock_for and try_acquire_for wait at most: the whole ticks of the timeout. *)
Theorem C162_timeout_in_whole_ticks : forall hz d v, (0 < hz)%Z -> std_ity (rep d) -> positive_period (per d) ->
  fits (fst (per d) * hz) -> fits (snd (per d)) -> in_range (rep d) v -> (0 <= v)%Z ->
  int64 (v * (fst (per d) * hz / Z.gcd (fst (per d) * hz) (snd (per d)))) ->
  (seconds_of v (per d) < seconds_of (2 ^ 32) (1, hz)%Z)%Q ->
  exists n, wait_ticks hz d v = Some (Ok n) /\
    (seconds_of n (1, hz)%Z <= seconds_of v (per d) /\ seconds_of v (per d) < seconds_of (n + 1) (1, hz)%Z)%Q.
Proof.
  intros hz d v H S P F1 F2 V V0 I R.
  assert (E : wait_ticks hz d v = Some (Ok (wrap (Ity 32 false) (truncated (seconds_of v (per d) / value (1, hz)%Z))))).
  { unfold wait_ticks. apply convert_exact; cbn [rep per fst snd]; try assumption; try (rewrite Z.mul_1_r; assumption); try (unfold std_ity; auto).
    split; cbn; lia. }
  destruct P as [P1 P2]. set (x := seconds_of v (per d)) in *.
  assert (X0 : (0 <= x)%Q). { unfold x, seconds_of, frac. destruct (snd (per d)) eqn:SD; try lia. unfold Qle, Qmult, inject_Z. cbn. nia. }
  assert (HQ : forall z, (seconds_of z (1, hz)%Z == inject_Z z / inject_Z hz)%Q).
  { intros z. unfold seconds_of, frac. cbn [fst snd]. destruct hz as [|h|]; try lia. unfold Qeq, Qdiv, Qmult, Qinv, inject_Z. cbn. lia. }
  assert (VQ : (value (1, hz)%Z == / inject_Z hz)%Q).
  { unfold value, frac. cbn [fst snd]. destruct hz as [|h|]; try lia. unfold Qeq, Qinv, inject_Z. cbn. reflexivity. }
  assert (HP : (0 < inject_Z hz)%Q) by (unfold Qlt, inject_Z; cbn; lia).
  set (y := (x / value (1, hz)%Z)%Q) in *.
  assert (YX : (y == x * inject_Z hz)%Q). { unfold y. rewrite VQ. field. intros Z. rewrite Z in HP. now apply Qlt_irrefl in HP. }
  assert (Y0 : (0 <= y)%Q) by (rewrite YX; apply Qmult_le_0_compat; [exact X0|now apply Qlt_le_weak]).
  destruct (truncated_bounds y Y0) as (T0 & T1 & T2). set (n := truncated y) in *.
  assert (YR : (y < inject_Z (2 ^ 32))%Q).
  { rewrite YX. rewrite HQ in R. apply (Qmult_lt_r _ _ _ HP) in R. unfold Qdiv in R. rewrite <- Qmult_assoc in R.
    rewrite (Qmult_comm (/ inject_Z hz)) in R. rewrite Qmult_inv_r in R by (intros Z; rewrite Z in HP; now apply Qlt_irrefl in HP). now rewrite Qmult_1_r in R. }
  assert (NR : (0 <= n < 2 ^ 32)%Z).
  { split; [rewrite Zle_Qle; exact T0|]. rewrite Zlt_Qlt. now apply Qle_lt_trans with y. }
  exists n. split; [rewrite E; do 2 f_equal; apply wrap_id; [cbn; lia|unfold in_range, imin, imax; cbn [bits sgn]; lia]|].
  assert (D : forall a, (a / inject_Z hz * inject_Z hz == a)%Q) by (intros a; field; intros Z; rewrite Z in HP; now apply Qlt_irrefl in HP).
  split.
  - rewrite HQ. apply (Qmult_le_r _ _ _ HP). rewrite D. now rewrite <- YX.
  - rewrite HQ. apply (Qmult_lt_r _ _ _ HP). rewrite D. now rewrite <- YX.
Qed.
Print Assumptions C162_timeout_in_whole_ticks.

Example C162_case :
  let ms := Dty I64 (1, 1000)%Z in
  wait_ticks 100 ms 25 = Some (Ok 2%Z) /\ wait_ticks 1000 ms 25 = Some (Ok 25%Z) /\ wait_ticks 100 (Dty I32 (60, 1)%Z) 3 = Some (Ok 18000%Z) /\
  (seconds_of 2 (1, 100)%Z <= seconds_of 25 (1, 1000)%Z)%Q /\ (seconds_of 25 (1, 1000)%Z < seconds_of 3 (1, 100)%Z)%Q.
Proof. cbv zeta. repeat split; vm_compute; reflexivity || discriminate. Qed.

(* ---- C163 *)
(* The standard wants the wait to last at least the timeout.  A timeout that is not a whole number
   of ticks is cut short, and one below a tick does not wait at all. *)
Theorem C163_waits_less_than_asked_refuted : forall hz d v, (0 < hz)%Z -> std_ity (rep d) -> positive_period (per d) ->
  fits (fst (per d) * hz) -> fits (snd (per d)) -> in_range (rep d) v -> (0 <= v)%Z ->
  int64 (v * (fst (per d) * hz / Z.gcd (fst (per d) * hz) (snd (per d)))) ->
  (seconds_of v (per d) < seconds_of (2 ^ 32) (1, hz)%Z)%Q ->
  (forall n, ~ (seconds_of v (per d) == seconds_of n (1, hz)%Z)%Q) ->
  exists n, wait_ticks hz d v = Some (Ok n) /\ (seconds_of n (1, hz)%Z < seconds_of v (per d))%Q.
Proof.
  intros hz d v H S P F1 F2 V V0 I R N. destruct (C162_timeout_in_whole_ticks hz d v H S P F1 F2 V V0 I R) as (n & E & A & _).
  exists n. split; [exact E|]. destruct (Qlt_le_dec (seconds_of n (1, hz)%Z) (seconds_of v (per d))) as [|G]; [assumption|].
  exfalso. apply (N n). now apply Qle_antisym.
Qed.
Print Assumptions C163_waits_less_than_asked_refuted.
Theorem C163_below_a_tick_does_not_wait_refuted : forall hz d v, (0 < hz)%Z -> std_ity (rep d) -> positive_period (per d) ->
  fits (fst (per d) * hz) -> fits (snd (per d)) -> in_range (rep d) v -> (0 < v)%Z ->
  int64 (v * (fst (per d) * hz / Z.gcd (fst (per d) * hz) (snd (per d)))) ->
  (seconds_of v (per d) < seconds_of 1 (1, hz)%Z)%Q ->
  wait_ticks hz d v = Some (Ok 0%Z).
Proof.
  intros hz d v H S P F1 F2 V V0 I R.
  assert (MO : forall a b, (seconds_of a (1, hz)%Z <= seconds_of b (1, hz)%Z)%Q <-> (a <= b)%Z).
  { intros a b. unfold seconds_of, frac. cbn [fst snd]. destruct hz as [|h|]; try lia. unfold Qle, Qmult, inject_Z. cbn. nia. }
  assert (R' : (seconds_of v (per d) < seconds_of (2 ^ 32) (1, hz)%Z)%Q) by (apply Qlt_le_trans with (1 := R), MO; lia).
  destruct (C162_timeout_in_whole_ticks hz d v H S P F1 F2 V ltac:(lia) I R') as (n & E & A & B). rewrite E. do 2 f_equal.
  assert (N1 : (n < 1)%Z). { destruct (Z.lt_ge_cases n 1) as [|G]; [assumption|]. apply MO in G. exfalso. apply (Qlt_irrefl (seconds_of v (per d))).
    apply Qlt_le_trans with (1 := R). now apply Qle_trans with (2 := A). }
  assert (N0 : (0 < n + 1)%Z). { destruct (Z.lt_ge_cases 0 (n + 1)) as [|G]; [assumption|]. apply MO in G. exfalso. apply (Qlt_irrefl (seconds_of v (per d))).
    apply Qlt_le_trans with (1 := B). apply Qle_trans with (1 := G). destruct P as [P1 P2]. unfold seconds_of, frac. cbn [fst snd].
    destruct hz as [|h|]; try lia. destruct (snd (per d)) eqn:SD; try lia. unfold Qle, Qmult, inject_Z. cbn. nia. }
  lia.
Qed.
Print Assumptions C163_below_a_tick_does_not_wait_refuted.

Example C163_case :
  let ms := Dty I64 (1, 1000)%Z in
  wait_ticks 100 ms 9 = Some (Ok 0%Z) /\ (seconds_of 9 (1, 1000)%Z < seconds_of 1 (1, 100)%Z)%Q /\ wait_ticks 100 ms 19 = Some (Ok 1%Z).
Proof. cbv zeta. repeat split; vm_compute; reflexivity. Qed.
