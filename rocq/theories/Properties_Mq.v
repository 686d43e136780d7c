(* Properties of the FreeRTOS message queues and of sleep_for. *)
From Coq Require Import List Arith Bool Lia ZArith QArith Qfield Lqa.
From Verif Require Import Base MachInt Ratio_Spec Ratio_Model Chrono_Spec Chrono_Model Lock_Model Mq_Spec Mq_Model Mq_Proofs Properties_Lock.
Import ListNotations.

Local Open Scope nat_scope.

(* ---- C244: however the tasks are scheduled, the operations that completed and their answers are
   those of one ideal queue, and each task completed a beginning of its program. *)
Theorem C244_one_queue : forall V cap (ps : list (list (qop V))) sched,
  let w := run cap (start ps) sched in
  ideal cap [] (hist w) (buffer w) /\ forall t, nth t ps [] = ops (by_task t (hist w)) ++ todo w t.
Proof.
  intros V cap ps sched w. pose proof (good_run cap ps sched _ (good_start cap ps)) as G. split; [apply G|]. intros t. apply (g_order _ _ _ G).
Qed.
Print Assumptions C244_one_queue.
(* So nothing accepted is lost, duplicated or overtaken, and no more than the capacity is held. *)
Theorem C244_fifo : forall V cap (ps : list (list (qop V))) sched,
  let w := run cap (start ps) sched in
  received (hist w) ++ buffer w = sent (hist w) /\ length (buffer w) <= cap.
Proof.
  intros V cap ps sched w. pose proof (good_run cap ps sched _ (good_start cap ps)) as G. split; [|apply G].
  pose proof (ideal_fifo _ _ _ _ (g_ideal _ _ _ G)) as H. exact H.
Qed.
Print Assumptions C244_fifo.

(* two producers of numbered messages, a consumer, and one that does not wait *)
Definition prod1 := [Send (1, 10); Send (1, 11); Send (1, 12)].
Definition prod2 := [Send (2, 20); SendFor (2, 21) 5; Send (2, 22)].
Definition cons1 : list (qop (nat * nat)) := [Receive; Receive; Waiting; ReceiveFor 3].
Definition cons2 : list (qop (nat * nat)) := [ReceiveFor 0; Receive].
Definition two_each : list (list (qop (nat * nat))) := [[]; prod1; prod2; cons1; cons2].
Example C244_case :
  let w := run 2 (start two_each)
    [(4, false); (3, false); (1, false); (2, false); (1, false); (2, false); (2, true); (3, false); (1, false); (4, false); (2, false); (3, false); (3, false)] in
  hist w = [(4, ReceiveFor 0, Received None); (1, Send (1, 10), Sent true); (2, Send (2, 20), Sent true);
    (2, SendFor (2, 21) 5, Sent false); (3, Receive, Received (Some (1, 10))); (1, Send (1, 11), Sent true);
    (4, Receive, Received (Some (2, 20))); (2, Send (2, 22), Sent true); (3, Receive, Received (Some (1, 11))); (3, Waiting, Count 1)] /\
  buffer w = [(2, 22)].
Proof. split; vm_compute; reflexivity. Qed.

(* ---- C245: the messages of one producer arrive in the order in which it sent them. *)
Theorem C245_producer_order : forall V cap (ps : list (list (qop V))) sched (from : V -> nat),
  (forall t o v, In o (nth t ps []) -> In v (value o) -> from v = t) ->
  let w := run cap (start ps) sched in
  forall t, exists later, sent (by_task t (hist w)) = filter (fun v => from v =? t) (received (hist w)) ++ later /\
    later = filter (fun v => from v =? t) (buffer w).
Proof.
  intros V cap ps sched from F w t. pose proof (good_run cap ps sched _ (good_start cap ps)) as G. fold w in G. eexists. split; [|reflexivity].
  rewrite <- filter_app. pose proof (proj1 (C244_fifo V cap ps sched)) as H. fold w in H. rewrite H. symmetry. apply sent_by_tag.
  intros t' o a I v IV. eapply F; [|exact IV]. eapply in_history_program; eassumption.
Qed.
Print Assumptions C245_producer_order.
(* A producer that waits for room has every message accepted. *)
Theorem C245_nothing_refused : forall V cap (ps : list (list (qop V))) sched t,
  Forall (fun o => match o with SendFor _ _ | SendIsr _ => False | _ => True end) (nth t ps []) ->
  let w := run cap (start ps) sched in
  exists later, flat_map value (nth t ps []) = sent (by_task t (hist w)) ++ later /\ later = flat_map value (todo w t).
Proof.
  intros V cap ps sched t F w. pose proof (good_run cap ps sched _ (good_start cap ps)) as G. fold w in G. eexists. split; [|reflexivity].
  rewrite (g_order _ _ _ G t) in *. rewrite flat_map_app. f_equal. symmetry. apply Forall_app in F. destruct F as [F _].
  rewrite Forall_forall in F.
  assert (X : forall (q : list V) (h : history V) (q' : list V), ideal cap q h q' -> (forall o, In o (ops (by_task t h)) -> match o with SendFor _ _ | SendIsr _ => False | _ => True end) ->
    sent (by_task t h) = flat_map value (ops (by_task t h))).
  { induction 1 as [q|q t' o a q1 h q2 A I IH]; [reflexivity|]. intros N. unfold by_task in *. cbn [filter fst] in *. destruct (t' =? t); [|apply IH, N].
    change (sent ((t', o, a) :: filter (fun e => fst (fst e) =? t) h)) with
      (match a with Sent true => value o | _ => [] end ++ sent (filter (fun e => fst (fst e) =? t) h)).
    change (flat_map value (ops ((t', o, a) :: filter (fun e => fst (fst e) =? t) h))) with
      (value o ++ flat_map value (ops (filter (fun e => fst (fst e) =? t) h))).
    rewrite <- IH by (intros o' I'; apply N; right; exact I'). f_equal. specialize (N o (or_introl eq_refl)). destruct A; try contradiction; reflexivity. }
  apply (X _ _ _ (g_ideal _ _ _ G)). exact F.
Qed.
Print Assumptions C245_nothing_refused.

Example C245_case :
  let w := run 2 (start two_each)
    [(1, false); (2, false); (4, false); (1, false); (4, false); (1, false); (3, false)] in
  (forall t o v, In o (nth t two_each []) -> In v (value o) -> fst v = t) /\
  received (hist w) = [(1, 10); (2, 20); (1, 11)] /\ buffer w = [(1, 12)] /\ sent (by_task 1 (hist w)) = [(1, 10); (1, 11); (1, 12)] /\
  Forall (fun o => match o with SendFor _ _ | SendIsr _ => False | _ => True end) (nth 1 two_each []).
Proof.
  split; [|repeat split; try (vm_compute; reflexivity); repeat constructor].
  intros t o v. do 5 (destruct t as [|t]; [cbn; intuition (subst; cbn in *; intuition (subst; reflexivity))|]). destruct t; contradiction.
Qed.

(* ---- C246: producers and consumers without timeouts never block each other for ever. *)
Theorem C246_never_stuck : forall V cap (ps : list (list (qop V))) sched,
  1 <= cap -> Forall one_way ps -> sends ps = receives ps ->
  let w := run cap (start ps) sched in
  (finished w /\ buffer w = []) \/ exists t, t < length ps /\ forall e, turn cap w t e <> None.
Proof.
  intros V cap ps sched C F E w. destruct (busy_run cap (length ps) sched _ (busy_start cap ps F E)) as [B _]. fold w in B.
  destruct (Nat.eq_dec (left_all (length ps) w) 0) as [Z|NZ]; [left; eapply left_none; eassumption|right; now apply busy_some_turn].
Qed.
Print Assumptions C246_never_stuck.
(* A schedule that gives every task a turn in each round delivers every message, within as many
   rounds as there are operations. *)
Theorem C246_all_delivered : forall V cap (ps : list (list (qop V))) rounds,
  1 <= cap -> Forall one_way ps -> sends ps = receives ps ->
  all_served (length ps) rounds -> length (concat ps) <= length rounds ->
  let w := run cap (start ps) (concat rounds) in
  finished w /\ buffer w = [] /\ received (hist w) = sent (hist w).
Proof.
  intros V cap ps rounds C F E A L w. pose proof (busy_start cap ps F E) as B.
  assert (Z : left_all (length ps) w = 0) by (apply busy_rounds; [exact B|exact C|exact A|now rewrite left_start]).
  destruct (busy_run cap (length ps) (concat rounds) _ B) as [B1 _]. fold w in B1. destruct (left_none _ _ _ B1 Z) as [FN BE]. split; [exact FN|]. split; [exact BE|].
  pose proof (proj1 (C244_fifo V cap ps (concat rounds))) as H. fold w in H. now rewrite BE, app_nil_r in H.
Qed.
Print Assumptions C246_all_delivered.

Example C246_case :
  let ps := [prod1; [Send (2, 20)]; [Receive; Receive]; [Receive; Receive]] in
  Forall one_way ps /\ sends ps = receives ps /\ all_served 4 (repeat [(0, false); (1, false); (2, false); (3, false)] 8) /\ length (concat ps) = 8 /\
  received (hist (run 1 (start ps) (concat (repeat [(0, false); (1, false); (2, false); (3, false)] 8)))) = [(1, 10); (1, 11); (1, 12); (2, 20)] /\
  (* with fewer messages than receives a task waits for ever *)
  (forall n, todo (run 1 (start [[Send 7]; [Receive; Receive]]) (concat (repeat [(0, false); (1, false)] (S n)))) 1 = [Receive]).
Proof.
  split; [|split; [|split; [|split; [|split]]]]; try (vm_compute; reflexivity).
  - repeat (apply Forall_cons; [first [left; cbn; intuition (subst; reflexivity)|right; cbn; intuition (subst; reflexivity)]|]). apply Forall_nil.
  - unfold all_served. apply Forall_forall. intros r I. apply repeat_spec in I. subst r. intros t L. exists false. do 4 (destruct t as [|t]; [cbn; auto|]). lia.
  - intros n. cbn [repeat concat]. rewrite run_app.
    set (w := run 1 (start [[Send 7]; [Receive; Receive]]) [(0, false); (1, false)]).
    assert (H : turn 1 w 0 false = None /\ turn 1 w 1 false = None /\ todo w 1 = [Receive]) by (vm_compute; auto).
    clearbody w. destruct H as (H0 & H1 & H2). induction n as [|n IH]; [exact H2|]. cbn [repeat concat app run]. rewrite H0, H1. exact IH.
Qed.

(* ---- C247: messages of class type are copied byte by byte: the object sent and the one received
   own the same resource, and what the receiver owned is lost. *)
Definition own s x r y r' := vars s x = Some r /\ vars s y = Some r' /\ bytes s = [] /\ held s r = true /\ held s r' = true /\ r <> r' /\ x <> y.
Theorem C247_received_object_refuted : forall s x r y r', own s x r y r' ->
  oop_run [QSend x; End x; QReceive y; Use y] s = UB /\
  oop_run [QSend x; QReceive y; End x; End y] s = UB /\ oop_run [QSend x; QReceive y; End y; End x] s = UB.
Proof.
  intros s x r y r' (X & Y & B & HR & HR' & N & XY).
  assert (E1 : (y =? x) = false) by (apply Nat.eqb_neq; auto). assert (E2 : (x =? y) = false) by (apply Nat.eqb_neq; auto).
  repeat split; cbn; rewrite X, B; cbn; unfold set_at; rewrite ?HR, ?Y, ?E1, ?E2, ?Nat.eqb_refl; cbn;
    rewrite ?X, ?Y, ?E1, ?E2, ?Nat.eqb_refl, ?HR; cbn; rewrite ?X, ?Y, ?E1, ?E2, ?Nat.eqb_refl, ?HR; cbn; rewrite ?X, ?Nat.eqb_refl; reflexivity.
Qed.
Print Assumptions C247_received_object_refuted.
Theorem C247_overwritten_object_refuted : forall s x r y r', own s x r y r' -> (forall z, z <> y -> vars s z <> Some r') ->
  exists s', oop_run [QSend x; QReceive y] s = Ok s' /\ held s' r' = true /\ (forall z, vars s' z <> Some r') /\ bytes s' = [].
Proof.
  intros s x r y r' (X & Y & B & HR & HR' & N & XY) A. cbn. rewrite X, B. cbn. rewrite Y. eexists. split; [reflexivity|]. cbn. split; [exact HR'|]. split; [|reflexivity].
  intros z. unfold set_at. destruct (z =? y) eqn:E; [congruence|]. apply A. now apply Nat.eqb_neq.
Qed.
Print Assumptions C247_overwritten_object_refuted.
Example C247_case : own (Objects (fun k => match k with 0 => Some 5 | 1 => Some 6 | _ => None end) [] (fun _ => true)) 0 5 1 6 /\
  (* without the destruction the received object is usable *)
  exists s', oop_run [QSend 0; QReceive 1; Use 1] (Objects (fun k => match k with 0 => Some 5 | 1 => Some 6 | _ => None end) [] (fun _ => true)) = Ok s' /\ vars s' 1 = Some 5.
Proof. split; [repeat split; auto|]. eexists. split; [reflexivity|reflexivity]. Qed.

(* ---- C248: a copy of a queue object has the same handle, and both delete it. *)
Theorem C248_copied_queue_refuted : forall s x y h, owners s y = Some h -> exists_q s h = true -> x <> y ->
  hop_run [HCopy x y; HEnd x; HUse y] s = UB /\ hop_run [HCopy x y; HEnd y; HUse x] s = UB /\
  hop_run [HCopy x y; HEnd x; HEnd y] s = UB /\ hop_run [HCopy x y; HEnd y; HEnd x] s = UB.
Proof.
  intros s x y h Y E N. assert (E1 : (y =? x) = false) by (apply Nat.eqb_neq; auto). assert (E2 : (x =? y) = false) by (apply Nat.eqb_neq; auto).
  repeat split; cbn; rewrite Y; cbn; unfold set_at; rewrite ?Nat.eqb_refl, ?E1, ?E2, ?Y; cbn; rewrite ?E; cbn;
    rewrite ?Nat.eqb_refl, ?E1, ?E2, ?Y; cbn; rewrite ?Nat.eqb_refl, ?E1, ?E2, ?Y; reflexivity.
Qed.
Print Assumptions C248_copied_queue_refuted.
(* until then both can be used, and either can be the one that ends first *)
Theorem C248_before : forall s x y h, owners s y = Some h -> exists_q s h = true -> x <> y ->
  exists s1 s2, hop_run [HCopy x y; HUse x; HUse y; HEnd x] s = Ok s1 /\ hop_run [HCopy x y; HUse x; HUse y; HEnd y] s = Ok s2 /\
    owners s1 y = Some h /\ owners s2 x = Some h.
Proof.
  intros s x y h Y E N. assert (E1 : (y =? x) = false) by (apply Nat.eqb_neq; auto). assert (E2 : (x =? y) = false) by (apply Nat.eqb_neq; auto).
  exists (Handles (set_at (set_at (owners s) x (Some h)) x None) (set_at (exists_q s) h false)),
         (Handles (set_at (set_at (owners s) x (Some h)) y None) (set_at (exists_q s) h false)).
  repeat split; cbn; rewrite ?Y; cbn; unfold set_at; repeat (rewrite ?Nat.eqb_refl, ?E1, ?E2, ?Y, ?E; cbn); reflexivity.
Qed.
Print Assumptions C248_before.
Example C248_case : exists s', hop_run [HCopy 1 0; HUse 1; HUse 0; HEnd 0] (Handles (fun k => if k =? 0 then Some 3 else None) (fun h => h =? 3)) = Ok s' /\ owners s' 1 = Some 3.
Proof. eexists. split; reflexivity. Qed.

(* ---- C249: sleep_for sleeps at most the duration, and less than two ticks short of it. *)
Lemma tick_seconds hz n : (0 < hz)%Z -> (seconds_of n (1, hz)%Z == inject_Z n / inject_Z hz)%Q.
Proof. intros H. unfold seconds_of, frac. cbn [fst snd]. destruct hz as [|h|]; try lia. unfold Qeq, Qdiv, Qmult, Qinv, inject_Z. cbn. lia. Qed.
Lemma sleeps_bounds hz n phase : (0 < hz)%Z -> (0 <= n)%Z -> (0 <= phase < 1)%Q ->
  (sleeps hz n phase <= seconds_of n (1, hz)%Z /\ seconds_of (n - 1) (1, hz)%Z < sleeps hz n phase /\
   (0 < phase -> (0 < n)%Z -> sleeps hz n phase < seconds_of n (1, hz)%Z))%Q.
Proof.
  intros H N [P0 P1]. assert (HP : (0 < inject_Z hz)%Q) by (unfold Qlt, inject_Z; cbn; lia).
  assert (NZ : ~ (inject_Z hz == 0)%Q) by (intros Z; rewrite Z in HP; now apply Qlt_irrefl in HP).
  assert (D : forall a, (a / inject_Z hz * inject_Z hz == a)%Q) by (intros a; field; exact NZ).
  rewrite !(tick_seconds hz) by exact H. unfold sleeps. destruct (Z.eqb_spec n 0) as [-> |NN].
  - repeat split.
    + apply (Qmult_le_r _ _ _ HP). rewrite D. now rewrite Qmult_0_l.
    + apply (Qmult_lt_r _ _ _ HP). rewrite D, Qmult_0_l. reflexivity.
    + intros _ A. lia.
  - repeat split.
    + apply (Qmult_le_r _ _ _ HP). rewrite !D. lra.
    + apply (Qmult_lt_r _ _ _ HP). rewrite !D. unfold Z.sub. rewrite inject_Z_plus. change (inject_Z (- (1))) with (- (1))%Q. lra.
    + intros P _. apply (Qmult_lt_r _ _ _ HP). rewrite !D. lra.
Qed.
Theorem C249_sleep_in_ticks : forall hz d v phase, (0 < hz)%Z -> std_ity (rep d) -> positive_period (per d) ->
  fits (fst (per d) * hz) -> fits (snd (per d)) -> in_range (rep d) v -> (0 <= v)%Z ->
  int64 (v * (fst (per d) * hz / Z.gcd (fst (per d) * hz) (snd (per d)))) ->
  (seconds_of v (per d) < seconds_of (2 ^ 32) (1, hz)%Z)%Q -> (0 <= phase < 1)%Q ->
  exists n, wait_ticks hz d v = Some (Ok n) /\
    (sleeps hz n phase <= seconds_of v (per d) /\ seconds_of v (per d) < sleeps hz n phase + seconds_of 2 (1, hz)%Z)%Q.
Proof.
  intros hz d v phase H S P F1 F2 V V0 I R PH. destruct (C162_timeout_in_whole_ticks hz d v H S P F1 F2 V V0 I R) as (n & E & A & B).
  exists n. split; [exact E|].
  assert (N : (0 <= n)%Z).
  { destruct (Z.lt_ge_cases n 0) as [L|G]; [|lia]. exfalso. apply (Qlt_irrefl (seconds_of v (per d))). apply Qlt_le_trans with (1 := B).
    apply Qle_trans with 0%Q.
    - rewrite tick_seconds by exact H. apply Qle_shift_div_r; [unfold Qlt, inject_Z; cbn; lia|]. rewrite Qmult_0_l. change 0%Q with (inject_Z 0). rewrite <- Zle_Qle. lia.
    - destruct P as [P1 P2]. unfold seconds_of, frac. destruct (snd (per d)) eqn:SD; try lia. unfold Qle, Qmult, inject_Z. cbn. nia. }
  destruct (sleeps_bounds hz n phase H N PH) as (S1 & S2 & _). split; [now apply Qle_trans with (2 := A)|].
  apply Qlt_trans with (1 := B). assert (T : (seconds_of (n + 1) (1, hz)%Z == seconds_of (n - 1) (1, hz)%Z + seconds_of 2 (1, hz)%Z)%Q).
  { rewrite !(tick_seconds hz) by exact H. unfold Z.sub. rewrite !inject_Z_plus. change (inject_Z (- (1))) with (- (1))%Q. change (inject_Z 2) with 2%Q. change (inject_Z 1) with 1%Q.
    field. intros Z. assert (HP : (0 < inject_Z hz)%Q) by (unfold Qlt, inject_Z; cbn; lia). rewrite Z in HP. now apply Qlt_irrefl in HP. }
  rewrite T. apply Qplus_lt_l. exact S2.
Qed.
Print Assumptions C249_sleep_in_ticks.
Example C249_case : wait_ticks 100 (Dty I64 (1, 1000)%Z) 25 = Some (Ok 2%Z) /\ (sleeps 100 2 (1 # 4) == 7 # 400)%Q /\
  (7 # 400 <= seconds_of 25 (1, 1000)%Z)%Q /\ (seconds_of 25 (1, 1000)%Z < (7 # 400) + seconds_of 2 (1, 100)%Z)%Q.
Proof. split; [vm_compute; reflexivity|]. repeat split; vm_compute; reflexivity || discriminate. Qed.

(* ---- C250: so it does not sleep at least the duration, whenever the duration is not a whole
   number of ticks or the call does not coincide with a tick. *)
Theorem C250_sleeps_too_short_refuted : forall hz d v phase, (0 < hz)%Z -> std_ity (rep d) -> positive_period (per d) ->
  fits (fst (per d) * hz) -> fits (snd (per d)) -> in_range (rep d) v -> (0 < v)%Z ->
  int64 (v * (fst (per d) * hz / Z.gcd (fst (per d) * hz) (snd (per d)))) ->
  (seconds_of v (per d) < seconds_of (2 ^ 32) (1, hz)%Z)%Q -> (0 <= phase < 1)%Q ->
  (0 < phase)%Q \/ (forall n, ~ (seconds_of v (per d) == seconds_of n (1, hz)%Z)%Q) ->
  exists n, wait_ticks hz d v = Some (Ok n) /\ (sleeps hz n phase < seconds_of v (per d))%Q.
Proof.
  intros hz d v phase H S P F1 F2 V V0 I R PH W. destruct (C162_timeout_in_whole_ticks hz d v H S P F1 F2 V ltac:(lia) I R) as (n & E & A & B).
  exists n. split; [exact E|].
  assert (VP : (0 < seconds_of v (per d))%Q).
  { destruct P as [P1 P2]. unfold seconds_of, frac. destruct (snd (per d)) eqn:SD; try lia. unfold Qlt, Qmult, inject_Z. cbn. nia. }
  assert (N : (0 <= n)%Z).
  { destruct (Z.lt_ge_cases n 0) as [L|G]; [|lia]. exfalso. apply (Qlt_irrefl (seconds_of v (per d))). apply Qlt_le_trans with (1 := B).
    apply Qle_trans with 0%Q; [|now apply Qlt_le_weak].
    rewrite tick_seconds by exact H. apply Qle_shift_div_r; [unfold Qlt, inject_Z; cbn; lia|]. rewrite Qmult_0_l. change 0%Q with (inject_Z 0). rewrite <- Zle_Qle. lia. }
  destruct (sleeps_bounds hz n phase H N PH) as (S1 & _ & S3).
  destruct (Z.eq_dec n 0) as [-> |NN].
  { unfold sleeps. cbn. exact VP. }
  destruct W as [W|W].
  - apply Qlt_le_trans with (2 := A). apply S3; [exact W|lia].
  - apply Qle_lt_trans with (1 := S1). destruct (Qlt_le_dec (seconds_of n (1, hz)%Z) (seconds_of v (per d))) as [|G]; [assumption|].
    exfalso. apply (W n). now apply Qle_antisym.
Qed.
Print Assumptions C250_sleeps_too_short_refuted.
Example C250_case : wait_ticks 100 (Dty I64 (1, 1000)%Z) 9 = Some (Ok 0%Z) /\ sleeps 100 0 0 = 0%Q /\ (0 < seconds_of 9 (1, 1000)%Z)%Q /\
  (sleeps 100 1 (1 # 2) == 1 # 200)%Q.
Proof. split; [vm_compute; reflexivity|]. repeat split; vm_compute; reflexivity || discriminate. Qed.
