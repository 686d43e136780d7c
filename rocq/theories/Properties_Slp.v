(* C456-C458: how long this_thread::sleep_for sleeps. *)
From Coq Require Import ZArith QArith Qround Qfield Lia.
From Verif Require Import Base MachInt Ratio_Spec Ratio_Model Ratio_Proofs Chrono_Spec Chrono_Model Chrono_Proofs
  Lock_Model Properties_Lock Slp_Spec Slp_Model.
Local Open Scope Z_scope.

(* The duration has a positive period whose conversion to ticks of hz per second compiles, its
   count is not negative, and it is short enough for the count of ticks to be held. *)
Definition sleepable (hz : Z) (d : dty) (v : Z) : Prop :=
  std_ity (rep d) /\ positive_period (per d) /\ fits (fst (per d) * hz) /\ fits (snd (per d)) /\ in_range (rep d) v /\ 0 <= v /\
  int64 (v * (fst (per d) * hz / Z.gcd (fst (per d) * hz) (snd (per d)))) /\
  (seconds_of v (per d) < seconds_of (2 ^ 32) (1, hz)%Z)%Q.

Lemma inject_pos z : 0 < z -> (0 < inject_Z z)%Q.
Proof. intros H. unfold Qlt, inject_Z. cbn. lia. Qed.
Lemma not_zero q : (0 < q)%Q -> ~ (q == 0)%Q.
Proof. intros H E. rewrite E in H. now apply Qlt_irrefl in H. Qed.
Lemma seconds_ticks hz n : 0 < hz -> (seconds_of n (1, hz)%Z == inject_Z n / inject_Z hz)%Q.
Proof. intros H. unfold seconds_of, frac. cbn [fst snd]. destruct hz as [|h|]; try lia. unfold Qeq, Qdiv, Qmult, Qinv, inject_Z. cbn. lia. Qed.
Lemma div_lt x y h : (0 < h)%Q -> (x < y)%Q -> (x / h < y / h)%Q.
Proof. intros H L. unfold Qdiv. apply Qmult_lt_r; [now apply Qinv_lt_0_compat|exact L]. Qed.
Lemma div_le x y h : (0 < h)%Q -> (x <= y)%Q -> (x / h <= y / h)%Q.
Proof. intros H L. unfold Qdiv. apply Qmult_le_r; [now apply Qinv_lt_0_compat|exact L]. Qed.
Lemma not_negative v p : positive_period p -> 0 <= v -> (0 <= seconds_of v p)%Q.
Proof. intros [A B] V. unfold seconds_of, frac. destruct (snd p) eqn:S; try lia. unfold Qle, Qmult, inject_Z. cbn. nia. Qed.

Lemma ticks_of hz d v : 0 < hz -> sleepable hz d v -> exists n, 0 <= n /\ wait_ticks hz d v = Some (Ok n) /\
  (inject_Z n / inject_Z hz <= seconds_of v (per d))%Q /\ (seconds_of v (per d) < inject_Z (n + 1) / inject_Z hz)%Q.
Proof.
  intros H (A & B & C & D & E & F & G & I). destruct (C162_timeout_in_whole_ticks hz d v H A B C D E F G I) as (n & W & L & U).
  rewrite !seconds_ticks in L, U by assumption. exists n. repeat split; try assumption.
  pose proof (not_negative v (per d) B F) as Z0. pose proof (Qle_lt_trans _ _ _ Z0 U) as U0. pose proof (inject_pos hz H) as HP.
  apply (Qmult_lt_r _ _ _ HP) in U0. rewrite Qmult_0_l in U0.
  assert (E1 : (inject_Z (n + 1) / inject_Z hz * inject_Z hz == inject_Z (n + 1))%Q) by (field; now apply not_zero).
  rewrite E1 in U0. unfold Qlt, inject_Z in U0. cbn in U0. lia.
Qed.

Lemma blocked hz n t : 0 < hz -> 0 < n ->
  (inject_Z (n - 1) / inject_Z hz < vTaskDelay_returns hz n t - t)%Q /\ (vTaskDelay_returns hz n t - t <= inject_Z n / inject_Z hz)%Q.
Proof.
  intros H N. unfold vTaskDelay_returns. assert (E : (n =? 0) = false) by (apply Z.eqb_neq; lia). rewrite E.
  pose proof (inject_pos hz H) as HP. pose proof (not_zero _ HP) as HN. set (k := Qfloor (t * inject_Z hz)).
  pose proof (Qfloor_le (t * inject_Z hz)) as L. pose proof (Qlt_floor (t * inject_Z hz)) as U. fold k in L, U.
  assert (D : (inject_Z (k + n) / inject_Z hz - t == (inject_Z k + inject_Z n - t * inject_Z hz) / inject_Z hz)%Q).
  { rewrite inject_Z_plus. field. exact HN. }
  rewrite D. split.
  - apply div_lt; [exact HP|]. rewrite inject_Z_plus in U. change (n - 1) with (n + (-1)). rewrite inject_Z_plus. change (inject_Z (-1)) with (-(1))%Q.
    change (inject_Z 1) with 1%Q in U. apply Qlt_minus_iff in U. apply Qlt_minus_iff.
    setoid_replace (inject_Z k + inject_Z n - t * inject_Z hz + - (inject_Z n + - (1)))%Q with (inject_Z k + 1 + - (t * inject_Z hz))%Q by ring. exact U.
  - apply div_le; [exact HP|]. apply Qle_minus_iff in L. apply Qle_minus_iff.
    setoid_replace (inject_Z n + - (inject_Z k + inject_Z n - t * inject_Z hz))%Q with (t * inject_Z hz + - inject_Z k)%Q by ring. exact L.
Qed.

(* ---- C456 *)
Theorem C456_arduino_whole_milliseconds : forall d v, sleepable 1000 d v ->
  exists n, arduino_sleep_for d v = Some (Ok n) /\
  forall t t', delay_may_return n t t' ->
    (seconds_of v (per d) - seconds_of 1 (1, 1000)%Z < t' - t)%Q /\
    ((exists k, seconds_of v (per d) == seconds_of k (1, 1000)%Z)%Q -> (seconds_of v (per d) <= t' - t)%Q).
Proof.
  intros d v S. destruct (ticks_of 1000 d v ltac:(lia) S) as (n & N & E & L & U). exists n. split; [exact E|]. intros t t' M.
  unfold delay_may_return in M. rewrite (seconds_ticks 1000 1) by lia.
  assert (M' : (inject_Z n / inject_Z 1000 <= t' - t)%Q).
  { apply Qle_minus_iff in M. apply Qle_minus_iff. setoid_replace (t' - t + - (inject_Z n / inject_Z 1000))%Q with (t' + - (t + inject_Z n / inject_Z 1000))%Q by ring. exact M. }
  assert (NZ : ~ (inject_Z 1000 == 0)%Q) by discriminate.
  split.
  - apply Qlt_le_trans with (2 := M'). apply Qlt_minus_iff in U. apply Qlt_minus_iff. rewrite inject_Z_plus in U.
    assert (Q : (inject_Z n / inject_Z 1000 + - (seconds_of v (per d) - inject_Z 1 / inject_Z 1000) == (inject_Z n + inject_Z 1) / inject_Z 1000 + - seconds_of v (per d))%Q) by (field; exact NZ).
    now rewrite Q.
  - intros [k K]. rewrite seconds_ticks in K by lia. rewrite K in *. apply Qle_trans with (2 := M').
    apply div_le; [reflexivity|]. rewrite <- Zle_Qle. assert (KN : (inject_Z k < inject_Z (n + 1))%Q).
    { apply (Qmult_lt_r _ _ (/ inject_Z 1000)); [reflexivity|exact U]. } rewrite <- Zlt_Qlt in KN. lia.
Qed.
Print Assumptions C456_arduino_whole_milliseconds.

Example C456_case : let us := Dty I64 (1, 1000000) in
  sleepable 1000 us 2500 /\ arduino_sleep_for us 2500 = Some (Ok 2) /\ delay_may_return 2 0 (frac 2 1000) /\ delay_may_return 2 0 1.
Proof.
  cbv zeta. split; [|split; [reflexivity|split; vm_compute; discriminate]].
  unfold sleepable, std_ity, positive_period, fits, in_range, int64. cbn. repeat split; lia.
Qed.

(* ---- C457 *)
(* A duration that is not a whole number of milliseconds may be slept short. *)
Theorem C457_may_sleep_less_refuted : forall d v, sleepable 1000 d v -> ~ (exists k, seconds_of v (per d) == seconds_of k (1, 1000)%Z)%Q ->
  exists n, arduino_sleep_for d v = Some (Ok n) /\ forall t, exists t', delay_may_return n t t' /\ (t' - t < seconds_of v (per d))%Q.
Proof.
  intros d v S NK. destruct (ticks_of 1000 d v ltac:(lia) S) as (n & N & E & L & U). exists n. split; [exact E|]. intros t.
  exists (t + inject_Z n / inject_Z 1000)%Q. split; [apply Qle_refl|].
  assert (Q : (t + inject_Z n / inject_Z 1000 - t == inject_Z n / inject_Z 1000)%Q) by ring. rewrite Q.
  apply Qle_lt_or_eq in L. destruct L as [L|L]; [exact L|]. exfalso. apply NK. exists n. rewrite seconds_ticks by lia. now rewrite L.
Qed.
Print Assumptions C457_may_sleep_less_refuted.

Example C457_case : arduino_sleep_for (Dty I64 (1, 1000000)) 900 = Some (Ok 0) /\ delay_may_return 0 0 0.
Proof. split; [reflexivity|vm_compute; discriminate]. Qed.

(* ---- C458 *)
Lemma over_ticks hz p v : 0 < hz -> positive_period p -> fits (fst p * hz) -> fits (snd p) -> in_range I64 v ->
  int64 (v * (fst p * hz / Z.gcd (fst p * hz) (snd p))) ->
  (seconds_of v p <= seconds_of (-1) (1, hz)%Z)%Q -> (seconds_of (- 2 ^ 31) (1, hz)%Z <= seconds_of v p)%Q ->
  exists n, convert (Dty I64 p) (Dty (Ity 32 false) (1, hz)) v = Some (Ok n) /\ 2 ^ 31 <= n.
Proof.
  intros H P F1 F2 V I A B.
  assert (E : convert (Dty I64 p) (Dty I64 (1, hz)) v = Some (Ok (wrap I64 (truncated (seconds_of v p / value (1, hz)%Z))))).
  { apply (convert_exact (Dty I64 p) (Dty I64 (1, hz)) v); cbn [rep per fst snd]; try assumption; try (rewrite Z.mul_1_r; assumption); try (unfold std_ity; auto).
    - split; cbn; lia.
    - discriminate. }
  set (T := truncated (seconds_of v p / value (1, hz)%Z)) in *.
  assert (TB : - 2 ^ 31 <= T <= -1).
  { pose proof (inject_pos hz H) as HP. pose proof (not_zero _ HP) as HN.
    assert (VQ : (value (1, hz)%Z == / inject_Z hz)%Q). { unfold value, frac. cbn [fst snd]. destruct hz as [|h|]; try lia. unfold Qeq, Qinv, inject_Z. cbn. reflexivity. }
    rewrite seconds_ticks in A, B by exact H.
    assert (YX : (seconds_of v p / value (1, hz)%Z == seconds_of v p * inject_Z hz)%Q) by (rewrite VQ; field; exact HN).
    assert (DD : forall a, (a / inject_Z hz * inject_Z hz == a)%Q) by (intros a; field; exact HN).
    apply (Qmult_le_r _ _ _ HP) in A, B. rewrite DD in A, B. rewrite <- YX in A, B. unfold T. destruct (seconds_of v p / value (1, hz)%Z)%Q as [a b].
    unfold Qle, inject_Z in A, B. cbn in A, B. unfold truncated. cbn [Qnum Qden]. rewrite Z.mul_1_r in A, B.
    replace a with (- - a) by lia. rewrite Z.quot_opp_l by lia. rewrite Z.quot_div_nonneg by lia.
    pose proof (Z.div_le_lower_bound (- a) (Zpos b) 1 ltac:(lia) ltac:(lia)). pose proof (Z.div_le_upper_bound (- a) (Zpos b) (2 ^ 31) ltac:(lia) ltac:(lia)). lia. }
  exists (wrap (Ity 32 false) T). split.
  - unfold convert in *. cbn [rep per] in *. destruct (ratio_divide p (1, hz)) as [rd|]; [|discriminate E]. cbn [obind] in *.
    change (common_type (Ity 32 false) I64) with I64. change (common_type I64 I64) with I64 in E.
    set (mt := usual I64 I64) in *. change mt with I64 in *. clear mt.
    injection E as E. f_equal. unfold bind in *. destruct (arith I64 (_ * _)) as [x| |]; try discriminate E.
    unfold arith in *. cbn [sgn I64] in *. destruct (in_rangeb I64 _) eqn:O; [|discriminate E]. injection E as E. f_equal. f_equal.
    unfold in_rangeb in O; apply andb_prop in O as [O1 O2]; apply Z.leb_le in O1, O2; pose proof (conj O1 O2) as O. rewrite (wrap_id I64 T) in E by (unfold in_range; cbn; lia). rewrite wrap_id in E by (exact O || (cbn; lia)). exact E.
  - unfold wrap, wrapu. cbn [bits sgn]. rewrite <- (Z_mod_plus_full T 1 (2 ^ 32)). rewrite Z.mod_small by lia. lia.
Qed.

(* A duration of 64 bits that was over a tick or more ago.  The standard returns at once.  Here the
   count becomes unsigned: the task sleeps for 2^31 - 1 ticks or more, 24 days at 1000 per second. *)
Theorem C458_freertos_negative_refuted : forall hz p v, 0 < hz -> positive_period p -> fits (fst p * hz) -> fits (snd p) -> in_range I64 v ->
  int64 (v * (fst p * hz / Z.gcd (fst p * hz) (snd p))) ->
  (seconds_of v p <= seconds_of (-1) (1, hz)%Z)%Q -> (seconds_of (- 2 ^ 31) (1, hz)%Z <= seconds_of v p)%Q ->
  exists n, freertos_sleep_for hz (Dty I64 p) v = Some (Ok n) /\
  forall t, (seconds_of (2 ^ 31 - 1) (1, hz)%Z < vTaskDelay_returns hz n t - t)%Q.
Proof.
  intros hz p v H P F1 F2 V I A B. destruct (over_ticks hz p v H P F1 F2 V I A B) as (n & E & N). exists n. split; [exact E|]. intros t.
  destruct (blocked hz n t H ltac:(lia)) as (L & _). apply Qle_lt_trans with (2 := L). rewrite seconds_ticks by exact H.
  apply div_le; [now apply inject_pos|]. rewrite <- Zle_Qle. lia.
Qed.
Print Assumptions C458_freertos_negative_refuted.
Theorem C458_arduino_negative_refuted : forall p v, positive_period p -> fits (fst p * 1000) -> fits (snd p) -> in_range I64 v ->
  int64 (v * (fst p * 1000 / Z.gcd (fst p * 1000) (snd p))) ->
  (seconds_of v p <= seconds_of (-1) (1, 1000)%Z)%Q -> (seconds_of (- 2 ^ 31) (1, 1000)%Z <= seconds_of v p)%Q ->
  exists n, arduino_sleep_for (Dty I64 p) v = Some (Ok n) /\
  forall t t', delay_may_return n t t' -> (seconds_of (2 ^ 31) (1, 1000)%Z <= t' - t)%Q.
Proof.
  intros p v P F1 F2 V I A B. destruct (over_ticks 1000 p v ltac:(lia) P F1 F2 V I A B) as (n & E & N). exists n. split; [exact E|]. intros t t' M.
  unfold delay_may_return in M. rewrite seconds_ticks by lia. apply Qle_trans with (inject_Z n / inject_Z 1000)%Q.
  - apply div_le; [reflexivity|]. rewrite <- Zle_Qle. exact N.
  - apply Qle_minus_iff in M. apply Qle_minus_iff. setoid_replace (t' - t + - (inject_Z n / inject_Z 1000))%Q with (t' + - (t + inject_Z n / inject_Z 1000))%Q by ring. exact M.
Qed.
Print Assumptions C458_arduino_negative_refuted.

Example C458_case : let ms := (1, 1000) in
  freertos_sleep_for 1000 (Dty I64 ms) (-5) = Some (Ok 4294967291) /\ arduino_sleep_for (Dty I64 ms) (-5) = Some (Ok 4294967291) /\
  (seconds_of (-5) ms <= seconds_of (-1) (1, 1000)%Z)%Q /\ (seconds_of (- 2 ^ 31) (1, 1000)%Z <= seconds_of (-5) ms)%Q /\ freertos_sleep_for 100 (Dty I64 ms) (-5) = Some (Ok 0).
Proof. cbv zeta. repeat split; vm_compute; reflexivity || discriminate. Qed.
