(* C465, C466: this_core::sleep_for and sleep_until of the Raspberry Pi Pico port. *)
From Coq Require Import ZArith QArith Qround Qfield Lia.
From Verif Require Import Base MachInt Ratio_Spec Ratio_Model Ratio_Proofs Chrono_Spec Chrono_Model Chrono_Proofs
  Lock_Model Properties_Lock Slp_Spec Slp_Model Properties_Slp.
Local Open Scope Z_scope.

(* The duration has a positive period whose conversion to microseconds compiles, its count is not
   negative, and the conversion does not overflow. *)
Definition pico_sleepable (d : dty) (v : Z) : Prop :=
  std_ity (rep d) /\ positive_period (per d) /\ fits (fst (per d) * 1000000) /\ fits (snd (per d)) /\ in_range (rep d) v /\ 0 <= v /\
  int64 (v * (fst (per d) * 1000000 / Z.gcd (fst (per d) * 1000000) (snd (per d)))).

Lemma us_of d v : pico_sleepable d v -> exists n, 0 <= n <= 2 ^ 63 - 1 /\ convert d pico_duration v = Some (Ok n) /\
  (inject_Z n / inject_Z 1000000 <= seconds_of v (per d))%Q /\ (seconds_of v (per d) < inject_Z (n + 1) / inject_Z 1000000)%Q.
Proof.
  intros (A & B & C & D & E & F & G).
  assert (X : convert d pico_duration v = Some (Ok (wrap (Ity 64 false) (truncated (seconds_of v (per d) / value (1, 1000000)%Z))))).
  { apply convert_exact; cbn [rep per fst snd pico_duration]; try assumption; try (rewrite Z.mul_1_r; assumption); try (unfold std_ity; auto).
    split; cbn; lia. }
  set (x := seconds_of v (per d)) in *.
  assert (X0 : (0 <= x)%Q) by (now apply not_negative).
  assert (HP : (0 < inject_Z 1000000)%Q) by reflexivity.
  assert (HN : ~ (inject_Z 1000000 == 0)%Q) by discriminate.
  set (y := (x / value (1, 1000000)%Z)%Q) in *.
  assert (YX : (y == x * inject_Z 1000000)%Q).
  { unfold y. assert (VQ : (value (1, 1000000)%Z == / inject_Z 1000000)%Q) by reflexivity. rewrite VQ. field. }
  assert (Y0 : (0 <= y)%Q) by (rewrite YX; apply Qmult_le_0_compat; [exact X0|now apply Qlt_le_weak]).
  destruct (truncated_bounds y Y0) as (T0 & T1 & T2). set (n := truncated y) in *.
  assert (NR : 0 <= n <= 2 ^ 63 - 1).
  { split; [rewrite Zle_Qle; exact T0|].
    assert (YB : (y <= inject_Z (2 ^ 63 - 1))%Q).
    { rewrite YX. unfold x, seconds_of, frac. destruct B as [B1 B2]. destruct (per d) as [a b]. cbn [fst snd] in *.
      destruct b as [|b|]; try lia. set (g := Z.gcd (a * 1000000) (Zpos b)) in *.
      assert (GP : 0 < g). { unfold g. pose proof (Z.gcd_nonneg (a * 1000000) (Zpos b)). assert (Z.gcd (a * 1000000) (Zpos b) <> 0) by (intros Q0; apply Z.gcd_eq_0_l in Q0; lia). lia. }
      destruct (Z.gcd_divide_l (a * 1000000) (Zpos b)) as [p P]. destruct (Z.gcd_divide_r (a * 1000000) (Zpos b)) as [q Q]. fold g in P, Q.
      rewrite P, Z.div_mul in G by lia. unfold int64 in G.
      assert (q0 : 0 < q) by nia. assert (VP : v * p <= 2 ^ 63 - 1) by lia.
      assert (EQ : (inject_Z v * (inject_Z a / inject_Z (Zpos b)) * inject_Z 1000000 == inject_Z (v * p) / inject_Z q)%Q).
      { assert (PQ : (inject_Z a * inject_Z 1000000 == inject_Z p * inject_Z g)%Q) by (rewrite <- !inject_Z_mult, P; reflexivity).
        rewrite Q, !inject_Z_mult. assert (~ (inject_Z q == 0)%Q) by (apply not_zero, inject_pos; lia).
        assert (~ (inject_Z g == 0)%Q) by (apply not_zero, inject_pos; lia).
        transitivity (inject_Z v * (inject_Z a * inject_Z 1000000) / (inject_Z q * inject_Z g))%Q; [field; auto|]. rewrite PQ. field. auto. }
      rewrite EQ. apply (Qmult_le_r _ _ (inject_Z q)); [apply inject_pos; lia|].
      setoid_replace (inject_Z (v * p) / inject_Z q * inject_Z q)%Q with (inject_Z (v * p))
        by (field; apply not_zero, inject_pos; lia).
      rewrite <- inject_Z_mult, <- Zle_Qle. nia. }
    rewrite Zle_Qle. now apply Qle_trans with y. }
  exists n. split; [exact NR|]. split; [rewrite X; do 2 f_equal; apply wrap_id; [cbn; lia|unfold in_range, imin, imax; cbn [bits sgn]; lia]|].
  assert (DD : forall a, (a / inject_Z 1000000 * inject_Z 1000000 == a)%Q) by (intros a; field; exact HN).
  split.
  - apply (Qmult_le_r _ _ _ HP). rewrite DD. now rewrite <- YX.
  - apply (Qmult_lt_r _ _ _ HP). rewrite DD. now rewrite <- YX.
Qed.

Lemma slept_enough d v n T : (seconds_of v (per d) < inject_Z (n + 1) / inject_Z 1000000)%Q ->
  (inject_Z n / inject_Z 1000000 <= T)%Q ->
  (seconds_of v (per d) - seconds_of 1 (1, 1000000)%Z < T)%Q /\
  ((exists k, seconds_of v (per d) == seconds_of k (1, 1000000)%Z)%Q -> (seconds_of v (per d) <= T)%Q).
Proof.
  intros U M. rewrite (seconds_ticks 1000000 1) by lia.
  assert (NZ : ~ (inject_Z 1000000 == 0)%Q) by discriminate.
  split.
  - apply Qlt_le_trans with (2 := M). apply Qlt_minus_iff in U. apply Qlt_minus_iff. rewrite inject_Z_plus in U.
    assert (Q : (inject_Z n / inject_Z 1000000 + - (seconds_of v (per d) - inject_Z 1 / inject_Z 1000000) == (inject_Z n + inject_Z 1) / inject_Z 1000000 + - seconds_of v (per d))%Q) by (field; exact NZ).
    now rewrite Q.
  - intros [k K]. rewrite seconds_ticks in K by lia. rewrite K in *. apply Qle_trans with (2 := M).
    apply div_le; [reflexivity|]. rewrite <- Zle_Qle. assert (KN : (inject_Z k < inject_Z (n + 1))%Q).
    { apply (Qmult_lt_r _ _ (/ inject_Z 1000000)); [reflexivity|exact U]. } rewrite <- Zlt_Qlt in KN. lia.
Qed.

(* ---- C465: sleep_for sleeps for the duration, less at most a microsecond, and for all of it when
   it is a whole number of microseconds; sleep_until returns at the time or after it in the same
   sense. *)
Theorem C465_sleep_for : forall d v, pico_sleepable d v ->
  exists n, pico_sleep_for d v = Some (Ok n) /\
  forall t t', sleep_us_may_return n t t' ->
    (seconds_of v (per d) - seconds_of 1 (1, 1000000)%Z < t' - t)%Q /\
    ((exists k, seconds_of v (per d) == seconds_of k (1, 1000000)%Z)%Q -> (seconds_of v (per d) <= t' - t)%Q).
Proof.
  intros d v S. destruct (us_of d v S) as (n & N & E & L & U). exists n. split; [exact E|]. intros t t' M.
  apply slept_enough with (n := n); [exact U|]. unfold sleep_us_may_return in M.
  apply Qle_minus_iff in M. apply Qle_minus_iff.
  setoid_replace (t' - t + - (inject_Z n / inject_Z 1000000))%Q with (t' + - (t + inject_Z n / inject_Z 1000000))%Q by ring. exact M.
Qed.
Print Assumptions C465_sleep_for.
Theorem C465_sleep_until : forall d v, pico_sleepable d v ->
  exists n, pico_sleep_until d v = Some (Ok n) /\
  forall t t', sleep_until_may_return (delayed_by_us n) t t' ->
    (seconds_of v (per d) - seconds_of 1 (1, 1000000)%Z < t')%Q /\
    ((exists k, seconds_of v (per d) == seconds_of k (1, 1000000)%Z)%Q -> (seconds_of v (per d) <= t')%Q).
Proof.
  intros d v S. destruct (us_of d v S) as (n & N & E & L & U). exists n. split; [exact E|]. intros t t' [_ M].
  apply slept_enough with (n := n); [exact U|]. unfold delayed_by_us in M. rewrite Z.min_l in M by lia. exact M.
Qed.
Print Assumptions C465_sleep_until.
(* A time that has passed is not waited for: the call may return at once. *)
Theorem C465_passed : forall d v, pico_sleepable d v ->
  exists n, pico_sleep_until d v = Some (Ok n) /\
  forall t, (seconds_of v (per d) <= t)%Q -> sleep_until_may_return (delayed_by_us n) t t.
Proof.
  intros d v S. destruct (us_of d v S) as (n & N & E & L & U). exists n. split; [exact E|]. intros t H.
  split; [apply Qle_refl|]. unfold delayed_by_us. rewrite Z.min_l by lia. now apply Qle_trans with (seconds_of v (per d)).
Qed.
Print Assumptions C465_passed.
Example C465_case : let ms := Dty I64 (1, 1000) in let ns := Dty I64 (1, 1000000000) in
  pico_sleepable ms 2500 /\ pico_sleep_for ms 2500 = Some (Ok 2500000) /\ pico_sleepable ns 1999 /\ pico_sleep_for ns 1999 = Some (Ok 1) /\
  sleep_us_may_return 2500000 0 3.
Proof.
  cbv zeta. split; [|split; [reflexivity|split; [|split; [reflexivity|vm_compute; discriminate]]]];
    unfold pico_sleepable, std_ity, positive_period, fits, in_range, int64; cbn; repeat split; lia.
Qed.

(* ---- C466: a negative duration, or a time before boot.  The count becomes unsigned. *)
Lemma negative_us a b k v : 0 < k -> 0 < b -> a * 1000000 = k * b -> fits (a * 1000000) -> fits b ->
  in_range I64 v -> v < 0 -> - 2 ^ 63 <= v * k ->
  convert (Dty I64 (a, b)) pico_duration v = Some (Ok (2 ^ 64 + v * k)).
Proof.
  intros K B AB F FB V N O. assert (KA : k <= a * 1000000) by (rewrite AB; clear - K B; nia). assert (A0 : 0 < a) by lia.
  assert (VK : v * k < 0) by (clear - K N; nia).
  assert (RD : ratio_divide (a, b) (1, 1000000) = Some (k, 1)).
  { apply (divide_value a b 1 1000000 k 1 b); try lia; [unfold lowest_terms; apply Z.gcd_1_r| |].
    - rewrite Z.mul_comm, <- AB. exact F.
    - rewrite Z.mul_1_r. exact FB. }
  unfold convert. cbn [rep per pico_duration]. rewrite RD. cbn [obind fst snd].
  change (common_type (Ity 64 false) I64) with (Ity 64 false). change (usual (Ity 64 false) I64) with (Ity 64 false).
  assert (WV : wrap (Ity 64 false) v = 2 ^ 64 + v).
  { unfold wrap, wrapu. cbn [bits sgn]. unfold in_range in V. cbn in V. rewrite <- (Z_mod_plus_full v 1 (2 ^ 64)). rewrite Z.mod_small by lia. lia. }
  rewrite WV.
  assert (U : in_range (Ity 64 false) (2 ^ 64 + v)) by (unfold in_range in V; cbn in V; clear - V N; unfold in_range, imin, imax; cbn [bits sgn]; lia).
  assert (UK : in_range (Ity 64 false) k) by (clear - K KA F; unfold in_range, imin, imax, fits in *; cbn [bits sgn]; lia).
  rewrite (wrap_id (Ity 64 false) (2 ^ 64 + v)), (wrap_id (Ity 64 false) k), (wrap_id (Ity 64 false) 1) by (assumption || (cbn; lia) || (unfold in_range, imin, imax; cbn [bits sgn]; lia)).
  assert (WP : wrap (Ity 64 false) ((2 ^ 64 + v) * k) = 2 ^ 64 + v * k).
  { unfold wrap, wrapu. cbn [bits sgn]. replace ((2 ^ 64 + v) * k) with (2 ^ 64 + v * k + (k - 1) * 2 ^ 64) by ring.
    rewrite Z_mod_plus_full. apply Z.mod_small. lia. }
  assert (AP : arith (Ity 64 false) ((2 ^ 64 + v) * k) = Ok (2 ^ 64 + v * k)) by (unfold arith; cbn [sgn]; now rewrite WP).
  rewrite AP. cbn [bind]. rewrite Z.quot_1_r.
  assert (UP : in_range (Ity 64 false) (2 ^ 64 + v * k)) by (clear - VK O; unfold in_range, imin, imax; cbn [bits sgn]; lia).
  rewrite arith_ok by (exact UP || (cbn; lia)). cbn [bind]. rewrite wrap_id by (exact UP || (cbn; lia)). reflexivity.
Qed.

(* The standard returns at once.  Here the core sleeps for more than 290000 years: the argument is
   a 64 bit count of a period of a/b seconds, k microseconds. *)
Theorem C466_negative_refuted : forall a b k v, 0 < k -> 0 < b -> a * 1000000 = k * b -> fits (a * 1000000) -> fits b ->
  in_range I64 v -> v < 0 -> - 2 ^ 63 <= v * k ->
  exists n, pico_sleep_for (Dty I64 (a, b)) v = Some (Ok n) /\
  forall t t', sleep_us_may_return n t t' -> (seconds_of (2 ^ 63) (1, 1000000)%Z <= t' - t)%Q.
Proof.
  intros a b k v K B AB F FB V N O. exists (2 ^ 64 + v * k). split; [now apply negative_us|]. intros t t' M.
  unfold sleep_us_may_return in M. rewrite seconds_ticks by lia. apply Qle_trans with (inject_Z (2 ^ 64 + v * k) / inject_Z 1000000)%Q.
  - apply div_le; [reflexivity|]. rewrite <- Zle_Qle. lia.
  - apply Qle_minus_iff in M. apply Qle_minus_iff.
    setoid_replace (t' - t + - (inject_Z (2 ^ 64 + v * k) / inject_Z 1000000))%Q with (t' + - (t + inject_Z (2 ^ 64 + v * k) / inject_Z 1000000))%Q by ring. exact M.
Qed.
Print Assumptions C466_negative_refuted.
(* A time point before boot: the core sleeps until the end of time. *)
Theorem C466_before_boot_refuted : forall a b k v, 0 < k -> 0 < b -> a * 1000000 = k * b -> fits (a * 1000000) -> fits b ->
  in_range I64 v -> v < 0 -> - 2 ^ 63 <= v * k ->
  exists n, pico_sleep_until (Dty I64 (a, b)) v = Some (Ok n) /\
  forall t t', sleep_until_may_return (delayed_by_us n) t t' -> (seconds_of (2 ^ 63 - 1) (1, 1000000)%Z <= t')%Q.
Proof.
  intros a b k v K B AB F FB V N O. exists (2 ^ 64 + v * k). split; [now apply negative_us|]. intros t t' [_ M].
  unfold delayed_by_us in M. rewrite Z.min_r in M by lia. rewrite seconds_ticks by lia. exact M.
Qed.
Print Assumptions C466_before_boot_refuted.
Example C466_case : pico_sleep_for (Dty I64 (1, 1000)) (-5) = Some (Ok (2 ^ 64 - 5000)) /\
  1 * 1000000 = 1000 * 1000 /\ fits (1 * 1000000) /\ fits 1000 /\ in_range I64 (-5) /\ - 2 ^ 63 <= -5 * 1000.
Proof. split; [vm_compute; reflexivity|]. unfold fits, in_range, imin, imax. cbn [bits sgn I64]. lia. Qed.
