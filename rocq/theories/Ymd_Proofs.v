(* Proofs about year_month_day: the model is in Chrono_Model.v (ymd_year, ymd_month, ymd_day). *)
From Coq Require Import ZArith Lia.
From Verif Require Import Base Ratio_Model Chrono_Model Chrono_Proofs Ymd_Spec.
Local Open Scope Z_scope.

Ltac range := unfold in_range; cbn -[Z.mul Z.div Z.add Z.sub Z.modulo Z.pow]; try lia.
Lemma to_years n : 0 <= n <= 2147483647 -> convert days_t years_t n = Some (Ok (wrap (Ity 16 true) (n * 400 / 146097))).
Proof.
  intros H. rewrite (convert_core days_t years_t 400 146097 216 n).
  - do 3 f_equal. apply Z.quot_div_nonneg; lia.
  - unfold std_ity; cbn; auto.
  - unfold std_ity; cbn; auto.
  - split; cbn; lia.
  - split; cbn; lia.
  - lia.
  - lia.
  - lia.
  - reflexivity.
  - reflexivity.
  - reflexivity.
  - unfold fits; cbn; lia.
  - unfold fits; cbn; lia.
  - change (in_range I32 n). range.
  - change (in_range I64 (n * 400)). range.
Qed.
Lemma from_years y : 0 <= y <= 32767 -> convert years_t days_t y = Some (Ok (y * 146097 / 400)).
Proof.
  intros H. rewrite (convert_core years_t days_t 146097 400 216 y).
  - do 3 f_equal. assert (E : 0 <= y * 146097 / 400 <= 2147483647).
    { split; [apply Z.div_pos; lia|]. apply Z.div_le_upper_bound; lia. }
    change (rep days_t) with I32. rewrite Z.quot_div_nonneg, wrap_id; try lia; [cbn; lia|range].
  - unfold std_ity; cbn; auto.
  - unfold std_ity; cbn; auto.
  - split; cbn; lia.
  - split; cbn; lia.
  - lia.
  - lia.
  - lia.
  - reflexivity.
  - reflexivity.
  - reflexivity.
  - unfold fits; cbn; lia.
  - unfold fits; cbn; lia.
  - change (in_range I32 y). range.
  - change (in_range I64 (y * 146097)). range.
Qed.
Lemma to_months n : 0 <= n <= 2147483647 -> convert days_t months_t n = Some (Ok (n * 1600 / 48699)).
Proof.
  intros H. rewrite (convert_core days_t months_t 1600 48699 54 n).
  - do 3 f_equal. assert (E : 0 <= n * 1600 / 48699 <= 2147483647).
    { split; [apply Z.div_pos; lia|]. apply Z.div_le_upper_bound; lia. }
    change (rep months_t) with I32. rewrite Z.quot_div_nonneg, wrap_id; try lia; [cbn; lia|range].
  - unfold std_ity; cbn; auto.
  - unfold std_ity; cbn; auto.
  - split; cbn; lia.
  - split; cbn; lia.
  - lia.
  - lia.
  - lia.
  - reflexivity.
  - reflexivity.
  - reflexivity.
  - unfold fits; cbn; lia.
  - unfold fits; cbn; lia.
  - change (in_range I32 n). range.
  - change (in_range I64 (n * 1600)). range.
Qed.
Lemma same_days n : 0 <= n <= 2147483647 -> convert days_t days_t n = Some (Ok n).
Proof.
  intros H. rewrite (convert_core days_t days_t 1 1 86400 n).
  - do 3 f_equal. change (rep days_t) with I32. rewrite Z.quot_1_r, wrap_id; try lia; [cbn; lia|range].
  - unfold std_ity; cbn; auto.
  - unfold std_ity; cbn; auto.
  - split; cbn; lia.
  - split; cbn; lia.
  - lia.
  - lia.
  - lia.
  - reflexivity.
  - reflexivity.
  - reflexivity.
  - unfold fits; cbn; lia.
  - unfold fits; cbn; lia.
  - change (in_range I32 n). range.
  - change (in_range I64 (n * 1)). range.
Qed.
(* the common unit of days and months is 54 seconds *)
Definition tick54 : dty := Dty I32 (54, 1).
Lemma days_ticks n : 0 <= n <= 1342177 -> convert days_t tick54 n = Some (Ok (n * 1600)).
Proof.
  intros H. rewrite (convert_core days_t tick54 1600 1 54 n).
  - do 3 f_equal. change (rep tick54) with I32. rewrite Z.quot_1_r, wrap_id; try lia; [cbn; lia|range].
  - unfold std_ity; cbn; auto.
  - unfold std_ity; cbn; auto.
  - split; cbn; lia.
  - split; cbn; lia.
  - lia.
  - lia.
  - lia.
  - reflexivity.
  - reflexivity.
  - reflexivity.
  - unfold fits; cbn; lia.
  - unfold fits; cbn; lia.
  - change (in_range I32 n). range.
  - change (in_range I64 (n * 1600)). range.
Qed.
Lemma months_ticks m : 0 <= m <= 44097 -> convert months_t tick54 m = Some (Ok (m * 48699)).
Proof.
  intros H. rewrite (convert_core months_t tick54 48699 1 54 m).
  - do 3 f_equal. change (rep tick54) with I32. rewrite Z.quot_1_r, wrap_id; try lia; [cbn; lia|range].
  - unfold std_ity; cbn; auto.
  - unfold std_ity; cbn; auto.
  - split; cbn; lia.
  - split; cbn; lia.
  - lia.
  - lia.
  - lia.
  - reflexivity.
  - reflexivity.
  - reflexivity.
  - unfold fits; cbn; lia.
  - unfold fits; cbn; lia.
  - change (in_range I32 m). range.
  - change (in_range I64 (m * 48699)). range.
Qed.
Lemma ticks_days r : 0 <= r <= 2147483647 -> convert tick54 days_t r = Some (Ok (r / 1600)).
Proof.
  intros H. rewrite (convert_core tick54 days_t 1 1600 54 r).
  - do 3 f_equal. assert (E : 0 <= r * 1 / 1600 <= 2147483647).
    { split; [apply Z.div_pos; lia|]. apply Z.div_le_upper_bound; lia. }
    change (rep days_t) with I32. rewrite Z.quot_div_nonneg, wrap_id; try lia; [now rewrite Z.mul_1_r|cbn; lia|range].
  - unfold std_ity; cbn; auto.
  - unfold std_ity; cbn; auto.
  - split; cbn; lia.
  - split; cbn; lia.
  - lia.
  - lia.
  - lia.
  - reflexivity.
  - reflexivity.
  - reflexivity.
  - unfold fits; cbn; lia.
  - unfold fits; cbn; lia.
  - change (in_range I32 r). range.
  - change (in_range I64 (r * 1)). range.
Qed.

(* 11248555 days: 30797 years of 365.2425 days *)
Lemma year_formula n : 0 <= n -> n * 400 / 146097 <= 30797 -> n <= 2147483647 ->
  ymd_year n = Some (Ok (1970 + n * 400 / 146097)).
Proof.
  intros H L U. unfold ymd_year. rewrite to_years by lia. cbn [rbind]. do 2 f_equal.
  assert (0 <= n * 400 / 146097) by (apply Z.div_pos; lia).
  assert (W : forall z, 0 <= z <= 32767 -> wrap (Ity 16 true) z = z) by (intros z Z0; apply wrap_id; [cbn; lia|range]).
  set (y := n * 400 / 146097) in *. unfold year. rewrite (W y), (W y), W; lia.
Qed.
Lemma arith_I32 z : -2147483648 <= z <= 2147483647 -> arith I32 z = Ok z.
Proof. intros. apply arith_ok; [cbn; lia|range]. Qed.
Lemma month_formula n : 0 <= n -> n * 400 / 146097 <= 30797 -> n <= 2147483647 ->
  ymd_month n = Some (Ok ((n - n * 400 / 146097 * 146097 / 400) * 1600 / 48699 + 1)).
Proof.
  intros H L U. unfold ymd_month.
  assert (C : common days_t days_t = Some days_t) by reflexivity. rewrite C. cbn [obind].
  rewrite to_years by lia. cbn [rbind].
  assert (Y : 0 <= n * 400 / 146097) by (apply Z.div_pos; lia).
  rewrite wrap_id; [|cbn; lia|range]. set (y := n * 400 / 146097) in *.
  rewrite from_years by lia. cbn [rbind]. set (d := y * 146097 / 400).
  assert (Y2 : 146097 * y <= n * 400 < 146097 * y + 146097).
  { unfold y. pose proof (Z.div_mod (n * 400) 146097 ltac:(lia)). pose proof (Z.mod_pos_bound (n * 400) 146097 ltac:(lia)). lia. }
  assert (D : 400 * d <= y * 146097 < 400 * d + 400).
  { unfold d. pose proof (Z.div_mod (y * 146097) 400 ltac:(lia)). pose proof (Z.mod_pos_bound (y * 146097) 400 ltac:(lia)). lia. }
  assert (DD : 0 <= d <= n) by lia. assert (R : 0 <= n - d <= 366) by lia.
  unfold dsub, with_common. rewrite C. cbn [obind]. rewrite !same_days by lia. cbn [obind bind].
  change (promote (rep days_t)) with I32. rewrite arith_I32 by lia. cbn [bind rbind].
  unfold make. change (rep days_t) with I32. rewrite wrap_id; [|cbn; lia|range].
  rewrite to_months by lia. cbn [rbind].
  assert (M : 0 <= (n - d) * 1600 / 48699 <= 12).
  { split; [apply Z.div_pos; lia|]. apply Z.lt_succ_r, Z.div_lt_upper_bound; lia. }
  rewrite arith_I32 by lia. cbn [bind]. unfold month. rewrite wrap_id; [reflexivity|cbn; lia|range].
Qed.
Lemma day_formula n : 0 <= n <= 1342177 ->
  ymd_day n = Some (Ok ((n * 1600) mod 48699 / 1600 + 1)).
Proof.
  intros H. unfold ymd_day. assert (C : common days_t months_t = Some tick54) by reflexivity. rewrite C. cbn [obind].
  rewrite to_months by lia. cbn [rbind]. set (m := n * 1600 / 48699).
  assert (M : 48699 * m <= n * 1600 < 48699 * m + 48699 /\ n * 1600 - m * 48699 = (n * 1600) mod 48699).
  { unfold m. pose proof (Z.div_mod (n * 1600) 48699 ltac:(lia)). pose proof (Z.mod_pos_bound (n * 1600) 48699 ltac:(lia)). lia. }
  destruct M as [M E]. unfold dsub, with_common. rewrite C. cbn [obind]. rewrite days_ticks, months_ticks by lia. cbn [obind bind].
  change (promote (rep tick54)) with I32. rewrite arith_I32 by lia. cbn [bind rbind].
  unfold make. change (rep tick54) with I32. rewrite wrap_id; [|cbn; lia|range].
  rewrite ticks_days by lia. cbn [rbind]. rewrite E.
  assert (R : 0 <= (n * 1600) mod 48699 / 1600 <= 30).
  { pose proof (Z.mod_pos_bound (n * 1600) 48699 ltac:(lia)). split; [apply Z.div_pos; lia|]. apply Z.lt_succ_r, Z.div_lt_upper_bound; lia. }
  rewrite arith_I32 by lia. cbn [bind]. unfold day. rewrite wrap_id; [reflexivity|cbn; lia|range].
Qed.

(* the first days of the years are near the multiples of 365.2425 days *)
Definition leaps (y : Z) : Z := y / 4 - y / 100 + y / 400.
Lemma leap_step y : leaps (y + 1) - leaps y = if gregorian_leapb (y + 1) then 1 else 0.
Proof.
  unfold leaps, gregorian_leapb.
  assert (S : forall d, 0 < d -> (y + 1) / d - y / d = if ((y + 1) mod d =? 0) then 1 else 0).
  { intros d D. pose proof (Z.div_mod (y + 1) d ltac:(lia)) as A. pose proof (Z.mod_pos_bound (y + 1) d D) as B.
    pose proof (Z.div_mod y d ltac:(lia)) as A'. pose proof (Z.mod_pos_bound y d D) as B'.
    destruct (Z.eqb_spec ((y + 1) mod d) 0) as [E|E]; nia. }
  pose proof (S 4 ltac:(lia)) as S4. pose proof (S 100 ltac:(lia)) as S100. pose proof (S 400 ltac:(lia)) as S400. clear S.
  assert (D100 : (y + 1) mod 100 = 0 -> (y + 1) mod 4 = 0).
  { intros E. apply Z.mod_divide in E; [|lia]. apply Z.mod_divide; [lia|]. destruct E as [q ->]. exists (q * 25). lia. }
  assert (D400 : (y + 1) mod 400 = 0 -> (y + 1) mod 100 = 0).
  { intros E. apply Z.mod_divide in E; [|lia]. apply Z.mod_divide; [lia|]. destruct E as [q ->]. exists (q * 4). lia. }
  destruct (Z.eqb_spec ((y + 1) mod 4) 0), (Z.eqb_spec ((y + 1) mod 100) 0), (Z.eqb_spec ((y + 1) mod 400) 0); cbn [negb andb orb]; lia.
Qed.
Lemma new_year_closed k : new_year k = 365 * Z.of_nat k + leaps (1969 + Z.of_nat k) - leaps 1969.
Proof.
  induction k as [|k IH]; [reflexivity|]. cbn [new_year]. rewrite IH. unfold year_length.
  pose proof (leap_step (1969 + Z.of_nat k)) as L. replace (1969 + Z.of_nat k + 1) with (1970 + Z.of_nat k) in L by lia.
  replace (1969 + Z.of_nat (S k)) with (1970 + Z.of_nat k) by lia.
  destruct (gregorian_leapb _); lia.
Qed.
Lemma new_year_near k : 146097 * Z.of_nat k - 1200 < 400 * new_year k < 146097 * Z.of_nat k + 1200.
Proof.
  rewrite new_year_closed. set (z := Z.of_nat k). unfold leaps.
  change (1969 / 4 - 1969 / 100 + 1969 / 400) with 477.
  pose proof (Z.div_mod (1969 + z) 4 ltac:(lia)). pose proof (Z.mod_pos_bound (1969 + z) 4 ltac:(lia)).
  pose proof (Z.div_mod (1969 + z) 100 ltac:(lia)). pose proof (Z.mod_pos_bound (1969 + z) 100 ltac:(lia)).
  pose proof (Z.div_mod (1969 + z) 400 ltac:(lia)). pose proof (Z.mod_pos_bound (1969 + z) 400 ltac:(lia)).
  lia.
Qed.
