(* Dates of day numbers. *)
From Coq Require Import ZArith Lia.
From Verif Require Import Base Ratio_Model Chrono_Model Chrono_Proofs Ymd_Spec Ymd_Proofs.
Local Open Scope Z_scope.

(* C447: day n is in the Gregorian year 1970 + k.  Years are 16 bits. *)
Theorem C447_year_near : forall k n, new_year k <= n < new_year (S k) -> 1970 + Z.of_nat k < 32767 ->
  exists y, ymd_year n = Some (Ok y) /\ Z.abs (y - (1970 + Z.of_nat k)) <= 1.
Proof.
  intros k n [A B] K. pose proof (new_year_near k) as N. pose proof (new_year_near (S k)) as N'.
  assert (P : 0 <= n).
  { enough (0 <= new_year k) by lia. clear. induction k; cbn [new_year]; unfold year_length; [lia|destruct (gregorian_leapb _); lia]. }
  pose proof (Z.div_mod (n * 400) 146097 ltac:(lia)). pose proof (Z.mod_pos_bound (n * 400) 146097 ltac:(lia)).
  exists (1970 + n * 400 / 146097). split; [|lia]. apply year_formula; lia.
Qed.
Print Assumptions C447_year_near.
Theorem C447_never_back : forall n n', 0 <= n <= n' -> n' <= 11248553 ->
  exists y y', ymd_year n = Some (Ok y) /\ ymd_year n' = Some (Ok y') /\ 1970 <= y <= y'.
Proof.
  intros n n' H U. pose proof (Z.div_le_mono (n * 400) (n' * 400) 146097 ltac:(lia) ltac:(lia)).
  assert (n' * 400 / 146097 <= 30797) by (apply Z.lt_succ_r, Z.div_lt_upper_bound; lia).
  assert (0 <= n * 400 / 146097) by (apply Z.div_pos; lia).
  exists (1970 + n * 400 / 146097), (1970 + n' * 400 / 146097). repeat split; try apply year_formula; lia.
Qed.
Print Assumptions C447_never_back.
(* The day is one from 1 to 31, until the year 5644. *)
Theorem C447_day : forall n, 0 <= n <= 1342177 -> exists d, ymd_day n = Some (Ok d) /\ 1 <= d <= 31.
Proof.
  intros n H. eexists. split; [apply day_formula; exact H|].
  pose proof (Z.mod_pos_bound (n * 1600) 48699 ltac:(lia)).
  assert (0 <= (n * 1600) mod 48699 / 1600) by (apply Z.div_pos; lia).
  assert ((n * 1600) mod 48699 / 1600 < 31) by (apply Z.div_lt_upper_bound; lia). lia.
Qed.
Print Assumptions C447_day.
Theorem C447_month : forall n, 0 <= n <= 11248553 -> exists m, ymd_month n = Some (Ok m) /\ 1 <= m <= 13.
Proof.
  intros n H. assert (L : n * 400 / 146097 <= 30797) by (apply Z.lt_succ_r, Z.div_lt_upper_bound; lia).
  eexists. split; [apply month_formula; lia|]. set (y := n * 400 / 146097) in *.
  assert (Y2 : 146097 * y <= n * 400 < 146097 * y + 146097).
  { unfold y. pose proof (Z.div_mod (n * 400) 146097 ltac:(lia)). pose proof (Z.mod_pos_bound (n * 400) 146097 ltac:(lia)). lia. }
  pose proof (Z.div_mod (y * 146097) 400 ltac:(lia)). pose proof (Z.mod_pos_bound (y * 146097) 400 ltac:(lia)).
  set (d := y * 146097 / 400) in *.
  assert (0 <= (n - d) * 1600 / 48699) by (apply Z.div_pos; lia).
  assert ((n - d) * 1600 / 48699 < 13) by (apply Z.div_lt_upper_bound; lia). lia.
Qed.
Print Assumptions C447_month.
(* 1 March 2024 is day 19783 and comes out as day 30 of month 2; 1 January 1971 is in "1970" *)
Example C447_case : new_year 54 <= 19783 < new_year 55 /\ ymd_year 19783 = Some (Ok 2024) /\ ymd_month 19783 = Some (Ok 2) /\
  ymd_day 19783 = Some (Ok 30) /\ new_year 1 = 365 /\ ymd_year 365 = Some (Ok 1970).
Proof. repeat split; vm_compute; congruence. Qed.

(* C219: one day of every four years or so is in month 13.  97 days are added in 400 years; in the
   years 1970 + j where their fraction overflows, the day before the next year begins is one. *)
Theorem C219_month_13_refuted : forall j, 0 <= j <= 30797 -> 303 < (97 * j) mod 400 ->
  exists n, j * 146097 < n * 400 < (j + 1) * 146097 /\
    ymd_year n = Some (Ok (1970 + j)) /\ ymd_month n = Some (Ok 13) /\ month_ok 13 = false.
Proof.
  intros j J C. exists ((j + 1) * 146097 / 400).
  pose proof (Z.div_mod (97 * j) 400 ltac:(lia)) as Q. pose proof (Z.mod_pos_bound (97 * j) 400 ltac:(lia)) as B.
  set (q := 97 * j / 400) in *. set (r := (97 * j) mod 400) in *.
  assert (E : (j + 1) * 146097 / 400 = 365 * j + q + 366).
  { symmetry. apply Z.div_unique with (r := r - 303); lia. }
  assert (E2 : j * 146097 / 400 = 365 * j + q) by (symmetry; apply Z.div_unique with (r := r); lia).
  rewrite E. assert (Y : (365 * j + q + 366) * 400 / 146097 = j) by (symmetry; apply Z.div_unique with (r := 146097 - (r - 303)); lia).
  split; [lia|]. split; [rewrite year_formula; try lia; now rewrite Y|]. split; [|reflexivity].
  rewrite month_formula by lia. rewrite Y, E2. replace (365 * j + q + 366 - (365 * j + q)) with 366 by lia. reflexivity.
Qed.
Print Assumptions C219_month_13_refuted.
(* 1 January 1975 *)
Example C219_case2 : 303 < (97 * 4) mod 400 /\ ymd_year 1826 = Some (Ok 1974) /\ ymd_month 1826 = Some (Ok 13).
Proof. repeat split. Qed.

(* C454: ok() holds of every date of the calendar with a year that can be stored, and of none with
   a month or a day that no year has.  The arguments are converted to 8 bits. *)
Theorem C454_date_ok : forall y m d, -32768 <= y <= 32767 -> 0 <= m < 256 -> 0 <= d < 256 ->
  (gregorian_date y m d -> -32768 < y -> date_ok y m d = true /\ last_ok y m = true) /\
  (date_ok y m d = true -> 1 <= m <= 12 /\ 1 <= d <= 31 /\ -32768 < y) /\
  (last_ok y m = true -> gregorian_date y m 1 /\ -32768 < y).
Proof.
  intros y m d Y M D. unfold date_ok, last_ok, day, month, year.
  rewrite !wrap_id by (unfold in_range; cbn; lia). unfold day_ok, month_ok, year_ok.
  rewrite !andb_true_iff, !Z.leb_le. unfold gregorian_date.
  assert (L : 28 <= month_length y m <= 31).
  { unfold month_length. destruct (m =? 2); [destruct (gregorian_leapb y); lia|]. destruct (_ || _)%bool; lia. }
  lia.
Qed.
Print Assumptions C454_date_ok.
(* C455: it also holds of every day up to 31 of the months that are shorter. *)
Theorem C455_no_such_day_refuted : forall y m d, -32768 < y <= 32767 -> 1 <= m <= 12 -> month_length y m < d <= 31 ->
  ~ gregorian_date y m d /\ date_ok y m d = true.
Proof.
  intros y m d Y M D. unfold gregorian_date. split; [lia|].
  assert (L : 28 <= month_length y m) by (unfold month_length; destruct (m =? 2); [destruct (gregorian_leapb y); lia|]; destruct (_ || _)%bool; lia).
  unfold date_ok, day, month, year. rewrite !wrap_id by (unfold in_range; cbn; lia). unfold day_ok, month_ok, year_ok.
  rewrite !andb_true_iff, !Z.leb_le. lia.
Qed.
Print Assumptions C455_no_such_day_refuted.
Example C454_case : gregorian_date 2024 2 29 /\ date_ok 2024 2 29 = true /\ date_ok 2024 13 1 = false /\
  month_length 2023 2 = 28 /\ date_ok 2023 2 31 = true.
Proof. unfold gregorian_date. cbn. lia. Qed.
