(* C55: duration.  C86: hh_mm_ss.  C87: year, month, day, year_month_day.  C88: promoted_type. *)
From Coq Require Import ZArith QArith Lia Bool.
From Verif Require Import Base MachInt Ratio_Spec Ratio_Model Ratio_Proofs Chrono_Spec Chrono_Model Chrono_Proofs.
Local Open Scope Z_scope.

(* two durations of types that can be combined, the common type being c *)
Definition combine (d1 d2 c : dty) (v1 v2 : Z) : Prop :=
  std_ity (rep d1) /\ std_ity (rep d2) /\ positive_period (per d1) /\ positive_period (per d2) /\
  representable (per d1) (per d2) /\ common d1 d2 = Some c /\ in_range (rep d1) v1 /\ in_range (rep d2) v2.
(* m1 and m2 common ticks are exactly the two durations *)
Definition ticks (d1 d2 c : dty) (v1 v2 m1 m2 : Z) : Prop :=
  (seconds_of m1 (per c) == seconds_of v1 (per d1))%Q /\ (seconds_of m2 (per c) == seconds_of v2 (per d2))%Q.

(* ---- C55 *)
(* C55 (provided: the product with the numerator of the reduced ratio has to fit in 64 bits, and a
   negative count is not converted to an unsigned one).  Conversion and duration_cast give the
   duration divided by the target period, truncated toward zero, then narrowed to the target's
   representation. *)
Theorem C55_conversion_truncates : forall d1 d2 v, std_ity (rep d1) -> std_ity (rep d2) ->
  positive_period (per d1) -> positive_period (per d2) ->
  fits (fst (per d1) * snd (per d2)) -> fits (snd (per d1) * fst (per d2)) ->
  in_range (rep d1) v -> (sgn (rep d1) = true -> sgn (rep d2) = false -> 0 <= v) ->
  int64 (v * (fst (per d1) * snd (per d2) / Z.gcd (fst (per d1) * snd (per d2)) (snd (per d1) * fst (per d2)))) ->
  convert d1 d2 v = Some (Ok (wrap (rep d2) (truncated (seconds_of v (per d1) / value (per d2))))).
Proof. exact convert_exact. Qed.
Print Assumptions C55_conversion_truncates.

(* If the product does not fit, the conversion is undefined even when its result would fit. *)
Theorem C200_conversion_overflow_refuted : forall d1 d2 v, std_ity (rep d1) -> std_ity (rep d2) ->
  positive_period (per d1) -> positive_period (per d2) ->
  fits (fst (per d1) * snd (per d2)) -> fits (snd (per d1) * fst (per d2)) ->
  in_range (rep d1) v -> (sgn (rep d1) = true -> sgn (rep d2) = false -> 0 <= v) ->
  rep d1 <> U64 -> rep d2 <> U64 ->
  ~ int64 (v * (fst (per d1) * snd (per d2) / Z.gcd (fst (per d1) * snd (per d2)) (snd (per d1) * fst (per d2)))) ->
  convert d1 d2 v = Some UB.
Proof. exact convert_overflow. Qed.
Print Assumptions C200_conversion_overflow_refuted.

(* To a period that divides the source's, the conversion is exact. *)
Theorem C55_finer_exact : forall d1 d2 v K, std_ity (rep d1) -> std_ity (rep d2) ->
  positive_period (per d1) -> positive_period (per d2) ->
  fits (fst (per d1) * snd (per d2)) -> fits (snd (per d1) * fst (per d2)) ->
  in_range (rep d1) v -> (sgn (rep d1) = true -> sgn (rep d2) = false -> 0 <= v) ->
  (value (per d1) == inject_Z K * value (per d2))%Q -> int64 (v * K) -> in_range (rep d2) (v * K) ->
  convert d1 d2 v = Some (Ok (v * K)) /\ (seconds_of (v * K) (per d2) == seconds_of v (per d1))%Q.
Proof.
  intros d1 d2 v K S1 S2 P1 P2 F1 F2 V SV E I R.
  assert (N : ~ (value (per d2) == 0)%Q).
  { destruct P2 as [A B]. unfold value, frac. intros Q. apply (inj_nz (fst (per d2)) ltac:(lia)).
    assert (Q2 : ~ (inject_Z (snd (per d2)) == 0)%Q) by (apply inj_nz; lia).
    transitivity (inject_Z (fst (per d2)) / inject_Z (snd (per d2)) * inject_Z (snd (per d2)))%Q; [field; exact Q2|]. rewrite Q. ring. }
  assert (HS : (seconds_of (v * K) (per d2) == seconds_of v (per d1))%Q).
  { unfold seconds_of. unfold value in E. rewrite E, inject_Z_mult. ring. }
  split; [|exact HS].
  assert (C : fst (per d1) * snd (per d2) = (snd (per d1) * fst (per d2)) * K).
  { assert (Z1 : snd (per d1) <> 0) by (destruct P1; lia). assert (Z2 : snd (per d2) <> 0) by (destruct P2; lia).
    unfold value in E. assert (H : (frac (fst (per d1)) (snd (per d1)) == frac (K * fst (per d2)) (snd (per d2)))%Q).
    { rewrite E. unfold frac. rewrite inject_Z_mult. apply inj_nz in Z2. field. exact Z2. }
    apply frac_cross in H; [|exact Z1|exact Z2]. lia. }
  assert (B0 : 0 < snd (per d1) * fst (per d2)) by (destruct P1, P2; nia).
  rewrite convert_exact; try assumption.
  - rewrite (truncated_frac _ (v * K) 1); [|lia|].
    + rewrite Z.quot_1_r, wrap_id; [reflexivity|now apply std_pos|exact R].
    + unfold frac. rewrite <- HS. unfold seconds_of. fold (value (per d2)). field. exact N.
  - rewrite C. rewrite (Z.gcd_comm (_ * K)). rewrite Z.gcd_mul_diag_l by lia. rewrite (Z.mul_comm _ K), Z.div_mul by lia. exact I.
Qed.
Print Assumptions C55_finer_exact.

(* Both durations are whole numbers of ticks of the common type. *)
Theorem C55_common_period_exact : forall d1 d2 c v1 v2, combine d1 d2 c v1 v2 ->
  exists m1 m2, ticks d1 d2 c v1 v2 m1 m2.
Proof.
  intros d1 d2 c v1 v2 (S1 & S2 & P1 & P2 & R & C & V1 & V2).
  destruct (common_ticks d1 d2 c v1 P1 P2 R C) as [[m1 M1] _]. destruct (common_ticks d1 d2 c v2 P1 P2 R C) as [_ [m2 M2]].
  exists m1, m2. split; assumption.
Qed.
Print Assumptions C55_common_period_exact.

Lemma combine_common d1 d2 c v1 v2 : combine d1 d2 c v1 v2 ->
  std_ity (rep c) /\ rep c <> U64 /\ positive_period (per c).
Proof.
  intros (S1 & S2 & P1 & P2 & R & C & V1 & V2). destruct (common_inv d1 d2 c P1 P2 R C) as [PT PC].
  destruct (promoted_std _ _ _ S1 S2 PT) as [A B]. split; [exact A|]. split; [exact B|]. rewrite PC. now apply common_period_pos.
Qed.

(* C55 (provided: the ticks, and their sum or difference, have to be representable in the common
   type).  Sum and difference are exact. *)
Theorem C55_sum_exact : forall d1 d2 c v1 v2 m1 m2, combine d1 d2 c v1 v2 -> ticks d1 d2 c v1 v2 m1 m2 ->
  in_range (rep c) m1 -> in_range (rep c) m2 -> in_range (rep c) (m1 + m2) ->
  dadd d1 d2 v1 v2 = Some (Ok (m1 + m2)) /\
  (seconds_of (m1 + m2) (per c) == seconds_of v1 (per d1) + seconds_of v2 (per d2))%Q.
Proof.
  intros d1 d2 c v1 v2 m1 m2 H [E1 E2] R1 R2 R3. destruct (combine_common _ _ _ _ _ H) as (S & U & P).
  pose proof (std_pos _ S) as B. destruct H as (S1 & S2 & P1 & P2 & R & C & V1 & V2). split.
  - unfold dadd. rewrite (with_common_value d1 d2 c v1 v2 m1 m2); try assumption; try now apply (std_int64 (rep c)).
    rewrite !wrap_id by assumption. rewrite arith_ok; [|now apply std_pos, promote_std|now apply promote_range].
    cbn [bind]. unfold make. now rewrite wrap_id.
  - rewrite seconds_plus, E1, E2. reflexivity.
Qed.
Print Assumptions C55_sum_exact.
Theorem C55_difference_exact : forall d1 d2 c v1 v2 m1 m2, combine d1 d2 c v1 v2 -> ticks d1 d2 c v1 v2 m1 m2 ->
  in_range (rep c) m1 -> in_range (rep c) m2 -> in_range (rep c) (m1 - m2) ->
  dsub d1 d2 v1 v2 = Some (Ok (m1 - m2)) /\
  (seconds_of (m1 - m2) (per c) == seconds_of v1 (per d1) - seconds_of v2 (per d2))%Q.
Proof.
  intros d1 d2 c v1 v2 m1 m2 H [E1 E2] R1 R2 R3. destruct (combine_common _ _ _ _ _ H) as (S & U & P).
  pose proof (std_pos _ S) as B. destruct H as (S1 & S2 & P1 & P2 & R & C & V1 & V2). split.
  - unfold dsub. rewrite (with_common_value d1 d2 c v1 v2 m1 m2); try assumption; try now apply (std_int64 (rep c)).
    rewrite !wrap_id by assumption. rewrite arith_ok; [|now apply std_pos, promote_std|now apply promote_range].
    cbn [bind]. unfold make. now rewrite wrap_id.
  - rewrite seconds_minus, E1, E2. reflexivity.
Qed.
Print Assumptions C55_difference_exact.

(* C55 (likewise).  The six comparisons are those of the exact rational numbers. *)
Theorem C55_comparison_exact : forall d1 d2 c v1 v2 m1 m2, combine d1 d2 c v1 v2 -> ticks d1 d2 c v1 v2 m1 m2 ->
  in_range (rep c) m1 -> in_range (rep c) m2 ->
  exists lt gt le ge eq ne,
    dlt d1 d2 v1 v2 = Some (Ok lt) /\ dgt d1 d2 v1 v2 = Some (Ok gt) /\ dle d1 d2 v1 v2 = Some (Ok le) /\
    dge d1 d2 v1 v2 = Some (Ok ge) /\ deq d1 d2 v1 v2 = Some (Ok eq) /\ dne d1 d2 v1 v2 = Some (Ok ne) /\
    (lt = true <-> (seconds_of v1 (per d1) < seconds_of v2 (per d2))%Q) /\
    (gt = true <-> (seconds_of v2 (per d2) < seconds_of v1 (per d1))%Q) /\
    (le = true <-> ~ (seconds_of v2 (per d2) < seconds_of v1 (per d1))%Q) /\
    (ge = true <-> ~ (seconds_of v1 (per d1) < seconds_of v2 (per d2))%Q) /\
    (eq = true <-> (seconds_of v1 (per d1) == seconds_of v2 (per d2))%Q) /\
    (ne = true <-> ~ (seconds_of v1 (per d1) == seconds_of v2 (per d2))%Q).
Proof.
  intros d1 d2 c v1 v2 m1 m2 H [E1 E2] R1 R2. destruct (combine_common _ _ _ _ _ H) as (S & U & P).
  pose proof (std_pos _ S) as B. destruct H as (S1 & S2 & P1 & P2 & R & C & V1 & V2).
  exists (m1 <? m2), (m2 <? m1), (negb (m2 <? m1)), (negb (m1 <? m2)), (m1 =? m2), (negb (m1 =? m2)).
  assert (W : forall (f : dty -> Z -> Z -> result bool), with_common d1 d2 v1 v2 f = Some (f c m1 m2)).
  { intros f. rewrite (with_common_value d1 d2 c v1 v2 m1 m2); try assumption; try now apply (std_int64 (rep c)). now rewrite !wrap_id. }
  unfold dle, dge, rnot, dlt, dgt, deq, dne. rewrite !W. cbn [obind bind].
  rewrite <- E1, <- E2. rewrite <- !seconds_lt, <- !seconds_inj by exact P.
  repeat (split; [reflexivity|]). rewrite !negb_true_iff, !Z.ltb_lt, !Z.ltb_ge, Z.eqb_eq, Z.eqb_neq. lia.
Qed.
Print Assumptions C55_comparison_exact.

(* Otherwise the ticks are silently narrowed to the common type before they are compared. *)
Theorem C200_comparison_of_narrowed_ticks_refuted : forall d1 d2 c v1 v2 m1 m2, combine d1 d2 c v1 v2 ->
  ticks d1 d2 c v1 v2 m1 m2 -> int64 m1 -> int64 m2 ->
  dlt d1 d2 v1 v2 = Some (Ok (wrap (rep c) m1 <? wrap (rep c) m2)) /\
  deq d1 d2 v1 v2 = Some (Ok (wrap (rep c) m1 =? wrap (rep c) m2)).
Proof.
  intros d1 d2 c v1 v2 m1 m2 (S1 & S2 & P1 & P2 & R & C & V1 & V2) [E1 E2] I1 I2. unfold dlt, deq.
  split; rewrite (with_common_value d1 d2 c v1 v2 m1 m2); assumption || reflexivity.
Qed.
Print Assumptions C200_comparison_of_narrowed_ticks_refuted.

(* So with an unsigned count and a narrower signed one, every count in the upper half of the
   unsigned type compares below zero. *)
Theorem C200_unsigned_above_half_refuted : forall t1 t2 p v, std_ity t1 -> std_ity t2 -> bits t1 < 64 ->
  sgn t1 = false -> sgn t2 = true -> bits t2 < bits t1 -> positive_period p -> representable p p ->
  2 ^ (bits t1 - 1) <= v < 2 ^ bits t1 ->
  dlt (Dty t1 p) (Dty t2 p) v 0 = Some (Ok true) /\ dgt (Dty t1 p) (Dty t2 p) v 0 = Some (Ok false).
Proof.
  intros t1 t2 p v S1 S2 B G1 G2 L P R V.
  assert (PT : promoted_type t1 t2 = Some (Ity (bits t1) true)).
  { clear - S1 S2 B G1 G2 L. unfold std_ity in *. destruct t1 as [b1 s1], t2 as [b2 s2]. cbn [bits sgn] in *. subst s1 s2.
    destruct S1 as [->|[->|[->| ->]]]; destruct S2 as [->|[->|[->| ->]]]; try lia; reflexivity. }
  assert (PC : common_period p p = p).
  { unfold common_period. rewrite Z.gcd_diag, Z.lcm_diag. destruct P. destruct p as [n e]. cbn [fst snd] in *. f_equal; lia. }
  assert (C : common (Dty t1 p) (Dty t2 p) = Some (Dty (Ity (bits t1) true) p)).
  { rewrite (common_value _ _ (Ity (bits t1) true)); try assumption. cbn [per]. now rewrite PC. }
  pose proof (std_pos _ S1) as B1. pose proof (pow_half (bits t1) B1) as PH.
  assert (I : int64 v).
  { unfold int64. assert (2 ^ bits t1 <= 2 ^ 63) by (apply Z.pow_le_mono_r; lia). pose proof (Z.pow_pos_nonneg 2 (bits t1 - 1)). lia. }
  assert (I0 : int64 0) by (unfold int64; lia).
  assert (V1 : in_range t1 v) by (unfold in_range, imin, imax; rewrite G1; pose proof (Z.pow_pos_nonneg 2 (bits t1 - 1)); lia).
  assert (V2 : in_range t2 0).
  { unfold in_range, imin, imax. rewrite G2. pose proof (Z.pow_pos_nonneg 2 (bits t2 - 1)). pose proof (std_pos _ S2). lia. }
  assert (W : wrap (Ity (bits t1) true) v = v - 2 ^ bits t1).
  { unfold wrap, wraps. cbn [bits sgn]. replace (v + 2 ^ (bits t1 - 1)) with ((v - 2 ^ (bits t1 - 1)) + 1 * 2 ^ bits t1) by lia.
    rewrite Z.mod_add by lia. rewrite Z.mod_small by lia. lia. }
  assert (W0 : wrap (Ity (bits t1) true) 0 = 0).
  { apply wrap_id; [exact B1|]. unfold in_range, imin, imax. cbn [bits sgn]. pose proof (Z.pow_pos_nonneg 2 (bits t1 - 1)). lia. }
  unfold dlt, dgt.
  split; (rewrite (with_common_value _ _ (Dty (Ity (bits t1) true) p) v 0 v 0); try assumption; try reflexivity; cbn [rep]; rewrite W, W0; do 2 f_equal).
  - apply Z.ltb_lt. lia.
  - apply Z.ltb_ge. lia.
Qed.
Print Assumptions C200_unsigned_above_half_refuted.

(* With an unsigned 64 bit count on one side and an unsigned or 64 bit count on the other, no sum,
   difference or comparison compiles. *)
Theorem C200_uint64_does_not_compile_refuted : forall p1 p2 t v1 v2, std_ity t -> sgn t = false \/ bits t = 64 ->
  dadd (Dty U64 p1) (Dty t p2) v1 v2 = None /\ dlt (Dty U64 p1) (Dty t p2) v1 v2 = None /\
  deq (Dty U64 p1) (Dty t p2) v1 v2 = None /\ dsub (Dty t p1) (Dty U64 p2) v1 v2 = None.
Proof.
  intros p1 p2 t v1 v2 S H.
  assert (P : promoted_type U64 t = None /\ promoted_type t U64 = None).
  { destruct t as [b s]. unfold std_ity in S. cbn [bits sgn] in *.
    destruct S as [->|[->|[->| ->]]]; destruct s; destruct H as [H|H]; try discriminate H; split; reflexivity. }
  destruct P as [P1 P2]. unfold dadd, dlt, deq, dsub, with_common, common. cbn [rep]. rewrite P1, P2. repeat split.
Qed.
Print Assumptions C200_uint64_does_not_compile_refuted.

(* += and -= add and subtract, while the result is representable; signed overflow of 32 or 64 bit
   counts is undefined and narrower counts wrap. *)
Theorem C55_assign : forall d v w, std_ity (rep d) ->
  (in_range (rep d) (v + w) -> dadd_assign d v w = Ok (v + w)) /\
  (in_range (rep d) (v - w) -> dsub_assign d v w = Ok (v - w)) /\
  (sgn (rep d) = true -> 32 <= bits (rep d) ->
     (~ in_range (rep d) (v + w) -> dadd_assign d v w = UB) /\ (~ in_range (rep d) (v - w) -> dsub_assign d v w = UB)).
Proof.
  intros d v w S. pose proof (std_pos _ S) as B. pose proof (std_pos _ (promote_std _ S)) as BP. unfold dadd_assign, dsub_assign.
  split; [|split].
  - intros R. rewrite arith_ok; [|exact BP|now apply promote_range]. cbn [bind]. now rewrite wrap_id.
  - intros R. rewrite arith_ok; [|exact BP|now apply promote_range]. cbn [bind]. now rewrite wrap_id.
  - intros SG L. assert (E : promote (rep d) = rep d) by (unfold promote; destruct (Z.ltb_spec (bits (rep d)) 32); [lia|reflexivity]).
    rewrite E. split; intros R; rewrite arith_ub by assumption; reflexivity.
Qed.
Print Assumptions C55_assign.

(* 90 minutes and 5400001 ms; -1500 ms in seconds; 3 s + 250 ms *)
Example C55_case :
  let mi := Dty I32 (60, 1) in let ms := Dty I64 (1, 1000) in let s := Dty I64 (1, 1) in
  combine mi ms ms 90 5400001 /\ ticks mi ms ms 90 5400001 5400000 5400001 /\
  in_range I64 5400000 /\ in_range I64 (5400000 + 5400001) /\
  dlt mi ms 90 5400001 = Some (Ok true) /\ deq mi ms 90 5400000 = Some (Ok true) /\ dle mi ms 90 5399999 = Some (Ok false) /\
  convert ms s (-1500) = Some (Ok (-1)) /\ dadd_assign mi 90 (-100) = Ok (-10) /\ dsub_assign mi 90 100 = Ok (-10) /\ dadd s ms 3 250 = Some (Ok 3250) /\
  convert (Dty I64 (3600, 1)) (Dty I64 (1, 1000000000)) 2600000 = Some UB /\
  (* an hour against 20 seconds, both counted in 8 bits *)
  dlt (Dty (Ity 8 true) (3600, 1)) (Dty (Ity 8 true) (1, 1)) 1 20 = Some (Ok true) /\
  dlt (Dty (Ity 32 false) (1, 1)) (Dty (Ity 8 true) (1, 1)) 3000000000 0 = Some (Ok true) /\
  (* picoseconds cannot be compared with each other *)
  dlt (Dty I64 (1, 1000000000000)) (Dty I64 (1, 1000000000000)) 1 2 = None.
Proof.
  cbv zeta. unfold combine, ticks.
  repeat split; cbn [rep per fst snd]; try (unfold std_ity; cbn; lia); try (vm_compute; reflexivity); try (vm_compute; discriminate).
Qed.

(* ---- C86 *)
(* C86 (below 256 minutes, that is 4 h 16 min).  For a duration of ticks of 1/D seconds,
   other than the most negative, the fields of hh_mm_ss are those of its absolute value. *)
Theorem C86_hh_mm_ss : forall t D v, clock_rep t -> 0 < D -> fits (D * D) ->
  in_range t v -> not_min t v -> Z.abs v / (60 * D) < 256 ->
  exists h m s u, hours (Dty t (1, D)) v = Some (Ok h) /\ minutes (Dty t (1, D)) v = Some (Ok m) /\
    seconds (Dty t (1, D)) v = Some (Ok s) /\ subseconds (Dty t (1, D)) v = Some (Ok u) /\
    0 <= h /\ 0 <= m < 60 /\ 0 <= s < 60 /\ 0 <= u < D /\ Z.abs v = ((h * 60 + m) * 60 + s) * D + u /\
    (is_negative (Dty t (1, D)) v = true <-> v < 0).
Proof.
  intros t D v C HD F R NM L. pose proof (fits_3600 D HD F) as F36. set (a := Z.abs v) in *.
  assert (A : 0 <= a) by (unfold a; lia).
  assert (E60 : a / (60 * D) = a / D / 60) by (rewrite Z.mul_comm, Z.div_div by lia; reflexivity).
  assert (E36 : a / (3600 * D) = a / D / 60 / 60) by (rewrite !Z.div_div by lia; f_equal; lia).
  pose proof (Z.div_pos a D A HD) as Q0. set (s := a / D) in *.
  pose proof (Z.div_mod s 60 ltac:(lia)) as DS. pose proof (Z.mod_pos_bound s 60 ltac:(lia)) as MS. set (mm := s / 60) in *.
  assert (M0 : 0 <= mm) by (apply Z.div_pos; lia).
  pose proof (Z.div_mod mm 60 ltac:(lia)) as DM. pose proof (Z.mod_pos_bound mm 60 ltac:(lia)) as MM. set (h := mm / 60) in *.
  assert (H0 : 0 <= h) by (apply Z.div_pos; lia). rewrite E60 in L.
  pose proof (Z.div_mod a D ltac:(lia)) as DA. pose proof (Z.mod_pos_bound a D HD) as MA.
  exists h, (mm mod 60), (s mod 60), (a mod D).
  pose proof (hms_hours t D v C HD F F36 R NM) as X1. pose proof (hms_minutes t D v C HD F F36 R NM) as X2.
  pose proof (hms_seconds t D v C HD F R NM) as X3. pose proof (hms_subseconds t D v C HD F R NM) as X4.
  cbv zeta in X1, X2, X3, X4. unfold tick in *. fold a in X1, X2, X3, X4. rewrite E36 in X1, X2. rewrite E60 in X2, X3. fold s in X3.
  assert (W : h mod 256 = h) by (apply Z.mod_small; nia). rewrite W in X1, X2.
  rewrite (Z.mod_small mm 256) in X3 by lia.
  split; [exact X1|]. split; [rewrite X2; do 2 f_equal; rewrite Z.mod_small; lia|].
  split; [rewrite X3; do 2 f_equal; lia|]. split; [exact X4|].
  split; [exact H0|]. split; [exact MM|]. split; [exact MS|]. split; [exact MA|]. split; [fold s in DA; nia|].
  unfold is_negative. cbn [rep]. destruct (sgn t) eqn:SG.
  - apply Z.ltb_lt.
  - unfold in_range, imin in R. rewrite SG in R. split; [discriminate|lia].
Qed.
Print Assumptions C86_hh_mm_ss.

(* From 256 minutes on, seconds() is never below 60: the minutes it takes off are reduced modulo
   256. *)
Theorem C218_seconds_from_256_minutes_refuted : forall t D v, clock_rep t -> 0 < D -> fits (D * D) ->
  in_range t v -> not_min t v -> 256 <= Z.abs v / (60 * D) ->
  exists s, seconds (Dty t (1, D)) v = Some (Ok s) /\ 15360 <= s /\
            s = Z.abs v / D - 60 * ((Z.abs v / (60 * D)) mod 256).
Proof.
  intros t D v C HD F R NM L.
  exists (Z.abs v / D - 60 * ((Z.abs v / (60 * D)) mod 256)).
  split; [exact (hms_seconds t D v C HD F R NM)|]. split; [|reflexivity].
  assert (E60 : Z.abs v / (60 * D) = Z.abs v / D / 60) by (rewrite Z.mul_comm, Z.div_div by lia; reflexivity).
  rewrite E60 in L |- *. set (s := Z.abs v / D) in *. pose proof (Z.div_mod s 60 ltac:(lia)). pose proof (Z.mod_pos_bound s 60 ltac:(lia)).
  set (m := s / 60) in *. pose proof (Z.div_mod m 256 ltac:(lia)). pose proof (Z.mod_pos_bound m 256 ltac:(lia)).
  assert (1 <= m / 256) by (apply Z.div_le_lower_bound; lia). lia.
Qed.
Print Assumptions C218_seconds_from_256_minutes_refuted.

(* The hours wrap at 256, and then minutes() is wrong as well; subseconds() is always right. *)
Theorem C86_hours_modulo_256 : forall t D v, clock_rep t -> 0 < D -> fits (D * D) ->
  in_range t v -> not_min t v ->
  hours (Dty t (1, D)) v = Some (Ok ((Z.abs v / (3600 * D)) mod 256)) /\
  (Z.abs v / (3600 * D) < 256 -> minutes (Dty t (1, D)) v = Some (Ok ((Z.abs v / (60 * D)) mod 60))) /\
  subseconds (Dty t (1, D)) v = Some (Ok (Z.abs v mod D)).
Proof.
  intros t D v C HD F R NM. pose proof (fits_3600 D HD F) as F36. split; [exact (hms_hours t D v C HD F F36 R NM)|].
  split; [|exact (hms_subseconds t D v C HD F R NM)]. intros L.
  pose proof (hms_minutes t D v C HD F F36 R NM) as X. unfold tick in X. rewrite X. do 2 f_equal.
  set (a := Z.abs v) in *. assert (A : 0 <= a) by (unfold a; lia).
  assert (E36 : a / (3600 * D) = a / (60 * D) / 60) by (rewrite Z.div_div by lia; f_equal; lia).
  pose proof (Z.div_pos a (60 * D) A ltac:(lia)) as P. rewrite E36 in L |- *. set (m := a / (60 * D)) in *.
  pose proof (Z.div_pos m 60 P ltac:(lia)). pose proof (Z.div_mod m 60 ltac:(lia)). pose proof (Z.mod_pos_bound m 60 ltac:(lia)).
  rewrite (Z.mod_small (m / 60)) by lia. rewrite Z.mod_small; lia.
Qed.
Print Assumptions C86_hours_modulo_256.

(* 3:59:20.123 before; 4:16:05.123 *)
Example C86_case :
  let ms := Dty I64 (1, 1000) in
  clock_rep I64 /\ Z.abs (-14360123) / (60 * 1000) < 256 /\
  hours ms (-14360123) = Some (Ok 3) /\ minutes ms (-14360123) = Some (Ok 59) /\
  seconds ms (-14360123) = Some (Ok 20) /\ subseconds ms (-14360123) = Some (Ok 123) /\
  is_negative ms (-14360123) = true /\
  hours ms 15365123 = Some (Ok 4) /\ minutes ms 15365123 = Some (Ok 16) /\ seconds ms 15365123 = Some (Ok 15365) /\
  hours ms (3600000 * 257) = Some (Ok 1) /\ dabs (Dty I64 (1, 1)) (- 2 ^ 63) = Some UB.
Proof. cbv zeta. repeat split; try (vm_compute; reflexivity). right. right. split; reflexivity. Qed.

(* ---- C87 *)
(* C87.  is_leap() holds only of leap years, *)
Theorem C87_is_leap : forall y, is_leap y = true -> gregorian_leap y.
Proof.
  intros y H. unfold is_leap in H. apply Z.eqb_eq in H. right. apply Z.rem_divide in H; [|lia]. now apply Z.mod_divide; [lia|].
Qed.
Print Assumptions C87_is_leap.
(* but of no leap year other than those divisible by 400. *)
Theorem C219_is_leap_refuted : forall y, y mod 4 = 0 -> y mod 100 <> 0 -> gregorian_leap y /\ is_leap y = false.
Proof.
  intros y H4 H100. split; [left; auto|]. unfold is_leap. apply Z.eqb_neq. intros H. apply Z.rem_divide in H; [|lia].
  apply H100. apply Z.mod_divide; [lia|]. destruct H as [k ->]. exists (k * 4). lia.
Qed.
Print Assumptions C219_is_leap_refuted.

(* Within the range of the stored type, ok() tells whether a month or a day is in range. *)
Theorem C87_month_day_ok : forall x, 0 <= x < 256 ->
  (month_ok (month x) = true <-> 1 <= x <= 12) /\ (day_ok (day x) = true <-> 1 <= x <= 31).
Proof.
  intros x X. unfold month, day. rewrite wrap_U8, Z.mod_small by exact X. unfold month_ok, day_ok. rewrite !andb_true_iff, !Z.leb_le. lia.
Qed.
Print Assumptions C87_month_day_ok.
(* Outside it the argument is first reduced modulo 256. *)
Theorem C219_month_ok_refuted : forall k m, k <> 0 -> 1 <= m <= 12 -> ~ (1 <= m + 256 * k <= 12) /\ month_ok (month (m + 256 * k)) = true.
Proof.
  intros k m K M. split; [lia|]. unfold month. rewrite wrap_U8. rewrite (Z.mul_comm 256 k), Z.mod_add by lia. rewrite Z.mod_small by lia.
  unfold month_ok. rewrite andb_true_iff, !Z.leb_le. lia.
Qed.
Print Assumptions C219_month_ok_refuted.
(* A year outside the 16-bit numbers becomes another year. *)
Theorem C219_year_refuted : forall k y, k <> 0 -> - 2 ^ 15 <= y < 2 ^ 15 -> year (y + 65536 * k) = y.
Proof.
  intros k y K Y. unfold year, wrap, wraps. cbn [bits sgn].
  change (2 ^ 15) with 32768 in *. change (2 ^ 16) with 65536. change (2 ^ (16 - 1)) with 32768.
  replace (y + 65536 * k + 32768) with (y + 32768 + k * 65536) by lia. rewrite Z.mod_add by lia.
  rewrite Z.mod_small by lia. lia.
Qed.
Print Assumptions C219_year_refuted.

(* year + years is exact while the sum is a 16 bit number *)
Theorem C87_year_plus : forall y n, - 2 ^ 15 <= y + n < 2 ^ 15 -> year_plus y n = y + n.
Proof. intros y n H. unfold year_plus, year. apply wrap_id; [cbn; lia|]. unfold in_range. cbn. lia. Qed.
Print Assumptions C87_year_plus.

(* every 16 bit year but the most negative is ok; months and days add modulo 256 *)
Theorem C87_year_ok_units : forall y x z, - 2 ^ 15 <= y < 2 ^ 15 -> 0 <= x < 256 -> 0 <= z < 256 ->
  (year_ok (year y) = true <-> y <> - 2 ^ 15) /\
  unit_add U8 x z = (x + z) mod 256 /\ unit_sub U8 x z = (x - z) mod 256.
Proof.
  intros y x z Y X Z0. split; [|split; reflexivity]. unfold year. rewrite wrap_id; [|cbn; lia|unfold in_range; cbn; lia].
  unfold year_ok. rewrite Z.leb_le. lia.
Qed.
Print Assumptions C87_year_ok_units.

(* The conversion of a day number to a date is by average months and years, and is not the
   Gregorian calendar: 59 days after the epoch is 29 February 1970, 365 days after it is still
   1970. *)
Theorem C219_year_month_day_refuted :
  ymd_year 59 = Some (Ok 1970) /\ ymd_month 59 = Some (Ok 2) /\ ymd_day 59 = Some (Ok 29) /\ ~ gregorian_date 1970 2 29 /\
  ymd_year 365 = Some (Ok 1970).
Proof.
  repeat (split; [vm_compute; reflexivity|]). split; [|vm_compute; reflexivity].
  intros [_ H]. vm_compute in H. destruct H as [_ H]. now apply H.
Qed.
Print Assumptions C219_year_month_day_refuted.
(* and in the month before the epoch no day is one at all *)
Theorem C219_before_epoch_refuted : forall n, -30 <= n <= -1 -> exists d, ymd_day n = Some (Ok d) /\ day_ok d = false.
Proof.
  intros n H.
  assert (E : exists k, (k < 30)%nat /\ n = -1 - Z.of_nat k) by (exists (Z.to_nat (-1 - n)); lia). destruct E as (k & K & ->). clear H.
  do 30 (destruct k as [|k]; [eexists; split; [vm_compute; reflexivity|vm_compute; reflexivity]|]). lia.
Qed.
Print Assumptions C219_before_epoch_refuted.

Example C87_case :
  is_leap 2000 = true /\ is_leap 2024 = false /\ 2024 mod 4 = 0 /\ 2024 mod 100 <> 0 /\ is_leap (-400) = true /\
  month_ok (month 13) = false /\ month_ok (month 257) = true /\ day_ok (day 0) = false /\
  year_plus 1970 54 = 2024 /\ unit_add U8 12 250 = 6 /\ unit_sub U8 1 2 = 255 /\ year 40000 = -25536 /\ year_ok (year 32768) = false /\
  ymd_day 0 = Some (Ok 1) /\ ymd_month 40 = Some (Ok 2).
Proof. repeat split; try (vm_compute; reflexivity). vm_compute. discriminate. Qed.

(* ---- C88 *)
(* C88 (not where the larger type is unsigned and the smaller signed).  promoted_type is
   the narrowest type that holds all the values of both. *)
Theorem C88_promoted_type : forall t1 t2 r, std_ity t1 -> std_ity t2 -> ~ mixed t1 t2 -> promoted_type t1 t2 = Some r ->
  std_ity r /\ (forall v, in_range t1 v \/ in_range t2 v -> in_range r v) /\
  (forall t, std_ity t -> (forall v, in_range t1 v \/ in_range t2 v -> in_range t v) -> bits r <= bits t).
Proof.
  intros t1 t2 r S1 S2 M P. split; [now apply (promoted_std t1 t2)|]. split.
  - intros v. revert M P. unfold mixed. std8 S1; std8 S2; cbn; intros M E; try discriminate E; injection E as <-; unfold in_range; cbn; lia.
  - intros t S H. pose proof (H (imin t1)) as H1. pose proof (H (imax t1)) as H2. pose proof (H (imin t2)) as H3. pose proof (H (imax t2)) as H4. clear H.
    revert M P H1 H2 H3 H4. unfold mixed.
    std8 S1; std8 S2; cbn; intros M E; try discriminate E; injection E as <-; unfold in_range; cbn; (exfalso; lia) || std8 S; cbn; lia.
Qed.
Print Assumptions C88_promoted_type.

(* It exists except for unsigned 64 bit types with an unsigned or 64 bit one. *)
Theorem C88_promoted_type_exists : forall t1 t2, std_ity t1 -> std_ity t2 ->
  promoted_type t1 t2 = None <-> (t1 = U64 \/ t2 = U64) /\ ~ mixed t1 t2.
Proof.
  intros t1 t2 S1 S2. unfold mixed, U64.
  std8 S1; std8 S2; cbn; split; intros H; try discriminate H; try reflexivity;
    try (split; [auto|lia]); destruct H as [[H|H] N]; try discriminate H; exfalso; apply N; lia.
Qed.
Print Assumptions C88_promoted_type_exists.

(* In the mixed case the sign bit is taken from the unsigned type. *)
Theorem C220_mixed_refuted : forall t1 t2, std_ity t1 -> std_ity t2 -> mixed t1 t2 ->
  exists r, promoted_type t1 t2 = Some r /\ (in_range t1 (imax r + 1) \/ in_range t2 (imax r + 1)) /\ ~ in_range r (imax r + 1).
Proof.
  intros t1 t2 S1 S2. unfold mixed.
  std8 S1; std8 S2; cbn; intros M; try (exfalso; lia); (eexists; split; [reflexivity|]); unfold in_range; cbn; lia.
Qed.
Print Assumptions C220_mixed_refuted.

Example C88_case :
  promoted_type (Ity 16 false) (Ity 16 true) = Some I32 /\ promoted_type (Ity 8 false) I32 = Some I32 /\
  promoted_type (Ity 32 false) (Ity 8 true) = Some I32 /\ promoted_type U64 U64 = None /\ promoted_type U64 I32 = Some I64 /\
  ~ mixed (Ity 16 false) (Ity 16 true) /\ mixed (Ity 32 false) (Ity 8 true).
Proof. repeat split; try reflexivity; unfold mixed; cbn; lia. Qed.
