(* estd durations and time points beside those of std::chrono. *)
From Coq Require Import ZArith QArith Bool Lia.
From Verif Require Import Base BaseLemmas MachInt Ratio_Model Ratio_Spec Ratio_Proofs Chrono_Model Chrono_Spec Chrono_Proofs Sch_Model Sch_Spec Sch_Proofs.
Local Open Scope Z_scope.

(* C467: an estd duration made of an std duration is it, truncated toward zero to whole ticks *)
Theorem C467_from_std : forall d1 d2 k l v, std_ity (rep d1) -> std_ity (rep d2) ->
  positive_period (per d1) -> positive_period (per d2) -> tick_is (per d1) (per d2) k l ->
  in_range (rep d1) v -> product_fits (rep d1) (v * k) ->
  let whole := truncated (seconds_of v (per d1) / value (per d2)) in
  in_range (rep d2) whole -> from_std d1 d2 v = Some (Ok whole).
Proof.
  intros d1 d2 k l v S1 S2 P1 P2 T V F whole R. rewrite (convert_from_value d1 d2 k l) by assumption.
  unfold whole in *. rewrite (tick_truncated _ _ k l) in * by assumption. rewrite wrap_id; [reflexivity|now apply std_pos|exact R].
Qed.
Print Assumptions C467_from_std.
(* the same for a time point of a clock that counts from the Unix epoch *)
Theorem C467_time_point : forall d1 d2 k l t, std_ity (rep d1) -> std_ity (rep d2) ->
  positive_period (per d1) -> positive_period (per d2) -> tick_is (per d1) (per d2) k l ->
  in_range (rep d1) t -> product_fits (rep d1) (t * k) ->
  let whole := truncated (seconds_of t (per d1) / value (per d2)) in
  in_range (rep d2) whole -> tp_from_std d1 d2 t = Some (Ok whole).
Proof. exact C467_from_std. Qed.
Print Assumptions C467_time_point.
(* the std duration made of an estd duration is the same length of time, and comes back as it was *)
Theorem C467_back : forall d v,
  (seconds_of (snd (to_std d v)) (per (fst (to_std d v))) == seconds_of v (per d))%Q /\
  (std_ity (rep d) -> positive_period (per d) -> in_range (rep d) v ->
   from_std (fst (to_std d v)) d (snd (to_std d v)) = Some (Ok v)).
Proof.
  intros d v. split; [reflexivity|]. intros S P V. cbn [to_std fst snd].
  rewrite (convert_from_value d d 1 1); try assumption.
  - rewrite Z.mul_1_r, Z.quot_1_r, wrap_id; [reflexivity|now apply std_pos|exact V].
  - unfold tick_is, lowest_terms, fits. repeat split; try lia; reflexivity.
  - rewrite Z.mul_1_r. unfold product_fits, int64. clear P. destruct d as [r p]. cbn [rep] in *. std8 S; unfold in_range in V; cbn in *; lia.
Qed.
Print Assumptions C467_back.
(* duration_cast of an std duration *)
Theorem C467_cast : forall d1 d2 v, std_ity (rep d1) -> std_ity (rep d2) ->
  positive_period (per d1) -> positive_period (per d2) ->
  fits (fst (per d1) * snd (per d2)) -> fits (snd (per d1) * fst (per d2)) ->
  in_range (rep d1) v -> (sgn (rep d1) = true -> sgn (rep d2) = false -> 0 <= v) ->
  int64 (v * (fst (per d1) * snd (per d2) / Z.gcd (fst (per d1) * snd (per d2)) (snd (per d1) * fst (per d2)))) ->
  let whole := truncated (seconds_of v (per d1) / value (per d2)) in
  in_range (rep d2) whole -> cast_std d1 d2 v = Some (Ok whole).
Proof.
  intros d1 d2 v S1 S2 P1 P2 F1 F2 V SV I whole R. unfold cast_std.
  rewrite (proj2 (C467_back d1 v) S1 P1 V : from_std d1 d1 v = _). cbn [rbind].
  rewrite convert_exact by assumption. fold whole. rewrite wrap_id; [reflexivity|now apply std_pos|exact R].
Qed.
Print Assumptions C467_cast.

(* C468: but the product is formed first: it overflows although the result is representable *)
Theorem C468_product_overflow_refuted : forall d1 d2 k l v, std_ity (rep d1) ->
  positive_period (per d1) -> positive_period (per d2) -> tick_is (per d1) (per d2) k l ->
  in_range (rep d1) v -> ~ (bits (rep d1) = 64 /\ sgn (rep d1) = false) -> ~ int64 (v * k) -> from_std d1 d2 v = Some UB.
Proof.
  intros d1 d2 k l v S1 P1 P2 T V N F. apply (convert_from_ub d1 d2 k l); try assumption. intros E. apply N. now rewrite E.
Qed.
Print Assumptions C468_product_overflow_refuted.
(* a count too large for the estd representation is another count, without a sign of it *)
Theorem C468_narrowed_refuted : forall d1 d2 k l v, std_ity (rep d1) -> std_ity (rep d2) ->
  positive_period (per d1) -> positive_period (per d2) -> tick_is (per d1) (per d2) k l ->
  in_range (rep d1) v -> product_fits (rep d1) (v * k) ->
  let whole := truncated (seconds_of v (per d1) / value (per d2)) in
  ~ in_range (rep d2) whole -> exists other, from_std d1 d2 v = Some (Ok other) /\ other <> whole.
Proof.
  intros d1 d2 k l v S1 S2 P1 P2 T V F whole R. rewrite (convert_from_value d1 d2 k l) by assumption.
  eexists. split; [reflexivity|]. unfold whole in *. rewrite (tick_truncated _ _ k l) in * by assumption.
  intros E. apply R. rewrite <- E. apply wrap_range. now apply std_pos.
Qed.
Print Assumptions C468_narrowed_refuted.
(* C469: an std time point moved by an estd duration *)
Theorem C469_moved : forall d1 d2 k1 k2 t v, std_ity (rep d1) -> std_ity (rep d2) ->
  positive_period (per d1) -> positive_period (per d2) ->
  let r := common_type (rep d1) (rep d2) in let c := common_tick (per d1) (per d2) in
  fits (snd c) -> whole_ticks (per d1) c k1 -> whole_ticks (per d2) c k2 ->
  in_range r (t * k1) -> in_range r (v * k2) ->
  (in_range r (t * k1 + v * k2) -> exists n, tp_add d1 d2 t v = Some (Ok n) /\
     (seconds_of n c == seconds_of t (per d1) + seconds_of v (per d2))%Q) /\
  (in_range r (t * k1 - v * k2) -> exists n, tp_sub d1 d2 t v = Some (Ok n) /\
     (seconds_of n c == seconds_of t (per d1) - seconds_of v (per d2))%Q).
Proof.
  intros d1 d2 k1 k2 t v S1 S2 P1 P2 r c F W1 W2 R1 R2.
  pose proof (common_tick_pos _ _ P1 P2) as PC. fold c in PC.
  split; intros R3; eexists; (split; [unfold tp_add, tp_sub; cbn [to_std fst snd]; apply (std_sum_value _ d1 d2 k1 k2); assumption|]).
  - rewrite seconds_plus, (whole_seconds (per d1)), (whole_seconds (per d2)) by assumption. reflexivity.
  - rewrite seconds_minus, (whole_seconds (per d1)), (whole_seconds (per d2)) by assumption. reflexivity.
Qed.
Print Assumptions C469_moved.
(* in place, by a duration whose tick is a whole number of ticks of the time point; the value of the
   expression is the same instant *)
Theorem C469_in_place : forall d1 d2 k t v, std_ity (rep d1) -> std_ity (rep d2) ->
  positive_period (per d1) -> positive_period (per d2) -> whole_ticks (per d2) (per d1) k ->
  in_range (rep d2) v -> in_range (rep d1) (v * k) ->
  (in_range (rep d1) (t + v * k) -> tp_add_assign d1 d2 t v = Some (Ok (t + v * k)) /\
     (seconds_of (t + v * k) (per d1) == seconds_of t (per d1) + seconds_of v (per d2))%Q) /\
  (in_range (rep d1) (t - v * k) -> tp_sub_assign d1 d2 t v = Some (Ok (t - v * k)) /\
     (seconds_of (t - v * k) (per d1) == seconds_of t (per d1) - seconds_of v (per d2))%Q).
Proof.
  intros d1 d2 k t v S1 S2 P1 P2 W R2 R1. split; intros R3; (split; [unfold tp_add_assign, tp_sub_assign; now apply std_assign_value|]).
  - rewrite seconds_plus, (whole_seconds (per d2) (per d1)) by assumption. reflexivity.
  - rewrite seconds_minus, (whole_seconds (per d2) (per d1)) by assumption. reflexivity.
Qed.
Print Assumptions C469_in_place.
Theorem C469_value_returned : forall d1 d2 k t, std_ity (rep d1) -> std_ity (rep d2) ->
  positive_period (per d1) -> positive_period (per d2) ->
  let r := common_type (rep d1) (rep d2) in let c := common_tick (per d1) (per d2) in
  fits (snd c) -> whole_ticks (per d1) c k -> in_range r (t * k) ->
  exists n, returned d1 d2 (Some (Ok t)) = Some (Ok n) /\ (seconds_of n c == seconds_of t (per d1))%Q.
Proof.
  intros d1 d2 k t S1 S2 P1 P2 r c F W R. pose proof (common_tick_pos _ _ P1 P2) as PC. fold c in PC.
  pose proof (common_type_std _ _ S1 S2) as SC.
  exists (t * k). split; [|now apply whole_seconds]. unfold returned, std_common. cbv zeta.
  change (Z.lcm (snd (per d1)) (snd (per d2))) with (snd c). rewrite (intmax_fits _ F). cbn [obind rbind].
  change (Z.gcd (fst (per d1)) (fst (per d2))) with (fst c). rewrite <- surjective_pairing. fold r.
  rewrite (std_convert_value d1 (Dty r c) k); try assumption; [|now apply common_lifts_l]. cbn [rep].
  rewrite wrap_id; [reflexivity|now apply std_pos|exact R].
Qed.
Print Assumptions C469_value_returned.
(* by any other duration the program does not compile *)
Theorem C469_finer_rejected : forall d1 d2 k l t v, positive_period (per d1) -> positive_period (per d2) ->
  tick_is (per d2) (per d1) k l -> l <> 1 -> tp_add_assign d1 d2 t v = None /\ tp_sub_assign d1 d2 t v = None.
Proof.
  intros d1 d2 k l t v P1 P2 T N. unfold tp_add_assign, tp_sub_assign, std_assign, std_convert.
  rewrite (std_divide_value _ _ k l) by assumption. cbn [obind snd]. destruct (Z.eqb_spec l 1); [contradiction|]. split; reflexivity.
Qed.
Print Assumptions C469_finer_rejected.

(* C470: a time point before the epoch, moved later by an unsigned duration, is in the far future *)
Theorem C470_before_epoch_refuted : forall p t v, positive_period p -> fits (snd p) -> - 2 ^ 63 <= t < 0 -> 0 <= v < - t ->
  tp_add (Dty I64 p) (Dty U64 p) t v = Some (Ok (2 ^ 64 + (t + v))).
Proof.
  intros p t v P F T V. unfold tp_add, std_sum, std_common. cbn [to_std fst snd per rep]. cbv zeta.
  destruct P as [A B]. rewrite Z.lcm_diag, Z.gcd_diag, !Z.abs_eq by lia. rewrite (intmax_fits _ F). rewrite <- surjective_pairing.
  change (common_type I64 U64) with U64. cbn [obind]. unfold std_convert. cbn [per rep].
  rewrite (std_divide_value p p 1 1); [|split; assumption|split; assumption|unfold tick_is, lowest_terms, fits; repeat split; try lia; reflexivity].
  cbn [obind fst snd]. rewrite Z.eqb_refl. cbv zeta. change (common_type U64 I64) with U64. change (common_type U64 U64) with U64. change (usual U64 I64) with U64.
  change (promote U64) with U64. change (wrap U64 1) with 1. rewrite !Z.mul_1_r. cbn [obind].
  assert (WT : wrap U64 t = 2 ^ 64 + t).
  { unfold wrap, wrapu. cbn [sgn bits U64]. symmetry. apply (Z.mod_unique _ _ (-1)); [left; lia|lia]. }
  rewrite WT. rewrite (wrap_id U64 v) by (unfold in_range; cbn; lia).
  unfold arith. cbn [sgn U64 bind]. f_equal. f_equal.
  assert (I : forall z, 0 <= z < 2 ^ 64 -> wrap (Ity 64 false) z = z) by (intros; apply wrap_id; unfold in_range; cbn; lia).
  unfold U64 in *. rewrite (I (2 ^ 64 + t)), !(I v) by lia. rewrite !(I (2 ^ 64 + t)) by lia. rewrite !(I (2 ^ 64 + t + v)) by lia. lia.
Qed.
Print Assumptions C470_before_epoch_refuted.
(* a move past the last instant is undefined behaviour *)
Theorem C470_past_the_end_refuted : forall d1 d2 k1 k2 t v, std_ity (rep d1) -> std_ity (rep d2) ->
  positive_period (per d1) -> positive_period (per d2) ->
  let r := common_type (rep d1) (rep d2) in let c := common_tick (per d1) (per d2) in
  fits (snd c) -> whole_ticks (per d1) c k1 -> whole_ticks (per d2) c k2 ->
  in_range r (t * k1) -> in_range r (v * k2) -> sgn r = true -> 32 <= bits r ->
  ~ in_range r (t * k1 + v * k2) -> tp_add d1 d2 t v = Some UB.
Proof.
  intros d1 d2 k1 k2 t v S1 S2 P1 P2 r c F W1 W2 R1 R2 SG L R3. unfold tp_add, std_sum, std_common. cbn [to_std fst snd]. cbv zeta.
  change (Z.lcm (snd (per d1)) (snd (per d2))) with (snd c). rewrite (intmax_fits _ F). cbn [obind].
  change (Z.gcd (fst (per d1)) (fst (per d2))) with (fst c). rewrite <- surjective_pairing. fold r.
  pose proof (common_type_std _ _ S1 S2) as SC. pose proof (common_tick_pos _ _ P1 P2) as PC.
  rewrite (std_convert_value d1 (Dty r c) k1); try assumption; [|now apply common_lifts_l]. cbn [obind].
  rewrite (std_convert_value d2 (Dty r c) k2); try assumption; [|now apply common_lifts_r]. cbn [obind rep bind].
  rewrite !(wrap_id r) by (try assumption; now apply std_pos).
  assert (E : promote r = r) by (unfold promote; destruct (Z.ltb_spec (bits r) 32); [lia|reflexivity]).
  rewrite E, arith_ub by assumption. reflexivity.
Qed.
Print Assumptions C470_past_the_end_refuted.

(* the steady clock of a hosted library counts nanoseconds in 64 bits; estd seconds and milliseconds *)
Definition std_ns : dty := Dty I64 (1, 10 ^ 9).
Definition estd_s : dty := Dty I64 (1, 1).
Definition estd_ms : dty := Dty I64 (1, 1000).
Example C467_case : tick_is (per std_ns) (per estd_ms) 1 (10 ^ 6) /\ product_fits I64 (-2999999 * 1) /\
  from_std std_ns estd_ms (-2999999) = Some (Ok (-2)) /\ cast_std std_ns estd_ms 7654321 = Some (Ok 7) /\
  tp_from_std std_ns estd_s (5 * 10 ^ 9 + 1) = Some (Ok 5) /\ to_std estd_ms 250 = (Dty I64 (1, 1000), 250).
Proof.
  unfold tick_is, lowest_terms, fits, product_fits, int64. cbn [std_ns estd_ms per fst snd].
  repeat split; try lia; try (vm_compute; reflexivity).
Qed.
(* a month of hours as nanoseconds fits, three centuries do not, though as seconds they would *)
Example C468_case : tick_is (3600, 1) (1, 10 ^ 9) (3600 * 10 ^ 9) 1 /\
  from_std (Dty I64 (3600, 1)) std_ns 720 = Some (Ok (2592 * 10 ^ 12)) /\
  from_std (Dty I64 (3600, 1)) std_ns (300 * 8766) = Some UB /\
  from_std (Dty I64 (3600, 1)) estd_s (300 * 8766) = Some (Ok 9467280000) /\
  from_std (Dty I64 (1, 1)) (Dty (Ity 16 true) (1, 1000)) 40 = Some (Ok (-25536)).
Proof.
  unfold tick_is, lowest_terms, fits. cbn [fst snd]. repeat split; try lia; try (vm_compute; reflexivity).
Qed.
Example C469_case : whole_ticks (1, 10 ^ 9) (common_tick (1, 10 ^ 9) (1, 1000)) 1 /\
  whole_ticks (1, 1000) (common_tick (1, 10 ^ 9) (1, 1000)) (10 ^ 6) /\ fits (snd (common_tick (1, 10 ^ 9) (1, 1000))) /\
  tp_add std_ns estd_ms 77 5 = Some (Ok 5000077) /\ tp_sub std_ns estd_s 77 5 = Some (Ok (-4999999923)) /\
  tp_sub_assign std_ns estd_s (3 * 10 ^ 9) 2 = Some (Ok (10 ^ 9)) /\ tp_add_assign estd_s estd_ms 3 2 = None /\
  returned estd_s estd_ms (Some (Ok 3)) = Some (Ok 3000).
Proof.
  unfold whole_ticks, fits. repeat split; try lia; try (vm_compute; reflexivity).
Qed.
Example C470_case : tp_add (Dty I64 (1, 1)) (Dty U64 (1, 1)) (-10) 3 = Some (Ok (2 ^ 64 - 7)) /\
  tp_add std_ns std_ns (2 ^ 63 - 1) 1 = Some UB.
Proof. split; vm_compute; reflexivity. Qed.
