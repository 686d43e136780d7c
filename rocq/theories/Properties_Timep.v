(* C139-C143: time_point, and the product of a duration and a number. *)
From Coq Require Import ZArith QArith Lia Bool List.
From Verif Require Import Base MachInt Ratio_Spec Ratio_Model Ratio_Proofs Chrono_Spec Chrono_Model Chrono_Proofs Properties_Chrono
  Timep_Spec Timep_Model Timep_Proofs.
Import ListNotations.
Local Open Scope Z_scope.

(* ---- C139 *)
(* Along any history of += and -= of durations of the time point's own type, the time point is
   its first value plus the total, as long as each instant on the way is representable. *)
Theorem C139_history : forall d ss v, std_ity (rep d) -> Forall (own d) ss ->
  Forall (in_range (rep d)) (visited v (map delta ss)) ->
  tp_run d v ss = Some (Ok (v + total (map delta ss))).
Proof. intros. now apply run_exact. Qed.
Print Assumptions C139_history.

(* With an unsigned count, or one narrower than int, no step is undefined and the time point is
   the total modulo the width, whatever instants it went through. *)
Theorem C139_history_modulo : forall d ss v, std_ity (rep d) -> sgn (rep d) = false \/ bits (rep d) < 32 -> Forall (own d) ss ->
  in_range (rep d) v -> Forall (fun s => in_range (rep d) (match s with Later _ w => w | Earlier _ w => w end)) ss ->
  tp_run d v ss = Some (Ok (wrap (rep d) (v + total (map delta ss)))).
Proof. intros. now apply run_wraps. Qed.
Print Assumptions C139_history_modulo.

(* t + w is w after t: its difference from t is w, and taking w away again gives t. *)
Theorem C139_plus_then_minus : forall d v w, std_ity (rep d) -> rep d <> U64 -> positive_period (per d) ->
  representable (per d) (per d) -> in_range (rep d) v -> in_range (rep d) w -> in_range (rep d) (v + w) ->
  tp_plus d v d w = Some (Ok (v + w)) /\ tp_diff d d (v + w) v = Some (Ok w) /\ tp_minus d (v + w) d w = Some (Ok v).
Proof.
  intros d v w S U P R V W A. split; [|split].
  - exact (step_exact d v (Later d w) S eq_refl A).
  - rewrite diff_exact; try assumption; replace (v + w - v) with w by lia; [reflexivity|exact W].
  - pose proof (step_exact d (v + w) (Earlier d w) S eq_refl) as H. cbn [delta tp_step] in H. replace (v + w + - w) with v in H by lia. now apply H.
Qed.
Print Assumptions C139_plus_then_minus.

(* A default time point is its clock's epoch: a time point w after it is w since the epoch. *)
Theorem C139_min : forall d v, std_ity (rep d) -> in_range (rep d) v -> in_range (rep d) (tp_min d) /\ tp_min d <= v.
Proof.
  intros d v S V. assert (E : tp_min d = imin (rep d)).
  { unfold tp_min, make. apply wrap_id; [now apply std_pos|]. clear - S. std8 S; unfold in_range; cbn; lia. }
  rewrite E. split; [clear - S; std8 S; unfold in_range; cbn; lia|]. destruct V. assumption.
Qed.
Print Assumptions C139_min.
Theorem C139_epoch : forall d w, std_ity (rep d) -> in_range (rep d) w ->
  tp_plus d tp_default d w = tp_make d d w /\ tp_make d d w = Some (Ok w).
Proof.
  intros d w S W. split; [|apply as_own]. transitivity (Some (Ok (0 + w))).
  - exact (step_exact d 0 (Later d w) S eq_refl W).
  - unfold tp_make. now rewrite as_own.
Qed.
Print Assumptions C139_epoch.

Example C139_case :
  let ms := Dty I64 (1, 1000) in let u := Dty (Ity 16 false) (1, 1000) in
  tp_run ms 1000 [Later ms 500; Earlier ms 1700; Later ms 5] = Some (Ok (-195)) /\
  Forall (in_range I64) (visited 1000 [500; -1700; 5]) /\
  tp_run u 65000 [Later u 600; Later u 600; Earlier u 100] = Some (Ok 564) /\
  tp_diff ms ms 1500 1000 = Some (Ok 500) /\ tp_min u = 0 /\ tp_min (Dty I32 (1, 1)) = -2147483648 /\
  (* 32 and 64 bit signed counts overflow *)
  tp_run (Dty I32 (1, 1)) 2147483647 [Later (Dty I32 (1, 1)) 1] = Some UB.
Proof.
  cbv zeta. split; [vm_compute; reflexivity|]. split.
  - cbn [visited]. repeat (apply Forall_cons; [split; vm_compute; discriminate|]). apply Forall_nil.
  - repeat split; vm_compute; reflexivity.
Qed.

(* ---- C140 *)
(* The difference of two readings of an unsigned clock is the true elapsed time, even when the
   clock has wrapped in between, if less than one period of the clock has passed. *)
Theorem C140_elapsed : forall d n0 n1, std_ity (rep d) -> sgn (rep d) = false -> rep d <> U64 -> positive_period (per d) ->
  representable (per d) (per d) -> n0 <= n1 < n0 + 2 ^ bits (rep d) ->
  tp_diff d d (reading (rep d) n1) (reading (rep d) n0) = Some (Ok (n1 - n0)).
Proof. intros d n0 n1 S G U P R N. rewrite elapsed by assumption. now rewrite Z.mod_small by lia. Qed.
Print Assumptions C140_elapsed.

(* And it is the elapsed time modulo that period, always; so two instants differ by zero exactly
   when a whole number of periods lies between them. *)
Theorem C140_elapsed_modulo : forall d n0 n1, std_ity (rep d) -> sgn (rep d) = false -> rep d <> U64 -> positive_period (per d) ->
  representable (per d) (per d) ->
  tp_diff d d (reading (rep d) n1) (reading (rep d) n0) = Some (Ok ((n1 - n0) mod 2 ^ bits (rep d))).
Proof. intros. now apply elapsed. Qed.
Print Assumptions C140_elapsed_modulo.
(* With a count of 64 unsigned bits the difference of two time points does not compile. *)
Theorem C140_no_64_bits : forall d v1 v2, rep d = U64 -> tp_diff d d v1 v2 = None.
Proof. intros [r p] v1 v2 E. cbn in E. subst r. reflexivity. Qed.
Print Assumptions C140_no_64_bits.

(* 300 ticks later, across the wrap of 16 and of 32 bits *)
Example C140_case :
  let u := Dty (Ity 16 false) (1, 1000) in let w := Dty (Ity 32 false) (1, 1000) in
  reading (rep u) (65500 + 300) = 264 /\
  tp_diff u u (reading (rep u) (65500 + 300)) (reading (rep u) 65500) = Some (Ok 300) /\
  tp_diff w w (reading (rep w) (4294967290 + 300)) (reading (rep w) 4294967290) = Some (Ok 300) /\
  positive_period (per u) /\ representable (per u) (per u) /\ std_ity (rep w) /\ rep w <> U64 /\
  65500 <= 65500 + 300 < 65500 + 2 ^ bits (rep u).
Proof.
  cbv zeta. split; [vm_compute; reflexivity|]. split; [vm_compute; reflexivity|]. split; [vm_compute; reflexivity|].
  split; [split; vm_compute; reflexivity|]. split; [repeat split; vm_compute; (reflexivity || discriminate)|].
  split; [unfold std_ity; cbn; lia|]. split; [discriminate|]. split; vm_compute; (reflexivity || discriminate).
Qed.

(* ---- C141 *)
(* C141 (provided: the ticks have to be representable in the common type, and there is no
   operator<=).  Time points of one clock, of whatever units, compare and subtract as the
   instants they are. *)
Theorem C141_order : forall d1 d2 c v1 v2 m1 m2, Properties_Chrono.combine d1 d2 c v1 v2 -> ticks d1 d2 c v1 v2 m1 m2 ->
  in_range (rep c) m1 -> in_range (rep c) m2 ->
  exists lt gt ge eq ne,
    tp_lt d1 d2 v1 v2 = Some (Ok lt) /\ tp_gt d1 d2 v1 v2 = Some (Ok gt) /\
    tp_ge d1 d2 v1 v2 = Some (Ok ge) /\ tp_eq d1 d2 v1 v2 = Some (Ok eq) /\ tp_ne d1 d2 v1 v2 = Some (Ok ne) /\
    (lt = true <-> (seconds_of v1 (per d1) < seconds_of v2 (per d2))%Q) /\
    (gt = true <-> (seconds_of v2 (per d2) < seconds_of v1 (per d1))%Q) /\
    (ge = true <-> ~ (seconds_of v1 (per d1) < seconds_of v2 (per d2))%Q) /\
    (eq = true <-> (seconds_of v1 (per d1) == seconds_of v2 (per d2))%Q) /\
    (ne = true <-> ~ (seconds_of v1 (per d1) == seconds_of v2 (per d2))%Q).
Proof.
  intros d1 d2 c v1 v2 m1 m2 H T R1 R2.
  destruct (C55_comparison_exact d1 d2 c v1 v2 m1 m2 H T R1 R2)
    as (lt & gt & le & ge & eq & ne & A & B & _ & D & E & F & A' & B' & _ & D' & E' & F').
  exists lt, gt, ge, eq, ne. unfold tp_lt, tp_gt, tp_ge, tp_eq, tp_ne. tauto.
Qed.
Print Assumptions C141_order.
Theorem C141_difference : forall d1 d2 c v1 v2 m1 m2, Properties_Chrono.combine d1 d2 c v1 v2 -> ticks d1 d2 c v1 v2 m1 m2 ->
  in_range (rep c) m1 -> in_range (rep c) m2 -> in_range (rep c) (m1 - m2) ->
  exists m, tp_diff d1 d2 v1 v2 = Some (Ok m) /\
  (seconds_of m (per c) == seconds_of v1 (per d1) - seconds_of v2 (per d2))%Q.
Proof.
  intros d1 d2 c v1 v2 m1 m2 H T R1 R2 R3. exists (m1 - m2). unfold tp_diff. now apply (C55_difference_exact d1 d2 c v1 v2 m1 m2).
Qed.
Print Assumptions C141_difference.

(* Readings of an unsigned clock do not keep the order of the instants: after each wrap, a later
   instant compares earlier, though less than a period has passed. *)
Theorem C241_wrapped_order_refuted : forall d n0 n1, std_ity (rep d) -> sgn (rep d) = false -> rep d <> U64 -> positive_period (per d) ->
  representable (per d) (per d) -> n0 < n1 < n0 + 2 ^ bits (rep d) ->
  n0 / 2 ^ bits (rep d) <> n1 / 2 ^ bits (rep d) ->
  tp_lt d d (reading (rep d) n1) (reading (rep d) n0) = Some (Ok true).
Proof.
  intros d n0 n1 S G U P R N X. pose proof (std_pos _ S) as B. unfold reading, tp_lt, dlt.
  rewrite with_self; try assumption; try now apply wrap_range. do 2 f_equal. apply Z.ltb_lt.
  unfold wrap, wrapu. rewrite G. assert (M : 0 < 2 ^ bits (rep d)) by (apply Z.pow_pos_nonneg; lia).
  set (m := 2 ^ bits (rep d)) in *. pose proof (Z.div_mod n0 m ltac:(lia)). pose proof (Z.div_mod n1 m ltac:(lia)).
  pose proof (Z.mod_pos_bound n0 m M). pose proof (Z.mod_pos_bound n1 m M).
  pose proof (Z.div_le_mono n0 n1 m M ltac:(lia)). nia.
Qed.
Print Assumptions C241_wrapped_order_refuted.

Example C141_case :
  let s := Dty I64 (1, 1) in let ms := Dty I64 (1, 1000) in let u := Dty (Ity 16 false) (1, 1000) in
  Properties_Chrono.combine s ms ms 3 2999 /\ ticks s ms ms 3 2999 3000 2999 /\ in_range I64 3000 /\ in_range I64 2999 /\
  tp_gt s ms 3 2999 = Some (Ok true) /\ tp_diff s ms 3 2999 = Some (Ok 1) /\ tp_eq ms s 3000 3 = Some (Ok true) /\
  65500 / 2 ^ bits (rep u) <> 65800 / 2 ^ bits (rep u) /\
  tp_lt u u (reading (rep u) 65800) (reading (rep u) 65500) = Some (Ok true).
Proof.
  cbv zeta. unfold Properties_Chrono.combine, ticks.
  repeat match goal with |- _ /\ _ => split end; cbn [rep per fst snd];
    match goal with
    | |- std_ity _ => unfold std_ity; cbn; lia
    | |- _ = _ => vm_compute; reflexivity
    | |- (_ == _)%Q => vm_compute; reflexivity
    | |- _ <> _ => vm_compute; discriminate
    | |- _ => repeat split; vm_compute; (reflexivity || discriminate)
    end.
Qed.

(* ---- C142 *)
(* A duration of another unit, added to a time point, is first truncated to whole ticks of the
   time point: what += adds is the quotient. *)
Theorem C142_foreign_duration : forall d dw v w, std_ity (rep d) -> std_ity (rep dw) ->
  positive_period (per d) -> positive_period (per dw) -> d <> dw ->
  fits (fst (per dw) * snd (per d)) -> fits (snd (per dw) * fst (per d)) ->
  in_range (rep dw) w -> (sgn (rep dw) = true -> sgn (rep d) = false -> 0 <= w) ->
  int64 (w * (fst (per dw) * snd (per d) / Z.gcd (fst (per dw) * snd (per d)) (snd (per dw) * fst (per d)))) ->
  let q := truncated (seconds_of w (per dw) / value (per d)) in
  in_range (rep d) q ->
  (in_range (rep d) (v + q) -> tp_add_assign d v dw w = Some (Ok (v + q))) /\
  (in_range (rep d) (v - q) -> tp_sub_assign d v dw w = Some (Ok (v - q))).
Proof.
  intros d dw v w S SW P PW N F1 F2 W SG I q Q.
  unfold tp_add_assign, tp_sub_assign, as_duration. rewrite (same_dty_neq _ _ N), (convert_exact dw d w) by assumption. fold q. cbn [rbind].
  rewrite (wrap_id _ q) by (now apply std_pos || exact Q).
  destruct (C55_assign d v q S) as (A & B & _). split; intros R; [now rewrite A|now rewrite B].
Qed.
Print Assumptions C142_foreign_duration.

(* A time point made from one of another unit, or from a duration of one, is at the quotient. *)
Theorem C142_conversion : forall d dw w, std_ity (rep d) -> std_ity (rep dw) ->
  positive_period (per d) -> positive_period (per dw) -> d <> dw ->
  fits (fst (per dw) * snd (per d)) -> fits (snd (per dw) * fst (per d)) ->
  in_range (rep dw) w -> (sgn (rep dw) = true -> sgn (rep d) = false -> 0 <= w) ->
  int64 (w * (fst (per dw) * snd (per d) / Z.gcd (fst (per dw) * snd (per d)) (snd (per dw) * fst (per d)))) ->
  let q := truncated (seconds_of w (per dw) / value (per d)) in
  in_range (rep d) q -> tp_convert d dw w = Some (Ok q) /\ tp_make d dw w = Some (Ok q).
Proof.
  intros d dw w S SW P PW N F1 F2 W SG I q Q. unfold tp_convert, tp_make, as_duration.
  rewrite (same_dty_neq _ _ N), (convert_exact dw d w) by assumption. fold q. now rewrite (wrap_id _ q) by (now apply std_pos || exact Q).
Qed.
Print Assumptions C142_conversion.

(* So a time point does not advance by a duration of less than one of its ticks, however often it
   is added. *)
Theorem C242_small_steps_refuted : forall d dw v w n, std_ity (rep d) -> std_ity (rep dw) ->
  positive_period (per d) -> positive_period (per dw) -> d <> dw ->
  fits (fst (per dw) * snd (per d)) -> fits (snd (per dw) * fst (per d)) ->
  in_range (rep d) v -> in_range (rep dw) w -> 0 < w -> (seconds_of w (per dw) < value (per d))%Q ->
  int64 (w * (fst (per dw) * snd (per d) / Z.gcd (fst (per dw) * snd (per d)) (snd (per dw) * fst (per d)))) ->
  tp_run d v (repeat (Later dw w) n) = Some (Ok v).
Proof.
  intros d dw v w n S SW P PW N F1 F2 V W W0 LT I.
  assert (T : truncated (seconds_of w (per dw) / value (per d)) = 0).
  { destruct d as [r [a b]], dw as [rw [aw bw]]. destruct P as [P1 P2], PW as [P3 P4]. cbn [rep per fst snd] in *.
    rewrite (truncated_frac _ (w * aw * b) (bw * a)); [|nia|].
    - apply Z.quot_small. split; [nia|].
      assert (Q : (frac (w * aw * b) (bw * a) < 1)%Q).
      { assert (E : (frac (w * aw * b) (bw * a) == seconds_of w (aw, bw) / value (a, b))%Q).
        { unfold seconds_of, value, frac. cbn [fst snd]. rewrite !inject_Z_mult. field. repeat split; apply inj_nz; lia. }
        rewrite E. apply Qlt_shift_div_r; [|rewrite Qmult_1_l; exact LT].
        unfold value, frac. cbn [fst snd]. apply Qlt_shift_div_l; [unfold Qlt; cbn; lia|]. rewrite Qmult_0_l. unfold Qlt. cbn. lia. }
      unfold frac in Q. apply (Qmult_lt_r _ _ (inject_Z (bw * a))) in Q; [|unfold Qlt; cbn; nia].
      rewrite Qmult_1_l in Q.
      assert (E : (inject_Z (w * aw * b) / inject_Z (bw * a) * inject_Z (bw * a) == inject_Z (w * aw * b))%Q)
        by (field; apply inj_nz; nia).
      rewrite E in Q. unfold Qlt in Q. cbn in Q. lia.
    - unfold seconds_of, value, frac. cbn [fst snd]. rewrite !inject_Z_mult. field. repeat split; apply inj_nz; lia. }
  induction n as [|n IH]; cbn [repeat tp_run]; [reflexivity|]. cbn [tp_step].
  destruct (C142_foreign_duration d dw v w S SW P PW N F1 F2 W ltac:(lia) I) as [A _].
  - rewrite T. clear - S V. std8 S; unfold in_range in *; cbn in *; lia.
  - rewrite A by (rewrite T, Z.add_0_r; exact V). rewrite T, Z.add_0_r. cbn [rbind]. exact IH.
Qed.
Print Assumptions C242_small_steps_refuted.

Example C142_case :
  let s := Dty I64 (1, 1) in let ms := Dty I64 (1, 1000) in
  tp_add_assign s 10 ms 1500 = Some (Ok 11) /\ tp_sub_assign s 10 ms 1500 = Some (Ok 9) /\ tp_add_assign ms 10 s 2 = Some (Ok 2010) /\
  tp_convert s ms (-1500) = Some (Ok (-1)) /\
  tp_run s 10 (repeat (Later ms 999) 5) = Some (Ok 10) /\
  truncated (seconds_of 1500 (per ms) / value (per s)) = 1 /\ (seconds_of 999 (per ms) < value (per s))%Q /\ s <> ms.
Proof. cbv zeta. repeat split; try (vm_compute; reflexivity). discriminate. Qed.

(* ---- C143 *)
(* C143 (provided: the product has to be representable, as does each factor in their common
   type).  A duration times a number is that many times the duration. *)
Theorem C143_scale : forall d t v k, std_ity (rep d) -> std_ity t ->
  let c := common_type (rep d) t in in_range c v -> in_range c k -> in_range c (v * k) ->
  dscale d t v k = Ok (v * k) /\ rep (scaled_type d t) = c /\
  (seconds_of (v * k) (per (scaled_type d t)) == inject_Z k * seconds_of v (per d))%Q.
Proof.
  intros d t v k S ST c V K R.
  assert (U : forall z, in_range c z -> in_range (usual (rep d) t) z).
  { intros z Z. unfold c, common_type in Z. destruct (ity_eqb_spec (rep d) t) as [E|E]; [|exact Z].
    rewrite <- E in *. clear - S Z. std8 S; unfold in_range in *; cbn in *; lia. }
  pose proof (std_pos _ (usual_std _ _ S ST)) as BU. pose proof (std_pos _ (common_type_std _ _ S ST)) as BC.
  split; [|split; [reflexivity|]].
  - unfold dscale. rewrite (wrap_id _ v), (wrap_id _ k) by (exact BU || now apply U). rewrite arith_ok by (exact BU || now apply U).
    cbn [bind]. unfold make, scaled_type. cbn [rep]. fold c. now rewrite wrap_id.
  - unfold seconds_of, scaled_type. cbn [per]. rewrite inject_Z_mult. ring.
Qed.
Print Assumptions C143_scale.
Theorem C143_scale_assign : forall d v k, std_ity (rep d) -> in_range (rep d) (v * k) ->
  dscale_assign d v k = Ok (v * k).
Proof.
  intros d v k S R. unfold dscale_assign. rewrite arith_ok by (now apply std_pos, promote_std || now apply promote_range).
  cbn [bind]. rewrite wrap_id by (now apply std_pos || exact R). reflexivity.
Qed.
Print Assumptions C143_scale_assign.

(* Of two narrow numbers of the same type the product is computed as an int and then silently cut
   to the type; of int or wider signed ones an overflow is undefined. *)
Theorem C243_narrow_product_refuted : forall d v k, std_ity (rep d) -> bits (rep d) < 16 \/ (bits (rep d) = 16 /\ sgn (rep d) = true) ->
  in_range (rep d) v -> in_range (rep d) k -> ~ in_range (rep d) (v * k) ->
  dscale d (rep d) v k = Ok (wrap (rep d) (v * k)) /\ wrap (rep d) (v * k) <> v * k.
Proof.
  intros d v k S H V K N. pose proof (std_pos _ S) as B. split.
  - unfold dscale, make, scaled_type, common_type. cbn [rep]. destruct (ity_eqb_spec (rep d) (rep d)) as [_|]; [|congruence].
    assert (E : usual (rep d) (rep d) = I32) by (clear - S H; std8 S; cbn [bits sgn] in H; try reflexivity; destruct H as [H|[H1 H2]]; try lia; discriminate).
    rewrite E. assert (RI : forall z, in_range (rep d) z -> in_range I32 z) by (intros z; clear - S H; std8 S; unfold in_range; cbn in *; lia).
    rewrite (wrap_id I32 v), (wrap_id I32 k) by (cbn; lia || now apply RI). rewrite arith_ok; [reflexivity|cbn; lia|].
    clear - S H V K. std8 S; unfold in_range in *; cbn in *; nia.
  - intros E. apply N. rewrite <- E. now apply wrap_range.
Qed.
Print Assumptions C243_narrow_product_refuted.
Theorem C243_overflow_refuted : forall d v k, std_ity (rep d) -> sgn (rep d) = true -> 32 <= bits (rep d) ->
  in_range (rep d) v -> in_range (rep d) k -> ~ in_range (rep d) (v * k) ->
  dscale d (rep d) v k = UB /\ dscale_assign d v k = UB.
Proof.
  intros d v k S G L V K N. pose proof (std_pos _ S) as B.
  assert (P : promote (rep d) = rep d) by (unfold promote; destruct (Z.ltb_spec (bits (rep d)) 32); [lia|reflexivity]).
  assert (U : usual (rep d) (rep d) = rep d) by (unfold usual; rewrite P, eqb_reflx, Z.ltb_irrefl; reflexivity).
  unfold dscale, dscale_assign. rewrite U, P, !wrap_id by assumption. now rewrite arith_ub.
Qed.
Print Assumptions C243_overflow_refuted.
(* A negative duration times an unsigned number that is at least as wide (and at least 32 bits) is
   a positive duration, for every factor. *)
Theorem C243_unsigned_factor_refuted : forall d t v k, std_ity (rep d) -> std_ity t -> sgn (rep d) = true -> sgn t = false ->
  32 <= bits t -> bits (rep d) <= bits t -> v < 0 ->
  exists z, dscale d t v k = Ok z /\ 0 <= z.
Proof.
  intros d t v k S ST G GT L W V. pose proof (std_pos _ ST) as B.
  assert (U : usual (rep d) t = t).
  { clear - S ST G GT L W. std8 S; try discriminate G; std8 ST; cbn [bits sgn] in *; try discriminate GT; try lia; reflexivity. }
  assert (C : common_type (rep d) t = t).
  { unfold common_type. destruct (ity_eqb_spec (rep d) t) as [E|E]; [exact E|exact U]. }
  unfold dscale, make, scaled_type. cbn [rep]. rewrite U, C. unfold arith. rewrite GT. cbn [bind]. eexists. split; [reflexivity|].
  match goal with |- 0 <= wrap t ?x => pose proof (wrap_range t x B) as H; unfold in_range, imin in H; rewrite GT in H; lia end.
Qed.
Print Assumptions C243_unsigned_factor_refuted.

Example C143_case :
  let b := Dty (Ity 8 false) (1, 1) in let s := Dty I32 (1, 1) in
  dscale s I32 90 60 = Ok 5400 /\ dscale (Dty (Ity 16 true) (60, 1)) I64 30000 100 = Ok 3000000 /\ dscale_assign s 7 (-3) = Ok (-21) /\
  in_range (common_type (rep s) I32) (90 * 60) /\
  dscale b (rep b) 100 3 = Ok 44 /\ ~ in_range (rep b) (100 * 3) /\
  dscale s I32 65536 32768 = UB /\ ~ in_range I32 (65536 * 32768) /\
  dscale s (Ity 32 false) (-1) 2 = Ok 4294967294.
Proof.
  cbv zeta. repeat match goal with |- _ /\ _ => split end; try (vm_compute; reflexivity); try (split; vm_compute; discriminate);
    intros [_ H]; vm_compute in H; now apply H.
Qed.
