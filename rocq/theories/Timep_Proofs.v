From Coq Require Import ZArith QArith Lia Bool List.
From Verif Require Import Base MachInt Ratio_Spec Ratio_Model Ratio_Proofs Chrono_Spec Chrono_Model Chrono_Proofs Timep_Spec Timep_Model.
Import ListNotations.
Local Open Scope Z_scope.

Lemma same_dty_refl d : same_dty d d = true.
Proof. unfold same_dty. destruct (ity_eqb_spec (rep d) (rep d)); [|congruence]. now rewrite !Z.eqb_refl. Qed.
Lemma same_dty_neq a b : a <> b -> same_dty a b = false.
Proof.
  intros N. unfold same_dty. destruct (ity_eqb_spec (rep a) (rep b)) as [E|]; [|reflexivity]. cbn [andb].
  destruct (Z.eqb_spec (fst (per a)) (fst (per b))) as [E1|]; [|reflexivity].
  destruct (Z.eqb_spec (snd (per a)) (snd (per b))) as [E2|]; [|reflexivity].
  exfalso. apply N. destruct a as [r [x y]], b as [r' [x' y']]. cbn in *. congruence.
Qed.
Lemma as_own d w : as_duration d d w = Some (Ok w).
Proof. unfold as_duration. now rewrite same_dty_refl. Qed.

Lemma fold_shift l a : fold_left Z.add l a = a + fold_left Z.add l 0.
Proof.
  revert a. induction l as [|x l IH]; intros a; cbn [fold_left]; [lia|]. rewrite (IH (a + x)), (IH (0 + x)). lia.
Qed.
Lemma total_cons x l : total (x :: l) = x + total l.
Proof. unfold total. cbn [fold_left]. now rewrite fold_shift. Qed.

Lemma wrap_mod t z z' : 1 <= bits t -> (exists k, z = z' + k * 2 ^ bits t) -> wrap t z = wrap t z'.
Proof.
  intros B [k ->]. assert (0 < 2 ^ bits t) by (apply Z.pow_pos_nonneg; lia). unfold wrap, wraps, wrapu. destruct (sgn t).
  - replace (z' + k * 2 ^ bits t + 2 ^ (bits t - 1)) with (z' + 2 ^ (bits t - 1) + k * 2 ^ bits t) by lia. now rewrite Z.mod_add by lia.
  - now rewrite Z.mod_add by lia.
Qed.
Lemma wrap_diff t z : 1 <= bits t -> exists k, wrap t z = z + k * 2 ^ bits t.
Proof.
  intros B. assert (0 < 2 ^ bits t) by (apply Z.pow_pos_nonneg; lia). unfold wrap, wraps, wrapu. destruct (sgn t).
  - exists (- ((z + 2 ^ (bits t - 1)) / 2 ^ bits t)). rewrite Z.mod_eq by lia. lia.
  - exists (- (z / 2 ^ bits t)). rewrite Z.mod_eq by lia. lia.
Qed.
Lemma wrap_range t z : 1 <= bits t -> in_range t (wrap t z).
Proof.
  intros B. pose proof (pow_half (bits t) B). assert (0 < 2 ^ (bits t - 1)) by (apply Z.pow_pos_nonneg; lia).
  unfold in_range, wrap, wraps, wrapu, imin, imax. destruct (sgn t).
  - pose proof (Z.mod_pos_bound (z + 2 ^ (bits t - 1)) (2 ^ bits t)). lia.
  - pose proof (Z.mod_pos_bound z (2 ^ bits t)). lia.
Qed.
(* an addition that cannot overflow: unsigned, or narrower than int *)
Lemma assign_wraps t v w s : std_ity t -> sgn t = false \/ bits t < 32 -> in_range t v -> in_range t w -> s = 1 \/ s = -1 ->
  (z <- arith (promote t) (v + s * w) ;; Ok (wrap t z))%res = Ok (wrap t (v + s * w)).
Proof.
  intros S H V W E. pose proof (std_pos _ S) as B. pose proof (std_pos _ (promote_std _ S)) as BP.
  destruct (Z.lt_ge_cases (bits t) 32) as [L|L].
  - rewrite arith_ok; [reflexivity|exact BP|]. clear - S V W E L.
    std8 S; cbn [bits] in L; try lia; unfold in_range in *; cbn in *; destruct E as [-> | ->]; lia.
  - assert (SG : sgn t = false) by (destruct H; [assumption|lia]).
    assert (P : promote t = t) by (unfold promote; destruct (Z.ltb_spec (bits t) 32); [lia|reflexivity]).
    rewrite P. unfold arith. rewrite SG. cbn [bind]. f_equal. apply wrap_id; [exact B|now apply wrap_range].
Qed.

Lemma step_exact d v s : std_ity (rep d) -> own d s -> in_range (rep d) (v + delta s) -> tp_step d v s = Some (Ok (v + delta s)).
Proof.
  intros S O R. pose proof (std_pos _ S) as B. pose proof (std_pos _ (promote_std _ S)) as BP.
  destruct s as [dw w|dw w]; cbn [own delta tp_step] in *; subst dw; unfold tp_add_assign, tp_sub_assign; rewrite as_own; cbn [rbind].
  - unfold dadd_assign. rewrite arith_ok by (assumption || now apply promote_range). cbn [bind]. now rewrite wrap_id.
  - unfold dsub_assign. change (v + - w) with (v - w) in *. rewrite arith_ok by (assumption || now apply promote_range). cbn [bind]. now rewrite wrap_id.
Qed.
Lemma step_wraps d v s : std_ity (rep d) -> sgn (rep d) = false \/ bits (rep d) < 32 -> own d s ->
  in_range (rep d) v -> in_range (rep d) (match s with Later _ w => w | Earlier _ w => w end) ->
  tp_step d v s = Some (Ok (wrap (rep d) (v + delta s))).
Proof.
  intros S H O V W. destruct s as [dw w|dw w]; cbn [own delta tp_step] in *; subst dw; unfold tp_add_assign, tp_sub_assign; rewrite as_own; cbn [rbind].
  - unfold dadd_assign. f_equal. pose proof (assign_wraps (rep d) v w 1 S H V W (or_introl eq_refl)) as A. rewrite Z.mul_1_l in A. exact A.
  - unfold dsub_assign. f_equal. pose proof (assign_wraps (rep d) v w (-1) S H V W (or_intror eq_refl)) as A.
    replace (v + -1 * w) with (v - w) in A by lia. replace (v + - w) with (v - w) by lia. exact A.
Qed.

Lemma run_exact d ss v : std_ity (rep d) -> Forall (own d) ss -> Forall (in_range (rep d)) (visited v (map delta ss)) ->
  tp_run d v ss = Some (Ok (v + total (map delta ss))).
Proof.
  intros S. revert v. induction ss as [|s ss IH]; intros v O R; cbn [map tp_run].
  - unfold total. cbn. do 2 f_equal. lia.
  - cbn [map visited] in R. inversion_clear O as [|? ? O1 O2]. inversion_clear R as [|? ? R1 R2].
    rewrite (step_exact d v s S O1 R1). cbn [rbind]. rewrite (IH _ O2 R2), total_cons. do 2 f_equal. lia.
Qed.
Lemma run_wraps d ss v : std_ity (rep d) -> sgn (rep d) = false \/ bits (rep d) < 32 -> Forall (own d) ss ->
  in_range (rep d) v -> Forall (fun s => in_range (rep d) (match s with Later _ w => w | Earlier _ w => w end)) ss ->
  tp_run d v ss = Some (Ok (wrap (rep d) (v + total (map delta ss)))).
Proof.
  intros S H. pose proof (std_pos _ S) as B. revert v. induction ss as [|s ss IH]; intros v O V W; cbn [map tp_run].
  - unfold total. cbn. rewrite Z.add_0_r, wrap_id by assumption. reflexivity.
  - inversion_clear O as [|? ? O1 O2]. inversion_clear W as [|? ? W1 W2].
    rewrite (step_wraps d v s S H O1 V W1). cbn [rbind]. rewrite (IH _ O2 (wrap_range _ _ B) W2), total_cons.
    do 2 f_equal. apply wrap_mod; [exact B|]. destruct (wrap_diff (rep d) (v + delta s) B) as [k ->]. exists k. lia.
Qed.

(* ---- differences of points of one type *)
Lemma promoted_self t : std_ity t -> t <> U64 -> promoted_type t t = Some t.
Proof. unfold U64. intros H N. std8 H; try reflexivity; congruence. Qed.
Lemma common_self d : std_ity (rep d) -> rep d <> U64 -> positive_period (per d) -> representable (per d) (per d) -> common d d = Some d.
Proof.
  intros S U P R. rewrite (common_value d d (rep d)); try assumption; [|now apply promoted_self].
  destruct P as [A B]. unfold common_period. rewrite Z.gcd_diag, Z.lcm_diag. destruct d as [r [n e]]. cbn in *. do 3 f_equal; lia.
Qed.
Lemma with_self {A} d v1 v2 (f : dty -> Z -> Z -> result A) : std_ity (rep d) -> rep d <> U64 -> positive_period (per d) ->
  representable (per d) (per d) -> in_range (rep d) v1 -> in_range (rep d) v2 ->
  with_common d d v1 v2 f = Some (f d v1 v2).
Proof.
  intros S U P R V1 V2. pose proof (std_pos _ S).
  rewrite (with_common_value d d d v1 v2 v1 v2); try assumption; try reflexivity; try now apply (std_int64 (rep d)).
  - now rewrite !wrap_id.
  - now apply common_self.
Qed.
Lemma diff_exact d v1 v2 : std_ity (rep d) -> rep d <> U64 -> positive_period (per d) -> representable (per d) (per d) ->
  in_range (rep d) v1 -> in_range (rep d) v2 -> in_range (rep d) (v1 - v2) -> tp_diff d d v1 v2 = Some (Ok (v1 - v2)).
Proof.
  intros S U P R V1 V2 V3. pose proof (std_pos _ S) as B. unfold tp_diff, dsub. rewrite with_self by assumption.
  rewrite arith_ok by (now apply std_pos, promote_std || now apply promote_range). cbn [bind]. unfold make. now rewrite wrap_id.
Qed.
Lemma diff_wraps d v1 v2 : std_ity (rep d) -> rep d <> U64 -> positive_period (per d) -> representable (per d) (per d) ->
  sgn (rep d) = false \/ bits (rep d) < 32 ->
  in_range (rep d) v1 -> in_range (rep d) v2 -> tp_diff d d v1 v2 = Some (Ok (wrap (rep d) (v1 - v2))).
Proof.
  intros S U P R H V1 V2. unfold tp_diff, dsub. rewrite with_self by assumption. unfold make.
  pose proof (assign_wraps (rep d) v1 v2 (-1) S H V1 V2 (or_intror eq_refl)) as A. replace (v1 + -1 * v2) with (v1 - v2) in A by lia.
  now rewrite A.
Qed.
Lemma elapsed d n0 n1 : std_ity (rep d) -> sgn (rep d) = false -> rep d <> U64 -> positive_period (per d) -> representable (per d) (per d) ->
  tp_diff d d (reading (rep d) n1) (reading (rep d) n0) = Some (Ok ((n1 - n0) mod 2 ^ bits (rep d))).
Proof.
  intros S SG U P R. pose proof (std_pos _ S) as B. unfold reading.
  rewrite diff_wraps; try assumption; [|now left|now apply wrap_range|now apply wrap_range].
  do 2 f_equal. transitivity (wrap (rep d) (n1 - n0)).
  - apply wrap_mod; [exact B|]. destruct (wrap_diff (rep d) n1 B) as [k ->]. destruct (wrap_diff (rep d) n0 B) as [k' ->].
    exists (k - k'). lia.
  - unfold wrap, wrapu. now rewrite SG.
Qed.

(* ---- products *)
Lemma usual_std a b : std_ity a -> std_ity b -> std_ity (usual a b).
Proof. intros H1 H2. std8 H1; std8 H2; unfold std_ity; cbn; lia. Qed.
Lemma wrap_wrap_mul t v k : 1 <= bits t -> wrap t (wrap t v * wrap t k) = wrap t (v * k).
Proof.
  intros B. apply wrap_mod; [exact B|]. destruct (wrap_diff t v B) as [a ->]. destruct (wrap_diff t k B) as [b ->].
  exists (a * k + b * v + a * b * 2 ^ bits t). ring.
Qed.
