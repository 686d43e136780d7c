From Coq Require Import ZArith QArith Bool Lia.
From Verif Require Import Base BaseLemmas MachInt Ratio_Model Ratio_Spec Ratio_Proofs Chrono_Model Chrono_Spec Chrono_Proofs Sch_Model Sch_Spec.
Local Open Scope Z_scope.

Lemma intmax_fits z : fits z -> intmax z = true.
Proof. unfold fits, intmax. intros [A B]. apply andb_true_intro. split; apply Z.ltb_lt; lia. Qed.
Lemma intmax_not z : intmax z = true -> fits z.
Proof. unfold fits, intmax. intros H. apply andb_prop in H. destruct H as [A B]. apply Z.ltb_lt in A, B. lia. Qed.
Lemma std_divide_value p q k l : positive_period p -> positive_period q -> tick_is p q k l -> std_divide p q = Some (k, l).
Proof.
  destruct p as [n e], q as [n' e']. unfold positive_period, tick_is, std_divide. cbn [fst snd].
  intros [A B] [C D] (K & L & W & F1 & F2 & E).
  set (a := n * e') in *. set (b := e * n') in *. assert (HA : 0 < a) by (unfold a; nia). assert (HB : 0 < b) by (unfold b; nia).
  pose proof (gcdpos a b HA) as G. destruct (Z.gcd_divide_l a b) as [x X]. destruct (Z.gcd_divide_r a b) as [y Y].
  assert (XA : a / Z.gcd a b = x) by (rewrite X at 1; now apply Z.div_mul, Z.neq_sym, Z.lt_neq).
  assert (YB : b / Z.gcd a b = y) by (rewrite Y at 1; now apply Z.div_mul, Z.neq_sym, Z.lt_neq).
  assert (x0 : 0 < x) by nia. assert (y0 : 0 < y) by nia.
  assert (XY : Z.gcd x y = 1) by (rewrite <- XA, <- YB; apply Z.gcd_div_gcd; lia).
  assert (CR : x * l = k * y).
  { apply (Z.mul_reg_r _ _ (Z.gcd a b)); [lia|]. transitivity (a * l); [rewrite X at 2; ring|]. rewrite E. rewrite Y at 1. ring. }
  assert (KX : k = x /\ l = y).
  { assert (D1 : (x | k)).
    { apply (Z.gauss x y k); [|exact XY]. exists l. rewrite <- CR, ?(Z.mul_comm l), (Z.mul_comm y k) || idtac. lia. }
    assert (D2 : (k | x)).
    { apply (Z.gauss k l x); [|exact W]. exists y. lia. }
    pose proof (Z.divide_antisym_nonneg x k ltac:(lia) ltac:(lia) D1 D2) as EQ. split; [lia|]. subst k. nia. }
  destruct KX as [-> ->]. cbv zeta. rewrite XA, YB, !intmax_fits by assumption. reflexivity.
Qed.
Lemma wrap_range t z : 1 <= bits t -> in_range t (wrap t z).
Proof.
  intros B. pose proof (pow_half (bits t) B). assert (0 < 2 ^ (bits t - 1)) by (apply Z.pow_pos_nonneg; lia).
  unfold in_range, wrap, wraps, wrapu, imin, imax. destruct (sgn t).
  - pose proof (Z.mod_pos_bound (z + 2 ^ (bits t - 1)) (2 ^ bits t)). lia.
  - pose proof (Z.mod_pos_bound z (2 ^ bits t)). lia.
Qed.
Lemma mt_cases t : std_ity t -> (usual t I64 = U64 /\ t = U64) \/ (usual t I64 = I64 /\ t <> U64).
Proof.
  intros S. rewrite usual_I64 by exact S. destruct (ity_eqb_spec t U64) as [->|E]; auto.
Qed.
Lemma convert_from_value d1 d2 k l v : std_ity (rep d1) -> std_ity (rep d2) -> positive_period (per d1) -> positive_period (per d2) ->
  tick_is (per d1) (per d2) k l -> in_range (rep d1) v -> product_fits (rep d1) (v * k) ->
  from_std d1 d2 v = Some (Ok (wrap (rep d2) (Z.quot (v * k) l))).
Proof.
  intros S1 S2 P1 P2 T V F. unfold from_std, convert_from. rewrite (std_divide_value _ _ k l) by assumption. cbn [obind fst snd].
  destruct T as (K & L & _ & FK & FL & _). unfold fits in FK, FL.
  assert (M : 1 <= bits (usual (rep d1) I64) /\ in_range (usual (rep d1) I64) v /\ in_range (usual (rep d1) I64) k /\
     in_range (usual (rep d1) I64) l /\ in_range (usual (rep d1) I64) (v * k) /\ in_range (usual (rep d1) I64) 0).
  { destruct (mt_cases (rep d1) S1) as [[-> E]|[-> E]].
    - rewrite E in V, F. unfold in_range, product_fits, int64 in *. cbn in *. nia.
    - assert (int64 (v * k)).
      { destruct F as [F|(B & C & _)]; [exact F|]. exfalso. apply E. destruct (rep d1) as [b s]. cbn in B, C. now subst. }
      unfold in_range, int64 in *. cbn. nia. }
  destruct M as (B & M1 & M2 & M3 & M4 & M0). rewrite !(wrap_id (usual (rep d1) I64)) by assumption.
  rewrite arith_ok by assumption. cbn [bind]. rewrite arith_ok; [|exact B|now apply quot_range]. cbn [bind]. unfold make.
  do 2 f_equal. apply wrap_id; [now apply std_pos|]. apply wrap_range. now apply std_pos.
Qed.
Lemma convert_from_ub d1 d2 k l v : std_ity (rep d1) -> positive_period (per d1) -> positive_period (per d2) ->
  tick_is (per d1) (per d2) k l -> in_range (rep d1) v -> rep d1 <> U64 -> ~ int64 (v * k) ->
  from_std d1 d2 v = Some UB.
Proof.
  intros S1 P1 P2 T V N F. unfold from_std, convert_from. rewrite (std_divide_value _ _ k l) by assumption. cbn [obind fst snd].
  destruct T as (K & L & _ & FK & FL & _). unfold fits in FK, FL.
  destruct (mt_cases (rep d1) S1) as [[_ E]|[-> E]]; [contradiction|].
  assert (VV : in_range I64 v).
  { clear - S1 V E. destruct (rep d1) as [b s]. unfold std_ity in S1. cbn [bits] in S1. unfold U64 in E.
    destruct S1 as [->|[->|[->| ->]]]; destruct s; unfold in_range in *; cbn in *; try lia; exfalso; auto. }
  rewrite (wrap_id I64 v), (wrap_id I64 k) by (try exact VV; unfold in_range; cbn; lia).
  rewrite arith_ub; [reflexivity|reflexivity|]. unfold int64, in_range in *. cbn. lia.
Qed.
Lemma tick_truncated p q k l v : positive_period p -> positive_period q -> tick_is p q k l ->
  truncated (seconds_of v p / value q) = Z.quot (v * k) l.
Proof.
  destruct p as [n e], q as [n' e']. unfold positive_period, tick_is. cbn [fst snd].
  intros [A B] [C D] (K & L & _ & _ & _ & E). apply truncated_frac; [exact L|].
  unfold seconds_of, value. cbn [fst snd].
  assert (N1 : e <> 0) by lia. assert (N2 : n' <> 0) by lia. assert (N3 : e' <> 0) by lia.
  apply inj_nz in N1, N2, N3.
  transitivity (frac (v * (n * e')) (e * n')).
  - unfold frac. rewrite !inject_Z_mult. field. auto.
  - apply frac_eq; [nia|lia|]. transitivity (v * (n * e' * l)); [ring|]. rewrite E. ring.
Qed.

(* ---- time points *)
Lemma std_convert_value d1 d2 k v : std_ity (rep d1) -> std_ity (rep d2) -> positive_period (per d1) -> positive_period (per d2) ->
  whole_ticks (per d1) (per d2) k -> in_range (usual (common_type (rep d2) (rep d1)) I64) (v * k) ->
  std_convert d1 d2 v = Some (Ok (wrap (rep d2) (v * k))).
Proof.
  intros S1 S2 P1 P2 (K & F & E) R. unfold std_convert.
  rewrite (std_divide_value (per d1) (per d2) k 1); try assumption.
  2:{ repeat split; try lia; [apply Z.gcd_1_r|unfold fits in F; lia..]. }
  cbn [obind fst snd]. rewrite Z.eqb_refl. cbv zeta. unfold fits in F.
  pose proof (common_type_std _ _ S2 S1) as SC.
  assert (M : 1 <= bits (usual (common_type (rep d2) (rep d1)) I64) /\ in_range (usual (common_type (rep d2) (rep d1)) I64) v /\ in_range (usual (common_type (rep d2) (rep d1)) I64) k).
  { destruct (mt_cases _ SC) as [[M _]|[M _]]; rewrite M in *; unfold in_range in *; cbn in *; nia. }
  destruct M as (B & M1 & M2). rewrite !(wrap_id (usual (common_type (rep d2) (rep d1)) I64)) by assumption.
  rewrite arith_ok by assumption. reflexivity.
Qed.
Lemma common_lifts_l t1 t2 m : std_ity t1 -> std_ity t2 -> in_range (common_type t1 t2) m ->
  in_range (usual (common_type (common_type t1 t2) t1) I64) m.
Proof. intros H1 H2. std8 H1; std8 H2; unfold in_range; cbn; lia. Qed.
Lemma common_lifts_r t1 t2 m : std_ity t1 -> std_ity t2 -> in_range (common_type t1 t2) m ->
  in_range (usual (common_type (common_type t1 t2) t2) I64) m.
Proof. intros H1 H2. std8 H1; std8 H2; unfold in_range; cbn; lia. Qed.
Lemma common_tick_pos p q : positive_period p -> positive_period q -> positive_period (common_tick p q).
Proof. exact (common_period_pos p q). Qed.
Lemma whole_seconds p c k v : positive_period p -> positive_period c -> whole_ticks p c k -> (seconds_of (v * k) c == seconds_of v p)%Q.
Proof.
  intros P C (K & _ & E). apply seconds_eq; try assumption. transitivity (v * (k * (fst c * snd p))); [ring|]. rewrite <- E. ring.
Qed.
Lemma std_sum_value f d1 d2 k1 k2 t v : std_ity (rep d1) -> std_ity (rep d2) -> positive_period (per d1) -> positive_period (per d2) ->
  fits (snd (common_tick (per d1) (per d2))) ->
  whole_ticks (per d1) (common_tick (per d1) (per d2)) k1 -> whole_ticks (per d2) (common_tick (per d1) (per d2)) k2 ->
  let r := common_type (rep d1) (rep d2) in
  in_range r (t * k1) -> in_range r (v * k2) -> in_range r (f (t * k1) (v * k2)) ->
  std_sum f d1 d2 t v = Some (Ok (f (t * k1) (v * k2))).
Proof.
  intros S1 S2 P1 P2 F W1 W2 r R1 R2 R3. unfold std_sum, std_common.
  change (Z.lcm (snd (per d1)) (snd (per d2))) with (snd (common_tick (per d1) (per d2))).
  change (Z.gcd (fst (per d1)) (fst (per d2))) with (fst (common_tick (per d1) (per d2))).
  cbv zeta. rewrite (intmax_fits _ F). rewrite <- surjective_pairing. cbn [obind].
  pose proof (common_type_std _ _ S1 S2) as SC. pose proof (common_tick_pos _ _ P1 P2) as PC.
  rewrite (std_convert_value d1 _ k1); try assumption; [|now apply common_lifts_l]. cbn [obind].
  rewrite (std_convert_value d2 _ k2); try assumption; [|now apply common_lifts_r]. cbn [obind rep bind].
  fold r. rewrite !(wrap_id r) by (try assumption; now apply std_pos).
  rewrite arith_ok; [|now apply std_pos, promote_std|now apply promote_range]. cbn [bind]. rewrite wrap_id; [reflexivity|now apply std_pos|assumption].
Qed.
Lemma std_assign_value f d1 d2 k t v : std_ity (rep d1) -> std_ity (rep d2) -> positive_period (per d1) -> positive_period (per d2) ->
  whole_ticks (per d2) (per d1) k -> in_range (rep d1) (v * k) -> in_range (rep d2) v ->
  in_range (rep d1) (f t (v * k)) -> std_assign f d1 d2 t v = Some (Ok (f t (v * k))).
Proof.
  intros S1 S2 P1 P2 W R1 R2 R3. unfold std_assign.
  rewrite (std_convert_value d2 d1 k); try assumption.
  - cbn [obind bind]. rewrite !(wrap_id (rep d1)) by (try assumption; now apply std_pos).
    rewrite arith_ok; [|now apply std_pos, promote_std|now apply promote_range]. cbn [bind]. rewrite wrap_id; [reflexivity|now apply std_pos|assumption].
  - destruct W as (K & _). clear - K S1 S2 R1 R2. destruct d1 as [r1 q1], d2 as [r2 q2]. cbn [rep] in *.
    std8 S1; std8 S2; unfold in_range in *; cbn in *; nia.
Qed.
