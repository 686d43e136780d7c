From Coq Require Import ZArith QArith Lia Bool.
From Verif Require Import Base MachInt Ratio_Spec Ratio_Model Ratio_Proofs Chrono_Spec Chrono_Model.
Local Open Scope Z_scope.

(* ---- the integer types *)
Ltac std8 H :=
  let b := fresh "b" in let s := fresh "s" in
  match type of H with std_ity ?t => destruct t as [b s]; unfold std_ity in H; cbn [bits] in H;
    destruct H as [?|[?|[?|?]]]; subst b; destruct s end.

Lemma common_type_range t1 t2 v : std_ity t1 -> std_ity t2 -> in_range t1 v -> in_range t2 v -> in_range (common_type t1 t2) v.
Proof.
  intros H1 H2. std8 H1; std8 H2; unfold in_range; cbn; lia.
Qed.
Lemma promoted_range t1 t2 r v : std_ity t1 -> std_ity t2 -> promoted_type t1 t2 = Some r ->
  (in_range t1 v -> in_range (common_type r t1) v) /\ (in_range t2 v -> in_range (common_type r t2) v).
Proof.
  intros H1 H2. std8 H1; std8 H2; cbn; intros E; try discriminate E; injection E as <-; unfold in_range; cbn; lia.
Qed.
Lemma promoted_std t1 t2 r : std_ity t1 -> std_ity t2 -> promoted_type t1 t2 = Some r -> std_ity r /\ r <> U64.
Proof.
  intros H1 H2. std8 H1; std8 H2; cbn; intros E; try discriminate E; injection E as <-; split; unfold std_ity; cbn; (lia || discriminate).
Qed.
Lemma common_type_std t1 t2 : std_ity t1 -> std_ity t2 -> std_ity (common_type t1 t2).
Proof. intros H1 H2. std8 H1; std8 H2; unfold std_ity; cbn; lia. Qed.
Lemma usual_I64 t : std_ity t -> usual t I64 = if ity_eqb t U64 then U64 else I64.
Proof. intros H. std8 H; reflexivity. Qed.
Lemma ity_eqb_spec a b : reflect (a = b) (ity_eqb a b).
Proof.
  destruct a as [ba sa], b as [bb sb]. unfold ity_eqb. cbn [bits sgn].
  destruct (Z.eqb_spec ba bb) as [->|N]; [|constructor; congruence].
  destruct sa, sb; constructor; congruence.
Qed.
Lemma std_pos t : std_ity t -> 1 <= bits t.
Proof. unfold std_ity. lia. Qed.

(* ---- uniqueness of lowest terms *)
Lemma lowest_unique n d n' d' : 0 < n -> 0 < d -> 0 < n' -> 0 < d' -> lowest_terms n d -> lowest_terms n' d' ->
  n * d' = n' * d -> n = n' /\ d = d'.
Proof.
  unfold lowest_terms. intros N D N' D' L L' E.
  assert (A : (n | n')).
  { apply Z.gauss with d; [exists d'; lia|exact L]. }
  assert (B : (n' | n)).
  { apply Z.gauss with d'; [exists d; lia|exact L']. }
  assert (n = n') by (apply Z.divide_antisym_nonneg; lia || assumption). split; [assumption|nia].
Qed.
Lemma frac_cross n d n' d' : d <> 0 -> d' <> 0 -> (frac n d == frac n' d')%Q -> n * d' = n' * d.
Proof.
  intros D D' E. unfold frac in E. apply inj_nz in D as Q1. apply inj_nz in D' as Q2.
  assert (H : (inject_Z n * inject_Z d' == inject_Z n' * inject_Z d)%Q).
  { transitivity ((inject_Z n / inject_Z d) * (inject_Z d * inject_Z d'))%Q; [field; auto|]. rewrite E. field. auto. }
  rewrite <- !inject_Z_mult in H. unfold Qeq in H. cbn in H. lia.
Qed.
Lemma divide_value n1 d1 n2 d2 N D k : 0 < n1 -> 0 < d1 -> 0 < n2 -> 0 < d2 -> 0 < N -> 0 < D -> 0 < k ->
  lowest_terms N D -> n1 * d2 = k * N -> d1 * n2 = k * D -> fits (k * N) -> fits (k * D) ->
  ratio_divide (n1, d1) (n2, d2) = Some (N, D).
Proof.
  intros Hn1 Hd1 Hn2 Hd2 HN HD Hk L E1 E2 F1 F2.
  assert (G1 : fits (snd (n2, d2) * fst (n1, d1))) by (cbn [fst snd]; rewrite Z.mul_comm, E1; exact F1).
  assert (G2 : fits (snd (n1, d1) * fst (n2, d2))) by (cbn [fst snd]; rewrite E2; exact F2).
  destruct (divide_ok (n1, d1) (n2, d2)) as (r & R); cbn [fst snd]; try lia; [exact G1|exact G2|].
  rewrite R. pose proof (divide_pos (n1, d1) (n2, d2) r ltac:(cbn; lia) ltac:(cbn; lia) ltac:(cbn; lia) ltac:(cbn; lia) R) as [P1 P2].
  apply divide_inv in R as (Z0 & V & L'); cbn [fst snd]; try lia.
  destruct r as [a b]. cbn [fst snd] in *. unfold value in V. cbn [fst snd] in V.
  assert (W : (frac a b == frac (n1 * d2) (d1 * n2))%Q).
  { rewrite V. unfold frac. rewrite !inject_Z_mult.
    assert (d1 <> 0) by lia. assert (n2 <> 0) by lia. assert (d2 <> 0) by lia.
    field. repeat split; now apply inj_nz. }
  apply frac_cross in W; [|lia|nia]. rewrite E1, E2 in W.
  destruct (lowest_unique a b N D) as [-> ->]; try assumption; [nia|reflexivity].
Qed.

(* ---- arithmetic *)
Lemma arith_ok t z : 1 <= bits t -> in_range t z -> arith t z = Ok z.
Proof.
  intros B H. unfold arith. destruct (sgn t); [|now rewrite wrap_id].
  unfold in_rangeb. unfold in_range in H. destruct (Z.leb_spec (imin t) z); [|lia]. destruct (Z.leb_spec z (imax t)); [reflexivity|lia].
Qed.
Lemma arith_ub t z : sgn t = true -> ~ in_range t z -> arith t z = UB.
Proof.
  intros S H. unfold arith. rewrite S. unfold in_rangeb. unfold in_range in H.
  destruct (Z.leb_spec (imin t) z); [|reflexivity]. destruct (Z.leb_spec z (imax t)); [lia|reflexivity].
Qed.
(* the type of the product *)
Definition product_type (d1 d2 : dty) : ity := if ity_eqb (common_type (rep d2) (rep d1)) U64 then U64 else I64.
Lemma quot_between p D : 0 < D -> (0 <= p -> 0 <= Z.quot p D <= p) /\ (p <= 0 -> p <= Z.quot p D <= 0).
Proof.
  intros HD. assert (A : forall q, 0 <= q -> 0 <= Z.quot q D <= q).
  { intros q Q. split; [apply Z.quot_pos; lia|]. destruct (Z.eq_dec D 1) as [->|]; [rewrite Z.quot_1_r; lia|].
    destruct (Z.eq_dec q 0) as [->|]; [cbn; lia|]. apply Z.lt_le_incl, Z.quot_lt; lia. }
  split; [apply A|]. intros P. specialize (A (- p) ltac:(lia)). rewrite Z.quot_opp_l in A by lia. lia.
Qed.
Lemma quot_range t p D : 0 < D -> in_range t p -> in_range t 0 -> in_range t (Z.quot p D).
Proof.
  unfold in_range. intros HD H Z0. destruct (quot_between p D HD) as [A B]. destruct (Z.le_ge_cases 0 p) as [P|P]; [specialize (A P)|specialize (B P)]; lia.
Qed.

Lemma convert_core d1 d2 N D k v : std_ity (rep d1) -> std_ity (rep d2) ->
  positive_period (per d1) -> positive_period (per d2) -> 0 < N -> 0 < D -> 0 < k -> lowest_terms N D ->
  fst (per d1) * snd (per d2) = k * N -> snd (per d1) * fst (per d2) = k * D -> fits (k * N) -> fits (k * D) ->
  in_range (common_type (rep d2) (rep d1)) v -> in_range (product_type d1 d2) (v * N) ->
  convert d1 d2 v = Some (Ok (wrap (rep d2) (Z.quot (v * N) D))).
Proof.
  destruct d1 as [r1 [n1 e1]], d2 as [r2 [n2 e2]]. unfold positive_period, product_type. cbn [rep per fst snd].
  intros S1 S2 [P1 P2] [P3 P4] HN HD Hk L E1 E2 F1 F2 HC HP. unfold convert. cbn [rep per fst snd].
  rewrite (divide_value n1 e1 n2 e2 N D k) by assumption. cbn [obind fst snd].
  pose proof (common_type_std r2 r1 S2 S1) as SC. rewrite usual_I64 by exact SC. pose proof (std_pos _ SC) as BC.
  assert (FN : fits N) by (unfold fits in *; nia). assert (FD : fits D) by (unfold fits in *; nia).
  set (mt := if ity_eqb (common_type r2 r1) U64 then U64 else I64) in *.
  assert (MT : mt = U64 \/ mt = I64) by (unfold mt; destruct (ity_eqb _ _); auto).
  assert (BM : 1 <= bits mt) by (destruct MT as [-> | ->]; cbn; lia).
  assert (WN : wrap mt N = N) by (apply wrap_id; [exact BM|]; unfold fits in FN; destruct MT as [-> | ->]; unfold in_range; cbn; lia).
  assert (WD : wrap mt D = D) by (apply wrap_id; [exact BM|]; unfold fits in FD; destruct MT as [-> | ->]; unfold in_range; cbn; lia).
  assert (RV : in_range mt v).
  { unfold in_range in HP |- *. destruct MT as [E|E]; rewrite E in HP |- *; cbn in HP |- *; nia. }
  rewrite (wrap_id (common_type r2 r1) v BC HC), (wrap_id mt v BM RV), WN, WD.
  rewrite arith_ok by assumption. cbn [bind]. rewrite arith_ok; [reflexivity|exact BM|].
  apply quot_range; [exact HD|exact HP|]. destruct MT as [E|E]; rewrite E; unfold in_range; cbn; lia.
Qed.
Lemma convert_core_ub d1 d2 N D k v : std_ity (rep d1) -> std_ity (rep d2) ->
  positive_period (per d1) -> positive_period (per d2) -> 0 < N -> 0 < D -> 0 < k -> lowest_terms N D ->
  fst (per d1) * snd (per d2) = k * N -> snd (per d1) * fst (per d2) = k * D -> fits (k * N) -> fits (k * D) ->
  in_range (common_type (rep d2) (rep d1)) v -> product_type d1 d2 = I64 -> ~ int64 (v * N) ->
  convert d1 d2 v = Some UB.
Proof.
  destruct d1 as [r1 [n1 e1]], d2 as [r2 [n2 e2]]. unfold positive_period, product_type. cbn [rep per fst snd].
  intros S1 S2 [P1 P2] [P3 P4] HN HD Hk L E1 E2 F1 F2 HC HM HP. unfold convert. cbn [rep per fst snd].
  rewrite (divide_value n1 e1 n2 e2 N D k) by assumption. cbn [obind fst snd].
  pose proof (common_type_std r2 r1 S2 S1) as SC. rewrite usual_I64 by exact SC. pose proof (std_pos _ SC) as BC.
  assert (FN : fits N) by (unfold fits in *; nia).
  rewrite HM. rewrite (wrap_id (common_type r2 r1) v BC HC).
  assert (NU : common_type r2 r1 <> U64) by (intros E; rewrite E in HM; discriminate HM).
  assert (RV : in_range I64 v).
  { unfold std_ity in SC. unfold in_range in HC |- *. cbn. destruct (common_type r2 r1) as [b s]. cbn [bits] in SC. unfold imin, imax in HC. cbn [bits sgn] in HC.
    destruct SC as [->|[->|[->| ->]]]; destruct s; cbn in HC; try lia. exfalso. now apply NU. }
  rewrite (wrap_id I64 v) by (cbn; lia || assumption).
  rewrite (wrap_id I64 N) by (cbn; lia || (unfold fits in FN; unfold in_range; cbn; lia)).
  rewrite arith_ub; [reflexivity|reflexivity|]. unfold in_range, int64 in *. cbn. lia.
Qed.

(* ---- the common type *)
Lemma lcm_value a b : 0 < a -> 0 < b -> fits (a * b) -> lcm a b = Some (Z.lcm a b).
Proof.
  intros A B F. unfold lcm. rewrite mul64_ok by exact F. cbn [obind].
  assert (Fa : fits a) by (unfold fits in *; nia). assert (Fb : fits b) by (unfold fits in *; nia).
  destruct (gcd_ok a b Fa Fb) as (g & G & E). rewrite G. cbn [obind].
  pose proof (gcd_pos _ a b g A ltac:(lia) G) as PG. rewrite Z.abs_eq in E by lia.
  rewrite div64_ok by (assumption || lia). f_equal. unfold Z.lcm. rewrite <- E.
  destruct (Z.gcd_divide_r a b) as [k K]. rewrite <- E in K. rewrite K at 2. rewrite Z.div_mul by lia.
  rewrite K, Z.mul_assoc, Z.quot_mul by lia. rewrite Z.abs_eq; nia.
Qed.
Lemma lcm_pos a b : 0 < a -> 0 < b -> 0 < Z.lcm a b.
Proof.
  intros A B. pose proof (Z.lcm_nonneg a b). assert (Z.lcm a b <> 0); [|lia]. rewrite Z.lcm_eq_0. lia.
Qed.
Lemma gcd_value a b : 0 < a -> 0 < b -> fits a -> fits b -> gcd a b = Some (Z.gcd a b).
Proof.
  intros A B Fa Fb. destruct (gcd_ok a b Fa Fb) as (g & G & E). rewrite G.
  pose proof (gcd_pos _ a b g A ltac:(lia) G) as PG. rewrite Z.abs_eq in E by lia. now rewrite E.
Qed.
Lemma gcdpos a b : 0 < a -> 0 < Z.gcd a b.
Proof. intros A. pose proof (Z.gcd_nonneg a b). assert (Z.gcd a b <> 0); [|lia]. intros E. apply Z.gcd_eq_0_l in E. lia. Qed.

Definition common_period (p1 p2 : Z * Z) : Z * Z := (Z.gcd (fst p1) (fst p2), Z.lcm (snd p1) (snd p2)).

Lemma common_value d1 d2 r : positive_period (per d1) -> positive_period (per d2) -> representable (per d1) (per d2) ->
  promoted_type (rep d1) (rep d2) = Some r -> common d1 d2 = Some (Dty r (common_period (per d1) (per d2))).
Proof.
  destruct d1 as [r1 [n1 e1]], d2 as [r2 [n2 e2]]. unfold positive_period, representable. cbn [rep per fst snd].
  intros [A1 A2] [B1 B2] (F1 & F2 & F3) P. unfold common. cbn [rep per fst snd]. rewrite P. cbn [obind].
  pose proof (lcm_pos e1 e2 A2 B2) as LP.
  rewrite gcd_value; [|assumption|assumption|unfold fits in *; nia|unfold fits in *; nia]. cbn [obind].
  rewrite lcm_value by assumption. reflexivity.
Qed.
Lemma common_inv d1 d2 c : positive_period (per d1) -> positive_period (per d2) -> representable (per d1) (per d2) ->
  common d1 d2 = Some c -> promoted_type (rep d1) (rep d2) = Some (rep c) /\ per c = common_period (per d1) (per d2).
Proof.
  intros A B R H. destruct (promoted_type (rep d1) (rep d2)) as [r|] eqn:P.
  - rewrite (common_value d1 d2 r A B R P) in H. injection H as <-. split; reflexivity.
  - unfold common in H. rewrite P in H. discriminate.
Qed.
(* how many common ticks make a tick *)
Lemma common_period_factor p1 p2 : positive_period p1 -> positive_period p2 ->
  exists K1 K2, 0 < K1 /\ 0 < K2 /\
    fst p1 * snd (common_period p1 p2) = (Z.gcd (fst p1) (fst p2) * snd p1) * K1 /\
    fst p2 * snd (common_period p1 p2) = (Z.gcd (fst p1) (fst p2) * snd p2) * K2.
Proof.
  destruct p1 as [n1 e1], p2 as [n2 e2]. unfold positive_period, common_period. cbn [fst snd]. intros [A1 A2] [B1 B2].
  destruct (Z.gcd_divide_l n1 n2) as [a1 G1]. destruct (Z.gcd_divide_r n1 n2) as [a2 G2].
  destruct (Z.divide_lcm_l e1 e2) as [b1 L1]. destruct (Z.divide_lcm_r e1 e2) as [b2 L2].
  pose proof (gcdpos n1 n2 A1) as GP. pose proof (lcm_pos e1 e2 A2 B2) as LP.
  set (g := Z.gcd n1 n2) in *. set (l := Z.lcm e1 e2) in *.
  exists (a1 * b1), (a2 * b2). split; [nia|]. split; [nia|]. split.
  - rewrite G1 at 1. rewrite L1. ring.
  - rewrite G2 at 1. rewrite L2. ring.
Qed.
Lemma common_period_pos p1 p2 : positive_period p1 -> positive_period p2 -> positive_period (common_period p1 p2).
Proof.
  unfold positive_period, common_period. cbn [fst snd]. intros [A1 A2] [B1 B2]. split; [now apply gcdpos|now apply lcm_pos].
Qed.
Lemma seconds_eq m p v q : positive_period p -> positive_period q ->
  (seconds_of m p == seconds_of v q)%Q <-> m * fst p * snd q = v * fst q * snd p.
Proof.
  destruct p as [n d], q as [n' d']. unfold positive_period, seconds_of. cbn [fst snd]. intros [A B] [C D].
  assert (E : forall x y z, (inject_Z x * frac y z == frac (x * y) z)%Q) by (intros; unfold frac; rewrite inject_Z_mult; unfold Qdiv; ring).
  rewrite !E. split; intros H.
  - apply frac_cross in H; lia.
  - apply frac_eq; lia.
Qed.
Lemma scaled p1 pc v m K k : positive_period p1 -> positive_period pc -> 0 < k ->
  fst p1 * snd pc = k * K -> snd p1 * fst pc = k -> (seconds_of m pc == seconds_of v p1)%Q -> m = v * K.
Proof.
  intros A B HK E1 E2 H. apply seconds_eq in H; try assumption.
  assert (m * k = v * K * k); [|nia].
  replace (m * k) with (m * fst pc * snd p1) by (rewrite <- E2; ring). rewrite H, <- Z.mul_assoc, E1. ring.
Qed.
Lemma product_int64 d1 d2 v N : int64 (v * N) -> 0 < N -> in_range (rep d1) v -> in_range (common_type (rep d2) (rep d1)) v ->
  in_range (product_type d1 d2) (v * N).
Proof.
  unfold product_type, int64. intros H P _ C. destruct (ity_eqb_spec (common_type (rep d2) (rep d1)) U64) as [E|E].
  - rewrite E in C. unfold in_range in *. cbn in *. nia.
  - unfold in_range. cbn. lia.
Qed.
Lemma to_common_l d1 d2 c v m : std_ity (rep d1) -> std_ity (rep d2) ->
  positive_period (per d1) -> positive_period (per d2) -> representable (per d1) (per d2) -> common d1 d2 = Some c ->
  in_range (rep d1) v -> (seconds_of m (per c) == seconds_of v (per d1))%Q -> int64 m ->
  convert d1 c v = Some (Ok (wrap (rep c) m)).
Proof.
  intros S1 S2 P1 P2 R C V M I. destruct (common_inv d1 d2 c P1 P2 R C) as [PT PC].
  destruct (common_period_factor (per d1) (per d2) P1 P2) as (K1 & K2 & HK1 & HK2 & E1 & E2). rewrite <- PC in E1, E2.
  pose proof (common_period_pos (per d1) (per d2) P1 P2) as PP. rewrite <- PC in PP.
  destruct (promoted_std _ _ _ S1 S2 PT) as [SR _].
  assert (HC : in_range (common_type (rep c) (rep d1)) v) by (now apply (promoted_range (rep d1) (rep d2))).
  pose proof (gcdpos (fst (per d1)) (fst (per d2)) (proj1 P1)) as GP.
  assert (HK : snd (per d1) * fst (per c) = Z.gcd (fst (per d1)) (fst (per d2)) * snd (per d1)) by (rewrite PC; cbn [common_period fst]; ring).
  assert (Hm : m = v * K1).
  { apply (scaled (per d1) (per c) v m K1 (Z.gcd (fst (per d1)) (fst (per d2)) * snd (per d1))); try assumption.
    destruct P1. nia. }
  rewrite (convert_core d1 c K1 1 (Z.gcd (fst (per d1)) (fst (per d2)) * snd (per d1)) v); try assumption.
  - now rewrite Z.quot_1_r, Hm.
  - lia.
  - destruct P1. nia.
  - apply Z.gcd_1_r.
  - rewrite HK. ring.
  - rewrite <- E1. destruct R as (_ & R & _). rewrite PC. cbn [common_period snd]. rewrite Z.mul_comm. exact R.
  - rewrite Z.mul_1_r. destruct R as (_ & R & _). pose proof (lcm_pos (snd (per d1)) (snd (per d2)) (proj2 P1) (proj2 P2)) as LP.
    destruct P1 as [Q1 Q2]. destruct P2 as [Q3 Q4].
    assert (Z.gcd (fst (per d1)) (fst (per d2)) <= fst (per d1)) by (apply Z.divide_pos_le; [exact Q1|apply Z.gcd_divide_l]).
    assert (snd (per d1) <= Z.lcm (snd (per d1)) (snd (per d2))) by (apply Z.divide_pos_le; [exact LP|apply Z.divide_lcm_l]).
    unfold fits in *. nia.
  - apply product_int64; try assumption. now rewrite <- Hm.
Qed.
Lemma representable_sym p1 p2 : representable p1 p2 -> representable p2 p1.
Proof. unfold representable. rewrite (Z.lcm_comm (snd p2)), (Z.mul_comm (snd p2)). tauto. Qed.
Lemma common_period_sym p1 p2 : common_period p1 p2 = common_period p2 p1.
Proof. unfold common_period. now rewrite Z.gcd_comm, Z.lcm_comm. Qed.
Lemma to_common_r d1 d2 c v m : std_ity (rep d1) -> std_ity (rep d2) ->
  positive_period (per d1) -> positive_period (per d2) -> representable (per d1) (per d2) -> common d1 d2 = Some c ->
  in_range (rep d2) v -> (seconds_of m (per c) == seconds_of v (per d2))%Q -> int64 m ->
  convert d2 c v = Some (Ok (wrap (rep c) m)).
Proof.
  intros S1 S2 P1 P2 R C V M I. destruct (common_inv d1 d2 c P1 P2 R C) as [PT PC].
  destruct (common_period_factor (per d1) (per d2) P1 P2) as (K1 & K2 & HK1 & HK2 & E1 & E2). rewrite <- PC in E1, E2.
  pose proof (common_period_pos (per d1) (per d2) P1 P2) as PP. rewrite <- PC in PP.
  destruct (promoted_std _ _ _ S1 S2 PT) as [SR _].
  assert (HC : in_range (common_type (rep c) (rep d2)) v) by (now apply (promoted_range (rep d1) (rep d2))).
  pose proof (gcdpos (fst (per d1)) (fst (per d2)) (proj1 P1)) as GP.
  assert (HK : snd (per d2) * fst (per c) = Z.gcd (fst (per d1)) (fst (per d2)) * snd (per d2)) by (rewrite PC; cbn [common_period fst]; ring).
  assert (Hm : m = v * K2).
  { apply (scaled (per d2) (per c) v m K2 (Z.gcd (fst (per d1)) (fst (per d2)) * snd (per d2))); try assumption.
    destruct P2. nia. }
  rewrite (convert_core d2 c K2 1 (Z.gcd (fst (per d1)) (fst (per d2)) * snd (per d2)) v); try assumption.
  - now rewrite Z.quot_1_r, Hm.
  - lia.
  - destruct P2. nia.
  - apply Z.gcd_1_r.
  - rewrite HK. ring.
  - rewrite <- E2. destruct R as (_ & _ & R). rewrite PC. cbn [common_period snd]. rewrite Z.mul_comm. exact R.
  - rewrite Z.mul_1_r. destruct R as (_ & _ & R). pose proof (lcm_pos (snd (per d1)) (snd (per d2)) (proj2 P1) (proj2 P2)) as LP.
    destruct P1 as [Q1 Q2]. destruct P2 as [Q3 Q4].
    assert (Z.gcd (fst (per d1)) (fst (per d2)) <= fst (per d2)) by (apply Z.divide_pos_le; [exact Q3|apply Z.gcd_divide_r]).
    assert (snd (per d2) <= Z.lcm (snd (per d1)) (snd (per d2))) by (apply Z.divide_pos_le; [exact LP|apply Z.divide_lcm_r]).
    unfold fits in *. nia.
  - apply product_int64; try assumption. now rewrite <- Hm.
Qed.
Lemma common_ticks d1 d2 c v : positive_period (per d1) -> positive_period (per d2) -> representable (per d1) (per d2) ->
  common d1 d2 = Some c ->
  (exists m, (seconds_of m (per c) == seconds_of v (per d1))%Q) /\ (exists m, (seconds_of m (per c) == seconds_of v (per d2))%Q).
Proof.
  intros P1 P2 R C. destruct (common_inv d1 d2 c P1 P2 R C) as [_ PC].
  destruct (common_period_factor (per d1) (per d2) P1 P2) as (K1 & K2 & HK1 & HK2 & E1 & E2). rewrite <- PC in E1, E2.
  pose proof (common_period_pos (per d1) (per d2) P1 P2) as PP. rewrite <- PC in PP.
  split; [exists (v * K1)|exists (v * K2)]; (apply seconds_eq; [assumption|assumption|]).
  - rewrite <- (Z.mul_assoc v (fst (per d1))), E1, PC. cbn [common_period fst]. ring.
  - rewrite <- (Z.mul_assoc v (fst (per d2))), E2, PC. cbn [common_period fst]. ring.
Qed.

(* ---- conversion, in the terms of the user *)
Lemma truncated_frac q a b : 0 < b -> (q == frac a b)%Q -> truncated q = Z.quot a b.
Proof.
  intros B E. destruct q as [n d]. unfold truncated. cbn [Qnum Qden].
  assert (H : n * b = a * Zpos d).
  { apply (frac_cross n (Zpos d) a b); [lia|lia|]. rewrite <- E. unfold frac. rewrite (Qmake_Qdiv n d). reflexivity. }
  rewrite <- (Z.quot_mul_cancel_r n (Zpos d) b) by lia. rewrite H, (Z.mul_comm (Zpos d) b). apply Z.quot_mul_cancel_r; lia.
Qed.
Lemma sign_safe t1 t2 v : std_ity t1 -> std_ity t2 -> in_range t1 v -> (sgn t1 = true -> sgn t2 = false -> 0 <= v) ->
  in_range (common_type t2 t1) v.
Proof.
  intros H1 H2. std8 H1; std8 H2; unfold in_range; cbn; intros A B; (lia || (specialize (B eq_refl eq_refl); lia)).
Qed.
Lemma convert_exact d1 d2 v : std_ity (rep d1) -> std_ity (rep d2) ->
  positive_period (per d1) -> positive_period (per d2) ->
  fits (fst (per d1) * snd (per d2)) -> fits (snd (per d1) * fst (per d2)) ->
  in_range (rep d1) v -> (sgn (rep d1) = true -> sgn (rep d2) = false -> 0 <= v) ->
  int64 (v * (fst (per d1) * snd (per d2) / Z.gcd (fst (per d1) * snd (per d2)) (snd (per d1) * fst (per d2)))) ->
  convert d1 d2 v = Some (Ok (wrap (rep d2) (truncated (seconds_of v (per d1) / value (per d2))))).
Proof.
  intros S1 S2 P1 P2 F1 F2 V SV I.
  pose proof (sign_safe _ _ _ S1 S2 V SV) as HC.
  set (a := fst (per d1) * snd (per d2)) in *. set (b := snd (per d1) * fst (per d2)) in *.
  destruct P1 as [A1 A2], P2 as [B1 B2].
  assert (HA : 0 < a) by (unfold a; nia). assert (HB : 0 < b) by (unfold b; nia).
  pose proof (gcdpos a b HA) as G. destruct (Z.gcd_divide_l a b) as [x X]. destruct (Z.gcd_divide_r a b) as [y Y].
  assert (XA : a / Z.gcd a b = x) by (rewrite X at 1; now apply Z.div_mul, Z.neq_sym, Z.lt_neq).
  assert (YB : b / Z.gcd a b = y) by (rewrite Y at 1; now apply Z.div_mul, Z.neq_sym, Z.lt_neq).
  rewrite XA in I. assert (x0 : 0 < x) by nia. assert (y0 : 0 < y) by nia.
  rewrite (convert_core d1 d2 x y (Z.gcd a b) v); try assumption; try (split; assumption).
  - do 3 f_equal. symmetry. apply truncated_frac; [exact y0|].
    unfold seconds_of, value, frac.
    assert (N1 : fst (per d2) <> 0) by lia. assert (N2 : snd (per d2) <> 0) by lia. assert (N3 : snd (per d1) <> 0) by lia.
    assert (N4 : y <> 0) by lia. assert (N5 : Z.gcd a b <> 0) by lia.
    apply inj_nz in N1, N2, N3. 
    transitivity (frac (v * a) b).
    + unfold frac, a, b. rewrite !inject_Z_mult. field. auto.
    + change (frac (v * a) b == frac (v * x) y)%Q. apply frac_eq; [lia|lia|]. rewrite X at 1. rewrite Y at 2. ring.
  - unfold lowest_terms. rewrite <- XA, <- YB. apply Z.gcd_div_gcd; lia.
  - transitivity (x * Z.gcd a b); [exact X|apply Z.mul_comm].
  - transitivity (y * Z.gcd a b); [exact Y|apply Z.mul_comm].
  - rewrite Z.mul_comm, <- X. exact F1.
  - rewrite Z.mul_comm, <- Y. exact F2.
  - now apply product_int64.
Qed.
Lemma convert_overflow d1 d2 v : std_ity (rep d1) -> std_ity (rep d2) ->
  positive_period (per d1) -> positive_period (per d2) ->
  fits (fst (per d1) * snd (per d2)) -> fits (snd (per d1) * fst (per d2)) ->
  in_range (rep d1) v -> (sgn (rep d1) = true -> sgn (rep d2) = false -> 0 <= v) ->
  rep d1 <> U64 -> rep d2 <> U64 ->
  ~ int64 (v * (fst (per d1) * snd (per d2) / Z.gcd (fst (per d1) * snd (per d2)) (snd (per d1) * fst (per d2)))) ->
  convert d1 d2 v = Some UB.
Proof.
  intros S1 S2 P1 P2 F1 F2 V SV U1 U2 I.
  pose proof (sign_safe _ _ _ S1 S2 V SV) as HC.
  set (a := fst (per d1) * snd (per d2)) in *. set (b := snd (per d1) * fst (per d2)) in *.
  destruct P1 as [A1 A2], P2 as [B1 B2].
  assert (HA : 0 < a) by (unfold a; nia). assert (HB : 0 < b) by (unfold b; nia).
  pose proof (gcdpos a b HA) as G. destruct (Z.gcd_divide_l a b) as [x X]. destruct (Z.gcd_divide_r a b) as [y Y].
  assert (XA : a / Z.gcd a b = x) by (rewrite X at 1; now apply Z.div_mul, Z.neq_sym, Z.lt_neq).
  assert (YB : b / Z.gcd a b = y) by (rewrite Y at 1; now apply Z.div_mul, Z.neq_sym, Z.lt_neq).
  rewrite XA in I. assert (x0 : 0 < x) by nia. assert (y0 : 0 < y) by nia.
  apply (convert_core_ub d1 d2 x y (Z.gcd a b) v); try assumption; try (split; assumption).
  - unfold lowest_terms. rewrite <- XA, <- YB. apply Z.gcd_div_gcd; lia.
  - transitivity (x * Z.gcd a b); [exact X|apply Z.mul_comm].
  - transitivity (y * Z.gcd a b); [exact Y|apply Z.mul_comm].
  - rewrite Z.mul_comm, <- X. exact F1.
  - rewrite Z.mul_comm, <- Y. exact F2.
  - unfold product_type. destruct d1 as [r1 p1], d2 as [r2 p2]. cbn [rep] in *. clear - S1 S2 U1 U2. unfold U64 in *.
    std8 S1; std8 S2; try reflexivity; exfalso; auto.
Qed.

(* ---- sums, differences and comparisons *)
Lemma promote_range t z : std_ity t -> in_range t z -> in_range (promote t) z.
Proof. intros H. std8 H; unfold in_range; cbn; lia. Qed.
Lemma promote_std t : std_ity t -> std_ity (promote t).
Proof. intros H. std8 H; unfold std_ity; cbn; lia. Qed.

Lemma with_common_value {A} d1 d2 c v1 v2 m1 m2 (f : dty -> Z -> Z -> result A) : std_ity (rep d1) -> std_ity (rep d2) ->
  positive_period (per d1) -> positive_period (per d2) -> representable (per d1) (per d2) -> common d1 d2 = Some c ->
  in_range (rep d1) v1 -> in_range (rep d2) v2 ->
  (seconds_of m1 (per c) == seconds_of v1 (per d1))%Q -> (seconds_of m2 (per c) == seconds_of v2 (per d2))%Q ->
  int64 m1 -> int64 m2 ->
  with_common d1 d2 v1 v2 f = Some (f c (wrap (rep c) m1) (wrap (rep c) m2)).
Proof.
  intros S1 S2 P1 P2 R C V1 V2 E1 E2 I1 I2. unfold with_common. rewrite C. cbn [obind].
  rewrite (to_common_l d1 d2 c v1 m1), (to_common_r d1 d2 c v2 m2) by assumption. reflexivity.
Qed.
Lemma std_int64 t z : std_ity t -> t <> U64 -> in_range t z -> int64 z.
Proof.
  intros H. unfold U64, int64. std8 H; unfold in_range; cbn; intros N; try lia. exfalso. auto.
Qed.

Lemma seconds_plus m1 m2 p : (seconds_of (m1 + m2) p == seconds_of m1 p + seconds_of m2 p)%Q.
Proof. unfold seconds_of. rewrite inject_Z_plus. ring. Qed.
Lemma seconds_minus m1 m2 p : (seconds_of (m1 - m2) p == seconds_of m1 p - seconds_of m2 p)%Q.
Proof. unfold seconds_of. unfold Z.sub. rewrite inject_Z_plus, inject_Z_opp. ring. Qed.
Lemma seconds_lt m1 m2 p : positive_period p -> m1 < m2 <-> (seconds_of m1 p < seconds_of m2 p)%Q.
Proof.
  intros [A B]. unfold seconds_of.
  assert (F : (0 < frac (fst p) (snd p))%Q).
  { unfold frac. apply Qlt_shift_div_l; [unfold Qlt; cbn; lia|]. rewrite Qmult_0_l. unfold Qlt. cbn. lia. }
  rewrite Qmult_lt_r by exact F. unfold Qlt. cbn. lia.
Qed.
Lemma seconds_inj m1 m2 p : positive_period p -> m1 = m2 <-> (seconds_of m1 p == seconds_of m2 p)%Q.
Proof. intros P. rewrite seconds_eq by assumption. destruct P. split; [now intros ->|]. intros E. apply (Z.mul_reg_r _ _ (fst p * snd p)); [nia|]. rewrite !Z.mul_assoc. exact E. Qed.

(* ---- abs and hh_mm_ss *)
Definition tick (t : ity) (D : Z) : dty := Dty t (1, D).

Lemma clock_std t : clock_rep t -> std_ity t /\ t <> U64.
Proof. intros H. split; [unfold clock_rep in H; unfold std_ity; tauto|]. intros ->. destruct H as [H|[H|[_ H]]]; discriminate. Qed.
Lemma fits_le a b : 0 <= a <= b -> fits b -> fits a.
Proof. unfold fits. lia. Qed.

(* converting to ticks of q seconds *)
Lemma convert_to_seconds t D t2 q a : clock_rep t -> 0 < D -> std_ity t2 -> 0 < q -> fits (q * D) -> in_range t a -> 0 <= a ->
  convert (tick t D) (Dty t2 (q, 1)) a = Some (Ok (wrap t2 (a / (q * D)))).
Proof.
  intros C HD S2 Q F R A. destruct (clock_std t C) as [S U]. unfold tick.
  pose proof (convert_core (Dty t (1, D)) (Dty t2 (q, 1)) 1 (q * D) 1 a) as H. cbn [rep per fst snd] in H.
  rewrite H; clear H; try lia; try assumption; try (split; cbn; lia).
  - rewrite Z.mul_1_r. rewrite Z.quot_div_nonneg by nia. reflexivity.
  - unfold lowest_terms. destruct (q * D); reflexivity.
  - now rewrite Z.mul_1_l.
  - apply sign_safe; assumption || (intros; lia).
  - rewrite Z.mul_1_r. unfold product_type. cbn [rep]. pose proof (std_int64 _ _ S U R) as I. unfold int64 in I.
    destruct (ity_eqb _ _); unfold in_range; cbn; lia.
Qed.
Lemma convert_same t D a : clock_rep t -> 0 < D -> fits D -> in_range t a -> convert (tick t D) (tick t D) a = Some (Ok a).
Proof.
  intros C HD F R. destruct (clock_std t C) as [S U].
  pose proof (convert_core (tick t D) (tick t D) 1 1 D a) as H. unfold tick in *. cbn [rep per fst snd] in H.
  rewrite H; clear H; try lia; try assumption; try (split; cbn; lia); try reflexivity.
  - rewrite Z.mul_1_r, Z.quot_1_r, wrap_id; [reflexivity|now apply std_pos|exact R].
  - now rewrite Z.mul_1_r.
  - now rewrite Z.mul_1_r.
  - now apply common_type_range.
  - rewrite Z.mul_1_r. pose proof (std_int64 _ _ S U R) as I. unfold int64 in I. unfold product_type. cbn [rep].
    destruct (ity_eqb_spec (common_type t t) U64) as [E|]; [|unfold in_range; cbn; lia].
    exfalso. apply U. unfold common_type in E. destruct (ity_eqb_spec t t); [exact E|congruence].
Qed.

Lemma promoted_same t : clock_rep t -> promoted_type t t = Some t.
Proof. unfold clock_rep. destruct t as [b s]. cbn [bits sgn]. intros [->|[->|[-> E]]]; destruct s; reflexivity || discriminate E. Qed.
Lemma promoted_U8 t : clock_rep t -> promoted_type t U8 = Some t.
Proof. unfold clock_rep. destruct t as [b s]. cbn [bits sgn]. intros [->|[->|[-> E]]]; destruct s; reflexivity || discriminate E. Qed.

Lemma common_seconds t D t2 q : clock_rep t -> 0 < D -> 0 < q -> fits (q * D) -> promoted_type t t2 = Some t ->
  common (tick t D) (Dty t2 (q, 1)) = Some (tick t D) /\ representable (1, D) (q, 1).
Proof.
  intros C HD Q F P.
  assert (L : Z.lcm D 1 = D) by (rewrite Z.lcm_1_r; lia).
  assert (R : representable (1, D) (q, 1)).
  { unfold representable. cbn [fst snd]. rewrite L, Z.mul_1_r. repeat split; try (unfold fits in *; nia). }
  split; [|exact R]. rewrite (common_value _ _ t); try assumption; try (split; cbn; lia).
  unfold common_period, tick. cbn [per fst snd]. rewrite L. rewrite Z.gcd_1_l. reflexivity.
Qed.
Lemma sub_seconds t D t2 q a m : clock_rep t -> 0 < D -> std_ity t2 -> 0 < q -> fits (q * D) -> promoted_type t t2 = Some t ->
  in_range t a -> in_range t2 m -> 0 <= m -> q * D * m <= a ->
  dsub (tick t D) (Dty t2 (q, 1)) a m = Some (Ok (a - q * D * m)).
Proof.
  intros C HD S2 Q F P R Rm M LE. destruct (clock_std t C) as [S U].
  destruct (common_seconds t D t2 q C HD Q F P) as [CM RP].
  assert (B : 1 <= bits t) by now apply std_pos.
  assert (Rq : in_range t (q * D * m)).
  { unfold in_range in *. assert (imin t <= 0) by (unfold imin; destruct (sgn t); [pose proof (Z.pow_pos_nonneg 2 (bits t - 1)); lia|lia]). nia. }
  assert (Rs : in_range t (a - q * D * m)).
  { unfold in_range in *. assert (imin t <= 0) by (unfold imin; destruct (sgn t); [pose proof (Z.pow_pos_nonneg 2 (bits t - 1)); lia|lia]). nia. }
  unfold dsub. rewrite (with_common_value _ _ (tick t D) a m a (q * D * m)); try assumption; try (split; cbn; lia).
  - cbn [rep tick]. rewrite !wrap_id by assumption.
    rewrite arith_ok; [|now apply std_pos, promote_std|now apply promote_range]. cbn [bind]. unfold make. cbn [rep tick].
    rewrite wrap_id by assumption. reflexivity.
  - apply seconds_eq; [split; cbn; lia|split; cbn; lia|]. cbn. ring.
  - now apply (std_int64 t).
  - now apply (std_int64 t).
Qed.

Lemma dabs_ok t D v : clock_rep t -> 0 < D -> fits (D * D) -> in_range t v -> not_min t v -> dabs (tick t D) v = Some (Ok (Z.abs v)).
Proof.
  intros C HD F R NM. destruct (clock_std t C) as [S U]. unfold dabs. cbn [rep tick].
  destruct (sgn t) eqn:SG.
  - assert (L : Z.lcm D D = D) by (rewrite Z.lcm_diag; lia).
    assert (RP : representable (1, D) (1, D)) by (unfold representable; cbn [fst snd]; rewrite L, Z.mul_1_r; repeat split; unfold fits in *; nia).
    assert (CM : common (tick t D) (tick t D) = Some (tick t D)).
    { rewrite (common_value _ _ t); try assumption; try (split; cbn; lia); [|now apply promoted_same].
      unfold common_period, tick. cbn [per fst snd]. rewrite L. reflexivity. }
    assert (Z0 : in_range t 0).
    { unfold in_range, imin, imax. rewrite SG. pose proof (Z.pow_pos_nonneg 2 (bits t - 1)). pose proof (std_pos _ S). lia. }
    unfold dge, rnot, dlt. rewrite (with_common_value _ _ (tick t D) v 0 v 0); try assumption; try (split; cbn; lia); try reflexivity.
    + cbn [obind]. cbn [rep tick]. rewrite !wrap_id by (assumption || now apply std_pos). cbn [bind].
      destruct (Z.ltb_spec v 0) as [N|N]; cbn [negb].
      * unfold dneg. cbn [rep tick]. specialize (NM SG).
        assert (RN : in_range t (- v)). { unfold in_range, imin, imax in *. rewrite SG in *. lia. }
        rewrite arith_ok; [|now apply std_pos, promote_std|now apply promote_range]. cbn [bind]. unfold make. cbn [rep tick].
        rewrite wrap_id by (assumption || now apply std_pos). do 2 f_equal. lia.
      * do 2 f_equal. lia.
    + now apply (std_int64 t).
  - do 2 f_equal. unfold in_range, imin in R. rewrite SG in R. lia.
Qed.
Lemma abs_range t v : 1 <= bits t -> in_range t v -> not_min t v -> in_range t (Z.abs v).
Proof.
  intros B R NM. unfold in_range, not_min, imin, imax in *. destruct (sgn t); [|lia]. specialize (NM eq_refl).
  pose proof (Z.pow_pos_nonneg 2 (bits t - 1)). lia.
Qed.
Lemma duration_type_tick t D : 0 < D -> fits D -> duration_type (tick t D) = Some (tick t D).
Proof.
  intros HD F. unfold duration_type. cbn [per rep tick]. unfold type. cbn [fst snd].
  rewrite gcd_value; [|lia|lia|unfold fits; lia|exact F]. cbn [obind]. rewrite Z.gcd_1_l.
  rewrite !div64_ok by (assumption || lia || (unfold fits; lia)). cbn [obind]. now rewrite !Z.quot_1_r.
Qed.

Lemma wrap_U8 z : wrap U8 z = z mod 256.
Proof. reflexivity. Qed.

Lemma fits_3600 D : 0 < D -> fits (D * D) -> fits (3600 * D).
Proof. intros HD F. unfold fits in *. destruct (Z.le_gt_cases D 3600); nia. Qed.

Section HMS.
  Variables (t : ity) (D v : Z).
  Hypothesis C : clock_rep t.
  Hypothesis HD : 0 < D.
  Hypothesis F : fits (D * D).
  Hypothesis F36 : fits (3600 * D).
  Hypothesis R : in_range t v.
  Hypothesis NM : not_min t v.
  Let a := Z.abs v.
  Let h := a / (3600 * D) mod 256.
  Let m := a / (60 * D) mod 256.

  Lemma hms_R : in_range t a.
  Proof. apply abs_range; [|exact R|exact NM]. apply std_pos. now apply clock_std. Qed.
  Lemma hms_F1 : fits D.
  Proof. unfold fits in *. nia. Qed.
  Lemma hms_F60 : fits (60 * D).
  Proof. unfold fits in *. nia. Qed.
  Lemma sU8 : std_ity U8.
  Proof. unfold std_ity. cbn. lia. Qed.
  Lemma hms_abs : dabs (tick t D) v = Some (Ok a).
  Proof. now apply dabs_ok. Qed.
  Lemma in_U8 z : in_range U8 (z mod 256).
  Proof. unfold in_range. cbn. pose proof (Z.mod_pos_bound z 256). lia. Qed.

  Lemma hms_hours : hours (tick t D) v = Some (Ok h).
  Proof.
    unfold hours. rewrite duration_type_tick by (exact HD || exact hms_F1). cbn [obind]. rewrite hms_abs. cbn [rbind].
    unfold hours_type. rewrite convert_to_seconds; try assumption; try lia; try exact sU8; try exact hms_R.
    now rewrite wrap_U8.
  Qed.
  Lemma h_le : 3600 * D * h <= a.
  Proof.
    unfold h. assert (A : 0 <= a) by (unfold a; lia). pose proof (Z.mod_le (a / (3600 * D)) 256) as M.
    assert (0 <= a / (3600 * D)) by (apply Z.div_pos; lia). pose proof (Z.mul_div_le a (3600 * D)). nia.
  Qed.
  Lemma m_le : 60 * D * m <= a.
  Proof.
    unfold m. assert (A : 0 <= a) by (unfold a; lia). pose proof (Z.mod_le (a / (60 * D)) 256) as M.
    assert (0 <= a / (60 * D)) by (apply Z.div_pos; lia). pose proof (Z.mul_div_le a (60 * D)). nia.
  Qed.
  Lemma sub_range x : 0 <= x <= a -> in_range t x.
  Proof.
    intros X. pose proof hms_R as Ra. unfold in_range in *.
    assert (imin t <= 0); [|lia]. unfold imin. destruct (sgn t); [|lia].
    destruct (clock_std t C) as [S _]. pose proof (std_pos _ S). pose proof (Z.pow_pos_nonneg 2 (bits t - 1)). lia.
  Qed.

  Lemma hms_minutes : minutes (tick t D) v = Some (Ok ((a / (60 * D) - 60 * h) mod 256)).
  Proof.
    unfold minutes. rewrite duration_type_tick by (exact HD || exact hms_F1). cbn [obind]. unfold hours_type.
    destruct (common_seconds t D U8 3600 C HD ltac:(lia) F36 (promoted_U8 t C)) as [-> _]. cbn [obind].
    rewrite hms_abs. cbn [rbind]. rewrite hms_hours. cbn [rbind].
    pose proof h_le as HL. assert (H0 : 0 <= h) by (unfold h; apply Z.mod_pos_bound; lia).
    rewrite sub_seconds; try assumption; try lia; try exact sU8; try exact hms_R; [|now apply promoted_U8|apply in_U8].
    cbn [rbind]. unfold minutes_type.
    rewrite convert_to_seconds; try assumption; try lia; try exact sU8; [|exact hms_F60|apply sub_range; nia].
    rewrite wrap_U8. do 3 f_equal. replace (a - 3600 * D * h) with (a + (- (60 * h)) * (60 * D)) by ring.
    rewrite Z.div_add by lia. lia.
  Qed.
  Lemma hms_seconds : seconds (tick t D) v = Some (Ok (a / D - 60 * m)).
  Proof.
    unfold seconds. rewrite duration_type_tick by (exact HD || exact hms_F1). cbn [obind]. unfold minutes_type.
    destruct (common_seconds t D U8 60 C HD ltac:(lia) hms_F60 (promoted_U8 t C)) as [-> _]. cbn [obind].
    rewrite hms_abs. cbn [rbind].
    rewrite convert_to_seconds; try assumption; try lia; try exact sU8; try exact hms_R; [|exact hms_F60].
    rewrite wrap_U8. cbn [rbind]. fold m. pose proof m_le as ML. assert (M0 : 0 <= m) by (unfold m; apply Z.mod_pos_bound; lia).
    rewrite sub_seconds; try assumption; try lia; try exact sU8; try exact hms_R; [|exact hms_F60|now apply promoted_U8|apply in_U8].
    cbn [rbind]. unfold seconds_type. cbn [rep tick].
    assert (F1 : fits (1 * D)) by (rewrite Z.mul_1_l; exact hms_F1).
    rewrite convert_to_seconds; try assumption; try lia; [|now apply clock_std|apply sub_range; nia].
    rewrite Z.mul_1_l. replace (a - 60 * D * m) with (a + (- (60 * m)) * D) by ring. rewrite Z.div_add by lia.
    replace (a / D + - (60 * m)) with (a / D - 60 * m) by ring. rewrite wrap_id; [reflexivity|now apply std_pos, clock_std|].
    apply sub_range. assert (A : 0 <= a) by (unfold a; lia).
    assert (a / D <= a) by (apply Z.div_le_upper_bound; nia).
    assert (60 * m <= a / D) by (apply Z.div_le_lower_bound; nia). lia.
  Qed.
  Lemma hms_subseconds : subseconds (tick t D) v = Some (Ok (a mod D)).
  Proof.
    unfold subseconds. rewrite duration_type_tick by (exact HD || exact hms_F1). cbn [obind]. unfold seconds_type. cbn [rep tick].
    assert (F1 : fits (1 * D)) by (rewrite Z.mul_1_l; exact hms_F1).
    change {| rep := t; per := (1, D) |} with (tick t D).
    destruct (common_seconds t D t 1 C HD ltac:(lia) F1 (promoted_same t C)) as [-> _]. cbn [obind].
    rewrite hms_abs. cbn [rbind].
    assert (A : 0 <= a) by (unfold a; lia). pose proof (Z.mul_div_le a D HD) as MD.
    assert (Q0 : 0 <= a / D) by (apply Z.div_pos; lia).
    assert (AD : a / D <= a) by (apply Z.div_le_upper_bound; nia).
    rewrite convert_to_seconds; try assumption; try lia; [|now apply clock_std|exact hms_R].
    rewrite Z.mul_1_l. rewrite wrap_id; [|now apply std_pos, clock_std|apply sub_range; lia]. cbn [rbind].
    rewrite sub_seconds; try assumption; try lia; [|now apply clock_std|now apply promoted_same|exact hms_R|apply sub_range; lia].
    cbn [rbind]. replace (a - 1 * D * (a / D)) with (a mod D) by (rewrite Z.mod_eq by lia; ring).
    pose proof (Z.mod_pos_bound a D HD). pose proof (Z.mod_le a D A HD).
    apply convert_same; try assumption; [exact hms_F1|apply sub_range; lia].
  Qed.
End HMS.
