From Coq Require Import ZArith QArith Lia Bool.
From Verif Require Import Ratio_Spec Ratio_Model.
Local Open Scope Z_scope.
Local Open Scope ratio_scope.

Lemma in64_some z : fits z -> in64 z = Some z.
Proof.
  unfold fits, in64. intros H. destruct (Z.leb_spec (- 2 ^ 63) z); [|lia]. destruct (Z.ltb_spec z (2 ^ 63)); [reflexivity|lia].
Qed.
Lemma in64_inv z y : in64 z = Some y -> y = z.
Proof. unfold in64. destruct (_ && _); congruence. Qed.
Lemma mul64_inv a b y : mul64 a b = Some y -> y = a * b.
Proof. apply in64_inv. Qed.
Lemma plus64_inv a b y : plus64 a b = Some y -> y = a + b.
Proof. apply in64_inv. Qed.
Lemma div64_inv a b y : div64 a b = Some y -> b <> 0 /\ y = Z.quot a b.
Proof. unfold div64. destruct (Z.eqb_spec b 0); [discriminate|]. intros H. apply in64_inv in H. auto. Qed.
Lemma rem64_inv a b y : rem64 a b = Some y -> b <> 0 /\ y = Z.rem a b.
Proof.
  unfold rem64. destruct (Z.eqb_spec b 0); [discriminate|]. destruct (in64 _); [|discriminate]. cbn. intros [= <-]. auto.
Qed.
Lemma quot_fits a b : fits a -> b <> 0 -> fits (Z.quot a b).
Proof.
  unfold fits. intros F B.
  assert (Z.abs (Z.quot a b) <= Z.abs a); [|lia].
  rewrite <- Z.quot_abs by exact B. destruct (Z.eq_dec (Z.abs b) 1) as [->|N]; [rewrite Z.quot_1_r; lia|].
  destruct (Z.eq_dec a 0) as [->|]; [cbn; lia|]. apply Z.lt_le_incl, Z.quot_lt; lia.
Qed.
Lemma div64_ok a b : fits a -> b <> 0 -> div64 a b = Some (Z.quot a b).
Proof. intros F B. unfold div64. apply Z.eqb_neq in B as E. rewrite E. apply in64_some. now apply quot_fits. Qed.
Lemma rem64_ok a b : fits a -> b <> 0 -> rem64 a b = Some (Z.rem a b).
Proof.
  intros F B. unfold rem64. apply Z.eqb_neq in B as E. rewrite E. rewrite in64_some by now apply quot_fits. reflexivity.
Qed.
Lemma rem_fits a b : fits a -> b <> 0 -> fits (Z.rem a b).
Proof.
  unfold fits. intros F B. assert (Z.abs (Z.rem a b) <= Z.abs a); [|lia].
  rewrite <- Z.rem_abs by exact B. rewrite Z.rem_mod_nonneg by lia. apply Z.mod_le; lia.
Qed.

(* ---- gcd *)
Lemma gcd_rem a b : b <> 0 -> Z.gcd b (Z.rem a b) = Z.gcd a b.
Proof.
  intros B. pose proof (Z.quot_rem a b B) as E.
  rewrite (Z.gcd_comm a b). replace (Z.rem a b) with (a + (- Z.quot a b) * b) by lia.
  now rewrite Z.gcd_add_mult_diag_r.
Qed.
Lemma gcd_inv fuel : forall a b g, gcd_ fuel a b = Some g -> Z.abs g = Z.gcd a b.
Proof.
  induction fuel as [|fuel IH]; intros a b g H; cbn [gcd_] in H; destruct (Z.eqb_spec b 0) as [->|N]; try discriminate.
  - injection H as <-. now rewrite Z.gcd_0_r.
  - injection H as <-. now rewrite Z.gcd_0_r.
  - destruct (rem64 a b) as [r|] eqn:R; [|discriminate]. cbn in H. apply rem64_inv in R as [_ ->].
    apply IH in H. rewrite H. now apply gcd_rem.
Qed.
Lemma rem_half b r : r <> 0 -> Z.abs r < Z.abs b -> 2 * Z.abs (Z.rem b r) < Z.abs b.
Proof.
  intros R L. rewrite <- Z.rem_abs by exact R. rewrite Z.rem_mod_nonneg by lia.
  pose proof (Z.mod_pos_bound (Z.abs b) (Z.abs r)). pose proof (Z.div_mod (Z.abs b) (Z.abs r)).
  assert (1 <= Z.abs b / Z.abs r) by (apply Z.div_le_lower_bound; lia). nia.
Qed.
Lemma gcd_total k : forall a b, fits a -> fits b -> Z.abs b < 2 ^ Z.of_nat k -> exists g, gcd_ (2 * k) a b = Some g.
Proof.
  induction k as [|k IH]; intros a b Fa Fb L.
  - cbn in L. assert (b = 0) as -> by lia. exists a. reflexivity.
  - replace (2 * S k)%nat with (S (S (2 * k))) by lia. cbn [gcd_].
    destruct (Z.eqb_spec b 0) as [->|Nb]; [eauto|].
    rewrite rem64_ok by assumption. cbn [obind]. set (r := Z.rem a b).
    assert (Lr : Z.abs r < Z.abs b) by (unfold r; apply Z.rem_bound_abs; exact Nb).
    assert (Fr : fits r) by now apply rem_fits.
    destruct (Z.eqb_spec r 0) as [Er|Nr]; [eauto|].
    rewrite rem64_ok by assumption. cbn [obind].
    apply IH; [exact Fr|now apply rem_fits|].
    pose proof (rem_half b r Nr Lr). rewrite Nat2Z.inj_succ, Z.pow_succ_r in L by lia. lia.
Qed.
Lemma gcd_mono f1 : forall f2 a b g, (f1 <= f2)%nat -> gcd_ f1 a b = Some g -> gcd_ f2 a b = Some g.
Proof.
  induction f1 as [|f1 IH]; intros f2 a b g L H.
  - destruct f2; cbn [gcd_] in *; destruct (b =? 0); congruence.
  - destruct f2 as [|f2]; [lia|]. cbn [gcd_] in *. destruct (b =? 0); [exact H|].
    destruct (rem64 a b) as [r|]; [|discriminate]. cbn [obind] in *. apply IH; [lia|exact H].
Qed.
Lemma gcd_ok a b : fits a -> fits b -> exists g, gcd a b = Some g /\ Z.abs g = Z.gcd a b.
Proof.
  intros Fa Fb. destruct (gcd_total 64 a b Fa Fb) as (g & G).
  - unfold fits in Fb. change (Z.of_nat 64) with 64. lia.
  - exists g. assert (E : gcd a b = Some g) by (apply gcd_mono with (2 * 64)%nat; [lia|exact G]).
    split; [exact E|]. now apply gcd_inv in E.
Qed.
Lemma gcd_pos fuel : forall a b g, 0 < a -> 0 <= b -> gcd_ fuel a b = Some g -> 0 < g.
Proof.
  induction fuel as [|fuel IH]; intros a b g A B H; cbn [gcd_] in H; destruct (Z.eqb_spec b 0) as [->|N]; try discriminate.
  - now injection H as <-.
  - now injection H as <-.
  - destruct (rem64 a b) as [r|] eqn:R; [|discriminate]. cbn in H. apply rem64_inv in R as [_ ->].
    apply IH in H; [exact H|lia|]. apply Z.rem_nonneg; lia.
Qed.
(* dividing by the (possibly negative) gcd *)
Lemma abs_gcd_divide a b g : Z.abs g = Z.gcd a b -> (g | a) /\ (g | b).
Proof.
  intros E. pose proof (Z.gcd_divide_l a b). pose proof (Z.gcd_divide_r a b). rewrite <- E in *.
  split; now apply Z.divide_abs_l.
Qed.
Lemma quot_divide a g : g <> 0 -> (g | a) -> a = Z.quot a g * g.
Proof. intros G [k ->]. now rewrite Z.quot_mul. Qed.
Lemma lowest a b g : b <> 0 -> Z.abs g = Z.gcd a b -> lowest_terms (Z.quot a g) (Z.quot b g).
Proof.
  intros B E. unfold lowest_terms.
  assert (G : g <> 0).
  { intros ->. cbn in E. symmetry in E. apply Z.gcd_eq_0_r in E. contradiction. }
  destruct (abs_gcd_divide a b g E) as [Da Db].
  pose proof (quot_divide a g G Da) as Ea. pose proof (quot_divide b g G Db) as Eb.
  set (x := Z.quot a g) in *. set (y := Z.quot b g) in *.
  rewrite Ea, Eb, Z.gcd_mul_mono_r in E. pose proof (Z.gcd_nonneg x y). nia.
Qed.
Lemma lowest_sym n d : lowest_terms n d -> lowest_terms d n.
Proof. unfold lowest_terms. now rewrite Z.gcd_comm. Qed.

(* ---- fractions *)
Lemma inj_nz d : d <> 0 -> ~ (inject_Z d == 0)%Q.
Proof. unfold Qeq. cbn. lia. Qed.
Lemma frac_eq n d n' d' : d <> 0 -> d' <> 0 -> n * d' = n' * d -> (frac n d == frac n' d')%Q.
Proof.
  intros D D' E. unfold frac. apply inj_nz in D as Q1. apply inj_nz in D' as Q2.
  assert (Hq : (inject_Z n * inject_Z d' == inject_Z n' * inject_Z d)%Q) by (rewrite <- !inject_Z_mult, E; reflexivity).
  transitivity ((inject_Z n * inject_Z d') / (inject_Z d * inject_Z d'))%Q.
  - field. auto.
  - rewrite Hq. field. auto.
Qed.

Lemma type_inv n d r : d <> 0 -> type (n, d) = Some r ->
  snd r <> 0 /\ (frac (fst r) (snd r) == frac n d)%Q /\ lowest_terms (fst r) (snd r).
Proof.
  intros D H. unfold type in H. cbn [fst snd] in H.
  destruct (gcd n d) as [g|] eqn:G; [|discriminate]. cbn [obind] in H.
  apply gcd_inv in G.
  destruct (div64 n g) as [x|] eqn:X; [|discriminate]. cbn [obind] in H. apply div64_inv in X as [G0 ->].
  destruct (div64 d g) as [y|] eqn:Y; [|discriminate]. cbn [obind] in H. apply div64_inv in Y as [_ ->].
  injection H as <-. cbn [fst snd]. destruct (abs_gcd_divide n d g G) as [Dn Dd].
  pose proof (quot_divide n g G0 Dn) as En. pose proof (quot_divide d g G0 Dd) as Ed.
  assert (D' : Z.quot d g <> 0) by (intros K; rewrite K in Ed; lia).
  split; [exact D'|]. split; [|now apply lowest].
  apply frac_eq; [exact D'|exact D|]. rewrite Ed at 1. rewrite En at 2. ring.
Qed.
Lemma type_pos n d r : 0 < n -> 0 < d -> type (n, d) = Some r -> 0 < fst r /\ 0 < snd r.
Proof.
  intros N D H. unfold type in H. cbn [fst snd] in H.
  destruct (gcd n d) as [g|] eqn:G; [|discriminate]. cbn [obind] in H.
  assert (G0 : 0 < g) by (apply gcd_pos in G; lia). apply gcd_inv in G.
  destruct (div64 n g) as [x|] eqn:X; [|discriminate]. cbn [obind] in H. apply div64_inv in X as [_ ->].
  destruct (div64 d g) as [y|] eqn:Y; [|discriminate]. cbn [obind] in H. apply div64_inv in Y as [_ ->].
  injection H as <-. cbn [fst snd]. destruct (abs_gcd_divide n d g G) as [Dn Dd].
  pose proof (quot_divide n g ltac:(lia) Dn) as En. pose proof (quot_divide d g ltac:(lia) Dd) as Ed. nia.
Qed.
Lemma type_ok n d : fits n -> fits d -> d <> 0 -> exists r, type (n, d) = Some r.
Proof.
  intros Fn Fd D. unfold type. cbn [fst snd]. destruct (gcd_ok n d Fn Fd) as (g & -> & E). cbn [obind].
  assert (G : g <> 0).
  { intros ->. cbn in E. symmetry in E. apply Z.gcd_eq_0_r in E. contradiction. }
  rewrite !div64_ok by assumption. cbn. eauto.
Qed.

Lemma reduce_inv a b g n d : b <> 0 -> gcd a b = Some g \/ gcd b a = Some g -> div64 a g = Some n -> div64 b g = Some d ->
  d <> 0 /\ (frac n d == frac a b)%Q.
Proof.
  intros B G X Y. apply div64_inv in X as [G0 ->]. apply div64_inv in Y as [_ ->].
  assert (E : Z.abs g = Z.gcd a b).
  { destruct G as [G|G]; apply gcd_inv in G; [exact G|]. now rewrite Z.gcd_comm. }
  destruct (abs_gcd_divide a b g E) as [Dn Dd].
  pose proof (quot_divide a g G0 Dn) as En. pose proof (quot_divide b g G0 Dd) as Ed.
  assert (D' : Z.quot b g <> 0) by (intros K; rewrite K in Ed; lia).
  split; [exact D'|]. apply frac_eq; [exact D'|exact B|]. rewrite Ed at 1. rewrite En at 2. ring.
Qed.

Lemma divide_inv r1 r2 r : snd r1 <> 0 -> snd r2 <> 0 -> fst r2 <> 0 -> ratio_divide r1 r2 = Some r ->
  snd r <> 0 /\ (value r == value r1 / value r2)%Q /\ lowest_terms (fst r) (snd r).
Proof.
  destruct r1 as [n1 d1], r2 as [n2 d2]. cbn [fst snd]. intros D1 D2 N2 H. unfold ratio_divide in H. cbn [fst snd] in H.
  destruct (mul64 d2 n1) as [a|] eqn:A; [|discriminate]. cbn [obind] in H. apply mul64_inv in A.
  destruct (mul64 d1 n2) as [b|] eqn:B; [|discriminate]. cbn [obind] in H. apply mul64_inv in B.
  destruct (gcd a b) as [g|] eqn:G; [|discriminate]. cbn [obind] in H.
  destruct (div64 a g) as [n|] eqn:X; [|discriminate]. cbn [obind] in H.
  destruct (div64 b g) as [d|] eqn:Y; [|discriminate]. cbn [obind] in H.
  assert (B0 : b <> 0) by (subst b; nia).
  destruct (reduce_inv a b g n d B0 (or_introl G) X Y) as [D0 E].
  apply type_inv in H as (H1 & H2 & H3); [|exact D0]. split; [exact H1|]. split; [|exact H3].
  unfold value at 1. rewrite H2, E. unfold value, frac. cbn [fst snd]. subst a b. rewrite !inject_Z_mult.
  apply inj_nz in D1, D2, N2. field. auto.
Qed.
Lemma multiply_inv r1 r2 r : snd r1 <> 0 -> snd r2 <> 0 -> ratio_multiply r1 r2 = Some r ->
  snd r <> 0 /\ (value r == value r1 * value r2)%Q /\ lowest_terms (fst r) (snd r).
Proof.
  destruct r1 as [n1 d1], r2 as [n2 d2]. cbn [fst snd]. intros D1 D2 H. unfold ratio_multiply in H. cbn [fst snd] in H.
  destruct (mul64 n1 n2) as [a|] eqn:A; [|discriminate]. cbn [obind] in H. apply mul64_inv in A.
  destruct (mul64 d2 d1) as [b|] eqn:B; [|discriminate]. cbn [obind] in H. apply mul64_inv in B.
  destruct (gcd b a) as [g|] eqn:G; [|discriminate]. cbn [obind] in H.
  destruct (div64 a g) as [n|] eqn:X; [|discriminate]. cbn [obind] in H.
  destruct (div64 b g) as [d|] eqn:Y; [|discriminate]. cbn [obind] in H.
  assert (B0 : b <> 0) by (subst b; nia).
  destruct (reduce_inv a b g n d B0 (or_intror G) X Y) as [D0 E].
  apply type_inv in H as (H1 & H2 & H3); [|exact D0]. split; [exact H1|]. split; [|exact H3].
  unfold value at 1. rewrite H2, E. unfold value, frac. cbn [fst snd]. subst a b. rewrite !inject_Z_mult.
  apply inj_nz in D1, D2. field. auto.
Qed.
Lemma add_inv r1 r2 r : snd r1 <> 0 -> snd r2 <> 0 -> ratio_add r1 r2 = Some r ->
  snd r <> 0 /\ (value r == value r1 + value r2)%Q /\ lowest_terms (fst r) (snd r).
Proof.
  destruct r1 as [n1 d1], r2 as [n2 d2]. cbn [fst snd]. intros D1 D2 H. unfold ratio_add in H. cbn [fst snd] in H.
  destruct (mul64 n1 d2) as [a|] eqn:A; [|discriminate]. cbn [obind] in H. apply mul64_inv in A.
  destruct (mul64 n2 d1) as [b|] eqn:B; [|discriminate]. cbn [obind] in H. apply mul64_inv in B.
  destruct (mul64 d1 d2) as [d|] eqn:C; [|discriminate]. cbn [obind] in H. apply mul64_inv in C.
  destruct (plus64 a b) as [n|] eqn:X; [|discriminate]. cbn [obind] in H. apply plus64_inv in X.
  assert (D0 : d <> 0) by (subst d; nia).
  apply type_inv in H as (H1 & H2 & H3); [|exact D0]. split; [exact H1|]. split; [|exact H3].
  unfold value at 1. rewrite H2. unfold value, frac. cbn [fst snd]. subst n a b d. rewrite inject_Z_plus, !inject_Z_mult.
  apply inj_nz in D1, D2. field. auto.
Qed.

Lemma mul64_ok a b : fits (a * b) -> mul64 a b = Some (a * b).
Proof. apply in64_some. Qed.

Lemma reduce_ok a b : fits a -> fits b -> b <> 0 -> exists g, gcd a b = Some g /\ Z.abs g = Z.gcd a b /\ g <> 0.
Proof.
  intros Fa Fb B. destruct (gcd_ok a b Fa Fb) as (g & E & G). exists g. split; [exact E|]. split; [exact G|].
  intros ->. cbn in G. symmetry in G. apply Z.gcd_eq_0_r in G. contradiction.
Qed.
Lemma quot_gcd_nz a b g : b <> 0 -> g <> 0 -> Z.abs g = Z.gcd a b -> Z.quot b g <> 0.
Proof.
  intros B G0 E K. destruct (abs_gcd_divide a b g E) as [_ Dd]. pose proof (quot_divide b g G0 Dd) as Ed. rewrite K in Ed. lia.
Qed.

Lemma divide_ok r1 r2 : snd r1 <> 0 -> snd r2 <> 0 -> fst r2 <> 0 ->
  fits (snd r2 * fst r1) -> fits (snd r1 * fst r2) -> exists r, ratio_divide r1 r2 = Some r.
Proof.
  destruct r1 as [n1 d1], r2 as [n2 d2]. cbn [fst snd]. intros D1 D2 N2 Fa Fb. unfold ratio_divide. cbn [fst snd].
  rewrite !mul64_ok by assumption. cbn [obind].
  assert (B0 : d1 * n2 <> 0) by nia.
  destruct (reduce_ok _ _ Fa Fb B0) as (g & -> & G & G0). cbn [obind].
  rewrite !div64_ok by assumption. cbn [obind]. apply type_ok; [now apply quot_fits|now apply quot_fits|].
  now apply quot_gcd_nz with (d2 * n1).
Qed.
Lemma multiply_ok r1 r2 : snd r1 <> 0 -> snd r2 <> 0 ->
  fits (fst r1 * fst r2) -> fits (snd r2 * snd r1) -> exists r, ratio_multiply r1 r2 = Some r.
Proof.
  destruct r1 as [n1 d1], r2 as [n2 d2]. cbn [fst snd]. intros D1 D2 Fa Fb. unfold ratio_multiply. cbn [fst snd].
  rewrite !mul64_ok by assumption. cbn [obind].
  assert (B0 : d2 * d1 <> 0) by nia.
  destruct (gcd_ok _ _ Fb Fa) as (g & -> & G). cbn [obind].
  assert (G0 : g <> 0).
  { intros ->. cbn in G. symmetry in G. apply Z.gcd_eq_0_l in G. contradiction. }
  rewrite !div64_ok by assumption. cbn [obind]. apply type_ok; [now apply quot_fits|now apply quot_fits|].
  rewrite Z.gcd_comm in G. now apply quot_gcd_nz with (n1 * n2).
Qed.
Lemma add_ok r1 r2 : snd r1 <> 0 -> snd r2 <> 0 ->
  fits (fst r1 * snd r2) -> fits (fst r2 * snd r1) -> fits (snd r1 * snd r2) ->
  fits (fst r1 * snd r2 + fst r2 * snd r1) -> exists r, ratio_add r1 r2 = Some r.
Proof.
  destruct r1 as [n1 d1], r2 as [n2 d2]. cbn [fst snd]. intros D1 D2 Fa Fb Fd Fn. unfold ratio_add. cbn [fst snd].
  rewrite !mul64_ok by assumption. cbn [obind]. unfold plus64. rewrite in64_some by exact Fn. cbn [obind].
  apply type_ok; [exact Fn|exact Fd|nia].
Qed.
Lemma divide_pos r1 r2 r : 0 < fst r1 -> 0 < snd r1 -> 0 < fst r2 -> 0 < snd r2 -> ratio_divide r1 r2 = Some r ->
  0 < fst r /\ 0 < snd r.
Proof.
  destruct r1 as [n1 d1], r2 as [n2 d2]. cbn [fst snd]. intros N1 D1 N2 D2 H. unfold ratio_divide in H. cbn [fst snd] in H.
  destruct (mul64 d2 n1) as [a|] eqn:A; [|discriminate]. cbn [obind] in H. apply mul64_inv in A.
  destruct (mul64 d1 n2) as [b|] eqn:B; [|discriminate]. cbn [obind] in H. apply mul64_inv in B.
  destruct (gcd a b) as [g|] eqn:G; [|discriminate]. cbn [obind] in H.
  assert (A0 : 0 < a) by (subst; nia). assert (B0 : 0 < b) by (subst; nia).
  assert (G0 : 0 < g) by (apply gcd_pos in G; lia). apply gcd_inv in G.
  destruct (div64 a g) as [n|] eqn:X; [|discriminate]. cbn [obind] in H. apply div64_inv in X as [_ ->].
  destruct (div64 b g) as [d|] eqn:Y; [|discriminate]. cbn [obind] in H. apply div64_inv in Y as [_ ->].
  destruct (abs_gcd_divide a b g G) as [Dn Dd].
  pose proof (quot_divide a g ltac:(lia) Dn) as En. pose proof (quot_divide b g ltac:(lia) Dd) as Ed.
  apply type_pos in H; [exact H|nia|nia].
Qed.
