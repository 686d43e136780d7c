From Coq Require Import ZArith QArith Lia Bool List String.
From Verif Require Import Base MachInt Ratio_Model Ratio_Proofs Chrono_Model Chrono_Proofs Timep_Proofs
  Ios_Model Streambuf_Model Charconv_Model Charconv_Spec Stream_Spec Ostream_Model Ostream_Spec Ostream_Proofs
  Ratio_Spec Chrono_Spec Units_Spec Units_Model.
Import ListNotations.
Local Open Scope Z_scope.

Lemma per_eqb_spec p q : reflect (p = q) (per_eqb p q).
Proof.
  destruct p as [a b], q as [c d]. unfold per_eqb. cbn [fst snd].
  destruct (Z.eqb_spec a c); destruct (Z.eqb_spec b d); cbn; constructor; congruence.
Qed.
Lemma proj_eqb_spec f g : reflect (f = g) (proj_eqb f g).
Proof.
  destruct f as [|t a|t a], g as [|t' a'|t' a']; cbn; try (constructor; congruence);
    destruct (ity_eqb_spec t t'); destruct (Z.eqb_spec a a'); cbn; constructor; congruence.
Qed.
Lemma uty_eqb_spec a b : reflect (a = b) (uty_eqb a b).
Proof.
  destruct a as [t p f], b as [t' p' f']. unfold uty_eqb. cbn [urep uper uf].
  destruct (ity_eqb_spec t t'); destruct (per_eqb_spec p p'); destruct (proj_eqb_spec f f'); cbn; constructor; congruence.
Qed.

Lemma wrap_idem t z : 1 <= bits t -> wrap t (wrap t z) = wrap t z.
Proof. intros B. apply wrap_id; [exact B|now apply wrap_range]. Qed.

Lemma count_pass u r : uf u = Pass -> 1 <= bits (urep u) -> in_range (urep u) r -> count u r = Ok r.
Proof. intros E B R. unfold count, project. rewrite E. now rewrite wrap_id. Qed.

(* between plain units, convert_from is the conversion of durations *)
Lemma convert_pass u s r : uf u = Pass -> uf s = Pass -> 1 <= bits (urep u) -> 1 <= bits (urep s) -> in_range (urep s) r ->
  convert_from u s r = convert (dty_of s) (dty_of u) r.
Proof.
  intros EU ES BU BS R. unfold convert_from. rewrite count_pass by assumption.
  unfold convert_count, convert, f_rep, dty_of. rewrite EU, ES. cbn [rep per].
  destruct (ratio_divide (uper s) (uper u)) as [rd|]; [|reflexivity]. cbn [obind]. f_equal.
  destruct (arith _ (_ * _)) as [x| |]; try reflexivity. cbn [bind].
  destruct (arith _ _) as [q| |]; try reflexivity. cbn [bind]. unfold project, reversal. cbn [bind]. now rewrite wrap_idem.
Qed.

Lemma promoted_widens t1 t2 r : std_ity t1 -> std_ity t2 -> ~ mixed t1 t2 -> promoted_type t1 t2 = Some r ->
  widens t1 r = true /\ widens t2 r = true.
Proof.
  unfold mixed. intros H1 H2. std8 H1; std8 H2; cbn [bits sgn]; intros M; cbn; intros E; try discriminate E; injection E as <-;
    (split; reflexivity) || (exfalso; apply M; cbn; intuition (reflexivity || lia)).
Qed.
Lemma widens_range a b z : std_ity a -> std_ity b -> widens a b = true -> in_range a z -> in_range b z.
Proof. intros H1 H2. std8 H1; std8 H2; cbn; intros W; try discriminate W; unfold in_range; cbn; lia. Qed.
Lemma mixed_narrows t1 t2 r : std_ity t1 -> std_ity t2 -> mixed t1 t2 -> promoted_type t1 t2 = Some r ->
  widens t1 r = false \/ widens t2 r = false.
Proof.
  unfold mixed. intros H1 H2. std8 H1; std8 H2; cbn [bits sgn]; intros M; cbn; intros E; try discriminate E; injection E as <-;
    (left; reflexivity) || (right; reflexivity) || (exfalso; destruct M as [(A & B & C)|(A & B & C)]; try discriminate; lia).
Qed.

Lemma construct_tick a c v m : uf a = Pass -> uf c = Pass -> std_ity (urep a) -> std_ity (urep c) ->
  positive_period (uper a) -> positive_period (uper c) ->
  in_range (urep a) v -> in_range (urep c) m -> widens (urep a) (urep c) = true ->
  (seconds_of m (uper c) == seconds_of v (uper a))%Q ->
  convert (dty_of a) (dty_of c) v = Some (Ok (wrap (urep c) m)) -> construct c a v = Some (Ok m).
Proof.
  intros EA EC SA SC PA PC V M W T C. pose proof (std_pos _ SA) as BA. pose proof (std_pos _ SC) as BC. unfold construct.
  destruct (uty_eqb_spec c a) as [-> |N].
  - do 2 f_equal. symmetry. now apply (seconds_inj m v (uper a) PA).
  - destruct (per_eqb_spec (uper c) (uper a)) as [E|E].
    + unfold f_rep. rewrite EA, W. rewrite count_pass by assumption. do 2 f_equal. rewrite E in T. symmetry. now apply (seconds_inj m v (uper a) PA).
    + rewrite convert_pass by assumption. rewrite C. now rewrite wrap_id.
Qed.

Section Both.
  Variables a b : uty.
  Variable c : dty.
  Variables v1 v2 m1 m2 : Z.
  Hypothesis EA : uf a = Pass.
  Hypothesis EB : uf b = Pass.
  Hypothesis S1 : std_ity (urep a).
  Hypothesis S2 : std_ity (urep b).
  Hypothesis P1 : positive_period (uper a).
  Hypothesis P2 : positive_period (uper b).
  Hypothesis R : Chrono_Spec.representable (uper a) (uper b).
  Hypothesis C : common (dty_of a) (dty_of b) = Some c.
  Hypothesis V1 : in_range (urep a) v1.
  Hypothesis V2 : in_range (urep b) v2.
  Hypothesis M1 : (seconds_of m1 (per c) == seconds_of v1 (uper a))%Q.
  Hypothesis M2 : (seconds_of m2 (per c) == seconds_of v2 (uper b))%Q.
  Let u := Uty (rep c) (per c) Pass.
  Lemma common_facts : promoted_type (urep a) (urep b) = Some (rep c) /\ std_ity (rep c) /\ rep c <> U64 /\ positive_period (per c).
  Proof.
    destruct (common_inv (dty_of a) (dty_of b) c P1 P2 R C) as [PT PC]. cbn [rep per dty_of] in PT, PC.
    destruct (promoted_std _ _ _ S1 S2 PT). repeat split; try assumption; rewrite PC; now apply common_period_pos.
  Qed.
  Lemma construct_both : ~ mixed (urep a) (urep b) -> in_range (rep c) m1 -> in_range (rep c) m2 ->
    construct u a v1 = Some (Ok m1) /\ construct u b v2 = Some (Ok m2).
  Proof.
    intros MX I1 I2. destruct common_facts as (PT & SC & U & PC). destruct (promoted_widens _ _ _ S1 S2 MX PT) as [W1 W2].
    assert (DC : dty_of u = c) by (destruct c; reflexivity).
    split; apply construct_tick; try assumption; try reflexivity; rewrite DC.
    - apply (to_common_l (dty_of a) (dty_of b)); try assumption. now apply (std_int64 (rep c)).
    - apply (to_common_r (dty_of a) (dty_of b)); try assumption. now apply (std_int64 (rep c)).
  Qed.
  Lemma both_value {A} (f : uty -> Z -> Z -> result A) : a <> b -> ~ mixed (urep a) (urep b) -> in_range (rep c) m1 -> in_range (rep c) m2 ->
    both a b v1 v2 f = Some (f u m1 m2).
  Proof.
    intros N MX I1 I2. destruct (construct_both MX I1 I2) as [A1 A2].
    unfold both, usum, ucommon. destruct (uty_eqb_spec a b); [contradiction|]. rewrite EA, EB, C. cbn [obind]. fold u.
    rewrite A1, A2. reflexivity.
  Qed.
End Both.

Lemma both_same {A} a r s (f : uty -> Z -> Z -> result A) : both a a r s f = Some (f a r s).
Proof.
  unfold both, usum, construct. destruct (uty_eqb_spec a a); [|congruence]. cbn [obind].
  destruct (uty_eqb_spec a a); [|congruence]. reflexivity.
Qed.
Lemma add_in_range u r s : std_ity (urep u) -> in_range (urep u) (r + s) -> add_assign u r s = Ok (r + s).
Proof.
  intros S I. pose proof (std_pos _ S). unfold add_assign. rewrite arith_ok by (now apply std_pos, promote_std || now apply promote_range).
  cbn [bind]. now rewrite wrap_id.
Qed.
Lemma sub_in_range u r s : std_ity (urep u) -> in_range (urep u) (r - s) -> sub_assign u r s = Ok (r - s).
Proof.
  intros S I. pose proof (std_pos _ S). unfold sub_assign. rewrite arith_ok by (now apply std_pos, promote_std || now apply promote_range).
  cbn [bind]. now rewrite wrap_id.
Qed.
Lemma counts_pass {A} (f : Z -> Z -> A) u m n : uf u = Pass -> 1 <= bits (urep u) -> in_range (urep u) m -> in_range (urep u) n ->
  counts f u m n = Ok (f m n).
Proof. intros. unfold counts. now rewrite !count_pass by assumption. Qed.

(* ---- sums that are right in their target whatever the intermediate type *)
Lemma wrap_into t u z : 1 <= bits t -> bits t <= bits u -> wrap t (wrap u z) = wrap t z.
Proof.
  intros B L. apply wrap_mod; [exact B|]. destruct (wrap_diff u z) as [k E]; [lia|]. rewrite E.
  exists (k * 2 ^ (bits u - bits t)). rewrite <- Z.mul_assoc, <- Z.pow_add_r by lia. now replace (bits u - bits t + bits t) with (bits u) by lia.
Qed.
Lemma sum_into t u x y : 1 <= bits t -> bits t <= bits u -> in_range t (x + y) ->
  (sgn u = true -> in_range u x /\ in_range u y /\ in_range u (x + y)) ->
  (z <- arith u (wrap u x + wrap u y) ;; Ok (wrap t z))%res = Ok (x + y).
Proof.
  intros B L I H. assert (BU : 1 <= bits u) by lia. destruct (sgn u) eqn:G.
  - destruct (H eq_refl) as (X & Y & XY). rewrite !(wrap_id u) by assumption. rewrite arith_ok by assumption. cbn [bind]. now rewrite wrap_id.
  - unfold arith. rewrite G. cbn [bind]. f_equal. transitivity (wrap t (x + y)); [|now apply wrap_id].
    rewrite wrap_into by assumption. transitivity (wrap t (wrap u (x + y))); [|now apply wrap_into].
    rewrite <- (wrap_into t u (wrap u x + wrap u y)) by assumption. f_equal. apply wrap_mod; [exact BU|].
    destruct (wrap_diff u x BU) as [j ->]. destruct (wrap_diff u y BU) as [k ->]. exists (j + k). lia.
Qed.
Lemma usual_signed a b z : std_ity a -> std_ity b -> sgn (usual a b) = true ->
  (in_range a z -> in_range (usual a b) z) /\ (in_range b z -> in_range (usual a b) z).
Proof. intros H1 H2. std8 H1; std8 H2; cbn; intros G; try discriminate G; unfold in_range; cbn; lia. Qed.
Lemma usual_bits a b : std_ity a -> std_ity b -> bits a <= bits (usual a b) /\ bits b <= bits (usual a b).
Proof. intros H1 H2. std8 H1; std8 H2; cbn; lia. Qed.

Lemma project_add t a rep tv v : std_ity t -> std_ity tv -> in_range t a -> in_range tv v -> in_range t (v + a) ->
  project (Add t a) rep tv v = Ok (v + a).
Proof.
  intros S SV A V I. unfold project. destruct (usual_bits tv t SV S). apply sum_into; try assumption; [now apply std_pos|].
  intros G. destruct (usual_signed tv t v SV S G). destruct (usual_signed tv t a SV S G). destruct (usual_signed tv t (v + a) SV S G). auto.
Qed.
Lemma wrap_opp_sum u v a : 1 <= bits u -> wrap u (wrap u v - wrap u a) = wrap u (v - a).
Proof. intros B. apply wrap_mod; [exact B|]. destruct (wrap_diff u v B) as [j ->]. destruct (wrap_diff u a B) as [k ->]. exists (j - k). lia. Qed.
Lemma project_sub t a rep tv v : std_ity t -> std_ity tv -> in_range t a -> in_range tv v -> in_range t (v - a) ->
  project (Sub t a) rep tv v = Ok (v - a).
Proof.
  intros S SV A V I. unfold project. destruct (usual_bits tv t SV S) as [_ L].
  pose proof (std_pos _ S) as B. pose proof (std_pos _ (usual_std _ _ SV S)) as BU. set (u := usual tv t) in *.
  destruct (sgn u) eqn:G.
  - assert (X : in_range u v /\ in_range u a /\ in_range u (v - a)).
    { destruct (usual_signed tv t v SV S G). destruct (usual_signed tv t a SV S G). destruct (usual_signed tv t (v - a) SV S G). auto. }
    destruct X as (X & Y & XY). rewrite !(wrap_id u) by assumption. rewrite arith_ok by assumption. cbn [bind]. now rewrite wrap_id.
  - unfold arith. rewrite G. cbn [bind]. f_equal. transitivity (wrap t (v - a)); [|now apply wrap_id].
    rewrite wrap_opp_sum by assumption. now apply wrap_into.
Qed.

(* ---- percent *)
Lemma share_range w p unit lo hi : 0 < fst unit -> 0 < snd unit -> 0 <= p -> lo <= hi -> in_range w lo -> in_range w hi ->
  p * fst unit <= 100 * snd unit -> in_range w (share p unit lo hi) /\ lo <= share p unit lo hi <= hi.
Proof.
  intros A B P L I J F. unfold share. assert (0 < 100 * snd unit) by lia.
  assert (N : 0 <= (hi - lo) * p * fst unit) by nia.
  assert (Q : 0 <= Z.quot ((hi - lo) * p * fst unit) (100 * snd unit) <= hi - lo).
  { rewrite Z.quot_div_nonneg by lia. split; [apply Z.div_pos; lia|]. apply Z.div_le_upper_bound; [lia|].
    replace ((hi - lo) * p * fst unit) with ((hi - lo) * (p * fst unit)) by ring. nia. }
  unfold in_range in *. lia.
Qed.
Lemma percent_value u w p lo hi : std_ity (urep u) -> std_ity (urep w) -> 0 < fst (uper u) -> 0 < snd (uper u) ->
  Ratio_Spec.fits (fst (uper u)) -> Ratio_Spec.fits (100 * snd (uper u)) ->
  in_range (urep w) lo -> in_range (urep w) (hi - lo) ->
  let tv := usual (urep w) (urep u) in
  in_range tv (hi - lo) -> in_range tv p -> in_range tv ((hi - lo) * p) -> in_range tv ((hi - lo) * p * fst (uper u)) ->
  in_range (urep w) (share p (uper u) lo hi) ->
  get_from_percent u w p lo hi = Ok (share p (uper u) lo hi).
Proof.
  intros SU SW N D FN FD L RG tv T1 T2 T3 T4 SH. unfold get_from_percent. rewrite sub_in_range by assumption. cbn [bind]. fold tv.
  assert (ST : std_ity tv) by now apply usual_std. pose proof (std_pos _ ST) as BT.
  rewrite !(wrap_id tv) by assumption. rewrite arith_ok by assumption. cbn [bind].
  assert (MT : usual tv I64 = U64 \/ usual tv I64 = I64) by (rewrite usual_I64 by exact ST; destruct (ity_eqb _ _); auto).
  assert (TM : forall z, in_range tv z -> in_range (usual tv I64) z).
  { intros z. rewrite usual_I64 by exact ST. clear - ST. std8 ST; unfold in_range; cbn; lia. }
  set (tm := usual tv I64) in *. assert (BM : 1 <= bits tm) by (destruct MT as [-> | ->]; cbn; lia).
  assert (TN : in_range tm (fst (uper u))) by (unfold Ratio_Spec.fits in FN; destruct MT as [-> | ->]; unfold in_range; cbn; lia).
  assert (TD : in_range tm (100 * snd (uper u))) 
    by (unfold Ratio_Spec.fits in FD; assert (H : 0 < 100 * snd (uper u)) by lia; clear - FD MT H; revert FD H; generalize (100 * snd (uper u)); intros k FD H; destruct MT as [-> | ->]; unfold in_range; cbn; lia).
  rewrite !(wrap_id tm) by (assumption || now apply TM). rewrite arith_ok by (assumption || now apply TM). cbn [bind].
  rewrite (wrap_id tv) by assumption. rewrite (wrap_id tm ((hi - lo) * p * fst (uper u))) by (assumption || now apply TM).
  assert (Z0 : in_range tv 0) by (clear - ST; std8 ST; unfold in_range; cbn; lia).
  assert (QR : in_range tv (Z.quot ((hi - lo) * p * fst (uper u)) (100 * snd (uper u)))) by (apply quot_range; [lia|assumption|assumption]).
  rewrite arith_ok by (assumption || now apply TM). cbn [bind]. rewrite (wrap_id tv) by assumption.
  unfold share in *. rewrite (Z.add_comm lo) in *. destruct (usual_bits tv (urep w) ST SW) as [_ LB].
  apply sum_into; [now apply std_pos|exact LB|exact SH|]. intros G.
  destruct (usual_signed tv (urep w) (Z.quot ((hi - lo) * p * fst (uper u)) (100 * snd (uper u))) ST SW G).
  destruct (usual_signed tv (urep w) lo ST SW G).
  destruct (usual_signed tv (urep w) (Z.quot ((hi - lo) * p * fst (uper u)) (100 * snd (uper u)) + lo) ST SW G). auto.
Qed.

(* ---- output *)
Lemma put_all_ok i l : forall b, room b (List.length (List.concat l)) -> put_all (Ostr i b) l = Ok (Ostr i (after b (List.concat l))).
Proof.
  induction l as [|t l IH]; intros b R; cbn [put_all List.concat] in *; [now rewrite after_nil|].
  rewrite app_length in R. rewrite insert_str_ok by (eapply room_le; [|exact R]; lia). cbn [bind].
  rewrite IH by (now apply after_room). now rewrite after_app.
Qed.
