From Coq Require Import List ZArith QArith Qabs Qpower Bool Lia Zpow_facts.
From Verif Require Import Base BaseLemmas SliceLemmas MachInt Ios_Model Ios_Proofs Streambuf_Model Istream_Model
  Charconv_Model Charconv_Spec Charconv_Proofs Stream_Spec Stream_Proofs Numio_Model Numio_Spec Numio_Proofs
  Flt_Spec Flt_Model Flt_View.
Import ListNotations.
Local Open Scope Z_scope.

(* ---- rounding to integers ---- *)

Lemma rne_spec p q k : 0 <= p -> 0 < q -> k <> rne p q ->
  Z.abs (p - rne p q * q) < Z.abs (p - k * q) \/
  (Z.abs (p - rne p q * q) = Z.abs (p - k * q) /\ Z.even (rne p q) = true).
Proof.
  intros Hp Hq. unfold rne. pose proof (Z.div_mod p q ltac:(lia)) as E.
  pose proof (Z.mod_pos_bound p q Hq) as B. set (n := p / q) in *. set (r := p mod q) in *.
  assert (D : forall j, p - j * q = (n - j) * q + r) by (intro j; rewrite E; ring).
  destruct (Z.compare_spec (2 * r) q) as [C|C|C].
  - destruct (Z.even n) eqn:Ev; intros Hk; rewrite !D.
    + replace ((n - n) * q + r) with r by ring.
      destruct (Z_lt_le_dec k n); [left; nia|]. assert (n + 1 <= k) by lia.
      destruct (Z.eq_dec k (n + 1)) as [->|]; [right; split; [lia|exact Ev]|left; nia].
    + replace ((n - (n + 1)) * q + r) with (r - q) by ring.
      assert (Ev' : Z.even (n + 1) = true) by (rewrite Z.add_1_r, Z.even_succ, <- Z.negb_even, Ev; reflexivity).
      destruct (Z_lt_le_dec (n + 1) k); [left; nia|].
      destruct (Z.eq_dec k n) as [->|]; [right; split; [lia|exact Ev']|left; assert (k <= n - 1) by lia; nia].
  - intros Hk. rewrite !D. replace ((n - n) * q + r) with r by ring. left.
    destruct (Z_lt_le_dec k n); [nia|]. assert (n + 1 <= k) by lia. nia.
  - intros Hk. rewrite !D. replace ((n - (n + 1)) * q + r) with (r - q) by ring. left.
    destruct (Z_lt_le_dec (n + 1) k); [nia|]. assert (k <= n) by lia. nia.
Qed.

Lemma rne_bounds p q a b : 0 <= p -> 0 < q -> a * q <= p <= b * q -> a <= rne p q <= b.
Proof.
  intros Hp Hq [Ha Hb]. split.
  - destruct (Z_le_gt_dec a (rne p q)); [assumption|exfalso].
    destruct (rne_spec p q a Hp Hq ltac:(lia)) as [H|[H _]]; nia.
  - destruct (Z_le_gt_dec (rne p q) b); [assumption|exfalso].
    destruct (rne_spec p q b Hp Hq ltac:(lia)) as [H|[H _]]; nia.
Qed.

(* ---- rounding to the numbers of a format, in units ---- *)

Definition member (fm : fmt) (u : Z) : Prop := exists m e, Z.abs m < 2 ^ prec fm /\ 0 <= e /\ u = m * 2 ^ e.
Definition emember (fm : fmt) (u : Z) : Prop := exists m e, Z.abs (2 * m) < 2 ^ prec fm /\ 0 <= e /\ u = 2 * m * 2 ^ e.
Definition okfmt (fm : fmt) : Prop := 3 <= prec fm /\ 2 * prec fm <= emax fm.

Lemma std_ok fm : std_fmt fm -> okfmt fm.
Proof. intros [->| ->]; unfold okfmt; cbn; lia. Qed.

Lemma one_pos fm : okfmt fm -> 0 < one fm.
Proof. intros [H1 H2]. unfold one. apply Z.pow_pos_nonneg; lia. Qed.

Lemma pow_pos e : 0 <= e -> 0 < 2 ^ e.
Proof. intro. apply Z.pow_pos_nonneg; lia. Qed.

(* the exponent that is used *)
Definition uexp (fm : fmt) (p q : Z) : Z := Z.max 0 (Z.log2 (p / q) - prec fm + 1).

Lemma uexp_spec fm p q : okfmt fm -> 0 <= p -> 0 < q ->
  0 <= uexp fm p q /\ p < 2 ^ prec fm * (q * 2 ^ uexp fm p q) /\
  (uexp fm p q = 0 \/ 2 ^ (prec fm - 1) * (q * 2 ^ uexp fm p q) <= p).
Proof.
  intros [H1 H2] Hp Hq. unfold uexp. set (n := p / q).
  assert (Hn : 0 <= n) by (apply Z.div_pos; lia).
  assert (B : q * n <= p < q * (n + 1)).
  { pose proof (Z.div_mod p q ltac:(lia)) as E. pose proof (Z.mod_pos_bound p q Hq). fold n in E. nia. }
  split; [lia|].
  destruct (Z.eq_dec n 0) as [E|E].
  - rewrite E in *. change (Z.log2 0) with 0. rewrite Z.max_l by lia. split; [|auto].
    change (2 ^ 0) with 1. pose proof (Z.pow_gt_1 2 (prec fm) ltac:(lia)) as [G _]. specialize (G ltac:(lia)).
    set (X := 2 ^ prec fm) in *. clearbody X. clear - B G Hq. nia.
  - pose proof (Z.log2_spec n ltac:(lia)) as [L1 L2]. pose proof (Z.log2_nonneg n) as L0.
    assert (Hs : n + 1 <= 2 ^ (Z.succ (Z.log2 n))) by lia.
    destruct (Z_le_gt_dec (Z.log2 n - prec fm + 1) 0) as [C|C].
    + rewrite Z.max_l by lia. split; [|auto]. change (2 ^ 0) with 1.
      assert (2 ^ (Z.succ (Z.log2 n)) <= 2 ^ prec fm) by (apply Z.pow_le_mono_r; lia). nia.
    + rewrite Z.max_r by lia. set (e := Z.log2 n - prec fm + 1) in *.
      assert (E1 : 2 ^ prec fm * 2 ^ e = 2 ^ Z.succ (Z.log2 n)) by (rewrite <- Z.pow_add_r by lia; f_equal; lia).
      assert (E2 : 2 ^ (prec fm - 1) * 2 ^ e = 2 ^ Z.log2 n) by (rewrite <- Z.pow_add_r by lia; f_equal; lia).
      split; [|right].
      * replace (2 ^ prec fm * (q * 2 ^ e)) with (q * (2 ^ prec fm * 2 ^ e)) by ring. rewrite E1. nia.
      * replace (2 ^ (prec fm - 1) * (q * 2 ^ e)) with (q * (2 ^ (prec fm - 1) * 2 ^ e)) by ring. rewrite E2. nia.
Qed.

Lemma round_abs_spec fm p q : okfmt fm -> 0 <= p -> 0 < q ->
  0 <= round_abs fm p q /\ member fm (round_abs fm p q) /\
  forall u, member fm u -> u <> round_abs fm p q ->
    Z.abs (p - round_abs fm p q * q) < Z.abs (p - u * q) \/
    (Z.abs (p - round_abs fm p q * q) = Z.abs (p - u * q) /\ emember fm (round_abs fm p q)).
Proof.
  intros Ho Hp Hq. destruct (uexp_spec fm p q Ho Hp Hq) as (He & Hu & Hl). destruct Ho as [H1 H2].
  change (round_abs fm p q) with (rne p (q * 2 ^ uexp fm p q) * 2 ^ uexp fm p q).
  set (e := uexp fm p q) in *. pose proof (pow_pos e He) as Pe.
  set (Q := q * 2 ^ e) in *. assert (HQ : 0 < Q) by (unfold Q; nia).
  set (m := rne p Q) in *.
  assert (Hm : 0 <= m <= 2 ^ prec fm) by (apply rne_bounds; lia).
  assert (PP : 2 ^ prec fm = 2 * 2 ^ (prec fm - 1)) by (rewrite <- Z.pow_succ_r by lia; f_equal; lia).
  assert (PP2 : 2 ^ (prec fm - 1) = 2 * 2 ^ (prec fm - 2)) by (rewrite <- Z.pow_succ_r by lia; f_equal; lia).
  pose proof (pow_pos (prec fm - 2) ltac:(lia)) as PP3.
  split; [nia|]. split.
  - destruct (Z.eq_dec m (2 ^ prec fm)) as [E|E].
    + exists (2 ^ (prec fm - 1)), (e + 1). split; [lia|]. split; [lia|]. rewrite E, Z.pow_add_r by lia.
      rewrite PP. change (2 ^ 1) with 2. ring.
    + exists m, e. split; [lia|]. split; [lia|reflexivity].
  - intros u (mu & eu & Hmu & Heu & ->) Hne.
    assert (Ev : Z.even m = true -> emember fm (m * 2 ^ e)).
    { intros Ev. destruct (Z.eq_dec m (2 ^ prec fm)) as [E|E].
      - exists (2 ^ (prec fm - 2)), (e + 1). split; [lia|]. split; [lia|]. rewrite E, Z.pow_add_r by lia.
        rewrite PP, PP2. change (2 ^ 1) with 2. ring.
      - apply Z.even_spec in Ev. destruct Ev as [h Eh]. exists h, e. rewrite <- Eh. split; [lia|]. split; [lia|reflexivity]. }
    destruct (Z_le_gt_dec e eu) as [C|C].
    + assert (Eu : mu * 2 ^ eu = mu * 2 ^ (eu - e) * 2 ^ e)
        by (rewrite <- Z.mul_assoc, <- Z.pow_add_r by lia; do 2 f_equal; lia).
      rewrite Eu in *. set (k := mu * 2 ^ (eu - e)) in *.
      destruct (rne_spec p Q k Hp HQ) as [L|[L E]].
      * intros Hk. apply Hne. rewrite Hk. reflexivity.
      * left. fold m in L. replace (m * 2 ^ e * q) with (m * Q) by (unfold Q; ring).
        replace (k * 2 ^ e * q) with (k * Q) by (unfold Q; ring). exact L.
      * right. fold m in L, E. replace (m * 2 ^ e * q) with (m * Q) by (unfold Q; ring).
        replace (k * 2 ^ e * q) with (k * Q) by (unfold Q; ring). auto.
    + destruct Hl as [Hl|Hl]; [lia|].
      left. set (a := 2 ^ (prec fm - 1)) in *.
      assert (Ha : mu * 2 ^ eu < a * 2 ^ e).
      { assert (2 ^ prec fm * 2 ^ eu <= a * 2 ^ e).
        { unfold a. rewrite <- !Z.pow_add_r by lia. apply Z.pow_le_mono_r; lia. }
        pose proof (pow_pos eu Heu). nia. }
      assert (Hma : a <= m) by (apply (rne_bounds p Q a (2 ^ prec fm)); lia).
      assert (Hd : Z.abs (p - m * Q) <= p - a * Q).
      { destruct (Z.eq_dec a m) as [<-|Hn]; [lia|].
        destruct (rne_spec p Q a Hp HQ Hn) as [L|[L _]]; fold m in L; lia. }
      replace (m * 2 ^ e * q) with (m * Q) by (unfold Q; ring).
      assert (mu * 2 ^ eu * q < a * Q) by (unfold Q; nia). lia.
Qed.

Lemma member_opp fm u : member fm u -> member fm (- u).
Proof. intros (m & e & A & B & ->). exists (- m), e. rewrite Z.abs_opp. repeat split; auto. ring. Qed.
Lemma emember_opp fm u : emember fm u -> emember fm (- u).
Proof. intros (m & e & A & B & ->). exists (- m), e. split; [lia|]. split; [exact B|ring]. Qed.

Lemma round_abs_ge fm p q u : okfmt fm -> 0 <= p -> 0 < q -> member fm u -> u * q <= p -> u <= round_abs fm p q.
Proof.
  intros Ho Hp Hq Hm Hu. destruct (round_abs_spec fm p q Ho Hp Hq) as (H0 & _ & H).
  destruct (Z_le_gt_dec u (round_abs fm p q)); [assumption|exfalso].
  destruct (H u Hm ltac:(lia)) as [L|[L _]]; nia.
Qed.
Lemma round_abs_le fm p q u : okfmt fm -> 0 <= p -> 0 < q -> member fm u -> p <= u * q -> round_abs fm p q <= u.
Proof.
  intros Ho Hp Hq Hm Hu. destruct (round_abs_spec fm p q Ho Hp Hq) as (H0 & _ & H).
  destruct (Z_le_gt_dec (round_abs fm p q) u); [assumption|exfalso].
  destruct (H u Hm ltac:(lia)) as [L|[L _]]; nia.
Qed.
Lemma round_abs_exact fm q u : okfmt fm -> 0 <= u -> 0 < q -> member fm u -> round_abs fm (u * q) q = u.
Proof.
  intros Ho Hu Hq Hm. apply Z.le_antisymm.
  - apply round_abs_le; auto; nia.
  - apply round_abs_ge; auto; nia.
Qed.

Lemma round_exact fm q u : okfmt fm -> 0 < q -> member fm u -> Z.abs u < 2 ^ emax fm * one fm -> round fm (u * q) q = Fin u.
Proof.
  intros Ho Hq Hm Hb. unfold round. rewrite Z.abs_mul, (Z.abs_eq q) by lia.
  assert (Hm' : member fm (Z.abs u)) by (destruct (Z.abs_eq_or_opp u) as [-> | ->]; [|apply member_opp]; exact Hm).
  rewrite round_abs_exact by (auto; lia).
  destruct (Z.leb_spec (2 ^ emax fm * one fm) (Z.abs u)); [lia|]. f_equal.
  rewrite Z.sgn_mul, (Z.sgn_pos q) by lia. rewrite Z.mul_1_r, Z.mul_comm. apply Z.abs_sgn.
Qed.

(* ---- the same over the rationals ---- *)

Lemma one_emin fm : okfmt fm -> one fm = 2 ^ (- emin fm) /\ 0 <= - emin fm.
Proof. intros [H1 H2]. unfold one, emin. split; [f_equal; lia|lia]. Qed.

Lemma pow2_val fm e m : okfmt fm -> emin fm <= e -> (inject_Z m * pow2 e == val fm (m * 2 ^ (e - emin fm)))%Q.
Proof.
  intros Ho He. destruct (one_emin fm Ho) as [E P]. pose proof (one_pos fm Ho) as Po.
  unfold val, pow2. rewrite E.
  assert (T : ~ (inject_Z 2 == 0)%Q) by (intro T; discriminate T).
  replace e with ((e - emin fm) - (- emin fm)) at 1 by lia.
  unfold Z.sub at 1. rewrite Qpower_plus by exact T. rewrite Qpower_opp.
  rewrite <- (Zpower_Qpower 2 (e - emin fm)) by lia. rewrite <- (Zpower_Qpower 2 (- emin fm)) by lia.
  rewrite (Qmake_Qdiv (m * 2 ^ (e - emin fm))). unfold Qdiv. rewrite Z2Pos.id by (rewrite <- E; exact Po).
  rewrite inject_Z_mult. now rewrite Qmult_assoc.
Qed.

Lemma val_eq fm a b : (val fm a == val fm b)%Q <-> a = b.
Proof.
  unfold val, Qeq; cbn [Qnum Qden]. split; [|now intros ->]. intros H. apply Z.mul_cancel_r in H; [exact H|lia].
Qed.

Lemma member_shift fm m e : okfmt fm -> 0 <= e -> Z.abs m < 2 ^ prec fm -> Z.abs (m * 2 ^ e) < 2 ^ emax fm * one fm ->
  exists e', written_as fm (val fm (m * 2 ^ e)) (m * 2 ^ (e - (e' - emin fm))) e' /\ e' - emin fm <= e.
Proof.
  intros Ho He Hm Hb. destruct (one_emin fm Ho) as [E P]. pose proof Ho as [H1 H2].
  set (E0 := emax fm - prec fm - emin fm). assert (HE0 : 0 <= E0) by (unfold E0, emin; lia).
  assert (BB : 2 ^ emax fm * one fm = 2 ^ prec fm * 2 ^ E0).
  { rewrite E. rewrite <- !Z.pow_add_r by (unfold E0, emin in *; lia). f_equal. unfold E0. lia. }
  exists (Z.min e E0 + emin fm).
  replace (e - (Z.min e E0 + emin fm - emin fm)) with (e - Z.min e E0) by lia.
  assert (EQ : m * 2 ^ e = m * 2 ^ (e - Z.min e E0) * 2 ^ Z.min e E0).
  { rewrite <- Z.mul_assoc, <- Z.pow_add_r by lia. do 2 f_equal. lia. }
  split; [|lia]. split; [|split].
  - destruct (Z_le_gt_dec e E0); [rewrite Z.min_l by lia; rewrite Z.sub_diag; change (2 ^ 0) with 1; now rewrite Z.mul_1_r|].
    rewrite Z.min_r in * by lia. rewrite EQ, BB, Z.abs_mul, (Z.abs_eq (2 ^ E0)) in Hb by (apply Z.pow_nonneg; lia).
    pose proof (pow_pos E0 HE0). nia.
  - unfold E0 in *. lia.
  - rewrite (pow2_val fm (Z.min e E0 + emin fm)) by (try exact Ho; lia). rewrite EQ.
    replace (Z.min e E0 + emin fm - emin fm) with (Z.min e E0) by lia. reflexivity.
Qed.

Lemma written_member fm x m e : okfmt fm -> written_as fm x m e ->
  (x == val fm (m * 2 ^ (e - emin fm)))%Q /\ 0 <= e - emin fm /\ Z.abs (m * 2 ^ (e - emin fm)) < 2 ^ emax fm * one fm.
Proof.
  intros Ho (Hm & He & Hx). destruct (one_emin fm Ho) as [E P].
  split; [eapply Qeq_trans; [exact Hx|apply pow2_val; [exact Ho|lia]]|]. split; [lia|]. rewrite Z.abs_mul, (Z.abs_eq (2 ^ _)) by (apply Z.pow_nonneg; lia). rewrite E.
  assert (2 ^ prec fm * 2 ^ (e - emin fm) <= 2 ^ emax fm * 2 ^ (- emin fm)).
  { destruct Ho. rewrite <- !Z.pow_add_r by lia. apply Z.pow_le_mono_r; lia. }
  pose proof (pow_pos (e - emin fm) ltac:(lia)). nia.
Qed.

Lemma rep_val fm u : okfmt fm -> member fm u -> Z.abs u < 2 ^ emax fm * one fm -> representable fm (val fm u).
Proof.
  intros Ho (m & e & Hm & He & ->) Hb. destruct (member_shift fm m e Ho He Hm Hb) as (e' & H & _). eexists _, _. exact H.
Qed.
Lemma even_val fm u : okfmt fm -> emember fm u -> Z.abs u < 2 ^ emax fm * one fm -> even_significand fm (val fm u).
Proof.
  intros Ho (m & e & Hm & He & ->) Hb. destruct (member_shift fm (2 * m) e Ho He Hm Hb) as (e' & H & _).
  exists (m * 2 ^ (e - (e' - emin fm))), e'. rewrite Z.mul_assoc. exact H.
Qed.

Lemma val_dist fm p q u x : okfmt fm -> 0 < q -> (x == p # Z.to_pos (q * one fm))%Q ->
  (Qabs (x - val fm u) == Z.abs (p - u * q) # Z.to_pos (q * one fm))%Q.
Proof.
  intros Ho Hq Hx. pose proof (one_pos fm Ho) as Po. rewrite Hx.
  assert (E : ((p # Z.to_pos (q * one fm)) - val fm u == (p - u * q) # Z.to_pos (q * one fm))%Q).
  { unfold val, Qminus, Qplus, Qopp, Qeq; cbn [Qnum Qden]. rewrite Pos2Z.inj_mul, !Z2Pos.id by nia. ring. }
  rewrite E. reflexivity.
Qed.

Lemma round_nearest fm p q u x : okfmt fm -> 0 < q -> round fm p q = Fin u ->
  (x == p # Z.to_pos (q * one fm))%Q -> nearest fm x (val fm u).
Proof.
  intros Ho Hq. unfold round. destruct (Z.leb_spec (2 ^ emax fm * one fm) (round_abs fm (Z.abs p) q)) as [|Hb]; [discriminate|].
  intros [= <-] Hx. destruct (round_abs_spec fm (Z.abs p) q Ho ltac:(lia) Hq) as (Hr0 & Hr1 & Hr2).
  set (r := round_abs fm (Z.abs p) q) in *.
  assert (Hz : p = 0 -> r = 0).
  { intros ->. unfold r. change (Z.abs 0) with 0. apply Z.le_antisymm; [|exact Hr0].
    apply round_abs_le; auto; try lia. exists 0, 0. destruct Ho. pose proof (pow_pos (prec fm)). split; [lia|split; [lia|reflexivity]]. }
  assert (S : Z.sgn p * r = if p <? 0 then - r else r).
  { destruct (Z.ltb_spec p 0); [rewrite Z.sgn_neg by lia; lia|].
    destruct (Z.eq_dec p 0) as [->|]; [rewrite Hz by reflexivity; reflexivity|rewrite Z.sgn_pos by lia; lia]. }
  assert (Sb : Z.abs (Z.sgn p * r) < 2 ^ emax fm * one fm) by (rewrite S; destruct (p <? 0); lia).
  assert (D : forall w, Z.abs (p - w * q) = Z.abs (Z.abs p - (if p <? 0 then - w else w) * q)).
  { intro w. destruct (Z.ltb_spec p 0); [|f_equal; lia]. rewrite (Z.abs_neq p) by lia. rewrite <- Z.abs_opp. f_equal. ring. }
  split.
  - apply rep_val; auto. rewrite S. destruct (p <? 0); [apply member_opp|]; exact Hr1.
  - intros g (mg & eg & Hg) Hne. destruct (written_member fm g mg eg Ho Hg) as (Eg & He & Hgb).
    set (w := mg * 2 ^ (eg - emin fm)) in *.
    assert (Mw : member fm w) by (exists mg, (eg - emin fm); destruct Hg; auto).
    rewrite Eg in *. rewrite val_eq in Hne. rewrite !(val_dist fm p q) by assumption. rewrite !D.
    assert (SS : (if p <? 0 then - (Z.sgn p * r) else Z.sgn p * r) = r) by (rewrite S; destruct (p <? 0); lia).
    rewrite SS.
    destruct (Hr2 (if p <? 0 then - w else w)) as [L|[L Ev]].
    + destruct (p <? 0); [apply member_opp|]; exact Mw.
    + rewrite S in Hne. destruct (p <? 0); lia.
    + left. unfold Qlt; cbn [Qnum Qden]. nia.
    + right. split; [now rewrite L|]. apply even_val; auto. rewrite S. destruct (p <? 0); [apply emember_opp|]; exact Ev.
Qed.

(* ---- the driver ---- *)

Fixpoint fdrive (fm : fmt) (st : gstate) (dp err : Z) (v : flt) (text : list Z) (n : nat) : nat * Z * flt :=
  match text with
  | [] => (n, Z.lor err eofbit, finalize fm dp v)
  | c :: rest =>
      let r := fnum_get1 fm st dp err v c in
      if rdone r then (n, rerr r, finalize fm (rdp r) (rval r))
      else fdrive fm (rst r) (rdp r) (rerr r) (rval r) rest (S n)
  end.

Lemma fsdrive_at fm tr data : plain tr data -> forall text fuel k st dp err v n m err' v',
  (k < length data)%nat -> skipn k data = text -> (length text <= fuel)%nat ->
  fdrive fm st dp err v text n = ((n + m)%nat, err', v') ->
  fsdrive fuel fm tr st dp err v (at_pos data k) = Ok (at_pos data (k + m), err', v').
Proof.
  intros P text. induction text as [|c text IH]; intros fuel k st dp err v n m err' v' Hk Hs Hf E.
  - apply (f_equal (@length Z)) in Hs. rewrite skipn_length in Hs. cbn in Hs. lia.
  - destruct fuel as [|fuel]; [cbn in Hf; lia|]. cbn [fsdrive].
    assert (Ec : nth_error data k = Some c).
    { replace k with (k + 0)%nat by lia. rewrite <- nth_error_skipn, Hs. reflexivity. }
    rewrite sgetc_at by (try assumption; lia). rewrite Ec. cbn [bind answer].
    destruct (plain_nth _ _ _ _ P Ec) as (Hc & _ & _ & _). rewrite to_char_code by assumption.
    cbn [fdrive] in E. destruct (fnum_get1 fm st dp err v c) as [dn st1 dp1 err1 v1]. cbn [rdone rst rdp rerr rval] in *.
    destruct dn.
    + injection E as E1 -> ->. do 3 f_equal. f_equal. lia.
    + rewrite isbi_next_at by assumption. cbn [bind].
      assert (Hs' : skipn (k + 1) data = text).
      { pose proof (skipn_nth data k c Ec) as H. rewrite Hs in H. rewrite Nat.add_1_r. congruence. }
      assert (Hl : length text = (length data - (k + 1))%nat) by (rewrite <- Hs'; apply skipn_length).
      destruct (Nat.ltb_spec (k + 1) (length data)); cbn [negb].
      * assert (Hm : (n < n + m)%nat).
        { destruct text as [|c' text']; [cbn in Hl; lia|].
          assert (G : forall tx s q e w i j e' w', fdrive fm s q e w tx i = (j, e', w') -> (i <= j)%nat).
          { clear. induction tx as [|x tx IHt]; intros s q e w i j e' w'; cbn [fdrive]; [intros [= <- _ _]; lia|].
            destruct (rdone (fnum_get1 fm s q e w x)); [intros [= <- _ _]; lia|].
            intros H%IHt. lia. }
          apply G in E. lia. }
        destruct m as [|m]; [lia|].
        rewrite (IH fuel (k + 1)%nat st1 dp1 err1 v1 (S n) m err' v'); auto.
        -- do 4 f_equal. lia.
        -- cbn in Hf. lia.
        -- rewrite E. do 2 f_equal. lia.
      * assert (text = []) by (destruct text; [reflexivity|cbn in Hl; lia]). rewrite H0 in E.
        cbn [fdrive] in E. injection E as E1 <- <-. do 4 f_equal. lia.
Qed.

Lemma fextract_at fm tr st data k lead text m err' v' :
  plain tr data -> good st = true -> (k <= length data)%nat ->
  skipn k data = lead ++ text -> Forall space lead -> text <> [] ->
  match text with [] => True | c :: _ => ~ space c end ->
  fdrive fm GStart 0 0 (Fin 0) text 0 = (m, err', v') ->
  extract_flt fm tr (at_str st data k) = Ok (v', at_str (setstate st err') data (k + length lead + m)).
Proof.
  intros P Hg Hk Hs Hl Hn Hh E. destruct (good_state _ Hg) as [G1 G2].
  unfold extract_flt. rewrite (ws_at tr st data k lead text); auto; [|lia]. cbn [bind at_str ist isbuf].
  rewrite G1.
  assert (L : length (skipn k data) = length (lead ++ text)) by (rewrite Hs; reflexivity).
  rewrite skipn_length, app_length in L. destruct text as [|c text]; [congruence|]. cbn [length] in L.
  assert (Hs' : skipn (k + length lead) data = c :: text).
  { rewrite skipn_add, Hs. rewrite skipn_app, skipn_all2, Nat.sub_diag by lia. reflexivity. }
  rewrite (fsdrive_at fm tr data P (c :: text) _ (k + length lead) GStart 0 0 (Fin 0) 0 m err' v'); auto; try lia.
  cbn [length idata at_pos]. lia.
Qed.

(* ---- what the driver does with digits and points ---- *)

Definition stof (pos : bool) : gstate := if pos then GPos else GNeg.
Definition fstep (fm : fmt) (pos : bool) (v : flt) (d : Z) : flt := snd (fraise fm pos 0 v d).
Definition feed (fm : fmt) (pos : bool) (v : flt) (ds : list Z) : flt := fold_left (fstep fm pos) ds v.
Fixpoint adv (dp : Z) (k : nat) : Z :=
  match k with O => dp | S k => adv (if negb (dp =? 0) then (dp + 1) mod 256 else dp) k end.

Lemma fdrive_digits fm pos rest : forall pre ds dp err v n, spells 10 pre ds ->
  fdrive fm (stof pos) dp err v (pre ++ rest) n
  = fdrive fm (stof pos) (adv dp (length pre)) err (feed fm pos v ds) rest (n + length pre).
Proof.
  induction pre as [|c pre IH]; intros ds dp err v n H; inversion H as [|? d ? ds' Hd Ht]; subst; cbn [app length adv].
  - now rewrite Nat.add_0_r.
  - cbn [fdrive]. apply (from_char_some 10 c d ltac:(lia)) in Hd.
    assert (E : fnum_get1 fm (stof pos) dp err v c
                = FR false (stof pos) (if negb (dp =? 0) then (dp + 1) mod 256 else dp) err (fstep fm pos v d)).
    { destruct pos; cbn [stof fnum_get1]; unfold fnominal; rewrite Hd; reflexivity. }
    rewrite E. cbn [rdone rst rdp rerr rval]. rewrite (IH ds') by exact Ht.
    replace (S n + length pre)%nat with (n + S (length pre))%nat by lia. reflexivity.
Qed.

Lemma fdrive_point fm pos dp err v rest n :
  fdrive fm (stof pos) dp err v (46 :: rest) n = fdrive fm (stof pos) 1 err v rest (S n).
Proof. cbn [fdrive]. destruct pos; reflexivity. Qed.

Lemma fdrive_end fm pos dp err v rest n : no_digit_head 10 rest -> hd_error rest <> Some 46 ->
  fdrive fm (stof pos) dp err v rest n
  = (n, match rest with [] => Z.lor err eofbit | _ => err end, finalize fm dp v).
Proof.
  intros H1 H2. destruct rest as [|c rest]; [reflexivity|]. cbn [fdrive no_digit_head hd_error] in *.
  assert (F : from_char 10 c = None).
  { destruct (from_char 10 c) as [d|] eqn:F; [|reflexivity]. apply from_char_some in F; [|lia]. now apply H1 in F. }
  assert (N : (c =? 46) = false) by (apply Z.eqb_neq; congruence).
  destruct pos; cbn [stof fnum_get1]; unfold fnominal; rewrite F, N; reflexivity.
Qed.

Lemma fdrive_start fm err c text n : c <> 45 -> (exists d, is_digit 10 c d) \/ c = 46 ->
  fdrive fm GStart 0 err (Fin 0) (c :: text) n = fdrive fm GPos 0 err (Fin 0) (c :: text) n.
Proof.
  intros H1 H2. cbn [fdrive fnum_get1]. apply Z.eqb_neq in H1. rewrite H1.
  assert (D : rdone (fnominal fm true GPos 0 err (Fin 0) c) = false).
  { unfold fnominal. destruct H2 as [[d Hd]| ->]; [|reflexivity].
    apply (from_char_some 10 c d ltac:(lia)) in Hd. rewrite Hd. reflexivity. }
  rewrite D. cbn [rdone]. rewrite D. reflexivity.
Qed.

Lemma adv_0 k : adv 0 k = 0.
Proof. induction k; [reflexivity|exact IHk]. Qed.
Lemma adv_small : forall k d, 1 <= d -> d + Z.of_nat k < 256 -> adv d k = d + Z.of_nat k.
Proof.
  induction k as [|k IH]; intros d H1 H2; [cbn [adv]; lia|]. cbn [adv].
  destruct (Z.eqb_spec d 0); [lia|]. cbn [negb]. rewrite Z.mod_small by lia. rewrite IH by lia. lia.
Qed.
Lemma adv_big : forall k d, 1 <= d < 256 -> 256 <= d + Z.of_nat k -> adv d k = 0.
Proof.
  induction k as [|k IH]; intros d H1 H2; [lia|]. cbn [adv].
  destruct (Z.eqb_spec d 0); [lia|]. cbn [negb].
  destruct (Z.eq_dec d 255) as [->|]; [apply adv_0|]. rewrite Z.mod_small by lia. apply IH; lia.
Qed.

Definition positive_sign (sign : list Z) : bool := match sign with [] => true | _ => false end.
Definition dec_dp (fp : option (list Z)) : Z := match fp with None => 0 | Some f => adv 1 (length f) end.

Lemma fdrive_decimal fm err text sign ip fp ds rest : decimal_text text sign ip fp ds rest -> ds <> [] ->
  fdrive fm GStart 0 err (Fin 0) text 0
  = ((length text - length rest)%nat, match rest with [] => Z.lor err eofbit | _ => err end,
     finalize fm (dec_dp fp) (feed fm (positive_sign sign) (Fin 0) ds)).
Proof.
  intros (Et & Hs & Hsp & Hr & Hp) Hn.
  assert (Body : forall n, fdrive fm (stof (positive_sign sign)) 0 err (Fin 0)
                   (ip ++ match fp with None => [] | Some f => 46 :: f end ++ rest) n
     = ((n + length ip + match fp with None => 0 | Some f => S (length f) end)%nat,
        match rest with [] => Z.lor err eofbit | _ => err end,
        finalize fm (dec_dp fp) (feed fm (positive_sign sign) (Fin 0) ds))).
  { intro n. apply Forall2_app_inv_l in Hsp. destruct Hsp as (d1 & d2 & S1 & S2 & ->).
    rewrite (fdrive_digits fm _ _ ip d1) by exact S1. rewrite adv_0.
    unfold feed. rewrite fold_left_app. fold (feed fm (positive_sign sign) (Fin 0) d1).
    destruct fp as [f|].
    - change ((46 :: f) ++ rest) with (46 :: (f ++ rest)). rewrite fdrive_point.
      rewrite (fdrive_digits fm _ _ f d2) by exact S2. rewrite fdrive_end by assumption.
      unfold feed, dec_dp. replace (S (n + length ip) + length f)%nat with (n + length ip + S (length f))%nat by lia.
      reflexivity.
    - inversion S2; subst. cbn [app]. rewrite fdrive_end by assumption. unfold feed, dec_dp. cbn [fold_left].
      now rewrite Nat.add_0_r. }
  assert (L : (length text - length rest)%nat
              = (length sign + length ip + match fp with None => 0 | Some f => S (length f) end)%nat).
  { rewrite Et, !app_length. destruct fp; cbn [length]; lia. }
  rewrite L, Et. destruct Hs as [-> | ->].
  - cbn [app]. change (fdrive fm GStart 0 err (Fin 0) (45 :: ?t) 0) with (fdrive fm GNeg 0 err (Fin 0) t 1).
    exact (Body 1%nat).
  - cbn [app length]. cbn [positive_sign stof] in Body.
    assert (Hd : exists c t, ip ++ match fp with None => [] | Some f => 46 :: f end ++ rest = c :: t /\ c <> 45 /\
                 ((exists d, is_digit 10 c d) \/ c = 46)).
    { destruct ip as [|c ip].
      - destruct fp as [f|]; [exists 46; eexists; cbn [app]; split; [reflexivity|split; [lia|auto]]|].
        inversion Hsp; subst; congruence.
      - inversion Hsp as [|? d ? ? Hd]; subst. exists c. eexists. cbn [app]. split; [reflexivity|].
        split; [|left; eauto]. intros ->. destruct Hd as [Hd _]. discriminate Hd. }
    destruct Hd as (c & t & E & Hc & Hd). specialize (Body 0%nat). rewrite E in *. rewrite fdrive_start by assumption.
    exact Body.
Qed.

Lemma decimal_head text sign ip fp ds rest : decimal_text text sign ip fp ds rest -> ds <> [] ->
  text <> [] /\ match text with [] => True | c :: _ => ~ space c end.
Proof.
  intros (Et & Hs & Hsp & Hr & Hp) Hn. rewrite Et. destruct Hs as [-> | ->]; cbn [app].
  - split; [discriminate|]. unfold space. cbn. lia.
  - destruct ip as [|c ip]; cbn [app].
    + destruct fp as [f|]; cbn [app]; [split; [discriminate|unfold space; cbn; lia]|]. inversion Hsp; subst; congruence.
    + split; [discriminate|]. inversion Hsp as [|? d ? ? Hd]; subst. eapply digit_not_space; exact Hd.
Qed.

Lemma decimal_extract fm tr st data k lead text sign ip fp ds rest :
  plain tr data -> good st = true -> (k <= length data)%nat ->
  skipn k data = lead ++ text -> Forall space lead -> decimal_text text sign ip fp ds rest -> ds <> [] ->
  extract_flt fm tr (at_str st data k)
  = Ok (finalize fm (dec_dp fp) (feed fm (positive_sign sign) (Fin 0) ds),
        at_str (match rest with [] => setstate st eofbit | _ => st end) data (k + length lead + (length text - length rest))).
Proof.
  intros P Hg Hk Hs Hl D Hn. destruct (decimal_head _ _ _ _ _ _ D Hn) as [H1 H2].
  rewrite (fextract_at fm tr st data k lead text _ _ _ P Hg Hk Hs Hl H1 H2 (fdrive_decimal fm 0 text sign ip fp ds rest D Hn)).
  do 3 f_equal. destruct rest; [reflexivity|apply setstate_0; exact Hg].
Qed.

(* ---- numbers that fit the significand ---- *)

Definition sg (pos : bool) : Z := if pos then 1 else -1.
Definition digits (ds : list Z) : Prop := Forall (fun d => 0 <= d < 10) ds.
Definition hor (a : Z) (ds : list Z) : Z := fold_left (fun v d => v * 10 + d) ds a.

Lemma spells_digits pre ds : spells 10 pre ds -> digits ds.
Proof. induction 1; constructor; [eapply digit_nonneg; eassumption|assumption]. Qed.

Lemma hor_ge : forall ds a, digits ds -> 0 <= a -> a <= hor a ds.
Proof.
  induction ds as [|d ds IH]; intros a H Ha; cbn [hor fold_left]; [lia|]. inversion H; subst.
  fold (hor (a * 10 + d) ds). pose proof (IH (a * 10 + d) ltac:(assumption) ltac:(lia)). lia.
Qed.

Lemma member_int fm n : okfmt fm -> Z.abs n <= 2 ^ prec fm -> member fm (n * one fm).
Proof.
  intros Ho Hn. destruct Ho as [H1 H2]. unfold one.
  assert (PP : 2 ^ prec fm = 2 * 2 ^ (prec fm - 1)) by (rewrite <- Z.pow_succ_r by lia; f_equal; lia).
  destruct (Z.eq_dec (Z.abs n) (2 ^ prec fm)) as [E|E].
  - exists (Z.sgn n * 2 ^ (prec fm - 1)), (emax fm + prec fm - 3 + 1).
    pose proof (pow_pos (prec fm - 1) ltac:(lia)). split; [|split; [lia|]].
    + rewrite Z.abs_mul, (Z.abs_eq (2 ^ (prec fm - 1))) by lia. destruct (Z.abs_spec (Z.sgn n)); destruct n; cbn [Z.sgn] in *; lia.
    + rewrite (Z.pow_add_r 2 _ 1) by lia. change (2 ^ 1) with 2.
      rewrite <- (Z.abs_sgn n) at 1. rewrite E, PP. ring.
  - exists n, (emax fm + prec fm - 3). repeat split; lia.
Qed.
Lemma int_bound fm n : okfmt fm -> Z.abs n <= 2 ^ prec fm -> Z.abs (n * one fm) < 2 ^ emax fm * one fm.
Proof.
  intros Ho Hn. pose proof (one_pos fm Ho) as P. destruct Ho as [H1 H2].
  assert (2 ^ prec fm < 2 ^ emax fm) by (apply Z.pow_lt_mono_r; lia). rewrite Z.abs_mul, (Z.abs_eq (one fm)) by lia. nia.
Qed.
Lemma of_int_exact fm n : okfmt fm -> Z.abs n <= 2 ^ prec fm -> of_int fm n = Fin (n * one fm).
Proof.
  intros Ho Hn. unfold of_int. rewrite <- (Z.mul_1_r (n * one fm)) at 1.
  apply round_exact; [exact Ho|lia|now apply member_int|now apply int_bound].
Qed.

Lemma pow16 fm : okfmt fm -> 8 <= 2 ^ prec fm.
Proof. intros [H _]. change 8 with (2 ^ 3). apply Z.pow_le_mono_r; lia. Qed.

Lemma fstep_exact fm pos a d : okfmt fm -> 4 <= prec fm -> 0 <= a -> 0 <= d < 10 -> a * 10 + d <= 2 ^ prec fm ->
  fstep fm pos (Fin (sg pos * a * one fm)) d = Fin (sg pos * (a * 10 + d) * one fm).
Proof.
  intros Ho Hp Ha Hd Hb. pose proof (one_pos fm Ho) as P1.
  assert (P : 16 <= 2 ^ prec fm) by (change 16 with (2 ^ 4); apply Z.pow_le_mono_r; lia).
  unfold fstep, fraise. cbn [snd]. rewrite !of_int_exact by (auto; lia). cbn [fmul].
  replace (sg pos * a * one fm * (10 * one fm)) with ((sg pos * (a * 10)) * one fm * one fm) by ring.
  assert (S : Z.abs (sg pos * (a * 10)) <= 2 ^ prec fm) by (destruct pos; cbn [sg]; lia).
  rewrite round_exact by (auto using member_int, int_bound).
  assert (S2 : Z.abs (sg pos * (a * 10 + d)) <= 2 ^ prec fm) by (destruct pos; cbn [sg]; lia).
  destruct pos; cbn [sg fneg fadd] in *.
  - rewrite <- (Z.mul_1_r (_ + _)).
    replace (1 * (a * 10) * one fm + d * one fm) with (1 * (a * 10 + d) * one fm) by ring.
    apply round_exact; auto using member_int, int_bound. lia.
  - rewrite <- (Z.mul_1_r (_ + _)).
    replace (-1 * (a * 10) * one fm + - (d * one fm)) with (-1 * (a * 10 + d) * one fm) by ring.
    apply round_exact; auto using member_int, int_bound. lia.
Qed.

Lemma feed_exact fm pos : okfmt fm -> 4 <= prec fm -> forall ds a, 0 <= a -> digits ds -> hor a ds <= 2 ^ prec fm ->
  feed fm pos (Fin (sg pos * a * one fm)) ds = Fin (sg pos * hor a ds * one fm).
Proof.
  intros Ho Hp. induction ds as [|d ds IH]; intros a Ha Hd Hb; [reflexivity|]. inversion Hd; subst.
  cbn [feed fold_left]. cbn [hor fold_left] in Hb. fold (hor (a * 10 + d) ds) in Hb.
  rewrite fstep_exact by (auto; pose proof (hor_ge ds (a * 10 + d) ltac:(assumption) ltac:(lia)); lia).
  fold (feed fm pos (Fin (sg pos * (a * 10 + d) * one fm)) ds). rewrite IH by (auto; lia). reflexivity.
Qed.

Lemma member_ten fm j : okfmt fm -> 5 ^ Z.of_nat j < 2 ^ prec fm ->
  member fm (10 ^ Z.of_nat j * one fm) /\ Z.abs (10 ^ Z.of_nat j * one fm) < 2 ^ emax fm * one fm.
Proof.
  intros Ho Hj. pose proof (one_pos fm Ho) as P1. destruct Ho as [H1 H2]. set (z := Z.of_nat j) in *.
  assert (Hz : 0 <= z) by lia. clearbody z.
  assert (T : 10 ^ z = 5 ^ z * 2 ^ z) by (rewrite <- Z.pow_mul_l; reflexivity).
  assert (P5 : 0 < 5 ^ z) by (apply Z.pow_pos_nonneg; lia).
  assert (Zp : z < prec fm).
  { apply (Z.pow_lt_mono_r_iff 2); [lia|lia|]. apply Z.le_lt_trans with (5 ^ z); [apply Z.pow_le_mono_l; lia|exact Hj]. }
  split.
  - exists (5 ^ z), (z + (emax fm + prec fm - 3)). split; [rewrite Z.abs_eq by lia; exact Hj|]. split; [lia|].
    unfold one. rewrite T, Z.pow_add_r by lia. ring.
  - rewrite Z.abs_eq by (rewrite T; pose proof (pow_pos z Hz); nia). apply Z.mul_lt_mono_pos_r; [exact P1|].
    apply Z.lt_le_trans with (2 ^ (prec fm + z)).
    + rewrite T, Z.pow_add_r by lia. apply Z.mul_lt_mono_pos_r; [apply pow_pos; lia|exact Hj].
    + apply Z.pow_le_mono_r; lia.
Qed.

Lemma divider_exact fm : okfmt fm -> 4 <= prec fm -> forall n j, 5 ^ Z.of_nat (j + n) < 2 ^ prec fm ->
  divider fm n (Fin (10 ^ Z.of_nat j * one fm)) = Fin (10 ^ Z.of_nat (j + n) * one fm).
Proof.
  intros Ho Hp. induction n as [|n IH]; intros j Hb; cbn [divider]; [now rewrite Nat.add_0_r|].
  pose proof (one_pos fm Ho) as P1.
  assert (P : 16 <= 2 ^ prec fm) by (change 16 with (2 ^ 4); apply Z.pow_le_mono_r; lia).
  rewrite of_int_exact by (auto; lia). cbn [fmul].
  replace (10 ^ Z.of_nat j * one fm * (10 * one fm)) with (10 ^ Z.of_nat (S j) * one fm * one fm).
  2:{ rewrite Nat2Z.inj_succ, Z.pow_succ_r by lia. ring. }
  destruct (member_ten fm (S j) Ho) as [M1 M2].
  { apply Z.le_lt_trans with (5 ^ Z.of_nat (j + S n)); [apply Z.pow_le_mono_r; lia|exact Hb]. }
  rewrite round_exact by auto. rewrite IH by (replace (S j + n)%nat with (j + S n)%nat by lia; exact Hb).
  do 4 f_equal. lia.
Qed.

Lemma round_fin fm p q n : okfmt fm -> 0 < q -> Z.abs n <= 2 ^ prec fm -> Z.abs p <= Z.abs n * one fm * q ->
  exists u, round fm p q = Fin u.
Proof.
  intros Ho Hq Hn Hp. unfold round.
  assert (Hn' : Z.abs (Z.abs n) <= 2 ^ prec fm) by lia.
  pose proof (round_abs_le fm (Z.abs p) q (Z.abs n * one fm) Ho ltac:(lia) Hq (member_int fm _ Ho Hn') Hp) as L.
  pose proof (int_bound fm _ Ho Hn') as B. pose proof (one_pos fm Ho).
  destruct (Z.leb_spec (2 ^ emax fm * one fm) (round_abs fm (Z.abs p) q)); [|eauto].
  rewrite Z.abs_eq in B by nia. lia.
Qed.

Lemma quotient_nearest fm N k : okfmt fm -> 4 <= prec fm -> Z.abs N <= 2 ^ prec fm -> 5 ^ Z.of_nat k < 2 ^ prec fm ->
  exists u, fdiv fm (Fin (N * one fm)) (divider fm k (of_int fm 1)) = Fin u /\ nearest fm (N # ten_to k) (val fm u).
Proof.
  intros Ho Hp Hn Hk. pose proof (one_pos fm Ho) as P1. pose proof (pow16 fm Ho) as P8.
  rewrite of_int_exact by (auto; lia). change (1 * one fm) with (10 ^ Z.of_nat 0 * one fm).
  rewrite divider_exact by auto. cbn [Nat.add fdiv].
  assert (T : 0 < 10 ^ Z.of_nat k) by (apply Z.pow_pos_nonneg; lia).
  destruct (Z.eqb_spec (10 ^ Z.of_nat k * one fm) 0) as [E|_]; [nia|].
  rewrite Z.sgn_pos by nia. rewrite Z.abs_eq by nia.
  destruct (round_fin fm (1 * (N * one fm) * one fm) (10 ^ Z.of_nat k * one fm) N Ho ltac:(nia) Hn) as [u Hu].
  - rewrite !Z.abs_mul, (Z.abs_eq (one fm)) by lia. change (Z.abs 1) with 1.
    assert (0 <= Z.abs N * one fm) by nia. nia.
  - exists u. split; [exact Hu|]. eapply round_nearest; [exact Ho| |exact Hu|]; [nia|].
    unfold Qeq, ten_to; cbn [Qnum Qden]. rewrite !Z2Pos.id by nia. ring.
Qed.

Lemma std4 fm : std_fmt fm -> 4 <= prec fm.
Proof. intros [->| ->]; cbn; lia. Qed.

Lemma ten0 : ten_to 0 = 1%positive. Proof. reflexivity. Qed.

Lemma small_places fm k : std_fmt fm -> 5 ^ Z.of_nat k < 2 ^ prec fm -> Z.of_nat k < 60.
Proof.
  intros Hf H. destruct (Z_lt_le_dec (Z.of_nat k) 60); [assumption|exfalso].
  assert (5 ^ 60 <= 5 ^ Z.of_nat k) by (apply Z.pow_le_mono_r; lia).
  assert (2 ^ prec fm <= 2 ^ 53) by (destruct Hf as [->| ->]; cbn [prec binary32 binary64]; apply Z.pow_le_mono_r; lia).
  assert (2 ^ 53 < 5 ^ 60) by reflexivity. lia.
Qed.

Lemma dec_num_feed fm sign ds : okfmt fm -> 4 <= prec fm -> digits ds -> value_of 10 ds <= 2 ^ prec fm ->
  feed fm (positive_sign sign) (Fin 0) ds = Fin (dec_num sign ds * one fm) /\ Z.abs (dec_num sign ds) <= 2 ^ prec fm.
Proof.
  intros Ho Hp Hd Hv. pose proof (hor_ge ds 0 Hd ltac:(lia)) as H0. change (hor 0 ds) with (value_of 10 ds) in H0.
  pose proof (feed_exact fm (positive_sign sign) Ho Hp ds 0 ltac:(lia) Hd Hv) as E.
  rewrite Z.mul_0_r, Z.mul_0_l in E. rewrite E. change (hor 0 ds) with (value_of 10 ds).
  unfold dec_num. destruct sign; cbn [positive_sign sg]; split; try lia; f_equal; ring.
Qed.

Lemma finalize_nearest fm fp N : std_fmt fm -> Z.abs N <= 2 ^ prec fm -> 5 ^ Z.of_nat (places fp) < 2 ^ prec fm ->
  exists u, finalize fm (dec_dp fp) (Fin (N * one fm)) = Fin u /\ nearest fm (N # ten_to (places fp)) (val fm u).
Proof.
  intros Hf Hn Hk. pose proof (std_ok fm Hf) as Ho. pose proof (std4 fm Hf) as Hp.
  pose proof (small_places fm _ Hf Hk) as Sm. pose proof (one_pos fm Ho) as P1.
  unfold finalize, dec_dp. destruct fp as [f|]; cbn [places] in *.
  - rewrite adv_small by lia. destruct (Z.eqb_spec (1 + Z.of_nat (length f)) 0); [lia|]. cbn [negb].
    replace (Z.to_nat (1 + Z.of_nat (length f) - 1)) with (length f) by lia. now apply quotient_nearest.
  - cbn [Z.eqb negb]. exists (N * one fm). split; [reflexivity|].
    apply (round_nearest fm (N * one fm) 1); [exact Ho|lia| |].
    + rewrite <- (Z.mul_1_r (N * one fm)) at 1. apply round_exact; [exact Ho|lia|now apply member_int|now apply int_bound].
    + unfold Qeq; cbn [Qnum Qden ten_to]. rewrite Z2Pos.id by lia. change (Z.pos (ten_to 0)) with 1. ring.
Qed.

Lemma decimal_nearest fm tr st data k lead text sign ip fp ds rest :
  std_fmt fm -> plain tr data -> good st = true -> (k <= length data)%nat ->
  skipn k data = lead ++ text -> Forall space lead -> decimal_text text sign ip fp ds rest -> ds <> [] ->
  value_of 10 ds <= 2 ^ prec fm -> 5 ^ Z.of_nat (places fp) < 2 ^ prec fm ->
  exists u,
    extract_flt fm tr (at_str st data k)
    = Ok (Fin u, at_str (match rest with [] => setstate st eofbit | _ => st end) data (k + length lead + (length text - length rest))) /\
    nearest fm (dec_value sign ds (places fp)) (val fm u).
Proof.
  intros Hf P Hg Hk Hs Hl D Hn Hv Hp.
  rewrite (decimal_extract fm tr st data k lead text sign ip fp ds rest P Hg Hk Hs Hl D Hn).
  destruct D as (_ & _ & Hsp & _). pose proof (std_ok fm Hf) as Ho.
  destruct (dec_num_feed fm sign ds Ho (std4 fm Hf) (spells_digits _ _ Hsp) Hv) as [-> Hb].
  destruct (finalize_nearest fm fp (dec_num sign ds) Hf Hb Hp) as (u & -> & N). exists u. split; [reflexivity|exact N].
Qed.

(* ---- the error of any decimal ---- *)

Definition zp (b : Z) (n : nat) : Z := b ^ Z.of_nat n.
Lemma zp_S b n : zp b (S n) = b * zp b n.
Proof. unfold zp. rewrite Nat2Z.inj_succ, Z.pow_succ_r by lia. reflexivity. Qed.
Lemma zp_pos b n : 0 < b -> 0 < zp b n.
Proof. intro. apply Z.pow_pos_nonneg; lia. Qed.
Lemma zp_nonneg b n : 0 <= b -> 0 <= zp b n.
Proof. intro. apply Z.pow_nonneg; lia. Qed.

Lemma pow_up B : 1 <= B -> forall n, zp (B + 1) n * (B - Z.of_nat n) <= zp B n * B.
Proof.
  intros HB. induction n as [|n IH]; [unfold zp; change (Z.of_nat 0) with 0; rewrite !Z.pow_0_r; lia|]. rewrite !zp_S, Nat2Z.inj_succ.
  pose proof (zp_pos (B + 1) n ltac:(lia)) as P. set (X := zp (B + 1) n) in *. set (Y := zp B n) in *.
  set (m := Z.of_nat n) in *. assert (0 <= m) by (unfold m; lia). clearbody X Y m.
  transitivity (B * (X * (B - m))); [|nia].
  assert (E : B * (X * (B - m)) - (B + 1) * X * (B - Z.succ m) = X * (m + 1)) by (unfold Z.succ; ring). nia.
Qed.
Lemma pow_dn B : 1 <= B -> forall n, zp B n * (B - Z.of_nat n) <= zp (B - 1) n * B.
Proof.
  intros HB. induction n as [|n IH]; [unfold zp; change (Z.of_nat 0) with 0; rewrite !Z.pow_0_r; lia|]. rewrite !zp_S, Nat2Z.inj_succ.
  pose proof (zp_pos B n ltac:(lia)) as P. set (X := zp (B - 1) n) in *. set (Y := zp B n) in *.
  set (m := Z.of_nat n) in *. assert (0 <= m) by (unfold m; lia). clearbody X Y m.
  transitivity ((B - 1) * (Y * (B - m))); [|nia].
  assert (E : (B - 1) * (Y * (B - m)) - B * Y * (B - Z.succ m) = Y * m) by (unfold Z.succ; ring). nia.
Qed.

Definition near (fm : fmt) (n : nat) (X a : Z) : Prop :=
  zp (2 ^ prec fm - 1) n * X <= zp (2 ^ prec fm) n * a /\ zp (2 ^ prec fm) n * a <= zp (2 ^ prec fm + 1) n * X.

Lemma near_refl fm X : near fm 0 X X.
Proof. unfold near, zp. change (Z.of_nat 0) with 0. rewrite !Z.pow_0_r. lia. Qed.

Lemma rne_half p q : 0 <= p -> 0 < q -> 2 * Z.abs (p - rne p q * q) <= q.
Proof.
  intros Hp Hq. unfold rne. pose proof (Z.div_mod p q ltac:(lia)) as E.
  pose proof (Z.mod_pos_bound p q Hq) as B. set (n := p / q) in *. set (r := p mod q) in *.
  assert (D : forall j, p - j * q = (n - j) * q + r) by (intro j; rewrite E; ring).
  destruct (Z.compare_spec (2 * r) q) as [C|C|C]; [destruct (Z.even n)| |]; rewrite D.
  - replace ((n - n) * q + r) with r by ring. lia.
  - replace ((n - (n + 1)) * q + r) with (r - q) by ring. lia.
  - replace ((n - n) * q + r) with r by ring. lia.
  - replace ((n - (n + 1)) * q + r) with (r - q) by ring. lia.
Qed.

Lemma round_rel fm p q : okfmt fm -> 0 < q -> 2 ^ (prec fm - 1) * q <= p ->
  (2 ^ prec fm - 1) * p <= 2 ^ prec fm * (round_abs fm p q * q) <= (2 ^ prec fm + 1) * p.
Proof.
  intros Ho Hq Hp.
  assert (Hp0 : 0 <= p) by (destruct Ho; pose proof (pow_pos (prec fm - 1) ltac:(lia)); nia).
  destruct (uexp_spec fm p q Ho Hp0 Hq) as (He & Hu & Hl). destruct Ho as [H1 H2].
  change (round_abs fm p q) with (rne p (q * 2 ^ uexp fm p q) * 2 ^ uexp fm p q).
  set (e := uexp fm p q) in *. pose proof (pow_pos e He) as Pe.
  assert (Hl' : 2 ^ (prec fm - 1) * (q * 2 ^ e) <= p).
  { destruct Hl as [E|Hl]; [|exact Hl]. rewrite E. change (2 ^ 0) with 1. now rewrite Z.mul_1_r. }
  set (Q := q * 2 ^ e) in *. assert (HQ : 0 < Q) by (unfold Q; nia).
  pose proof (rne_half p Q Hp0 HQ) as H. replace (rne p Q * 2 ^ e * q) with (rne p Q * Q) by (unfold Q; ring).
  set (R := rne p Q * Q) in *. clearbody R.
  assert (PP : 2 ^ prec fm = 2 * 2 ^ (prec fm - 1)) by (rewrite <- Z.pow_succ_r by lia; f_equal; lia).
  set (h := 2 ^ (prec fm - 1)) in *. rewrite PP. assert (0 < h) by (unfold h; apply pow_pos; lia). clearbody h.
  assert (h * (2 * Z.abs (p - R)) <= p) by nia. nia.
Qed.

Lemma near_round fm n X x q : okfmt fm -> 0 < q -> 2 ^ (prec fm - 1) <= x -> 0 <= X -> near fm n X x ->
  near fm (S n) X (round_abs fm (x * q) q).
Proof.
  intros Ho Hq Hx HX [N1 N2]. destruct (round_rel fm (x * q) q Ho Hq ltac:(nia)) as [R1 R2].
  set (r := round_abs fm (x * q) q) in *. clearbody r.
  assert (R1' : (2 ^ prec fm - 1) * x <= 2 ^ prec fm * r) by nia.
  assert (R2' : 2 ^ prec fm * r <= (2 ^ prec fm + 1) * x) by nia.
  pose proof (pow16 fm Ho) as P8. unfold near. set (B := 2 ^ prec fm) in *. clearbody B.
  rewrite !zp_S.
  pose proof (zp_nonneg B n ltac:(lia)) as Z0. set (z := zp B n) in *. set (lo := zp (B - 1) n) in *. set (hi := zp (B + 1) n) in *.
  clearbody z lo hi. split.
  - transitivity (z * ((B - 1) * x)); [nia|]. nia.
  - transitivity (z * ((B + 1) * x)); [nia|]. nia.
Qed.

Lemma near_scale fm n X a c : 0 <= c -> near fm n X a -> near fm n (X * c) (a * c).
Proof. intros Hc [N1 N2]. unfold near. split; nia. Qed.

Lemma near_add fm n X a y : okfmt fm -> 0 <= y -> near fm n X a -> near fm n (X + y) (a + y).
Proof.
  intros Ho Hy [N1 N2]. pose proof (pow16 fm Ho) as P8. unfold near in *. set (B := 2 ^ prec fm) in *. clearbody B.
  assert (L1 : zp (B - 1) n <= zp B n) by (apply Z.pow_le_mono_l; lia).
  assert (L2 : zp B n <= zp (B + 1) n) by (apply Z.pow_le_mono_l; lia). split; nia.
Qed.

Lemma near_weak fm n X a : okfmt fm -> 0 <= X -> near fm n X a -> near fm (S n) X a.
Proof.
  intros Ho HX [N1 N2]. pose proof (pow16 fm Ho) as P8. unfold near in *. rewrite !zp_S. set (B := 2 ^ prec fm) in *. clearbody B.
  pose proof (zp_nonneg (B - 1) n ltac:(lia)) as Z0. pose proof (zp_nonneg (B + 1) n ltac:(lia)) as Z1. split; nia.
Qed.

Lemma near_any fm X : okfmt fm -> 0 <= X -> forall n, near fm n X X.
Proof. intros Ho HX. induction n as [|n IH]; [apply near_refl|]. now apply near_weak. Qed.

(* at most twice as much, as long as few roundings happen *)
Lemma near_double fm n X a : okfmt fm -> 2 * Z.of_nat n <= 2 ^ prec fm -> 0 <= X -> near fm n X a -> a <= 2 * X.
Proof.
  intros Ho Hn HX [N1 N2]. pose proof (pow16 fm Ho) as P8. set (B := 2 ^ prec fm) in *.
  pose proof (pow_up B ltac:(lia) n) as U. pose proof (zp_pos B n ltac:(lia)) as Z0. pose proof (zp_pos (B + 1) n ltac:(lia)) as Z1.
  set (z := zp B n) in *. set (hi := zp (B + 1) n) in *. set (m := Z.of_nat n) in *. clearbody z hi m B.
  assert (hi * B <= z * (2 * B)) by nia. assert (hi <= 2 * z) by nia. assert (z * a <= z * (2 * X)) by nia. nia.
Qed.

(* round, for a result of known sign *)
Lemma round_sg fm pos x q : okfmt fm -> 0 <= x -> 0 < q -> round_abs fm x q < 2 ^ emax fm * one fm ->
  round fm (sg pos * x) q = Fin (sg pos * round_abs fm x q).
Proof.
  intros Ho Hx Hq Hb. unfold round.
  assert (E : Z.abs (sg pos * x) = x) by (destruct pos; cbn [sg]; lia). rewrite E.
  destruct (Z.leb_spec (2 ^ emax fm * one fm) (round_abs fm x q)); [lia|]. f_equal.
  destruct (Z.eq_dec x 0) as [->|N].
  - rewrite Z.mul_0_r. change (Z.sgn 0) with 0.
    assert (Z0 : round_abs fm 0 q = 0).
    { apply Z.le_antisymm; [|apply round_abs_spec; auto; lia]. apply round_abs_le; auto; try lia.
      exists 0, 0. destruct Ho. pose proof (pow_pos (prec fm)). split; [lia|split; [lia|reflexivity]]. }
    rewrite Z0. ring.
  - rewrite Z.sgn_mul, (Z.sgn_pos x) by lia. destruct pos; cbn [sg Z.sgn]; ring.
Qed.

Lemma member_one fm : okfmt fm -> member fm (one fm).
Proof. intro Ho. rewrite <- (Z.mul_1_l (one fm)). apply member_int; auto. pose proof (pow16 fm Ho). lia. Qed.
Lemma one_big fm : okfmt fm -> 2 ^ (prec fm - 1) <= one fm.
Proof. intros [H1 H2]. unfold one. apply Z.pow_le_mono_r; lia. Qed.
Lemma member_zero fm : okfmt fm -> member fm 0.
Proof. intro Ho. exists 0, 0. destruct Ho. pose proof (pow_pos (prec fm)). split; [lia|split; [lia|reflexivity]]. Qed.

(* what a running value of magnitude A looks like after n roundings *)
Definition runs (fm : fmt) (n : nat) (A a : Z) : Prop :=
  0 <= a /\ member fm a /\ near fm n (A * one fm) a /\ (A = 0 -> a = 0) /\ (1 <= A -> one fm <= a).

Lemma runs_times fm n A a : okfmt fm -> 0 <= A -> runs fm n A a ->
  runs fm (S n) (A * 10) (round_abs fm (a * 10 * one fm) (one fm)).
Proof.
  intros Ho HA (H0 & Hm & Hn & Hz & Hg). pose proof (one_pos fm Ho) as P1. pose proof (one_big fm Ho) as P2.
  set (r := round_abs fm (a * 10 * one fm) (one fm)).
  destruct (round_abs_spec fm (a * 10 * one fm) (one fm) Ho ltac:(nia) P1) as (S0 & S1 & _). fold r in S0, S1.
  split; [exact S0|]. split; [exact S1|].
  destruct (Z.eq_dec A 0) as [EA|EA].
  - assert (a = 0) by auto. subst a A.
    assert (r = 0).
    { unfold r. rewrite !Z.mul_0_l. apply Z.le_antisymm; [|apply round_abs_spec; auto; lia].
      apply round_abs_le; auto using member_zero; lia. }
    rewrite H. split; [|lia]. unfold near. rewrite !Z.mul_0_l, !Z.mul_0_r. lia.
  - specialize (Hg ltac:(lia)). split; [|split; [lia|]].
    + replace (A * 10 * one fm) with (A * one fm * 10) by ring. apply near_round; auto; try nia.
      apply near_scale; [lia|exact Hn].
    + intros _. unfold r. apply round_abs_ge; auto using member_one; nia.
Qed.

Lemma runs_plus fm n A a d : okfmt fm -> 4 <= prec fm -> 0 <= A -> 0 <= d < 10 -> runs fm n (A * 10) a ->
  runs fm (S n) (A * 10 + d) (round_abs fm (a + d * one fm) 1).
Proof.
  intros Ho Hp HA Hd (K0 & Km & Kn & Kz & Kg). pose proof (one_pos fm Ho) as P1. pose proof (one_big fm Ho) as P2.
  assert (P16 : 16 <= 2 ^ prec fm) by (change 16 with (2 ^ 4); apply Z.pow_le_mono_r; lia).
  set (a2 := round_abs fm (a + d * one fm) 1).
  destruct (round_abs_spec fm (a + d * one fm) 1 Ho ltac:(nia) ltac:(lia)) as (S0 & S1 & _). fold a2 in S0, S1.
  split; [exact S0|]. split; [exact S1|].
  destruct (Z.eq_dec (A * 10) 0) as [EA|EA].
  - assert (Ea : a = 0) by auto.
    assert (E2 : a2 = d * one fm).
    { unfold a2. rewrite Ea, Z.add_0_l. rewrite <- (Z.mul_1_r (d * one fm)) at 1. apply round_abs_exact; auto; try nia.
      apply member_int; auto. lia. }
    rewrite E2, EA, Z.add_0_l. split; [|split; nia]. apply near_any; [exact Ho|nia].
  - specialize (Kg ltac:(lia)). split; [|split; [lia|]].
    + unfold a2. rewrite <- (Z.mul_1_r (a + d * one fm)). apply near_round; auto; try nia.
      replace ((A * 10 + d) * one fm) with (A * 10 * one fm + d * one fm) by ring. apply near_add; auto. nia.
    + intros _. unfold a2. apply round_abs_ge; auto using member_one; nia.
Qed.

Lemma runs_bound fm n A a : okfmt fm -> 0 <= A -> 2 * Z.of_nat n <= 2 ^ prec fm -> 4 * A <= 2 ^ emax fm -> runs fm n A a ->
  a < 2 ^ emax fm * one fm.
Proof.
  intros Ho HA Hr Hb (_ & _ & Rn & _). pose proof (one_pos fm Ho) as P1.
  pose proof (near_double fm n (A * one fm) _ Ho Hr ltac:(nia) Rn).
  assert (0 < 2 ^ emax fm) by (apply pow_pos; destruct Ho; lia). nia.
Qed.

Lemma runs_mul fm n A a : okfmt fm -> 4 <= prec fm -> 0 <= A -> runs fm n A a ->
  2 * Z.of_nat (S n) <= 2 ^ prec fm -> 4 * (A * 10) <= 2 ^ emax fm ->
  (forall pos, fmul fm (Fin (sg pos * a)) (of_int fm 10) = Fin (sg pos * round_abs fm (a * 10 * one fm) (one fm))) /\
  runs fm (S n) (A * 10) (round_abs fm (a * 10 * one fm) (one fm)) /\
  round_abs fm (a * 10 * one fm) (one fm) < 2 ^ emax fm * one fm.
Proof.
  intros Ho Hp HA R0 Hr Hb. pose proof (one_pos fm Ho) as P1. pose proof (runs_times fm n A a Ho HA R0) as R.
  assert (P16 : 16 <= 2 ^ prec fm) by (change 16 with (2 ^ 4); apply Z.pow_le_mono_r; lia).
  assert (Bd : round_abs fm (a * 10 * one fm) (one fm) < 2 ^ emax fm * one fm)
    by (apply (runs_bound fm (S n) (A * 10)); auto; lia).
  split; [|split; [exact R|exact Bd]]. intros pos. rewrite of_int_exact by (auto; lia). cbn [fmul].
  replace (sg pos * a * (10 * one fm)) with (sg pos * (a * 10 * one fm)) by ring. destruct R0 as (H0 & _).
  apply round_sg; auto. nia.
Qed.

Lemma runs_step fm n A a d : okfmt fm -> 4 <= prec fm -> 0 <= A -> 0 <= d < 10 -> runs fm n A a ->
  2 * Z.of_nat (S (S n)) <= 2 ^ prec fm -> 4 * (A * 10 + d) <= 2 ^ emax fm ->
  exists a', runs fm (S (S n)) (A * 10 + d) a' /\ a' < 2 ^ emax fm * one fm /\
    forall pos, fstep fm pos (Fin (sg pos * a)) d = Fin (sg pos * a').
Proof.
  intros Ho Hp HA Hd R Hr Hb. pose proof (one_pos fm Ho) as P1.
  assert (P16 : 16 <= 2 ^ prec fm) by (change 16 with (2 ^ 4); apply Z.pow_le_mono_r; lia).
  destruct (runs_mul fm n A a Ho Hp HA R ltac:(lia) ltac:(lia)) as (Em & R1 & B1).
  set (a1 := round_abs fm (a * 10 * one fm) (one fm)) in *.
  pose proof (runs_plus fm (S n) A a1 d Ho Hp HA Hd R1) as R2.
  assert (B2 : round_abs fm (a1 + d * one fm) 1 < 2 ^ emax fm * one fm)
    by (apply (runs_bound fm (S (S n)) (A * 10 + d)); auto; lia).
  exists (round_abs fm (a1 + d * one fm) 1). split; [exact R2|]. split; [exact B2|].
  intros pos. unfold fstep, fraise. cbn [snd]. rewrite Em. rewrite of_int_exact by (auto; lia).
  destruct R1 as (K0 & _).
  rewrite <- (round_sg fm pos (a1 + d * one fm) 1) by (auto; nia).
  destruct pos; cbn [sg fneg fadd]; f_equal; ring.
Qed.

Lemma runs_feed fm : okfmt fm -> 4 <= prec fm -> forall ds n A a, 0 <= A -> digits ds -> runs fm n A a -> a < 2 ^ emax fm * one fm ->
  2 * Z.of_nat (n + 2 * length ds) <= 2 ^ prec fm -> 4 * hor A ds <= 2 ^ emax fm ->
  exists a', runs fm (n + 2 * length ds) (hor A ds) a' /\ a' < 2 ^ emax fm * one fm /\
    forall pos, feed fm pos (Fin (sg pos * a)) ds = Fin (sg pos * a').
Proof.
  intros Ho Hp. induction ds as [|d ds IH]; intros n A a HA Hd R Ha Hr Hb.
  - exists a. cbn [length]. rewrite Nat.mul_0_r, Nat.add_0_r. split; [exact R|]. split; [exact Ha|reflexivity].
  - inversion Hd; subst. cbn [hor fold_left] in Hb. fold (hor (A * 10 + d) ds) in Hb.
    pose proof (hor_ge ds (A * 10 + d) ltac:(assumption) ltac:(lia)) as G. cbn [length] in Hr.
    destruct (runs_step fm n A a d Ho Hp HA ltac:(assumption) R ltac:(lia) ltac:(lia)) as (a1 & R1 & B1 & E1).
    destruct (IH (S (S n)) (A * 10 + d) a1 ltac:(lia) ltac:(assumption) R1 B1 ltac:(lia) Hb) as (a2 & R2 & B2 & E2).
    exists a2. cbn [length]. replace (n + 2 * S (length ds))%nat with (S (S n) + 2 * length ds)%nat by lia.
    split; [exact R2|]. split; [exact B2|]. intros pos. cbn [feed fold_left]. rewrite E1. apply E2.
Qed.

Lemma runs_divider fm : okfmt fm -> 4 <= prec fm -> forall k n A a, 0 <= A -> runs fm n A a -> a < 2 ^ emax fm * one fm ->
  2 * Z.of_nat (n + k) <= 2 ^ prec fm -> 4 * (A * zp 10 k) <= 2 ^ emax fm ->
  exists a', runs fm (n + k) (A * zp 10 k) a' /\ a' < 2 ^ emax fm * one fm /\ divider fm k (Fin a) = Fin a'.
Proof.
  intros Ho Hp. induction k as [|k IH]; intros n A a HA R Ha Hr Hb.
  - exists a. rewrite Nat.add_0_r. unfold zp. change (Z.of_nat 0) with 0. rewrite Z.pow_0_r, Z.mul_1_r. auto.
  - rewrite zp_S in Hb. pose proof (zp_pos 10 k ltac:(lia)) as Zp.
    destruct (runs_mul fm n A a Ho Hp HA R ltac:(lia) ltac:(nia)) as (Em & R1 & B1).
    destruct (IH (S n) (A * 10) _ ltac:(lia) R1 B1 ltac:(lia) ltac:(lia)) as (a2 & R2 & B2 & E2).
    exists a2. rewrite zp_S. replace (n + S k)%nat with (S n + k)%nat by lia.
    replace (A * (10 * zp 10 k)) with (A * 10 * zp 10 k) by ring.
    split; [exact R2|]. split; [exact B2|]. cbn [divider]. specialize (Em true). cbn [sg] in Em.
    rewrite !Z.mul_1_l in Em. rewrite Em. exact E2.
Qed.

Lemma runs_zero fm : okfmt fm -> runs fm 0 0 0 /\ 0 < 2 ^ emax fm * one fm.
Proof.
  intros Ho. pose proof (one_pos fm Ho). split.
  - split; [lia|]. split; [now apply member_zero|]. split; [apply near_refl|]. split; lia.
  - destruct Ho. pose proof (pow_pos (emax fm) ltac:(lia)). nia.
Qed.
Lemma runs_one fm : okfmt fm -> runs fm 0 1 (one fm) /\ one fm < 2 ^ emax fm * one fm.
Proof.
  intros Ho. pose proof (one_pos fm Ho). split.
  - split; [lia|]. split; [now apply member_one|]. split; [|split; lia]. rewrite Z.mul_1_l. apply near_refl.
  - destruct Ho. pose proof (Z.pow_gt_1 2 (emax fm) ltac:(lia)) as [G _]. specialize (G ltac:(lia)). nia.
Qed.

(* the same in rationals *)
Lemma qpow_frac a b : forall n, (qpow (a # b) n == zp a n # Z.to_pos (zp (Z.pos b) n))%Q.
Proof.
  induction n as [|n IH]; [reflexivity|]. cbn [qpow]. rewrite IH, !zp_S.
  unfold Qeq, Qmult; cbn [Qnum Qden]. pose proof (zp_pos (Z.pos b) n ltac:(lia)).
  rewrite Pos2Z.inj_mul, !Z2Pos.id by nia. ring.
Qed.

Lemma qpow_comp x y n : (x == y)%Q -> (qpow x n == qpow y n)%Q.
Proof. intros E. induction n; cbn [qpow]; [reflexivity|]. now apply Qmult_comp. Qed.

Lemma eps_frac fm : okfmt fm ->
  (1 - eps fm == (2 ^ prec fm - 1) # Z.to_pos (2 ^ prec fm))%Q /\ (1 + eps fm == (2 ^ prec fm + 1) # Z.to_pos (2 ^ prec fm))%Q.
Proof.
  intros Ho. pose proof (pow16 fm Ho). unfold eps, Qminus, Qplus, Qopp, Qeq; cbn [Qnum Qden].
  rewrite !Pos2Z.inj_mul, !Z2Pos.id by lia. split; ring.
Qed.

Lemma within_Z fm a b N T u : okfmt fm -> 0 < T ->
  (zp (2 ^ prec fm - 1) a * N * zp (2 ^ prec fm) b * one fm <= zp (2 ^ prec fm + 1) b * u * T * zp (2 ^ prec fm) a) ->
  (zp (2 ^ prec fm - 1) b * u * T * zp (2 ^ prec fm) a <= zp (2 ^ prec fm + 1) a * N * zp (2 ^ prec fm) b * one fm) ->
  within fm a b (N # Z.to_pos T) (val fm u).
Proof.
  intros Ho HT L1 L2. destruct (eps_frac fm Ho) as [E1 E2]. pose proof (pow16 fm Ho) as P8. pose proof (one_pos fm Ho) as P1.
  assert (EB : Z.pos (Z.to_pos (2 ^ prec fm)) = 2 ^ prec fm) by (rewrite Z2Pos.id by lia; reflexivity).
  assert (PQ : forall n, Z.pos (Z.to_pos (zp (2 ^ prec fm) n)) = zp (2 ^ prec fm) n)
    by (intro n; rewrite Z2Pos.id; [reflexivity|apply zp_pos; lia]).
  split.
  - rewrite (qpow_comp _ _ a E1), (qpow_comp _ _ b E2), !qpow_frac, !EB. unfold val, Qle, Qmult; cbn [Qnum Qden].
    rewrite !Pos2Z.inj_mul, !PQ, !Z2Pos.id by lia. lia.
  - rewrite (qpow_comp _ _ b E1), (qpow_comp _ _ a E2), !qpow_frac, !EB. unfold val, Qle, Qmult; cbn [Qnum Qden].
    rewrite !Pos2Z.inj_mul, !PQ, !Z2Pos.id by lia. lia.
Qed.

Lemma within_run fm n N a : okfmt fm -> near fm n (N * one fm) a -> within fm n 0 (N # 1) (val fm a).
Proof.
  intros Ho [N1 N2]. change 1%positive with (Z.to_pos 1). apply within_Z; auto; [lia| |];
  change (zp ?x 0) with 1; lia.
Qed.

Lemma within_quot fm n k N T v d : okfmt fm -> 0 <= N -> 0 < T -> 0 <= v -> 0 < d ->
  near fm n (N * one fm) v -> near fm k (T * one fm) d ->
  2 ^ (prec fm - 1) * d <= v * one fm ->
  within fm (S n) k (N # Z.to_pos T) (val fm (round_abs fm (v * one fm) d)).
Proof.
  intros Ho HN HT Hv Hd [V1 V2] [D1 D2] Hl. destruct (round_rel fm (v * one fm) d Ho Hd Hl) as [R1 R2].
  pose proof (one_pos fm Ho) as P1. pose proof (pow16 fm Ho) as P8.
  destruct (round_abs_spec fm (v * one fm) d Ho ltac:(nia) Hd) as (r0 & _).
  set (r := round_abs fm (v * one fm) d) in *. clearbody r. apply within_Z; auto; rewrite ?zp_S;
  set (B := 2 ^ prec fm) in *; clearbody B; set (o := one fm) in *; clearbody o.
  - pose proof (zp_nonneg (B - 1) n ltac:(lia)) as Z1. pose proof (zp_nonneg B n ltac:(lia)) as Z2.
    pose proof (zp_nonneg B k ltac:(lia)) as Z3. set (lo := zp (B - 1) n) in *. set (z := zp B n) in *. set (zk := zp B k) in *.
    set (hk := zp (B + 1) k) in *. clearbody lo z zk hk. clear V2 D1 R2.
    assert (S1 : (B - 1) * lo * N * o <= (B - 1) * z * v) by nia.
    assert (S2 : (B - 1) * lo * N * o * o <= B * z * (r * d)).
    { transitivity ((B - 1) * z * v * o); [nia|]. replace ((B - 1) * z * v * o) with (z * ((B - 1) * (v * o))) by ring.
      replace (B * z * (r * d)) with (z * (B * (r * d))) by ring. apply Z.mul_le_mono_nonneg_l; [lia|exact R1]. }
    assert (S3 : (B - 1) * lo * N * o * o * zk <= B * z * r * (hk * (T * o))).
    { transitivity (B * z * (r * d) * zk); [apply Z.mul_le_mono_nonneg_r; [lia|exact S2]|].
      replace (B * z * (r * d) * zk) with (B * z * r * (zk * d)) by ring. apply Z.mul_le_mono_nonneg_l; [|exact D2].
      repeat apply Z.mul_nonneg_nonneg; lia. }
    apply (Z.mul_le_mono_pos_r _ _ o P1).
    replace ((B - 1) * lo * N * zk * o * o) with ((B - 1) * lo * N * o * o * zk) by ring.
    replace (hk * r * T * (B * z) * o) with (B * z * r * (hk * (T * o))) by ring. exact S3.
  - pose proof (zp_nonneg (B + 1) n ltac:(lia)) as Z1. pose proof (zp_nonneg B n ltac:(lia)) as Z2.
    pose proof (zp_nonneg B k ltac:(lia)) as Z3. set (hi := zp (B + 1) n) in *. set (z := zp B n) in *. set (zk := zp B k) in *.
    set (lk := zp (B - 1) k) in *. clearbody hi z zk lk. clear V1 D2 R1.
    assert (S1 : (B + 1) * z * v <= (B + 1) * hi * N * o) by nia.
    assert (S2 : B * z * (r * d) <= (B + 1) * hi * N * o * o).
    { transitivity ((B + 1) * z * v * o); [|nia]. replace ((B + 1) * z * v * o) with (z * ((B + 1) * (v * o))) by ring.
      replace (B * z * (r * d)) with (z * (B * (r * d))) by ring. apply Z.mul_le_mono_nonneg_l; [lia|exact R2]. }
    assert (S3 : B * z * r * (lk * (T * o)) <= (B + 1) * hi * N * o * o * zk).
    { transitivity (B * z * (r * d) * zk); [|apply Z.mul_le_mono_nonneg_r; [lia|exact S2]].
      replace (B * z * (r * d) * zk) with (B * z * r * (zk * d)) by ring. apply Z.mul_le_mono_nonneg_l; [|exact D1].
      repeat apply Z.mul_nonneg_nonneg; lia. }
    apply (Z.mul_le_mono_pos_r _ _ o P1).
    replace ((B + 1) * hi * N * zk * o * o) with ((B + 1) * hi * N * o * o * zk) by ring.
    replace (lk * r * T * (B * z) * o) with (B * z * r * (lk * (T * o))) by ring. exact S3.
Qed.

(* the quotient is not subnormal *)
Lemma quot_normal fm n k N T v d : okfmt fm -> 0 <= N -> 0 < T -> 0 < d ->
  near fm n (N * one fm) v -> near fm k (T * one fm) d ->
  4 * Z.of_nat n <= 2 ^ prec fm -> 4 * Z.of_nat k <= 2 ^ prec fm ->
  T <= N * 2 ^ (emax fm - 3) -> 2 ^ (prec fm - 1) * d <= v * one fm.
Proof.
  intros Ho HN HT Hd [V1 _] [_ D2] Hn Hk HTN.
  pose proof (one_pos fm Ho) as P1. pose proof (pow16 fm Ho) as P8.
  pose proof (pow_dn (2 ^ prec fm) ltac:(lia) n) as PD. pose proof (pow_up (2 ^ prec fm) ltac:(lia) k) as PU.
  pose proof (zp_pos (2 ^ prec fm) n ltac:(lia)) as Zn. pose proof (zp_pos (2 ^ prec fm) k ltac:(lia)) as Zk.
  assert (PP : 2 ^ prec fm = 2 * 2 ^ (prec fm - 1)) by (destruct Ho; rewrite <- Z.pow_succ_r by lia; f_equal; lia).
  assert (OO : one fm = 2 ^ (emax fm - 3) * 2 ^ prec fm) by (destruct Ho; unfold one; rewrite <- Z.pow_add_r by lia; f_equal; lia).
  assert (TB : T * 2 ^ prec fm <= N * one fm) by (rewrite OO; nia).
  set (o := one fm) in *. set (h := 2 ^ (prec fm - 1)) in *. set (B := 2 ^ prec fm) in *.
  set (zn := zp B n) in *. set (zk := zp B k) in *. set (lo := zp (B - 1) n) in *. set (hk := zp (B + 1) k) in *.
  set (m := Z.of_nat n) in *. set (j := Z.of_nat k) in *.
  assert (Hm : 0 <= m) by (unfold m; lia). assert (Hj : 0 <= j) by (unfold j; lia).
  clearbody zn zk lo hk m j. clearbody o h B.
  (* lo >= 3/4 zn, hk <= 4/3 zk *)
  assert (L1 : 3 * zn <= 4 * lo) by nia.
  assert (L2 : 3 * hk <= 4 * zk) by nia.
  assert (L3 : 3 * (N * o) <= 4 * v) by nia.
  assert (L4 : 3 * d <= 4 * (T * o)) by nia.
  (* h d <= h * 4/3 T o = 2/3 T B o ... *)
  assert (L5 : 3 * (h * d) <= 2 * (T * B * o)) by nia.
  assert (L6 : T * B * o <= N * o * o) by nia. nia.
Qed.

Lemma finalize_within fm sign fp ds : std_fmt fm -> digits ds -> Z.of_nat (places fp) <= 65536 -> Z.of_nat (length ds) <= 65536 ->
  4 * value_of 10 ds <= 2 ^ emax fm -> 4 * 10 ^ Z.of_nat (places fp) <= 2 ^ emax fm -> (places fp < 255)%nat ->
  value_of 10 ds = 0 \/ 10 ^ Z.of_nat (places fp) <= value_of 10 ds * 2 ^ (emax fm - 3) ->
  exists u, 0 <= u /\
    finalize fm (dec_dp fp) (feed fm (positive_sign sign) (Fin 0) ds) = Fin (sg (positive_sign sign) * u) /\
    within fm (2 * length ds + 1) (places fp) (dec_value [] ds (places fp)) (val fm u).
Proof.
  intros Hf Hd Hpl Hln Hv Ht Hk Hx. pose proof (std_ok fm Hf) as Ho. pose proof (std4 fm Hf) as Hp.
  assert (PB : 2 ^ 24 <= 2 ^ prec fm) by (destruct Hf as [->| ->]; apply Z.pow_le_mono_r; cbn; lia).
  change (2 ^ 24) with 16777216 in PB.
  destruct (runs_zero fm Ho) as [R0 B0]. pose proof (one_pos fm Ho) as P1.
  destruct (runs_feed fm Ho Hp ds 0 0 0 ltac:(lia) Hd R0 B0 ltac:(lia) Hv) as (v & Rv & Bv & Ev).
  change (hor 0 ds) with (value_of 10 ds) in Rv. rewrite Nat.add_0_l in Rv. set (N := value_of 10 ds) in *.
  assert (HN : 0 <= N) by (unfold N; pose proof (hor_ge ds 0 Hd ltac:(lia)); exact H).
  specialize (Ev (positive_sign sign)). rewrite Z.mul_0_r in Ev. rewrite Ev. set (pos := positive_sign sign). clearbody pos. clear Ev.
  destruct Rv as (v0 & vm & vn & vz & vg).
  unfold finalize, dec_dp, dec_value, dec_num. fold N. destruct fp as [f|]; cbn [places] in *.
  - rewrite adv_small by lia. destruct (Z.eqb_spec (1 + Z.of_nat (length f)) 0); [lia|]. cbn [negb].
    replace (Z.to_nat (1 + Z.of_nat (length f) - 1)) with (length f) by lia. set (k := length f) in *. clearbody k.
    destruct (runs_one fm Ho) as [R1 B1].
    destruct (runs_divider fm Ho Hp k 0 1 (one fm) ltac:(lia) R1 B1 ltac:(lia) ltac:(unfold zp; lia)) as (d & Rd & Bd & Ed).
    rewrite of_int_exact by (auto; lia). rewrite Z.mul_1_l, Ed. rewrite Z.mul_1_l, Nat.add_0_l in Rd.
    destruct Rd as (d0 & dm & dn & dz & dg). pose proof (zp_pos 10 k ltac:(lia)) as Tp. specialize (dg ltac:(lia)).
    cbn [fdiv]. destruct (Z.eqb_spec d 0); [lia|]. rewrite (Z.sgn_pos d), (Z.abs_eq d) by lia.
    exists (round_abs fm (v * one fm) d). split; [apply round_abs_spec; auto; nia|]. split.
    + replace (1 * (sg pos * v) * one fm) with (sg pos * (v * one fm)) by ring. apply round_sg; auto; [nia|lia|].
      apply Z.le_lt_trans with v; [|exact Bv]. apply round_abs_le; auto; nia.
    + rewrite Nat.add_1_r. unfold ten_to. fold (zp 10 k). fold (zp 10 k) in Hx.
      destruct Hx as [Hx|Hx].
      * rewrite Hx. assert (v = 0) by auto. subst v.
        assert (Zr : round_abs fm (0 * one fm) d = 0).
        { rewrite Z.mul_0_l. apply Z.le_antisymm; [|apply round_abs_spec; auto; lia].
          apply round_abs_le; auto using member_zero; lia. }
        rewrite Zr. apply within_Z; auto; rewrite !Z.mul_0_r, !Z.mul_0_l; lia.
      * apply within_quot; auto; try lia. apply (quot_normal fm (2 * length ds) k N (zp 10 k)); auto; lia.
  - cbn [Z.eqb negb]. exists v. split; [exact v0|]. split; [reflexivity|].
    rewrite Nat.add_1_r. change (ten_to 0) with 1%positive. apply within_run; auto. apply near_weak; auto. nia.
Qed.

Lemma dec_value_Z fm ds k : okfmt fm -> (pow2 (3 - emax fm) <= dec_value [] ds k)%Q ->
  10 ^ Z.of_nat k <= value_of 10 ds * 2 ^ (emax fm - 3).
Proof.
  intros [H1 H2] H. unfold pow2, dec_value, dec_num, ten_to in H.
  replace (3 - emax fm) with (- (emax fm - 3)) in H by lia. rewrite Qpower_opp in H.
  rewrite <- (Zpower_Qpower 2 (emax fm - 3)) in H by lia.
  pose proof (pow_pos (emax fm - 3) ltac:(lia)) as P. set (E := 2 ^ (emax fm - 3)) in *. clearbody E.
  assert (T : 0 < 10 ^ Z.of_nat k) by (apply Z.pow_pos_nonneg; lia).
  apply (Qmult_le_compat_r _ _ (inject_Z E)) in H; [|unfold Qle; cbn; lia].
  rewrite (Qmult_comm (/ _)) in H. rewrite Qmult_inv_r in H by (unfold Qeq; cbn; lia).
  unfold Qle, Qmult, inject_Z in H; cbn [Qnum Qden] in H. rewrite Pos.mul_1_r, Z2Pos.id in H by lia. lia.
Qed.

Lemma decimal_within fm tr st data k lead text sign ip fp ds rest :
  std_fmt fm -> plain tr data -> good st = true -> (k <= length data)%nat ->
  skipn k data = lead ++ text -> Forall space lead -> decimal_text text sign ip fp ds rest -> ds <> [] ->
  4 * value_of 10 ds <= 2 ^ emax fm -> 4 * 10 ^ Z.of_nat (places fp) <= 2 ^ emax fm -> (places fp < 255)%nat ->
  value_of 10 ds = 0 \/ (pow2 (3 - emax fm) <= dec_value [] ds (places fp))%Q ->
  exists u, 0 <= u /\
    extract_flt fm tr (at_str st data k)
    = Ok (Fin (match sign with [] => u | _ => - u end),
          at_str (match rest with [] => setstate st eofbit | _ => st end) data (k + length lead + (length text - length rest))) /\
    within fm (2 * length ds + 1) (places fp) (dec_value [] ds (places fp)) (val fm u).
Proof.
  intros Hf P Hg Hk Hs Hl D Hn Hv Ht Hp Hx.
  rewrite (decimal_extract fm tr st data k lead text sign ip fp ds rest P Hg Hk Hs Hl D Hn).
  assert (LD : Z.of_nat (length text) < 65536).
  { assert (L : length (skipn k data) = length (lead ++ text)) by (rewrite Hs; reflexivity).
    rewrite skipn_length, app_length in L. destruct P as [P _]. lia. }
  destruct D as (Et & _ & Hsp & _). pose proof (std_ok fm Hf) as Ho.
  pose proof (Forall2_len _ _ _ Hsp) as Ls. rewrite app_length in Ls.
  assert (LL : Z.of_nat (length ds) <= 65536 /\ Z.of_nat (places fp) <= 65536).
  { rewrite Et, !app_length in LD. destruct fp; cbn [length places] in *; lia. }
  destruct (finalize_within fm sign fp ds Hf (spells_digits _ _ Hsp) (proj2 LL) (proj1 LL) Hv Ht Hp) as (u & Hu & E & W).
  { destruct Hx as [Hx|Hx]; [left; exact Hx|right]. apply (dec_value_Z fm ds _ Ho Hx). }
  exists u. split; [exact Hu|]. split; [|exact W]. rewrite E. do 3 f_equal. destruct sign; cbn [positive_sign sg]; lia.
Qed.

(* ---- overflow ---- *)

Lemma round_sg_or fm pos x q : okfmt fm -> 0 <= x -> 0 < q ->
  round fm (sg pos * x) q = (if 2 ^ emax fm * one fm <=? round_abs fm x q then Inf (negb pos) else Fin (sg pos * round_abs fm x q)).
Proof.
  intros Ho Hx Hq. destruct (Z.leb_spec (2 ^ emax fm * one fm) (round_abs fm x q)) as [B|B]; [|now apply round_sg].
  unfold round. assert (E : Z.abs (sg pos * x) = x) by (destruct pos; cbn [sg]; lia). rewrite E.
  destruct (Z.leb_spec (2 ^ emax fm * one fm) (round_abs fm x q)); [|lia]. f_equal.
  assert (x <> 0).
  { intros ->. assert (Z0 : round_abs fm 0 q = 0).
    { apply Z.le_antisymm; [|apply round_abs_spec; auto; lia]. apply round_abs_le; auto using member_zero; lia. }
    destruct (runs_zero fm Ho). lia. }
  destruct pos; cbn [sg negb]; [apply Z.ltb_ge|apply Z.ltb_lt]; lia.
Qed.

Lemma fstep_inf fm pos d : okfmt fm -> 4 <= prec fm -> 0 <= d < 10 -> fstep fm pos (Inf (negb pos)) d = Inf (negb pos).
Proof.
  intros Ho Hp Hd. pose proof (one_pos fm Ho).
  assert (P16 : 16 <= 2 ^ prec fm) by (change 16 with (2 ^ 4); apply Z.pow_le_mono_r; lia).
  unfold fstep, fraise. cbn [snd]. rewrite !of_int_exact by (auto; lia). cbn [fmul].
  destruct (Z.eqb_spec (10 * one fm) 0); [lia|]. destruct (Z.ltb_spec (10 * one fm) 0); [lia|].
  rewrite xorb_false_r. destruct pos; reflexivity.
Qed.
Lemma feed_inf fm pos ds : okfmt fm -> 4 <= prec fm -> digits ds -> feed fm pos (Inf (negb pos)) ds = Inf (negb pos).
Proof.
  intros Ho Hp. induction ds as [|d ds IH]; intros Hd; [reflexivity|]. inversion Hd; subst.
  cbn [feed fold_left]. rewrite fstep_inf by auto. now apply IH.
Qed.

Lemma feed_or fm pos : okfmt fm -> 4 <= prec fm -> forall ds n A a, 0 <= A -> digits ds -> runs fm n A a ->
  feed fm pos (Fin (sg pos * a)) ds = Inf (negb pos) \/
  exists a', runs fm (n + 2 * length ds) (hor A ds) a' /\ feed fm pos (Fin (sg pos * a)) ds = Fin (sg pos * a') /\
    (ds = [] \/ a' < 2 ^ emax fm * one fm).
Proof.
  intros Ho Hp. induction ds as [|d ds IH]; intros n A a HA Hd R.
  - right. exists a. cbn [length]. rewrite Nat.mul_0_r, Nat.add_0_r. split; [exact R|]. split; [reflexivity|now left].
  - inversion Hd as [|? ? Hd1 Hd2]; subst. pose proof (one_pos fm Ho) as P1.
    assert (P16 : 16 <= 2 ^ prec fm) by (change 16 with (2 ^ 4); apply Z.pow_le_mono_r; lia).
    pose proof (runs_times fm n A a Ho HA R) as R1. set (a1 := round_abs fm (a * 10 * one fm) (one fm)) in *.
    pose proof (runs_plus fm (S n) A a1 d Ho Hp HA Hd1 R1) as R2. set (a2 := round_abs fm (a1 + d * one fm) 1) in *.
    assert (Em : fmul fm (Fin (sg pos * a)) (of_int fm 10)
                 = if 2 ^ emax fm * one fm <=? a1 then Inf (negb pos) else Fin (sg pos * a1)).
    { rewrite of_int_exact by (auto; lia). cbn [fmul].
      replace (sg pos * a * (10 * one fm)) with (sg pos * (a * 10 * one fm)) by ring. destruct R as (H0 & _).
      unfold a1. apply round_sg_or; auto. nia. }
    assert (Ep : fadd fm (Fin (sg pos * a1)) (if pos then of_int fm d else fneg (of_int fm d))
                 = if 2 ^ emax fm * one fm <=? a2 then Inf (negb pos) else Fin (sg pos * a2)).
    { rewrite of_int_exact by (auto; lia). destruct R1 as (K0 & _). unfold a2. rewrite <- round_sg_or by (auto; nia).
      destruct pos; cbn [sg fneg fadd]; f_equal; ring. }
    cbn [feed fold_left].
    assert (St : fstep fm pos (Fin (sg pos * a)) d = Inf (negb pos) \/
                 (fstep fm pos (Fin (sg pos * a)) d = Fin (sg pos * a2) /\ a2 < 2 ^ emax fm * one fm)).
    { unfold fstep, fraise. cbn [snd]. rewrite Em.
      destruct (Z.leb_spec (2 ^ emax fm * one fm) a1).
      - left. rewrite of_int_exact by (auto; lia). destruct pos; reflexivity.
      - rewrite Ep. destruct (Z.leb_spec (2 ^ emax fm * one fm) a2); auto. }
    destruct St as [E|[E B2]]; rewrite E.
    + left. now apply feed_inf.
    + fold (feed fm pos (Fin (sg pos * a2)) ds).
      destruct (IH (S (S n)) (A * 10 + d) a2 ltac:(lia) Hd2 R2) as [I|(a' & Ra & Ea & Ba)]; [now left|right].
      exists a'. cbn [length]. replace (n + 2 * S (length ds))%nat with (S (S n) + 2 * length ds)%nat by lia.
      split; [exact Ra|]. split; [exact Ea|]. right. destruct Ba as [-> |Ba]; [|exact Ba].
      cbn [feed fold_left] in Ea. injection Ea as Ea. destruct pos; cbn [sg] in Ea; lia.
Qed.

Lemma near_half fm n X a : okfmt fm -> 2 * Z.of_nat n <= 2 ^ prec fm -> 0 <= X -> near fm n X a -> X <= 2 * a.
Proof.
  intros Ho Hn HX [N1 N2]. pose proof (pow16 fm Ho) as P8. set (B := 2 ^ prec fm) in *.
  pose proof (pow_dn B ltac:(lia) n) as U. pose proof (zp_pos B n ltac:(lia)) as Z0.
  set (z := zp B n) in *. set (lo := zp (B - 1) n) in *. set (m := Z.of_nat n) in *. clearbody z lo m B.
  assert (z * B <= 2 * lo * B) by nia. assert (z <= 2 * lo) by nia. assert (z * X <= z * (2 * a)) by nia. nia.
Qed.

Lemma feed_overflow fm pos ds : std_fmt fm -> digits ds -> Z.of_nat (length ds) <= 65536 ->
  2 ^ (emax fm + 1) <= value_of 10 ds -> feed fm pos (Fin 0) ds = Inf (negb pos).
Proof.
  intros Hf Hd Hl Hv. pose proof (std_ok fm Hf) as Ho. pose proof (std4 fm Hf) as Hp. pose proof (one_pos fm Ho) as P1.
  assert (PB : 2 ^ 24 <= 2 ^ prec fm) by (destruct Hf as [->| ->]; apply Z.pow_le_mono_r; cbn; lia).
  change (2 ^ 24) with 16777216 in PB. destruct (runs_zero fm Ho) as [R0 B0].
  assert (PE : 2 ^ (emax fm + 1) = 2 * 2 ^ emax fm) by (destruct Ho; rewrite Z.pow_add_r by lia; change (2 ^ 1) with 2; ring).
  assert (P2 : 0 < 2 ^ emax fm) by (apply pow_pos; destruct Ho; lia).
  destruct (feed_or fm pos Ho Hp ds 0 0 0 ltac:(lia) Hd R0) as [E|(a & Ra & _ & Ba)].
  - now rewrite Z.mul_0_r in E.
  - exfalso. change (hor 0 ds) with (value_of 10 ds) in Ra. destruct Ra as (_ & _ & Rn & _).
    destruct Ba as [-> |Ba]; [unfold value_of in Hv; cbn [fold_left] in Hv; lia|].
    pose proof (near_half fm (0 + 2 * length ds) (value_of 10 ds * one fm) a Ho ltac:(lia) ltac:(nia) Rn). nia.
Qed.

Lemma divider_inf fm k : okfmt fm -> 4 <= prec fm -> divider fm k (Inf false) = Inf false.
Proof.
  intros Ho Hp. pose proof (one_pos fm Ho).
  assert (P16 : 16 <= 2 ^ prec fm) by (change 16 with (2 ^ 4); apply Z.pow_le_mono_r; lia).
  induction k as [|k IH]; [reflexivity|]. cbn [divider]. rewrite of_int_exact by (auto; lia). cbn [fmul].
  destruct (Z.eqb_spec (10 * one fm) 0); [lia|]. destruct (Z.ltb_spec (10 * one fm) 0); [lia|]. exact IH.
Qed.

Lemma divider_or fm : okfmt fm -> 4 <= prec fm -> forall k n A a, 0 <= A -> runs fm n A a ->
  divider fm k (Fin a) = Inf false \/
  exists a', runs fm (n + k) (A * zp 10 k) a' /\ divider fm k (Fin a) = Fin a' /\ (k = 0%nat \/ a' < 2 ^ emax fm * one fm).
Proof.
  intros Ho Hp. induction k as [|k IH]; intros n A a HA R.
  - right. exists a. rewrite Nat.add_0_r. unfold zp. change (Z.of_nat 0) with 0. rewrite Z.pow_0_r, Z.mul_1_r. auto.
  - pose proof (one_pos fm Ho) as P1.
    assert (P16 : 16 <= 2 ^ prec fm) by (change 16 with (2 ^ 4); apply Z.pow_le_mono_r; lia).
    pose proof (runs_times fm n A a Ho HA R) as R1. set (a1 := round_abs fm (a * 10 * one fm) (one fm)) in *.
    assert (Em : fmul fm (Fin a) (of_int fm 10) = if 2 ^ emax fm * one fm <=? a1 then Inf false else Fin a1).
    { rewrite of_int_exact by (auto; lia). cbn [fmul]. destruct R as (H0 & _).
      replace (a * (10 * one fm)) with (sg true * (a * 10 * one fm)) by (cbn [sg]; ring).
      rewrite (round_sg_or fm true) by (auto; nia). fold a1. cbn [sg negb]. now rewrite Z.mul_1_l. }
    cbn [divider]. rewrite Em. destruct (Z.leb_spec (2 ^ emax fm * one fm) a1) as [B1|B1].
    + left. now apply divider_inf.
    + destruct (IH (S n) (A * 10) a1 ltac:(lia) R1) as [I|(a' & Ra & Ea & Ba)]; [now left|right].
      exists a'. rewrite zp_S. replace (n + S k)%nat with (S n + k)%nat by lia.
      replace (A * (10 * zp 10 k)) with (A * 10 * zp 10 k) by ring.
      split; [exact Ra|]. split; [exact Ea|]. right. destruct Ba as [-> |Ba]; [|exact Ba].
      cbn [divider] in Ea. injection Ea as Ea. lia.
Qed.

Lemma divider_overflow fm k : std_fmt fm -> Z.of_nat k <= 65536 -> 2 ^ (emax fm + 1) <= 10 ^ Z.of_nat k ->
  divider fm k (of_int fm 1) = Inf false.
Proof.
  intros Hf Hl Hv. pose proof (std_ok fm Hf) as Ho. pose proof (std4 fm Hf) as Hp. pose proof (one_pos fm Ho) as P1.
  assert (PB : 2 ^ 24 <= 2 ^ prec fm) by (destruct Hf as [->| ->]; apply Z.pow_le_mono_r; cbn; lia).
  change (2 ^ 24) with 16777216 in PB. destruct (runs_one fm Ho) as [R0 B0].
  assert (PE : 2 ^ (emax fm + 1) = 2 * 2 ^ emax fm) by (destruct Ho; rewrite Z.pow_add_r by lia; change (2 ^ 1) with 2; ring).
  assert (P2 : 0 < 2 ^ emax fm) by (apply pow_pos; destruct Ho; lia).
  rewrite of_int_exact by (auto; lia). rewrite Z.mul_1_l.
  destruct (divider_or fm Ho Hp k 0 1 (one fm) ltac:(lia) R0) as [E|(a & Ra & _ & Ba)]; [exact E|].
  exfalso. rewrite Z.mul_1_l, Nat.add_0_l in Ra. fold (zp 10 k) in Hv. destruct Ra as (_ & _ & Rn & _).
  destruct Ba as [-> |Ba]; [change (zp 10 0) with 1 in Hv; lia|].
  pose proof (near_half fm k (zp 10 k * one fm) a Ho ltac:(lia) ltac:(nia) Rn). nia.
Qed.

Lemma decimal_len tr data k lead text sign ip fp ds rest :
  plain tr data -> skipn k data = lead ++ text -> decimal_text text sign ip fp ds rest ->
  digits ds /\ Z.of_nat (length ds) <= 65536 /\ Z.of_nat (places fp) <= 65536.
Proof.
  intros P Hs (Et & _ & Hsp & _). split; [eapply spells_digits; exact Hsp|].
  assert (LD : Z.of_nat (length text) < 65536).
  { assert (L : length (skipn k data) = length (lead ++ text)) by (rewrite Hs; reflexivity).
    rewrite skipn_length, app_length in L. destruct P as [P _]. lia. }
  pose proof (Forall2_len _ _ _ Hsp) as Ls. rewrite app_length in Ls.
  rewrite Et, !app_length in LD. destruct fp; cbn [length places] in *; lia.
Qed.

Lemma finalize_places fm fp v : (places fp < 255)%nat -> fp <> None ->
  finalize fm (dec_dp fp) v = fdiv fm v (divider fm (places fp) (of_int fm 1)).
Proof.
  intros Hk Hn. destruct fp as [f|]; [|congruence]. cbn [places] in *. unfold finalize, dec_dp.
  rewrite adv_small by lia. destruct (Z.eqb_spec (1 + Z.of_nat (length f)) 0); [lia|]. cbn [negb].
  replace (Z.to_nat (1 + Z.of_nat (length f) - 1)) with (length f) by lia. reflexivity.
Qed.

Lemma overflow_inf fm tr st data k lead text sign ip fp ds rest :
  std_fmt fm -> plain tr data -> good st = true -> (k <= length data)%nat ->
  skipn k data = lead ++ text -> Forall space lead -> decimal_text text sign ip fp ds rest ->
  2 ^ (emax fm + 1) <= value_of 10 ds -> 4 * 10 ^ Z.of_nat (places fp) <= 2 ^ emax fm -> (places fp < 255)%nat ->
  extract_flt fm tr (at_str st data k)
  = Ok (Inf (minus sign),
        at_str (match rest with [] => setstate st eofbit | _ => st end) data (k + length lead + (length text - length rest))).
Proof.
  intros Hf P Hg Hk Hs Hl D Hv Ht Hp. pose proof (std_ok fm Hf) as Ho. pose proof (one_pos fm Ho) as P1.
  destruct (decimal_len tr data k lead text sign ip fp ds rest P Hs D) as (Hd & L1 & L2).
  assert (Hn : ds <> []) by (intros ->; unfold value_of in Hv; cbn [fold_left] in Hv; pose proof (pow_pos (emax fm + 1)); destruct Ho; lia).
  rewrite (decimal_extract fm tr st data k lead text sign ip fp ds rest P Hg Hk Hs Hl D Hn). do 2 f_equal.
  rewrite feed_overflow by auto. replace (negb (positive_sign sign)) with (minus sign) by (destruct sign; reflexivity).
  destruct fp as [f|]; [|reflexivity]. rewrite finalize_places by (auto; congruence).
  assert (PB : 2 ^ 24 <= 2 ^ prec fm) by (destruct Hf as [->| ->]; apply Z.pow_le_mono_r; cbn; lia).
  change (2 ^ 24) with 16777216 in PB. destruct (runs_one fm Ho) as [R1 B1].
  rewrite of_int_exact by (auto; lia). rewrite Z.mul_1_l.
  destruct (runs_divider fm Ho (std4 fm Hf) (places (Some f)) 0 1 (one fm) ltac:(lia) R1 B1 ltac:(lia) ltac:(unfold zp; lia)) as (d & Rd & Bd & Ed).
  rewrite Ed. cbn [fdiv]. destruct Rd as (_ & _ & _ & _ & dg).
  pose proof (zp_pos 10 (places (Some f)) ltac:(lia)). specialize (dg ltac:(lia)).
  destruct (Z.ltb_spec d 0); [lia|]. now rewrite xorb_false_r.
Qed.

Lemma overflow_nan fm tr st data k lead text sign ip fp ds rest :
  std_fmt fm -> plain tr data -> good st = true -> (k <= length data)%nat ->
  skipn k data = lead ++ text -> Forall space lead -> decimal_text text sign ip fp ds rest ->
  2 ^ (emax fm + 1) <= value_of 10 ds -> 2 ^ (emax fm + 1) <= 10 ^ Z.of_nat (places fp) -> (places fp < 255)%nat ->
  extract_flt fm tr (at_str st data k)
  = Ok (NaN, at_str (match rest with [] => setstate st eofbit | _ => st end) data (k + length lead + (length text - length rest))).
Proof.
  intros Hf P Hg Hk Hs Hl D Hv Ht Hp. pose proof (std_ok fm Hf) as Ho.
  destruct (decimal_len tr data k lead text sign ip fp ds rest P Hs D) as (Hd & L1 & L2).
  assert (PE : 2 <= 2 ^ (emax fm + 1)) by (change 2 with (2 ^ 1) at 1; apply Z.pow_le_mono_r; destruct Ho; lia).
  assert (Hn : ds <> []) by (intros ->; unfold value_of in Hv; cbn [fold_left] in Hv; lia).
  rewrite (decimal_extract fm tr st data k lead text sign ip fp ds rest P Hg Hk Hs Hl D Hn). do 2 f_equal.
  rewrite feed_overflow by auto. destruct fp as [f|]; [|cbn [places] in Ht; change (10 ^ Z.of_nat 0) with 1 in Ht; lia].
  rewrite finalize_places by (auto; congruence). rewrite divider_overflow by auto. reflexivity.
Qed.

Lemma overflow_zero fm tr st data k lead text sign ip fp ds rest :
  std_fmt fm -> plain tr data -> good st = true -> (k <= length data)%nat ->
  skipn k data = lead ++ text -> Forall space lead -> decimal_text text sign ip fp ds rest -> ds <> [] ->
  value_of 10 ds <= 2 ^ prec fm -> 2 ^ (emax fm + 1) <= 10 ^ Z.of_nat (places fp) -> (places fp < 255)%nat ->
  extract_flt fm tr (at_str st data k)
  = Ok (Fin 0, at_str (match rest with [] => setstate st eofbit | _ => st end) data (k + length lead + (length text - length rest))).
Proof.
  intros Hf P Hg Hk Hs Hl D Hn Hv Ht Hp. pose proof (std_ok fm Hf) as Ho.
  destruct (decimal_len tr data k lead text sign ip fp ds rest P Hs D) as (Hd & L1 & L2).
  assert (PE : 2 <= 2 ^ (emax fm + 1)) by (change 2 with (2 ^ 1) at 1; apply Z.pow_le_mono_r; destruct Ho; lia).
  rewrite (decimal_extract fm tr st data k lead text sign ip fp ds rest P Hg Hk Hs Hl D Hn). do 2 f_equal.
  destruct (dec_num_feed fm sign ds Ho (std4 fm Hf) Hd Hv) as [-> Hb].
  destruct fp as [f|]; [|cbn [places] in Ht; change (10 ^ Z.of_nat 0) with 1 in Ht; lia].
  rewrite finalize_places by (auto; congruence). rewrite divider_overflow by auto. reflexivity.
Qed.

(* ---- more than 254 places: the point is forgotten ---- *)

Lemma places_wrap fm tr st data k lead text sign ip f ds rest :
  std_fmt fm -> plain tr data -> good st = true -> (k <= length data)%nat ->
  skipn k data = lead ++ text -> Forall space lead -> decimal_text text sign ip (Some f) ds rest ->
  (255 <= length f)%nat -> value_of 10 ds <= 2 ^ prec fm ->
  exists u, extract_flt fm tr (at_str st data k)
    = Ok (Fin u, at_str (match rest with [] => setstate st eofbit | _ => st end) data (k + length lead + (length text - length rest))) /\
    (val fm u == dec_num sign ds # 1)%Q.
Proof.
  intros Hf P Hg Hk Hs Hl D Hp Hv. pose proof (std_ok fm Hf) as Ho. pose proof (one_pos fm Ho).
  destruct (decimal_len tr data k lead text sign ip _ ds rest P Hs D) as (Hd & _).
  assert (Hn : ds <> []).
  { intros ->. destruct D as (_ & _ & Hsp & _). apply Forall2_len in Hsp. rewrite app_length in Hsp. cbn [length] in Hsp. lia. }
  rewrite (decimal_extract fm tr st data k lead text sign ip _ ds rest P Hg Hk Hs Hl D Hn).
  destruct (dec_num_feed fm sign ds Ho (std4 fm Hf) Hd Hv) as [-> Hb]. cbn [dec_dp].
  rewrite adv_big by lia. exists (dec_num sign ds * one fm). split; [reflexivity|].
  unfold val, Qeq; cbn [Qnum Qden]. rewrite Z2Pos.id by lia. ring.
Qed.

(* ---- a second point ---- *)

Lemma two_points fm tr st data k lead text sign a b c ds rest :
  std_fmt fm -> plain tr data -> good st = true -> (k <= length data)%nat ->
  skipn k data = lead ++ text -> Forall space lead ->
  text = sign ++ a ++ [46] ++ b ++ [46] ++ c ++ rest -> sign = [45] \/ sign = [] ->
  spells 10 (a ++ b ++ c) ds -> no_digit_head 10 rest -> hd_error rest <> Some 46 ->
  value_of 10 ds <= 2 ^ prec fm -> 5 ^ Z.of_nat (length c) < 2 ^ prec fm ->
  exists u, extract_flt fm tr (at_str st data k)
    = Ok (Fin u, at_str (match rest with [] => setstate st eofbit | _ => st end) data (k + length lead + (length text - length rest))) /\
    nearest fm (dec_value sign ds (length c)) (val fm u).
Proof.
  intros Hf P Hg Hk Hs Hl Et Hsg Hsp Hr Hpt Hv Hp. pose proof (std_ok fm Hf) as Ho.
  pose proof (spells_digits _ _ Hsp) as Hd.
  apply Forall2_app_inv_l in Hsp. destruct Hsp as (da & dr & Sa & Sr & ->).
  apply Forall2_app_inv_l in Sr. destruct Sr as (db & dc & Sb & Sc & ->).
  assert (E : fdrive fm GStart 0 0 (Fin 0) text 0
    = ((length text - length rest)%nat, match rest with [] => eofbit | _ => 0 end,
       finalize fm (dec_dp (Some c)) (feed fm (positive_sign sign) (Fin 0) (da ++ db ++ dc)))).
  { assert (Body : forall n, fdrive fm (stof (positive_sign sign)) 0 0 (Fin 0) (a ++ 46 :: b ++ 46 :: c ++ rest) n
      = ((n + length a + S (length b) + S (length c))%nat, match rest with [] => eofbit | _ => 0 end,
         finalize fm (dec_dp (Some c)) (feed fm (positive_sign sign) (Fin 0) (da ++ db ++ dc)))).
    { intro n. rewrite (fdrive_digits fm _ _ a da) by exact Sa. rewrite fdrive_point.
      rewrite (fdrive_digits fm _ _ b db) by exact Sb. rewrite fdrive_point.
      rewrite (fdrive_digits fm _ _ c dc) by exact Sc. rewrite fdrive_end by assumption.
      unfold feed, dec_dp. rewrite !fold_left_app.
      replace (S (S (n + length a) + length b) + length c)%nat with (n + length a + S (length b) + S (length c))%nat by lia.
      destruct rest; reflexivity. }
    assert (L : (length text - length rest)%nat = (length sign + length a + S (length b) + S (length c))%nat).
    { rewrite Et, !app_length. cbn [length]. lia. }
    rewrite L, Et. destruct Hsg as [-> | ->].
    - exact (Body 1%nat).
    - cbn [app]. specialize (Body 0%nat). cbn [positive_sign stof] in Body.
      assert (Hh : exists x t, a ++ 46 :: b ++ 46 :: c ++ rest = x :: t /\ x <> 45 /\ ((exists d, is_digit 10 x d) \/ x = 46)).
      { destruct a as [|x a]; [exists 46; eexists; split; [reflexivity|split; [lia|auto]]|].
        inversion Sa as [|? d ? ? Hx]; subst. exists x. eexists. split; [reflexivity|]. split; [|left; eauto].
        intros ->. destruct Hx as [Hx _]. discriminate Hx. }
      destruct Hh as (x & t & Ex & Hx & Hd'). rewrite Ex in *. rewrite fdrive_start by assumption. exact Body. }
  assert (Hh : text <> [] /\ match text with [] => True | x :: _ => ~ space x end).
  { rewrite Et. destruct Hsg as [-> | ->]; cbn [app]; [split; [discriminate|unfold space; cbn; lia]|].
    destruct a as [|x a]; cbn [app]; [split; [discriminate|unfold space; cbn; lia]|]. split; [discriminate|].
    inversion Sa as [|? d ? ? Hx]; subst. eapply digit_not_space; exact Hx. }
  rewrite (fextract_at fm tr st data k lead text _ _ _ P Hg Hk Hs Hl (proj1 Hh) (proj2 Hh) E).
  destruct (dec_num_feed fm sign (da ++ db ++ dc) Ho (std4 fm Hf) Hd Hv) as [-> Hb].
  destruct (finalize_nearest fm (Some c) (dec_num sign (da ++ db ++ dc)) Hf Hb Hp) as (u & -> & N). exists u. split; [|exact N].
  do 3 f_equal. destruct rest; [reflexivity|apply setstate_0; exact Hg].
Qed.

(* ---- no digit ---- *)

Lemma only_signs fm tr st data k lead sign point rest :
  std_fmt fm -> plain tr data -> good st = true -> (k <= length data)%nat ->
  skipn k data = lead ++ sign ++ point ++ rest -> Forall space lead ->
  sign = [45] \/ sign = [] -> point = [46] \/ point = [] -> sign ++ point <> [] ->
  no_digit_head 10 rest -> hd_error rest <> Some 46 ->
  extract_flt fm tr (at_str st data k)
  = Ok (Fin 0, at_str (match rest with [] => setstate st eofbit | _ => st end) data (k + length lead + length (sign ++ point))).
Proof.
  intros Hf P Hg Hk Hs Hl Hsg Hpt Hne Hr Hp. pose proof (std_ok fm Hf) as Ho.
  assert (F : finalize fm 1 (Fin 0) = Fin 0).
  { destruct Hf as [->| ->]; vm_compute; reflexivity. }
  assert (E : fdrive fm GStart 0 0 (Fin 0) (sign ++ point ++ rest) 0
    = (length (sign ++ point), match rest with [] => eofbit | _ => 0 end, Fin 0)).
  { destruct Hsg as [-> | ->]; destruct Hpt as [-> | ->]; cbn [app length]; try (now destruct Hne).
    - change (fdrive fm (stof false) 0 0 (Fin 0) (46 :: rest) 1
              = (2%nat, match rest with [] => eofbit | _ => 0 end, Fin 0)).
      rewrite fdrive_point, fdrive_end by assumption. rewrite F. destruct rest; reflexivity.
    - change (fdrive fm (stof false) 0 0 (Fin 0) rest 1 = (1%nat, match rest with [] => eofbit | _ => 0 end, Fin 0)).
      rewrite fdrive_end by assumption. destruct rest; reflexivity.
    - rewrite fdrive_start by (auto; lia). change GPos with (stof true).
      rewrite fdrive_point, fdrive_end by assumption. rewrite F. destruct rest; reflexivity. }
  assert (H1 : sign ++ point ++ rest <> []) by (rewrite app_assoc; destruct (sign ++ point); [congruence|discriminate]).
  assert (H2 : match sign ++ point ++ rest with [] => True | c :: _ => ~ space c end)
    by (destruct Hsg as [-> | ->]; destruct Hpt as [-> | ->]; cbn [app]; try (now destruct Hne); unfold space; cbn; lia).
  rewrite (fextract_at fm tr st data k lead (sign ++ point ++ rest) _ _ _ P Hg Hk Hs Hl H1 H2 E).
  do 3 f_equal. destruct rest; [reflexivity|apply setstate_0; exact Hg].
Qed.

Lemma nothing fm tr st data k lead rest :
  plain tr data -> good st = true -> (k <= length data)%nat ->
  skipn k data = lead ++ rest -> Forall space lead ->
  no_digit_head 10 rest -> match rest with [] => True | c :: _ => c <> 45 /\ c <> 46 /\ ~ space c end ->
  extract_flt fm tr (at_str st data k) = Ok (Fin 0, at_str (setstate st failbit) data (k + length lead)).
Proof.
  intros P Hg Hk Hs Hl Hr Hh. destruct rest as [|c rest].
  - rewrite app_nil_r in Hs. destruct (good_state _ Hg) as [G1 G2].
    unfold extract_flt. rewrite (ws_at tr st data k lead []); auto; [|lia|now rewrite app_nil_r].
    cbn [bind at_str ist isbuf]. rewrite G1.
    assert (L : length (skipn k data) = length lead) by (rewrite Hs; reflexivity). rewrite skipn_length in L.
    replace (k + length lead)%nat with (length data) by lia. cbn [fsdrive].
    rewrite sgetc_at by (try assumption; lia).
    replace (nth_error data (length data)) with (@None Z) by (symmetry; apply nth_error_None; lia).
    cbn [bind answer]. change (to_char_type (-1)) with (-1). reflexivity.
  - assert (E : fdrive fm GStart 0 0 (Fin 0) (c :: rest) 0 = (0%nat, failbit, Fin 0)).
    { destruct Hh as (H1 & H2 & H3). cbn [fdrive fnum_get1]. apply Z.eqb_neq in H1, H2. rewrite H1. unfold fnominal. rewrite H2.
      cbn [no_digit_head] in Hr.
      replace (from_char 10 c) with (@None Z); [reflexivity|].
      destruct (from_char 10 c) as [d|] eqn:F; [|reflexivity]. apply from_char_some in F; [|lia]. now apply Hr in F. }
    rewrite (fextract_at fm tr st data k lead (c :: rest) _ _ _ P Hg Hk Hs Hl ltac:(discriminate) (proj2 (proj2 Hh)) E).
    now rewrite Nat.add_0_r.
Qed.

(* ---- more digits than the significand holds ---- *)

Lemma qcmp (x f g : Q) : Qle_bool (Qabs (x - f)) (Qabs (x - g)) = false -> (Qabs (x - g) < Qabs (x - f))%Q.
Proof.
  intros H. apply Qnot_le_lt. intros C. apply Qle_bool_iff in C. congruence.
Qed.

Lemma not_nearest fm x f g : representable fm g -> (Qabs (x - g) < Qabs (x - f))%Q -> ~ nearest fm x f.
Proof.
  intros Hg Hl [_ H]. destruct (Qeq_dec g f) as [E|E].
  - assert (EE : (Qabs (x - g) == Qabs (x - f))%Q) by (apply Qabs_wd; unfold Qminus; apply Qplus_comp; [reflexivity|now apply Qopp_comp]).
    rewrite EE in Hl. now apply Qlt_irrefl in Hl.
  - destruct (H g Hg E) as [L|[L _]].
    + apply (Qlt_irrefl (Qabs (x - f))). eapply Qlt_trans; eassumption.
    + rewrite L in Hl. now apply Qlt_irrefl in Hl.
Qed.

Lemma long_32 : finalize binary32 (dec_dp None) (feed binary32 (positive_sign []) (Fin 0) (long_digits binary32))
  = Fin (167772160 * one binary32).
Proof. vm_compute. reflexivity. Qed.
Lemma long_64 : finalize binary64 (dec_dp None) (feed binary64 (positive_sign []) (Fin 0) (long_digits binary64))
  = Fin (90071992547409920 * one binary64).
Proof. vm_compute. reflexivity. Qed.

Lemma long_digits_off fm tr st data k lead text rest :
  std_fmt fm -> plain tr data -> good st = true -> (k <= length data)%nat ->
  skipn k data = lead ++ text -> Forall space lead ->
  decimal_text text [] (long_text fm) None (long_digits fm) rest ->
  exists u s', extract_flt fm tr (at_str st data k) = Ok (Fin u, s') /\
    ~ nearest fm (dec_value [] (long_digits fm) 0) (val fm u).
Proof.
  intros Hf P Hg Hk Hs Hl D.
  rewrite (decimal_extract fm tr st data k lead text [] (long_text fm) None (long_digits fm) rest P Hg Hk Hs Hl D
             ltac:(unfold long_digits; destruct (prec fm =? 24); discriminate)).
  destruct Hf as [-> | ->].
  - rewrite long_32. exists (167772160 * one binary32). eexists. split.
    + reflexivity.
    + apply (not_nearest binary32 _ _ (val binary32 (167772176 * one binary32))); [|apply qcmp; vm_compute; reflexivity].
      exists 10485761, 4. split; [reflexivity|]. split; [vm_compute; split; discriminate|vm_compute; reflexivity].
  - rewrite long_64. exists (90071992547409920 * one binary64). eexists. split.
    + reflexivity.
    + apply (not_nearest binary64 _ _ (val binary64 (90071992547409936 * one binary64))); [|apply qcmp; vm_compute; reflexivity].
      exists 5629499534213121, 4. split; [reflexivity|]. split; [vm_compute; split; discriminate|vm_compute; reflexivity].
Qed.
