(* Properties of flags, bytes and numeric limits. *)
From Coq Require Import ZArith Bool Lia List.
From Verif Require Import Base MachInt Charconv_Spec Charconv_Model Charconv_Proofs Bits_Spec Bits_Model Bits_Proofs.
Import ListNotations.
Local Open Scope Z_scope.

(* ---- C251: the operators are those of sets of flags. *)
Theorem C251_sets : forall t a b, std_ity t -> in_range t a -> in_range t b ->
  flags_are t (fl_or t a b) (fun i => has a i || has b i) /\
  flags_are t (fl_and t a b) (fun i => has a i && has b i) /\
  flags_are t (fl_xor t a b) (fun i => xorb (has a i) (has b i)) /\
  flags_are t (fl_not t a) (fun i => negb (has a i)).
Proof. intros t a b S A B. auto using or_flags, and_flags, xor_flags, not_flags. Qed.
Print Assumptions C251_sets.
(* a set is true as a condition exactly if it has a flag; equality is that of the sets *)
Theorem C251_tests : forall t a b, std_ity t -> in_range t a -> in_range t b ->
  (fl_bool a = true <-> exists i, 0 <= i < bits t /\ has a i = true) /\
  (fl_eq a b = true <-> forall i, 0 <= i < bits t -> has a i = has b i) /\ fl_ne a b = negb (fl_eq a b).
Proof.
  intros t a b S A B. repeat split.
  - unfold fl_bool. intros H. destruct (Z.eqb_spec a 0) as [|N]; [discriminate|].
    assert (X : forall n, (exists i, 0 <= i < Z.of_nat n /\ has a i = true) \/ forall i, 0 <= i < Z.of_nat n -> has a i = false).
    { induction n as [|n [(i & I & E)|IH]]; [right; lia|left; exists i; split; [lia|exact E]|].
      destruct (has a (Z.of_nat n)) eqn:E; [left; exists (Z.of_nat n); split; [lia|exact E]|]. right. intros i I.
      destruct (Z.eq_dec i (Z.of_nat n)) as [-> |]; [exact E|apply IH; lia]. }
    pose proof (std_pos t S). destruct (X (Z.to_nat (bits t))) as [(i & I & E)|F].
    + exists i. split; [lia|exact E].
    + exfalso. apply N. apply (empty_flags t a S A). intros i I. apply F. lia.
  - intros (i & I & E). unfold fl_bool. destruct (Z.eqb_spec a 0) as [-> |N]; [|reflexivity]. unfold has in E. rewrite Z.testbit_0_l in E. discriminate.
  - unfold fl_eq. intros H i _. apply Z.eqb_eq in H. now subst.
  - intros H. apply Z.eqb_eq. now apply (same_bits t).
Qed.
Print Assumptions C251_tests.
(* setting, testing, clearing and toggling *)
Theorem C251_laws : forall t v f, std_ity t -> in_range t v -> in_range t f ->
  fl_and t (fl_or t v f) f = f /\
  fl_and t (fl_and t v (fl_not t f)) f = 0 /\
  (forall i, 0 <= i < bits t -> has f i = false -> has (fl_or t v f) i = has v i /\ has (fl_and t v (fl_not t f)) i = has v i) /\
  fl_xor t (fl_xor t v f) f = v /\ fl_not t (fl_not t v) = v.
Proof.
  intros t v f S V F.
  destruct (or_flags t v f S V F) as [OR OB]. destruct (not_flags t f S F) as [NR NB]. destruct (and_flags t v _ S V NR) as [CR CB].
  destruct (and_flags t _ f S OR F) as [A1 B1]. destruct (and_flags t _ f S CR F) as [A2 B2].
  destruct (xor_flags t v f S V F) as [XR XB]. destruct (xor_flags t _ f S XR F) as [A3 B3].
  destruct (not_flags t v S V) as [NR' NB']. destruct (not_flags t _ S NR') as [A4 B4].
  split; [|split; [|split; [|split]]].
  - apply (same_bits t); auto. intros i I. specialize (B1 i I). specialize (OB i I). unfold has in *. rewrite B1, OB. now destruct (Z.testbit v i), (Z.testbit f i).
  - apply (same_bits t); auto using zero_range. intros i I. specialize (B2 i I). specialize (CB i I). specialize (NB i I). unfold has in *.
    rewrite B2, CB, NB, Z.testbit_0_l. now destruct (Z.testbit v i), (Z.testbit f i).
  - intros i I E. specialize (OB i I). specialize (CB i I). specialize (NB i I). unfold has in *. rewrite OB, CB, NB, E. split; [apply orb_false_r|apply andb_true_r].
  - apply (same_bits t); auto. intros i I. specialize (B3 i I). specialize (XB i I). unfold has in *. rewrite B3, XB. now destruct (Z.testbit v i), (Z.testbit f i).
  - apply (same_bits t); auto. intros i I. specialize (B4 i I). specialize (NB' i I). unfold has in *. rewrite B4, NB'. apply negb_involutive.
Qed.
Print Assumptions C251_laws.
Example C251_case : fl_or (Ity 32 true) 1 4 = 5 /\ fl_and (Ity 32 true) 5 (fl_not (Ity 32 true) 4) = 1 /\ fl_not (Ity 32 false) 1 = 4294967294 /\ fl_xor (Ity 32 true) (-1) 8 = -9 /\ fl_bool (fl_and (Ity 32 true) 5 2) = false /\
  flags_are (Ity 32 true) (-9) (fun i => negb (i =? 3)).
Proof.
  repeat split; try reflexivity; try (vm_compute; discriminate). intros i I. unfold has. change (-9) with (Z.lnot 8). rewrite Z.lnot_spec by (cbn in I; lia). f_equal.
  change 8 with (2 ^ 3). rewrite Z.pow2_bits_eqb by lia. apply Z.eqb_sym.
Qed.

(* ---- C252: bytes. *)
Theorem C252_conversions : forall v, byte_is (to_byte v) (Z.testbit v) /\
  (0 <= v < 256 -> to_byte v = v) /\ forall t, std_ity t -> in_range t (to_byte v) -> to_integer t (to_byte v) = to_byte v.
Proof.
  intros v. split; [apply to_byte_bits|]. split.
  - intros V. apply Z.mod_small. exact V.
  - intros t S R. apply wrap_id; [now apply std_pos|exact R].
Qed.
Print Assumptions C252_conversions.
Theorem C252_or : forall l r, 0 <= l < 256 -> 0 <= r < 256 -> byte_is (byte_or l r) (fun i => Z.testbit l i || Z.testbit r i).
Proof.
  intros l r L R. unfold byte_or, wrapu. change (2 ^ 32) with 4294967296. rewrite !Z.mod_small by lia. destruct (to_byte_bits (Z.lor l r)) as [A B]. split; [exact A|].
  intros i I. rewrite B by exact I. apply Z.lor_spec.
Qed.
Print Assumptions C252_or.
(* Shifts move the bits, as long as nothing is shifted out of an int. *)
Theorem C252_shifts : forall b s, 0 <= b < 256 -> 0 <= s ->
  (b * 2 ^ s < 2 ^ 32 -> s < 32 -> exists r, byte_shl b s = Ok r /\ byte_is r (fun i => (s <=? i) && Z.testbit b (i - s))) /\
  (s < 32 -> exists r, byte_shr b s = Ok r /\ byte_is r (fun i => Z.testbit b (i + s)) /\ r = b / 2 ^ s).
Proof.
  intros b s B S. split.
  - intros F S2. exists (to_byte (b * 2 ^ s)). split.
    + unfold byte_shl. destruct (Z.ltb_spec s 0); [lia|]. destruct (Z.leb_spec 32 s); [lia|]. cbn [orb]. destruct (Z.ltb_spec (b * 2 ^ s) (2 ^ 32)); [|lia].
      unfold to_byte. now rewrite wraps_byte.
    + destruct (to_byte_bits (b * 2 ^ s)) as [A C]. split; [exact A|]. intros i I. rewrite C by exact I.
      rewrite Z.mul_pow2_bits by lia. destruct (Z.leb_spec s i); [reflexivity|]. apply Z.testbit_neg_r. lia.
  - intros S2. assert (E : to_byte (Z.shiftr b s) = Z.shiftr b s).
    { apply Z.mod_small. rewrite Z.shiftr_div_pow2 by lia. pose proof (Z.pow_pos_nonneg 2 s ltac:(lia) ltac:(lia)). split; [apply Z.div_pos; lia|]. apply Z.div_lt_upper_bound; nia. }
    exists (Z.shiftr b s). split; [|split].
    + unfold byte_shr. destruct (Z.ltb_spec s 0); [lia|]. destruct (Z.leb_spec 32 s); [lia|]. cbn [orb]. now rewrite E.
    + rewrite <- E. destruct (to_byte_bits (Z.shiftr b s)) as [A C]. split; [exact A|]. intros i I. rewrite C by exact I. apply Z.shiftr_spec. lia.
    + apply Z.shiftr_div_pow2. lia.
Qed.
Print Assumptions C252_shifts.
(* Other counts, in either direction, are undefined. *)
Theorem C252_shift_amount : forall b s, s < 0 \/ 32 <= s -> byte_shl b s = UB /\ byte_shr b s = UB.
Proof.
  intros b s H. unfold byte_shl, byte_shr. destruct (Z.ltb_spec s 0), (Z.leb_spec 32 s); try lia; cbn [orb]; auto.
Qed.
Print Assumptions C252_shift_amount.
Example C252_case : to_byte (-1) = 255 /\ to_integer (Ity 8 true) 200 = -56 /\ byte_shl 129 1 = Ok 2 /\ byte_shl 255 8 = Ok 0 /\ byte_shl 255 24 = Ok 0 /\ byte_shr 129 3 = Ok 16 /\ byte_or 129 18 = 147.
Proof. repeat split; reflexivity. Qed.

(* ---- C253: a shift by more than that, which would leave nothing, is undefined. *)
Theorem C253_shift_out_refuted : forall b s, 0 <= b < 256 -> 0 <= s < 32 -> 2 ^ 32 <= b * 2 ^ s -> byte_shl b s = UB.
Proof.
  intros b s B S F. unfold byte_shl. destruct (Z.ltb_spec s 0); [lia|]. destruct (Z.leb_spec 32 s); [lia|]. cbn [orb].
  destruct (Z.ltb_spec (b * 2 ^ s) (2 ^ 32)); [lia|reflexivity].
Qed.
Print Assumptions C253_shift_out_refuted.
Example C253_case : byte_shl 255 25 = UB /\ byte_shl 2 31 = UB /\ byte_shl 1 31 = Ok 0.
Proof. repeat split; reflexivity. Qed.

(* ---- C254: numeric_limits. *)
Ltac pows := repeat match goal with |- context [?b ^ ?e] => let r := eval vm_compute in (b ^ e) in progress change (b ^ e) with r end.
Theorem C254_range : forall t, std_ity t -> exists l, integer_limits t = Some l /\
  in_range t (l_min l) /\ in_range t (l_max l) /\ (forall v, in_range t v <-> l_min l <= v <= l_max l) /\
  l_max l + 1 = 2 ^ l_digits l /\ holds_digits t (l_digits10 l) /\ ~ holds_digits t (l_digits10 l + 1).
Proof.
  intros t S. destruct t as [w s]. unfold std_ity in S. cbn [bits] in S.
  assert (N : forall d, 10 ^ (d + 1) - 1 > imax (Ity w s) -> 0 <= d -> ~ holds_digits (Ity w s) (d + 1)).
  { intros d D D0 H. pose proof (Z.pow_pos_nonneg 10 (d + 1) ltac:(lia) ltac:(lia)) as P. specialize (H (10 ^ (d + 1) - 1) ltac:(lia) ltac:(left; lia)).
    unfold in_range in H. lia. }
  assert (P : forall d, 0 <= d -> 10 ^ (d + 1) = 10 * 10 ^ d) by (intros d D; rewrite Z.pow_add_r by lia; lia).
  destruct S as [-> |[-> |[-> | ->]]]; destruct s; (eexists; split; [reflexivity|]); cbn [l_min l_max l_digits l_digits10];
    (split; [vm_compute; split; discriminate|split; [vm_compute; split; discriminate|split; [|split; [vm_compute; reflexivity|split]]]]);
    try (apply N; [vm_compute; reflexivity|lia]); unfold holds_digits, in_range, imin, imax; cbn [sgn bits]; pows; intros v; try lia; intros A [O|O]; try discriminate O; lia.
Qed.
Print Assumptions C254_range.
(* The room reserved for a numeral is enough: in base 10 and 16 for every type, in base 8 for 8 and 32 bits. *)
Theorem C254_length : forall t base up v s, std_ity t -> base = 10 \/ base = 16 \/ (base = 8 /\ (bits t = 8 \/ bits t = 32)) -> in_range t v ->
  is_numeral up base v s -> (length s <= int_length base t)%nat.
Proof.
  intros t base up v s S B R N. unfold int_length.
  assert (A : Z.abs v < 2 ^ bits t).
  { pose proof (std_pos t S). unfold in_range, imin, imax in R. pose proof (pow_half (bits t) ltac:(lia)). destruct (sgn t); lia. }
  apply (numeral_fits t base up v s); auto; [lia| |].
  - unfold std_ity in S. unfold uint_strlen. destruct B as [-> |[-> |[-> _]]]; destruct S as [-> |[-> |[-> | ->]]]; vm_compute; lia.
  - apply Z.lt_le_trans with (1 := A). clear - S B. unfold std_ity in S. destruct B as [-> |[-> |[-> B]]]; destruct S as [E|[E|[E|E]]]; rewrite E in *; try (destruct B; discriminate); vm_compute; discriminate.
Qed.
Print Assumptions C254_length.
Example C254_case : integer_limits (Ity 16 true) = Some (Limits (-32768) 32767 15 4) /\ int_length 10 (Ity 16 true) = 6%nat /\ is_numeral false 10 (-32768) [45; 51; 50; 55; 54; 56] /\
  int_length 16 (Ity 16 false) = 4%nat /\ is_numeral true 16 65535 [70; 70; 70; 70].
Proof.
  split; [reflexivity|]. split; [reflexivity|]. split; [|split; [reflexivity|]].
  - exists [3; 2; 7; 6; 8]. repeat split; try discriminate. repeat constructor; lia.
  - exists [15; 15; 15; 15]. repeat split; try discriminate. repeat constructor; lia.
Qed.

(* ---- C255: in base 8 it is not enough for 16 and 64 bits. *)
Theorem C255_octal_length_refuted : forall t up v s, bits t = 16 \/ bits t = 64 -> in_range t v ->
  (if sgn t then v = imin t else 2 ^ (bits t - 1) <= v) -> is_numeral up 8 v s -> (int_length 8 t < length s)%nat.
Proof.
  intros t up v s B R V (ds & -> & ND & F & VV & _). rewrite app_length, map_length. pose proof (value_below 8 ds ltac:(lia) F) as U. rewrite VV in U.
  assert (L : (uint_strlen 8 (bits t) < length ds)%nat).
  { destruct (Nat.le_gt_cases (length ds) (uint_strlen 8 (bits t))) as [H|H]; [exfalso|exact H].
    assert (U2 : 8 ^ Z.of_nat (length ds) <= 8 ^ Z.of_nat (uint_strlen 8 (bits t))) by (apply Z.pow_le_mono_r; lia).
    assert (X : 2 ^ (bits t - 1) <= Z.abs v) by (unfold imin in V; destruct (sgn t); lia).
    destruct B as [B|B]; rewrite B in *; vm_compute (8 ^ Z.of_nat (uint_strlen _ _)) in U2; vm_compute (2 ^ _) in X; lia. }
  unfold int_length. unfold imin in V. destruct (sgn t); [|destruct (v <? 0); cbn [length]; lia].
  assert (v < 0) by (subst v; destruct B as [B|B]; rewrite B; vm_compute; reflexivity). destruct (Z.ltb_spec v 0); [cbn [length]; lia|lia].
Qed.
Print Assumptions C255_octal_length_refuted.
Example C255_case : int_length 8 (Ity 16 false) = 5%nat /\ is_numeral false 8 65535 [49; 55; 55; 55; 55; 55].
Proof. split; [reflexivity|]. exists [1; 7; 7; 7; 7; 7]. repeat split; try discriminate. repeat constructor; lia. Qed.
