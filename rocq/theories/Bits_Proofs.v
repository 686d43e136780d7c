From Coq Require Import ZArith Bool Lia List.
From Verif Require Import Base MachInt Charconv_Spec Charconv_Model Charconv_Proofs Bits_Spec Bits_Model.
Local Open Scope Z_scope.

(* number of bits that are not the sign *)
Definition vbits (t : ity) : Z := if sgn t then bits t - 1 else bits t.
Lemma vbits_pos t : std_ity t -> 0 < vbits t <= bits t.
Proof. unfold std_ity, vbits. destruct (sgn t); lia. Qed.
Lemma range_shift t v : std_ity t -> in_range t v <-> (Z.shiftr v (vbits t) = 0 \/ (sgn t = true /\ Z.shiftr v (vbits t) = -1)).
Proof.
  intros S. pose proof (vbits_pos t S) as VP. rewrite Z.shiftr_div_pow2 by lia.
  assert (P : 0 < 2 ^ vbits t) by (apply Z.pow_pos_nonneg; lia).
  pose proof (Z.div_mod v (2 ^ vbits t) ltac:(lia)) as D. pose proof (Z.mod_pos_bound v (2 ^ vbits t) P) as M.
  unfold in_range, imin, imax, vbits in *. destruct (sgn t); split; intros H.
  - assert (v / 2 ^ (bits t - 1) < 1) by (apply Z.div_lt_upper_bound; lia). assert (-1 <= v / 2 ^ (bits t - 1)) by (apply Z.div_le_lower_bound; lia). lia.
  - destruct H as [H|[_ H]]; rewrite H in D; lia.
  - left. apply Z.div_small. lia.
  - destruct H as [H|[H _]]; [rewrite H in D; lia|discriminate].
Qed.
Lemma same_bits t a b : std_ity t -> in_range t a -> in_range t b -> (forall i, 0 <= i < bits t -> Z.testbit a i = Z.testbit b i) -> a = b.
Proof.
  intros S A B H. pose proof (vbits_pos t S) as VP. apply Z.bits_inj'. intros i I. destruct (Z.lt_ge_cases i (bits t)) as [L|L]; [now apply H|].
  replace i with ((i - vbits t) + vbits t) by lia. rewrite <- !Z.shiftr_spec by lia.
  apply (range_shift t a S) in A. apply (range_shift t b S) in B. unfold vbits in *. destruct (sgn t) eqn:SG.
  - assert (X : Z.testbit (Z.shiftr a (bits t - 1)) 0 = Z.testbit (Z.shiftr b (bits t - 1)) 0).
    { rewrite !Z.shiftr_spec by lia. apply H. lia. }
    destruct A as [A|[_ A]], B as [B|[_ B]]; rewrite A, B in *; try discriminate; reflexivity.
  - destruct A as [A|[? A]], B as [B|[? B]]; try discriminate. now rewrite A, B.
Qed.

Lemma bitwise_range t a b f : std_ity t -> (forall n, 0 <= n -> Z.shiftr (f a b) n = f (Z.shiftr a n) (Z.shiftr b n)) ->
  (forall x y, x = 0 \/ x = -1 -> y = 0 \/ y = -1 -> f x y = 0 \/ f x y = -1) -> f 0 0 = 0 ->
  in_range t a -> in_range t b -> in_range t (f a b).
Proof.
  intros S F C Z0 A B. pose proof (vbits_pos t S) as VP. apply (range_shift t a S) in A. apply (range_shift t b S) in B. apply (range_shift t _ S).
  rewrite F by lia. destruct (sgn t).
  - destruct (C (Z.shiftr a (vbits t)) (Z.shiftr b (vbits t))) as [E|E]; [intuition|intuition|now left|right; split; [reflexivity|exact E]].
  - left. destruct A as [-> |[? _]]; [|discriminate]. destruct B as [-> |[? _]]; [exact Z0|discriminate].
Qed.
Lemma std_pos t : std_ity t -> 1 <= bits t. Proof. unfold std_ity. lia. Qed.
Lemma or_flags t a v : std_ity t -> in_range t a -> in_range t v -> flags_are t (fl_or t a v) (fun i => has a i || has v i).
Proof.
  intros S A V. assert (R : in_range t (Z.lor v a)).
  { apply bitwise_range with (f := Z.lor); auto; [intros; apply Z.shiftr_lor|intros x y [->| ->] [->| ->]; auto]. }
  unfold flags_are, fl_or. rewrite wrap_id by (auto using std_pos). split; [exact R|]. intros i I. unfold has. rewrite Z.lor_spec. apply orb_comm.
Qed.
Lemma and_flags t a v : std_ity t -> in_range t a -> in_range t v -> flags_are t (fl_and t a v) (fun i => has a i && has v i).
Proof.
  intros S A V. assert (R : in_range t (Z.land v a)).
  { apply bitwise_range with (f := Z.land); auto; [intros; apply Z.shiftr_land|intros x y [->| ->] [->| ->]; auto]. }
  unfold flags_are, fl_and. rewrite wrap_id by (auto using std_pos). split; [exact R|]. intros i I. unfold has. rewrite Z.land_spec. apply andb_comm.
Qed.
Lemma xor_flags t a v : std_ity t -> in_range t a -> in_range t v -> flags_are t (fl_xor t a v) (fun i => xorb (has a i) (has v i)).
Proof.
  intros S A V. assert (R : in_range t (Z.lxor v a)).
  { apply bitwise_range with (f := Z.lxor); auto; [intros; apply Z.shiftr_lxor|intros x y [->| ->] [->| ->]; auto]. }
  unfold flags_are, fl_xor. rewrite wrap_id by (auto using std_pos). split; [exact R|]. intros i I. unfold has. rewrite Z.lxor_spec. apply xorb_comm.
Qed.
Lemma not_flags t a : std_ity t -> in_range t a -> flags_are t (fl_not t a) (fun i => negb (has a i)).
Proof.
  intros S A. pose proof (std_pos t S) as P. unfold flags_are, fl_not, has. destruct (sgn t) eqn:SG.
  - assert (R : in_range t (Z.lnot a)) by (unfold in_range, imin, imax, Z.lnot in *; rewrite SG in *; lia).
    rewrite wrap_id by auto. split; [exact R|]. intros i I. apply Z.lnot_spec. lia.
  - unfold wrap. rewrite SG. unfold wrapu. split.
    + unfold in_range, imin, imax. rewrite SG. pose proof (Z.mod_pos_bound (Z.lnot a) (2 ^ bits t) ltac:(apply Z.pow_pos_nonneg; lia)). lia.
    + intros i I. rewrite Z.mod_pow2_bits_low by lia. apply Z.lnot_spec. lia.
Qed.
Lemma zero_range t : std_ity t -> in_range t 0.
Proof. intros S. pose proof (std_pos t S). unfold in_range, imin, imax. destruct (sgn t); [pose proof (Z.pow_pos_nonneg 2 (bits t - 1) ltac:(lia) ltac:(lia))|pose proof (Z.pow_pos_nonneg 2 (bits t) ltac:(lia) ltac:(lia))]; lia. Qed.
Lemma empty_flags t a : std_ity t -> in_range t a -> (a = 0 <-> forall i, 0 <= i < bits t -> has a i = false).
Proof.
  intros S A. split.
  - intros -> i _. apply Z.testbit_0_l.
  - intros H. apply (same_bits t); auto using zero_range. intros i I. rewrite Z.testbit_0_l. now apply H.
Qed.

(* ---- bytes *)
Lemma to_byte_bits v : byte_is (to_byte v) (Z.testbit v).
Proof.
  unfold byte_is, to_byte. split; [apply Z.mod_pos_bound; lia|]. intros i I. change 256 with (2 ^ 8). apply Z.mod_pow2_bits_low. lia.
Qed.
Lemma wraps_byte v : wraps 32 v mod 256 = v mod 256.
Proof.
  unfold wraps. change (2 ^ 32) with 4294967296. change (2 ^ (32 - 1)) with 2147483648.
  set (q := (v + 2147483648) / 4294967296). assert (E : (v + 2147483648) mod 4294967296 = v + 2147483648 - 4294967296 * q) by (unfold q; apply Z.mod_eq; lia).
  rewrite E. replace (v + 2147483648 - 4294967296 * q - 2147483648) with (v + (- 16777216 * q) * 256) by lia. apply Z.mod_add. lia.
Qed.

(* ---- limits *)
Lemma numeral_fits t base up v s k : std_ity t -> 2 <= base -> in_range t v -> is_numeral up base v s ->
  (1 <= k)%nat -> Z.abs v < base ^ Z.of_nat k -> (length s <= k + (if sgn t then 1 else 0))%nat.
Proof.
  intros S B R N K A. destruct N as (ds & -> & ND & F & V & H).
  assert (L : (length ds <= k)%nat).
  { apply (canonical_length base); auto; [|now rewrite V]. repeat split; auto. }
  rewrite app_length, map_length. destruct (Z.ltb_spec v 0) as [L0|L0]; cbn [length]; [|lia].
  unfold in_range, imin in R. destruct (sgn t); lia.
Qed.
Lemma value_below base ds : 0 < base -> Forall (fun d => 0 <= d < base) ds -> value_of base ds < base ^ Z.of_nat (length ds).
Proof.
  intros B. induction ds as [|d ds IH] using rev_ind; [cbn; lia|]. intros F. rewrite value_of_snoc. apply Forall_app in F as [F1 F2]. inversion F2; subst.
  rewrite app_length. cbn [length]. rewrite Nat2Z.inj_add, Z.pow_add_r by lia. change (Z.of_nat 1) with 1. rewrite Z.pow_1_r. specialize (IH F1). nia.
Qed.
