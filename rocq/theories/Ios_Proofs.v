From Coq Require Import List ZArith Bool Lia.
From Verif Require Import MachInt Ios_Model.
Local Open Scope Z_scope.

Definition well_formed (s : ios) : Prop :=
  0 <= fmtfl s < 256 /\ 0 <= iost s < 16 /\ 0 <= iwidth s < 16.

Lemma field_bit n x i : 0 <= n -> Z.testbit (field n x) i = (i <? n) && Z.testbit x i.
Proof.
  intros. unfold field. destruct (Z.ltb_spec i n).
  - destruct (Z.ltb_spec i 0); [rewrite !Z.testbit_neg_r by lia; reflexivity|].
    rewrite Z.mod_pow2_bits_low by lia. reflexivity.
  - rewrite Z.mod_pow2_bits_high by lia. reflexivity.
Qed.

Lemma field_range n x : 0 <= n -> 0 <= field n x < 2 ^ n.
Proof. intros. unfold field. apply Z.mod_pos_bound. lia. Qed.
Lemma field_id n x : 0 <= x < 2 ^ n -> field n x = x.
Proof. intros. unfold field. now apply Z.mod_small. Qed.

Lemma bit_small n x i : 0 <= x < 2 ^ n -> n <= i -> Z.testbit x i = false.
Proof.
  intros H Hi. destruct (Z.eq_dec x 0) as [->|]; [apply Z.testbit_0_l|].
  apply Z.bits_above_log2; [lia|]. apply Z.log2_lt_pow2; [lia|].
  assert (0 <= n) by (destruct (Z.ltb_spec n 0); [rewrite Z.pow_neg_r in H by lia|]; lia).
  apply Z.lt_le_trans with (2 ^ n); [lia|]. apply Z.pow_le_mono_r; lia.
Qed.

Lemma one_bit k x : 0 <= k -> nonzero (Z.land x (2 ^ k)) = Z.testbit x k.
Proof.
  intros. unfold nonzero. destruct (Z.testbit x k) eqn:E.
  - destruct (Z.eqb_spec (Z.land x (2 ^ k)) 0) as [e|]; [|reflexivity].
    assert (A : Z.testbit (Z.land x (2 ^ k)) k = false) by (rewrite e; apply Z.testbit_0_l).
    rewrite Z.land_spec, E, Z.pow2_bits_true in A by lia. discriminate.
  - replace (Z.land x (2 ^ k)) with 0; [reflexivity|].
    apply Z.bits_inj'. intros i Hi. rewrite Z.testbit_0_l, Z.land_spec.
    destruct (Z.eq_dec i k) as [->|]; [rewrite E; reflexivity|].
    rewrite Z.pow2_bits_false by lia. now rewrite andb_false_r.
Qed.

Lemma bad_bit s : bad s = Z.testbit (rdstate s) 0.
Proof. unfold bad. change badbit with (2 ^ 0). apply one_bit. lia. Qed.
Lemma fail_bit s : fail s = Z.testbit (rdstate s) 1 || Z.testbit (rdstate s) 0.
Proof.
  unfold fail. change badbit with (2 ^ 0). change failbit with (2 ^ 1). now rewrite !one_bit by lia.
Qed.
Lemma eof_bit s : eof_set s = Z.testbit (rdstate s) 2.
Proof. unfold eof_set. change eofbit with (2 ^ 2). apply one_bit. lia. Qed.
Lemma good_bits s : good s = true <-> (forall i, Z.testbit (rdstate s) i = false).
Proof.
  unfold good. rewrite Z.eqb_eq. split.
  - intros -> i. apply Z.testbit_0_l.
  - intros H. apply Z.bits_inj'. intros. now rewrite H, Z.testbit_0_l.
Qed.

Lemma setstate_bit s st i :
  well_formed s -> 0 <= i < 4 ->
  Z.testbit (rdstate (setstate s st)) i = Z.testbit (rdstate s) i || Z.testbit st i.
Proof.
  intros _ H. unfold rdstate, setstate; cbn [iost]. rewrite field_bit, Z.lor_spec by lia.
  replace (i <? 4) with true by (symmetry; apply Z.ltb_lt; lia). reflexivity.
Qed.

Lemma setf2_bit s f m i :
  0 <= fmtfl s < 256 -> 0 <= f < 256 -> 0 <= i ->
  Z.testbit (flags (fst (setf2 s f m))) i = Z.testbit f i || (Z.testbit (flags s) i && negb (Z.testbit m i)).
Proof.
  intros Hs Hf Hi. unfold flags, setf2; cbn [fst fmtfl].
  rewrite field_bit, Z.lor_spec, field_bit, Z.land_spec, Z.lnot_spec by lia.
  destruct (Z.ltb_spec i 8).
  - cbn [andb]. now rewrite orb_comm.
  - rewrite (bit_small 8 f i), (bit_small 8 (fmtfl s) i) by (change (2 ^ 8) with 256; lia). reflexivity.
Qed.

Lemma setf1_bit s f i :
  0 <= fmtfl s < 256 -> 0 <= f < 256 -> 0 <= i ->
  Z.testbit (flags (fst (setf1 s f))) i = Z.testbit (flags s) i || Z.testbit f i.
Proof.
  intros Hs Hf Hi. unfold flags, setf1; cbn [fst fmtfl].
  rewrite field_bit, Z.lor_spec by lia.
  destruct (Z.ltb_spec i 8); [reflexivity|].
  rewrite (bit_small 8 f i), (bit_small 8 (fmtfl s) i) by (change (2 ^ 8) with 256; lia). reflexivity.
Qed.

Lemma unsetf_bit s f i :
  0 <= fmtfl s < 256 -> 0 <= i ->
  Z.testbit (flags (fst (unsetf s f))) i = Z.testbit (flags s) i && negb (Z.testbit f i).
Proof.
  intros Hs Hi. unfold flags, unsetf; cbn [fst fmtfl].
  rewrite field_bit, Z.land_spec, Z.lnot_spec by lia.
  destruct (Z.ltb_spec i 8); [reflexivity|].
  rewrite (bit_small 8 (fmtfl s) i) by (change (2 ^ 8) with 256; lia). reflexivity.
Qed.

Lemma wf_init : well_formed ios_init.
Proof. unfold well_formed, ios_init; cbn. lia. Qed.

Ltac wf := unfold well_formed; cbn [fst fmtfl iost iwidth];
  pose proof (fun x => field_range 8 x ltac:(lia)) as F8;
  pose proof (fun x => field_range 4 x ltac:(lia)) as F4;
  change (2 ^ 8) with 256 in F8; change (2 ^ 4) with 16 in F4;
  intuition (auto; try apply F8; try apply F4).


Lemma wf_do o s : well_formed s -> well_formed (ios_do o s).
Proof.
  intros H. destruct o; cbn [ios_do]; unfold setf1, setf2, unsetf, set_flags, clear, setstate, set_width, set_fill;
    destruct H as (H1 & H2 & H3); wf.
Qed.
Lemma wf_run ops s : well_formed s -> well_formed (ios_run ops s).
Proof. revert s. induction ops as [|o ops IH]; intros s H; cbn; [exact H|]. apply IH, wf_do, H. Qed.
Lemma wf_reachable ops : well_formed (ios_run ops ios_init).
Proof. apply wf_run, wf_init. Qed.

Lemma fill_signed s c : -128 <= c <= 127 ->
  (fill true (fst (set_fill true s c)) = c <-> 0 <= c < 64).
Proof.
  intros H. unfold fill, set_fill; cbn [fst ifill]. unfold char_of, wraps.
  change (2 ^ (6 - 1)) with 32. change (2 ^ 6) with 64. change (2 ^ (8 - 1)) with 128. change (2 ^ 8) with 256.
  assert (D : (32 + c + 32) mod 64 = c mod 64)
    by (replace (32 + c + 32) with (c + 1 * 64) by lia; apply Z.mod_add; lia).
  rewrite D. pose proof (Z.mod_pos_bound c 64 ltac:(lia)).
  rewrite (Z.mod_small (32 + (c mod 64 - 32) + 128) 256) by lia. rewrite (Z.mod_eq c 64) in * by lia.
  split; intros.
  - assert (c / 64 = 0) by lia. lia.
  - rewrite (Z.div_small c 64) by lia. lia.
Qed.

Lemma fill_unsigned s c : 0 <= c <= 255 ->
  (fill false (fst (set_fill false s c)) = c <-> 32 <= c < 96).
Proof.
  intros H. unfold fill, set_fill; cbn [fst ifill]. unfold char_of, wrapu.
  change (2 ^ 6) with 64. change (2 ^ 8) with 256.
  pose proof (Z.mod_pos_bound (32 + c) 64 ltac:(lia)).
  rewrite (Z.mod_small (32 + (32 + c) mod 64) 256) by lia. rewrite (Z.mod_eq (32 + c) 64) in * by lia.
  split; intros.
  - assert ((32 + c) / 64 = 1) by lia. lia.
  - assert (E : (32 + c) / 64 = 1) by (symmetry; apply (Z.div_unique (32 + c) 64 1 (c - 32)); lia). lia.
Qed.

Lemma fill_only s b c : fmtfl (fst (set_fill b s c)) = fmtfl s /\ iost (fst (set_fill b s c)) = iost s
  /\ iwidth (fst (set_fill b s c)) = iwidth s.
Proof. auto. Qed.

Lemma width_round s w : 0 <= w -> (width (fst (set_width s w)) = w <-> w < 16).
Proof.
  intros. unfold width, set_width; cbn [fst iwidth]. split; intros.
  - pose proof (field_range 4 w ltac:(lia)). change (2 ^ 4) with 16 in *. lia.
  - apply field_id. change (2 ^ 4) with 16. lia.
Qed.

Lemma setbase_get s base : 0 <= fmtfl s < 256 -> base = 8 \/ base = 10 \/ base = 16 ->
  get_base (Z.land (flags (setbase s base)) f_basefield) = base /\
  (forall i, 2 <= i -> Z.testbit (flags (setbase s base)) i = Z.testbit (flags s) i).
Proof.
  intros Hs Hb. unfold setbase.
  set (f := if base =? 8 then f_oct else if base =? 10 then f_dec else if base =? 16 then f_hex else 0).
  assert (Hf : 0 <= f < 4) by (unfold f, f_oct, f_dec, f_hex; repeat (destruct (_ =? _)); lia).
  split.
  - assert (E : Z.land (flags (fst (setf2 s f f_basefield))) f_basefield = f).
    { apply Z.bits_inj'. intros i Hi. rewrite Z.land_spec, setf2_bit by lia.
      destruct (Z.ltb_spec i 2).
      - assert (i = 0 \/ i = 1) as [-> | ->] by lia; change (Z.testbit f_basefield _) with true;
          cbn [negb]; now rewrite !andb_false_r, orb_false_r, andb_true_r.
      - rewrite (bit_small 2 f_basefield i), (bit_small 2 f i) by (unfold f_basefield; change (2 ^ 2) with 4; lia).
        now rewrite andb_false_r. }
    rewrite E. unfold f, get_base, f_oct, f_dec, f_hex.
    destruct Hb as [-> | [-> | ->]]; reflexivity.
  - intros i Hi. rewrite setf2_bit by lia.
    rewrite (bit_small 2 f_basefield i), (bit_small 2 f i) by (unfold f_basefield; change (2 ^ 2) with 4; lia).
    cbn [negb orb]. apply andb_true_r.
Qed.

Lemma setf2_extra s f m i :
  0 <= fmtfl s < 256 -> 0 <= f < 256 -> 0 <= i -> Z.testbit f i = true -> Z.testbit m i = false ->
  Z.testbit (flags s) i = false -> Z.testbit (flags (fst (setf2 s f m))) i = true.
Proof. intros. rewrite setf2_bit by assumption. rewrite H2. reflexivity. Qed.

Lemma unsetstate_bit s st i : 0 <= iost s < 16 -> 0 <= i ->
  Z.testbit (rdstate (unsetstate s st)) i = Z.testbit (rdstate s) i && negb (Z.testbit st i).
Proof.
  intros Hs Hi. unfold rdstate, unsetstate; cbn [iost].
  rewrite field_bit, Z.land_spec, Z.lnot_spec by lia.
  destruct (Z.ltb_spec i 4); [reflexivity|].
  rewrite (bit_small 4 (iost s) i) by (change (2 ^ 4) with 16; lia). reflexivity.
Qed.

Lemma setf2_masked s f m i :
  0 <= fmtfl s < 256 -> 0 <= f < 256 -> 0 <= i ->
  (forall k, Z.testbit f k = true -> Z.testbit m k = true) ->
  Z.testbit (flags (fst (setf2 s f m))) i = if Z.testbit m i then Z.testbit f i else Z.testbit (flags s) i.
Proof.
  intros Hs Hf Hi Hm. rewrite setf2_bit by assumption. specialize (Hm i).
  destruct (Z.testbit f i), (Z.testbit m i), (Z.testbit (flags s) i);
    try reflexivity; specialize (Hm eq_refl); discriminate.
Qed.

Lemma fill_a s :
  fill true (fst (set_fill true s 97)) <> 97 /\ fill false (fst (set_fill false s 97)) <> 97.
Proof.
  split; intros e; [apply (fill_signed s 97) in e | apply (fill_unsigned s 97) in e]; lia.
Qed.
