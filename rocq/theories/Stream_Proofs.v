From Coq Require Import List ZArith Bool Lia.
From Verif Require Import Base BaseLemmas MachInt SliceLemmas Ios_Model Ios_Proofs
  Streambuf_Model Istream_Model Stream_Spec.
From Verif Require Export Stream_Drive.
Import ListNotations.
Local Open Scope Z_scope.
Local Open Scope res_scope.

Lemma to_int_code tr c : is_char c -> to_int tr c = code tr c.
Proof.
  unfold is_char, to_int, code. intros H. destruct tr; [|reflexivity].
  destruct (Z.ltb_spec c 0).
  - replace (c mod 256) with ((c + 1 * 256) mod 256) by (apply Z.mod_add; lia).
    rewrite Z.mod_small; lia.
  - rewrite Z.mod_small; lia.
Qed.

Lemma code_not_eof tr c : is_char c -> (tr = EstdTraits -> c <> -1) -> code tr c <> -1.
Proof.
  unfold is_char, code. intros H Hm. destruct tr; [|auto]. destruct (Z.ltb_spec c 0); lia.
Qed.

Lemma to_char_code tr c : is_char c -> to_char_type (code tr c) = c.
Proof.
  unfold is_char, code, to_char_type, wraps. change (2 ^ (8 - 1)) with 128. change (2 ^ 8) with 256.
  intros H. destruct tr.
  - destruct (Z.ltb_spec c 0).
    + replace (c + 256 + 128) with ((c + 128) + 1 * 256) by lia. rewrite Z.mod_add by lia.
      rewrite Z.mod_small; lia.
    + rewrite Z.mod_small; lia.
  - rewrite Z.mod_small; lia.
Qed.

Lemma plain_nth tr data k c : plain tr data -> nth_error data k = Some c ->
  is_char c /\ (tr = EstdTraits -> c <> -1) /\ to_int tr c = code tr c /\ code tr c <> -1.
Proof.
  intros (_ & Hc & He) H. pose proof (nth_error_In _ _ H) as Hin.
  rewrite Forall_forall in Hc. specialize (Hc _ Hin).
  assert (tr = EstdTraits -> c <> -1) by (intros T e; subst c; exact (He T Hin)).
  repeat split; try apply Hc; auto using to_int_code, code_not_eof.
Qed.


Lemma xin_avail_at data k : (k <= length data)%nat -> Z.of_nat (length data) < 65536 ->
  xin_avail (at_pos data k) = Z.of_nat (length data - k).
Proof.
  intros. unfold xin_avail, at_pos; cbn [idata ipos]. rewrite s32_id by lia. lia.
Qed.

Lemma xsgetc_at data k : xsgetc (at_pos data k) = rd data k.
Proof. unfold xsgetc, at_pos; cbn [idata ipos]. now rewrite Nat2Z.id. Qed.

Lemma sgetc_at tr data k : plain tr data -> (k <= length data)%nat ->
  sgetc tr (at_pos data k) = Ok (answer tr (nth_error data k)).
Proof.
  intros P Hk. unfold sgetc. rewrite xin_avail_at by (try apply P; assumption). rewrite xsgetc_at.
  destruct (Z.eqb_spec (Z.of_nat (length data - k)) 0).
  - replace (nth_error data k) with (@None Z); [reflexivity|].
    symmetry. apply nth_error_None. lia.
  - unfold rd. destruct (nth_error data k) as [c|] eqn:E.
    + cbn [bind answer]. destruct (plain_nth _ _ _ _ P E) as (_ & _ & -> & _). reflexivity.
    + apply nth_error_None in E. lia.
Qed.

Lemma gbump_at data k n : Z.of_nat (k + n) < 65536 -> gbump (at_pos data k) (Z.of_nat n) = at_pos data (k + n).
Proof.
  intros. unfold gbump, at_pos; cbn [idata ipos]. f_equal. rewrite Z.mod_small by lia. lia.
Qed.

Lemma answer_eof tr data k : plain tr data ->
  (answer tr (nth_error data k) =? eof) = negb (Nat.ltb k (length data)).
Proof.
  intros P. destruct (nth_error data k) as [c|] eqn:E; cbn [answer].
  - destruct (plain_nth _ _ _ _ P E) as (_ & _ & _ & Hn).
    assert (k < length data)%nat by (apply nth_error_Some; congruence).
    replace (Nat.ltb k (length data)) with true by (symmetry; apply Nat.ltb_lt; lia).
    cbn [negb]. apply Z.eqb_neq. exact Hn.
  - apply nth_error_None in E. unfold eof. rewrite Z.eqb_refl.
    replace (Nat.ltb k (length data)) with false by (symmetry; apply Nat.ltb_ge; lia). reflexivity.
Qed.

Lemma sbumpc_at tr data k : plain tr data -> (k <= length data)%nat ->
  sbumpc tr (at_pos data k)
  = Ok (answer tr (nth_error data k), at_pos data (Nat.min (k + 1) (length data))).
Proof.
  intros P Hk. unfold sbumpc. rewrite sgetc_at by assumption. cbn [bind].
  rewrite answer_eof by assumption. rewrite negb_involutive.
  destruct (Nat.ltb_spec k (length data)).
  - change 1 with (Z.of_nat 1). rewrite gbump_at by (destruct P; lia).
    rewrite Nat.min_l by lia. reflexivity.
  - rewrite Nat.min_r by lia. replace (nth_error data k) with (@None Z) by (symmetry; apply nth_error_None; lia).
    replace k with (length data) by lia. reflexivity.
Qed.

Lemma snextc_at tr data k : plain tr data -> (k <= length data)%nat ->
  snextc tr (at_pos data k)
  = Ok (answer tr (nth_error data (k + 1)), at_pos data (Nat.min (k + 1) (length data))).
Proof.
  intros P Hk. unfold snextc. rewrite sbumpc_at by assumption. cbn [bind].
  rewrite answer_eof by assumption. destruct (Nat.ltb_spec k (length data)); cbn [negb].
  - rewrite sgetc_at by (try assumption; lia). cbn [bind]. do 4 f_equal. lia.
  - do 2 f_equal. replace (nth_error data (k + 1)) with (@None Z) by (symmetry; apply nth_error_None; lia). reflexivity.
Qed.

Lemma sungetc_at tr data k : plain tr data -> (k <= length data)%nat ->
  sungetc tr (at_pos data k)
  = Ok (match k with O => -1 | S j => answer tr (nth_error data j) end, at_pos data (k - 1)).
Proof.
  intros P Hk. unfold sungetc. destruct k as [|j].
  - reflexivity.
  - replace (0 <? ipos (at_pos data (S j))) with true by (symmetry; apply Z.ltb_lt; cbn [ipos at_pos]; lia).
    assert (E : gbump (at_pos data (S j)) (-1) = at_pos data j).
    { unfold gbump, at_pos; cbn [idata ipos]. f_equal.
      rewrite Z.mod_small; destruct P; lia. }
    rewrite E, xsgetc_at. unfold rd.
    destruct (nth_error data j) as [c|] eqn:En.
    + cbn [bind answer]. destruct (plain_nth _ _ _ _ P En) as (_ & _ & -> & _).
      replace (S j - 1)%nat with j by lia. reflexivity.
    + apply nth_error_None in En. lia.
Qed.

Lemma rdn_sl {A} (m : list A) n : forall i, (i + n <= length m)%nat -> rdn m i n = Ok (firstn n (skipn i m)).
Proof.
  induction n as [|n IH]; intros i H; cbn [rdn]; [reflexivity|].
  destruct (nth_error m i) as [x|] eqn:E; [|apply nth_error_None in E; lia].
  unfold rd. rewrite E. cbn [bind]. rewrite IH by lia. cbn [bind].
  assert (S : skipn i m = x :: skipn (S i) m).
  { clear -E. revert i E. induction m as [|y m IHm]; intros [|i] E; cbn in *; try discriminate.
    - congruence.
    - apply IHm in E. exact E. }
  rewrite S. reflexivity.
Qed.

Lemma sgetn_at tr data k n : plain tr data -> (k <= length data)%nat ->
  sgetn (at_pos data k) (Z.of_nat n)
  = Ok (firstn n (skipn k data), at_pos data (Nat.min (k + n) (length data))).
Proof.
  intros P Hk. unfold sgetn. rewrite xin_avail_at by (try apply P; assumption).
  rewrite <- Nat2Z.inj_min.
  destruct (Z.ltb_spec (Z.of_nat (Nat.min n (length data - k))) 0); [lia|].
  rewrite Nat2Z.id. unfold at_pos at 1 2; cbn [idata ipos]. rewrite Nat2Z.id.
  rewrite rdn_sl by lia. cbn [bind]. rewrite gbump_at by (destruct P; lia).
  f_equal. f_equal.
  - destruct (Nat.le_ge_cases n (length data - k)).
    + rewrite Nat.min_l by assumption. reflexivity.
    + rewrite Nat.min_r by assumption. rewrite !firstn_all2; rewrite ?skipn_length; auto with arith.
  - f_equal. lia.
Qed.

(* ---- histories of buffer calls ---- *)


Lemma read_step_le tr data o k : (k <= length data)%nat -> (snd (read_step tr data o k) <= length data)%nat.
Proof. intros. destruct o; cbn [read_step snd]; try lia. destruct k; cbn [snd]; lia. Qed.

Lemma isb_step_at tr data o k : plain tr data -> (k <= length data)%nat ->
  isb_step tr o (at_pos data k)
  = Ok (fst (read_step tr data o k), at_pos data (snd (read_step tr data o k))).
Proof.
  intros P Hk. destruct o; cbn [isb_step read_step fst snd].
  - rewrite sgetc_at by assumption. reflexivity.
  - rewrite sbumpc_at by assumption. reflexivity.
  - rewrite snextc_at by assumption. reflexivity.
  - rewrite sungetc_at by assumption. destruct k; cbn [bind fst snd].
    + reflexivity.
    + replace (S k - 1)%nat with k by lia. reflexivity.
  - exact (sgetn_at tr data k n P Hk).
Qed.

Lemma isb_run_at tr data ops : plain tr data -> forall k, (k <= length data)%nat ->
  isb_run tr ops (at_pos data k)
  = Ok (fst (read_run tr data ops k), at_pos data (snd (read_run tr data ops k))).
Proof.
  intros P. induction ops as [|o ops IH]; intros k Hk; cbn [isb_run read_run]; [reflexivity|].
  rewrite isb_step_at by assumption. cbn [bind fst snd].
  pose proof (read_step_le tr data o k Hk). destruct (read_step tr data o k) as [a k1]. cbn [fst snd] in *.
  rewrite IH by assumption. cbn [bind fst snd]. destruct (read_run tr data ops k1). reflexivity.
Qed.

Lemma C47_main tr data ops : plain tr data ->
  exists b, isb_run tr ops (isb_init data) = Ok (fst (read_run tr data ops 0), b).
Proof.
  intros P. exists (at_pos data (snd (read_run tr data ops 0))).
  apply (isb_run_at tr data ops P 0). lia.
Qed.

Lemma in_avail_at tr data k : plain tr data -> (tr = EstdTraits -> Z.of_nat (length data) < 32768) ->
  (k <= length data)%nat ->
  in_avail tr (at_pos data k) = if Nat.ltb k (length data) then Z.of_nat (length data - k) else -1.
Proof.
  intros P He Hk. unfold in_avail. rewrite xin_avail_at by (try apply P; assumption).
  assert (E : int_type tr (Z.of_nat (length data - k)) = Z.of_nat (length data - k)).
  { destruct tr; cbn [int_type].
    - apply s32_id. destruct P; lia.
    - unfold wraps. change (2 ^ (16 - 1)) with 32768. change (2 ^ 16) with 65536.
      specialize (He eq_refl). rewrite Z.mod_small; lia. }
  rewrite E. destruct (Nat.ltb_spec k (length data)).
  - replace (0 <? Z.of_nat (length data - k)) with true by (symmetry; apply Z.ltb_lt; lia). reflexivity.
  - replace (0 <? Z.of_nat (length data - k)) with false by (symmetry; apply Z.ltb_ge; lia). reflexivity.
Qed.

(* ---- a span of 2^16 characters ---- *)


Lemma sbumpc_long tr data k : Z.of_nat (length data) = 65536 ->
  Forall is_char data -> (tr = EstdTraits -> ~ In (-1) data) -> (k < length data)%nat ->
  sbumpc tr (at_pos data k) = Ok (answer tr (nth_error data k), Isb data (Z.of_nat (k + 1) mod 65536)).
Proof.
  intros L Hc He Hk. unfold sbumpc, sgetc, xin_avail, at_pos; cbn [idata ipos]. rewrite s32_id by lia.
  destruct (Z.eqb_spec (Z.of_nat (length data) - Z.of_nat k) 0); [lia|].
  unfold xsgetc; cbn [idata ipos]. rewrite Nat2Z.id. unfold rd.
  destruct (nth_error data k) as [c|] eqn:E; [|apply nth_error_None in E; lia].
  cbn [bind answer]. pose proof (nth_error_In _ _ E) as Hin. rewrite Forall_forall in Hc.
  rewrite to_int_code by auto.
  destruct (Z.eqb_spec (code tr c) eof) as [e|]; cbn [negb].
  - exfalso. revert e. apply code_not_eof; [auto|]. intros T e; subst c. exact (He T Hin).
  - unfold gbump; cbn [idata ipos]. do 3 f_equal. f_equal. lia.
Qed.

Lemma bumps_long tr data : Z.of_nat (length data) = 65536 ->
  Forall is_char data -> (tr = EstdTraits -> ~ In (-1) data) ->
  forall n k, (k + n = length data)%nat -> (0 < n)%nat -> bumps tr n (at_pos data k) = Ok (Isb data 0).
Proof.
  intros L Hc He. induction n as [|n IH]; intros k Hk Hn; [lia|]. cbn [bumps].
  rewrite sbumpc_long by (try assumption; lia). cbn [bind snd].
  destruct (Nat.eq_dec n 0) as [->|].
  - cbn [bumps]. do 2 f_equal. replace (Z.of_nat (k + 1)) with 65536 by lia. reflexivity.
  - rewrite Z.mod_small by lia. apply IH; lia.
Qed.

Lemma C47_long tr data : Z.of_nat (length data) = 65536 ->
  Forall is_char data -> (tr = EstdTraits -> ~ In (-1) data) ->
  bumps tr (length data) (isb_init data) = Ok (isb_init data).
Proof. intros. apply (bumps_long tr data H H0 H1 (length data) 0); lia. Qed.

Lemma C47_ff data k : Z.of_nat (length data) < 65536 -> nth_error data k = Some (-1) ->
  sgetc EstdTraits (at_pos data k) = Ok (-1) /\ sbumpc EstdTraits (at_pos data k) = Ok (-1, at_pos data k).
Proof.
  intros L E. assert (k < length data)%nat by (apply nth_error_Some; congruence).
  assert (G : sgetc EstdTraits (at_pos data k) = Ok (-1)).
  { unfold sgetc. rewrite xin_avail_at by lia. rewrite xsgetc_at. unfold rd. rewrite E.
    destruct (Z.eqb_spec (Z.of_nat (length data - k)) 0); reflexivity. }
  split; [exact G|]. unfold sbumpc. rewrite G. reflexivity.
Qed.

(* ---- output span ---- *)


Lemma overwrite_nil {A} (m : list A) e : (e <= length m)%nat -> overwrite m e [] = m.
Proof. intros. unfold overwrite. cbn [length app]. rewrite Nat.add_0_r. apply firstn_skipn. Qed.

Lemma wrn_overwrite {A} (s : list A) : forall m i, (i + length s <= length m)%nat ->
  wrn m i s = Ok (overwrite m i s).
Proof.
  induction s as [|x s IH]; intros m i H; cbn [wrn].
  - rewrite overwrite_nil by (cbn in H; lia). reflexivity.
  - cbn [length] in H. unfold wr. replace (Nat.ltb i (length m)) with true by (symmetry; apply Nat.ltb_lt; lia).
    cbn [bind]. rewrite IH by (rewrite upd_length; lia). f_equal.
    apply list_ext. intros y.
    assert (L1 : (i <= length m)%nat) by lia.
    rewrite !nth_error_overwrite by (rewrite ?upd_length; cbn [length]; lia).
    destruct (Nat.eq_dec y i) as [->|].
    + repeat match goal with |- context [if ?b then _ else _] => destruct b eqn:? end; 
        repeat match goal with
        | H : (_ && _)%bool = true |- _ => apply andb_true_iff in H; destruct H
        | H : (_ && _)%bool = false |- _ => apply andb_false_iff in H; destruct H
        | H : Nat.leb _ _ = true |- _ => apply Nat.leb_le in H
        | H : Nat.leb _ _ = false |- _ => apply Nat.leb_gt in H
        | H : Nat.ltb _ _ = true |- _ => apply Nat.ltb_lt in H
        | H : Nat.ltb _ _ = false |- _ => apply Nat.ltb_ge in H
        end; cbn [length] in *; try lia.
      all: try (rewrite nth_error_upd_eq by lia); rewrite ?Nat.sub_diag; reflexivity.
    + repeat match goal with |- context [if ?b then _ else _] => destruct b eqn:? end; 
        repeat match goal with
        | H : (_ && _)%bool = true |- _ => apply andb_true_iff in H; destruct H
        | H : (_ && _)%bool = false |- _ => apply andb_false_iff in H; destruct H
        | H : Nat.leb _ _ = true |- _ => apply Nat.leb_le in H
        | H : Nat.leb _ _ = false |- _ => apply Nat.leb_gt in H
        | H : Nat.ltb _ _ = true |- _ => apply Nat.ltb_lt in H
        | H : Nat.ltb _ _ = false |- _ => apply Nat.ltb_ge in H
        end; cbn [length] in *; try lia.
      all: try (replace (y - i)%nat with (S (y - S i)) by lia; reflexivity).
      all: try (rewrite nth_error_upd_neq by lia; reflexivity).
Qed.

Lemma overwrite_two {A} (m a b : list A) e : (e + length a + length b <= length m)%nat ->
  overwrite (overwrite m e a) (e + length a) b = overwrite m e (a ++ b).
Proof.
  intros H. apply list_ext. intros y.
  rewrite nth_error_overwrite by (rewrite overwrite_length by lia; lia).
  rewrite !nth_error_overwrite by (rewrite ?app_length; lia). rewrite app_length.
  destruct (Nat.ltb_spec y e).
  - replace (Nat.ltb y (e + length a)) with true by (symmetry; apply Nat.ltb_lt; lia). reflexivity.
  - destruct (Nat.ltb_spec y (e + length a)).
    + replace (Nat.ltb y (e + (length a + length b))) with true by (symmetry; apply Nat.ltb_lt; lia).
      rewrite nth_error_app1 by lia. reflexivity.
    + replace (Nat.ltb y (e + (length a + length b))) with (Nat.ltb y (e + length a + length b))
        by (f_equal; lia).
      destruct (Nat.ltb_spec y (e + length a + length b)).
      * rewrite nth_error_app2 by lia. f_equal. lia.
      * reflexivity.
Qed.

Lemma sputc_ok tr b c : (opos b < length (obuf b))%nat ->
  sputc tr b c = Ok (to_int tr c, Osb (overwrite (obuf b) (opos b) [c]) (opos b + 1)).
Proof.
  intros H. unfold sputc. replace (Nat.leb (length (obuf b)) (opos b)) with false by (symmetry; apply Nat.leb_gt; lia).
  pose proof (wrn_overwrite [c] (obuf b) (opos b)) as W. cbn [wrn length] in W.
  specialize (W ltac:(lia)). destruct (wr (obuf b) (opos b) c); cbn [bind] in *; try discriminate.
  injection W as ->. rewrite Nat.add_1_r. reflexivity.
Qed.
Lemma sputc_full tr b c : (length (obuf b) <= opos b)%nat -> sputc tr b c = Ok (eof, b).
Proof.
  intros H. unfold sputc. replace (Nat.leb (length (obuf b)) (opos b)) with true by (symmetry; apply Nat.leb_le; lia).
  reflexivity.
Qed.
Lemma sputn_ok b s : (opos b + length s <= length (obuf b))%nat ->
  sputn b s = Ok (Z.of_nat (length s), Osb (overwrite (obuf b) (opos b) s) (opos b + length s)).
Proof. intros H. unfold sputn, o_xsputn. rewrite wrn_overwrite by assumption. reflexivity. Qed.

Lemma wrn_ub {A} (s : list A) : forall m i, (length m < i + length s)%nat -> s <> [] -> wrn m i s = UB.
Proof.
  induction s as [|x s IH]; intros m i H Hn; [congruence|]. cbn [wrn length] in *. unfold wr.
  destruct (Nat.ltb_spec i (length m)); [|reflexivity]. cbn [bind].
  apply IH; [rewrite upd_length; lia|]. destruct s; [cbn in *; lia|congruence].
Qed.
Lemma sputn_ub b s : (length (obuf b) < opos b + length s)%nat -> s <> [] -> sputn b s = UB.
Proof. intros H Hn. unfold sputn, o_xsputn. rewrite wrn_ub by assumption. reflexivity. Qed.

Lemma osb_run_ok tr ops : (forall c, In (PutC c) ops -> is_char c) ->
  forall b, (opos b <= length (obuf b))%nat -> blocks_fit ops (length (obuf b) - opos b) ->
  let st := stored ops (length (obuf b) - opos b) in
  (length st <= length (obuf b) - opos b)%nat /\
  osb_run tr ops b
  = Ok (write_answers tr ops (length (obuf b) - opos b),
        Osb (overwrite (obuf b) (opos b) st) (opos b + length st)).
Proof.
  intros Hc. induction ops as [|o ops IH]; intros b Hb Hf; cbn [stored write_answers osb_run blocks_fit] in *.
  - cbn [length]. split; [lia|]. rewrite overwrite_nil, Nat.add_0_r by assumption. destruct b; reflexivity.
  - destruct o as [c|s]; cbn [osb_step].
    + destruct (Nat.ltb_spec (opos b) (length (obuf b))).
      * rewrite sputc_ok by assumption. cbn [bind snd fst].
        destruct (length (obuf b) - opos b)%nat as [|r] eqn:Er; [lia|].
        set (b' := Osb (overwrite (obuf b) (opos b) [c]) (opos b + 1)).
        assert (L : length (obuf b') = length (obuf b)) by (cbn; apply overwrite_length; cbn; lia).
        specialize (IH (fun x H => Hc x (or_intror H)) b').
        rewrite L in IH. change (opos b') with (opos b + 1)%nat in IH.
        replace (length (obuf b) - (opos b + 1))%nat with r in IH by lia.
        replace (S r - 1)%nat with r in Hf by lia.
        destruct (IH ltac:(lia) Hf) as [L2 R]. cbn [length]. split; [lia|].
        rewrite R. cbn [bind fst snd]. rewrite to_int_code by (apply Hc; left; reflexivity).
        f_equal. f_equal. cbn [obuf b']. f_equal.
        -- pose proof (overwrite_two (obuf b) [c] (stored ops r) (opos b)) as W. cbn [length] in W.
           rewrite W by lia. reflexivity.
        -- lia.
      * rewrite sputc_full by assumption. cbn [bind snd fst].
        replace (length (obuf b) - opos b)%nat with 0%nat in * by lia.
        specialize (IH (fun x H => Hc x (or_intror H)) b Hb).
        replace (length (obuf b) - opos b)%nat with 0%nat in IH by lia.
        destruct (IH Hf) as [L2 R]. split; [assumption|]. rewrite R. reflexivity.
    + destruct Hf as [Hs Hf]. rewrite sputn_ok by lia. cbn [bind snd fst].
      set (b' := Osb (overwrite (obuf b) (opos b) s) (opos b + length s)).
      assert (L : length (obuf b') = length (obuf b)) by (cbn; apply overwrite_length; lia).
      specialize (IH (fun x H => Hc x (or_intror H)) b').
      rewrite L in IH. change (opos b') with (opos b + length s)%nat in IH.
      replace (length (obuf b) - (opos b + length s))%nat with (length (obuf b) - opos b - length s)%nat in IH by lia.
      destruct (IH ltac:(lia) Hf) as [L2 R]. rewrite app_length. split; [lia|].
      rewrite R. cbn [bind fst snd]. f_equal. f_equal. cbn [obuf b']. f_equal.
      * apply overwrite_two. lia.
      * lia.
Qed.

Lemma C48_main tr buf ops : (forall c, In (PutC c) ops -> is_char c) -> blocks_fit ops (length buf) ->
  let st := stored ops (length buf) in
  (length st <= length buf)%nat /\
  osb_run tr ops (osb_init buf) = Ok (write_answers tr ops (length buf), Osb (overwrite buf 0 st) (length st)).
Proof.
  intros Hc Hf. pose proof (osb_run_ok tr ops Hc (osb_init buf)) as H. cbn [obuf opos osb_init] in H.
  rewrite Nat.sub_0_r in H. apply H; [lia|exact Hf].
Qed.

(* ---- buffered output ---- *)


Lemma plain_int tr c : is_char c -> int_type tr c = c.
Proof.
  unfold is_char. intros H. destruct tr; unfold int_type, s32, wraps; rewrite Z.mod_small; lia.
Qed.
Lemma plain_char c : is_char c -> to_char_type c = c.
Proof. unfold is_char, to_char_type, wraps. intros. rewrite Z.mod_small; lia. Qed.
Lemma goes_in_ok tr c : is_char c -> (goes_in tr c = true <-> taken_singly tr c).
Proof.
  intros Hc. unfold taken_singly, goes_in, eof. destruct tr.
  - destruct (Z.eqb_spec c (-1)).
    + cbn. split; [discriminate|]. intros (_ & H & _). contradiction.
    + rewrite negb_true_iff, Z.eqb_neq. split; [intros H; split; [exact Hc|split; auto]|intros (_ & _ & H); auto].
  - rewrite negb_true_iff, Z.eqb_neq. split; [intros H; split; [exact Hc|split; [exact H|discriminate]]|tauto].
Qed.
Lemma bsputc_pending tr cap b c : taken_singly tr c -> pending (snd (bsputc tr cap b c)) = pending b ++ [c].
Proof.
  intros H. pose proof (proj1 H) as Hc. apply goes_in_ok in H; [|exact Hc].
  unfold bsputc, boverflow, pending. rewrite plain_int, H, plain_char by exact Hc.
  destruct (Nat.eqb _ 0); cbn [snd bsink bbuf bll_sync].
  - rewrite concat_app. cbn [concat]. rewrite app_nil_r. now rewrite <- !app_assoc.
  - apply app_assoc.
Qed.
Lemma bsputc_room tr cap b c : taken_singly tr c -> (1 <= cap)%nat -> (length (bbuf b) <= cap)%nat ->
  let b' := snd (bsputc tr cap b c) in (length (bbuf b') <= cap)%nat /\
  (cap - length (bbuf b') = (if Nat.eqb (cap - length (bbuf b)) 0 then cap else cap - length (bbuf b)) - 1)%nat.
Proof.
  intros H Hp Hl. pose proof (proj1 H) as Hc. apply goes_in_ok in H; [|exact Hc].
  unfold bsputc, boverflow, bremaining. rewrite plain_int, H by exact Hc.
  destruct (Nat.eqb_spec (cap - length (bbuf b)) 0); cbn [snd bbuf bll_sync]; rewrite app_length; cbn [length]; lia.
Qed.
Lemma bsputn_pending cap b s : pending (snd (bsputn cap b s)) = pending b ++ firstn (cap - length (bbuf b)) s.
Proof. unfold bsputn, bxsputn, pending, bremaining; cbn [snd bsink bbuf]. apply app_assoc. Qed.
Lemma bsync_pending b : pending (bsync b) = pending b /\ bbuf (bsync b) = [].
Proof.
  unfold bsync. destruct (bbuf b) eqn:E.
  - split; [reflexivity|exact E].
  - split; [|reflexivity]. unfold pending, bll_sync; cbn [bsink bbuf].
    rewrite concat_app. cbn [concat]. now rewrite !app_nil_r.
Qed.

Lemma sync_all b : concat (bsink (bsync b)) = pending b.
Proof. destruct (bsync_pending b) as [P N]. unfold pending in P at 1. rewrite N, app_nil_r in P. exact P. Qed.

Lemma C49_history_ok tr cap ops : (1 <= cap)%nat -> forall b, (length (bbuf b) <= cap)%nat ->
  buffer_fits tr cap ops (cap - length (bbuf b)) ->
  let (answers, b') := bsb_run tr cap ops b in
  Forall2 says_taken ops answers /\ pending b' = pending b ++ flat_map put_text ops.
Proof.
  intros Hc. induction ops as [|o ops IH]; intros b Hb F; cbn [bsb_run].
  - split; [constructor|]. cbn. now rewrite app_nil_r.
  - destruct o as [c|s]; cbn [buffer_fits] in F; destruct F as [F1 F2]; cbn [bsb_step].
    + pose proof (bsputc_pending tr cap b c F1) as P. destruct (bsputc_room tr cap b c F1 Hc Hb) as [L R].
      assert (A : fst (bsputc tr cap b c) = 42) by reflexivity.
      destruct (bsputc tr cap b c) as [a b1]. cbn [snd fst] in *. rewrite <- R in F2. specialize (IH b1 L F2).
      destruct (bsb_run tr cap ops b1) as [l b2]. destruct IH as [I1 I2]. split.
      * constructor; [cbn; lia|exact I1].
      * rewrite I2, P. cbn [flat_map put_text]. now rewrite <- app_assoc.
    + pose proof (bsputn_pending cap b s) as P. rewrite firstn_all2 in P by exact F1.
      assert (L : length (bbuf (snd (bsputn cap b s))) = (length (bbuf b) + length s)%nat).
      { unfold bsputn, bxsputn, bremaining; cbn [snd bbuf]. rewrite firstn_all2 by exact F1. apply app_length. }
      assert (A : fst (bsputn cap b s) = Z.of_nat (length s)) by reflexivity.
      destruct (bsputn cap b s) as [a b1]. cbn [snd fst] in *. specialize (IH b1). rewrite L in IH.
      replace (cap - (length (bbuf b) + length s))%nat with (cap - length (bbuf b) - length s)%nat in IH by lia.
      specialize (IH ltac:(lia) F2).
      destruct (bsb_run tr cap ops b1) as [l b2]. destruct IH as [I1 I2]. split.
      * constructor; [exact A|exact I1].
      * rewrite I2, P. cbn [flat_map put_text]. now rewrite <- app_assoc.
Qed.

Lemma dropped tr cap b c : is_char c -> ~ taken_singly tr c ->
  pending (snd (bsputc tr cap b c)) = pending b /\ fst (bsputc tr cap b c) <> -1.
Proof.
  intros Hc N. assert (G : goes_in tr c = false).
  { destruct (goes_in tr c) eqn:E; [|reflexivity]. apply goes_in_ok in E; [contradiction|exact Hc]. }
  unfold bsputc, boverflow. rewrite plain_int, G by exact Hc. cbn [fst snd]. split; [|lia].
  destruct (Nat.eqb _ 0); [|reflexivity]. unfold pending, bll_sync; cbn [bsink bbuf].
  rewrite concat_app. cbn [concat]. now rewrite !app_nil_r.
Qed.

Lemma got_app take l : forall i m, got take i (l ++ m) = got take i l ++ got take (i + length l) m.
Proof.
  induction l as [|x l IH]; intros i m; cbn [app got length].
  - now rewrite Nat.add_0_r.
  - rewrite IH, <- app_assoc. do 3 f_equal. lia.
Qed.
Lemma flush_lost take b : (take (length (bsink b)) < length (bbuf b))%nat ->
  (length (got take 0 (bsink (bll_sync b)) ++ bbuf (bll_sync b)) < length (got take 0 (bsink b) ++ bbuf b))%nat.
Proof.
  intros H. unfold bll_sync; cbn [bsink bbuf]. rewrite got_app, app_nil_r, Nat.add_0_l. cbn [got].
  rewrite app_nil_r, !app_length, firstn_length. lia.
Qed.

Lemma C49_block cap b s : (length s <= cap - length (bbuf b))%nat ->
  concat (bsink (bsync (snd (bsputn cap b s)))) = pending b ++ s /\ fst (bsputn cap b s) = Z.of_nat (length s).
Proof.
  intros H. split; [|reflexivity].
  destruct (bsync_pending (snd (bsputn cap b s))) as [P N]. unfold pending in P at 1. rewrite N, app_nil_r in P.
  rewrite P, bsputn_pending, firstn_all2 by assumption. reflexivity.
Qed.

Lemma C49_lost cap b s : (cap - length (bbuf b) < length s)%nat ->
  fst (bsputn cap b s) = Z.of_nat (length s) /\
  (length (concat (bsink (bsync (snd (bsputn cap b s))))) < length (pending b ++ s))%nat.
Proof.
  intros H. split; [reflexivity|].
  destruct (bsync_pending (snd (bsputn cap b s))) as [P N]. unfold pending in P at 1. rewrite N, app_nil_r in P.
  rewrite P, bsputn_pending, !app_length, firstn_length. lia.
Qed.

(* ---- istream functions ---- *)


Lemma get_at tr st data k : plain tr data -> (k <= length data)%nat ->
  get tr (at_str st data k)
  = Ok (answer tr (nth_error data k),
        if Nat.ltb k (length data) then at_str st data (k + 1)
        else at_str (setstate st (Z.lor failbit eofbit)) data k).
Proof.
  intros P Hk. unfold get, at_str; cbn [isbuf ist]. rewrite sbumpc_at by assumption. cbn [bind].
  rewrite answer_eof by assumption. destruct (Nat.ltb_spec k (length data)); cbn [negb].
  - rewrite Nat.min_l by lia. reflexivity.
  - rewrite Nat.min_r by lia. replace (length data) with k by lia. reflexivity.
Qed.

Lemma setstate_twice st a b : 0 <= iost st < 16 -> 
  setstate (setstate st a) b = setstate st (Z.lor a b).
Proof.
  intros H. unfold setstate; cbn [fmtfl iost iwidth ifill]. f_equal.
  apply Z.bits_inj'. intros i Hi. rewrite !field_bit, !Z.lor_spec, field_bit, Z.lor_spec by lia.
  destruct (i <? 4); cbn [andb]; [now rewrite orb_assoc|reflexivity].
Qed.

Lemma ignore_at tr data n : plain tr data -> forall st k, 0 <= iost st < 16 -> (k <= length data)%nat ->
  ignore tr n (at_str st data k)
  = Ok (if Nat.leb n (length data - k) then at_str st data (k + n)
        else at_str (setstate st (Z.lor failbit eofbit)) data (length data)).
Proof.
  intros P. induction n as [|n IH]; intros st k Hst Hk; cbn [ignore].
  - rewrite Nat.add_0_r. reflexivity.
  - rewrite get_at by assumption. cbn [bind]. rewrite answer_eof by assumption.
    destruct (Nat.ltb_spec k (length data)); cbn [negb].
    + rewrite IH by (try assumption; lia). f_equal.
      destruct (Nat.leb_spec n (length data - (k + 1))), (Nat.leb_spec (S n) (length data - k)); try lia.
      * f_equal. lia.
      * reflexivity.
    + destruct (Nat.leb_spec (S n) (length data - k)); [lia|]. f_equal.
      unfold add_state, at_str; cbn [ist isbuf]. rewrite setstate_twice by assumption.
      replace (length data) with k by lia. reflexivity.
Qed.

Lemma skipn_nth {A} (m : list A) : forall i x, nth_error m i = Some x -> skipn i m = x :: skipn (S i) m.
Proof.
  induction m as [|y m IH]; intros [|i] x E; cbn in *; try discriminate.
  - congruence.
  - apply IH in E. exact E.
Qed.

Lemma split_nth {A} (m : list A) k a x b : skipn k m = a ++ x :: b ->
  nth_error m (k + length a) = Some x /\ (k + length a < length m)%nat.
Proof.
  intros H. assert (E : nth_error m (k + length a) = Some x).
  { rewrite <- nth_error_skipn. rewrite H. rewrite nth_error_app2 by lia. rewrite Nat.sub_diag. reflexivity. }
  split; [exact E|]. apply nth_error_Some. congruence.
Qed.

Lemma ignore_until_at tr data delim n : plain tr data -> delim <> -1 -> forall st k,
  0 <= iost st < 16 -> (k <= length data)%nat ->
  (forall a c b, skipn k data = a ++ c :: b -> code tr c = delim ->
     (forall x, In x a -> code tr x <> delim) -> (length a < n)%nat ->
     ignore_until tr delim n (at_str st data k) = Ok (at_str st data (k + length a + 1))) /\
  ((forall x, In x (firstn n (skipn k data)) -> code tr x <> delim) ->
     ignore_until tr delim n (at_str st data k) = ignore tr n (at_str st data k)).
Proof.
  intros P Hd. induction n as [|n IH]; intros st k Hst Hk.
  - split; [intros; lia|reflexivity].
  - cbn [ignore_until ignore]. rewrite get_at by assumption. cbn [bind]. rewrite answer_eof by assumption.
    destruct (Nat.ltb_spec k (length data)) as [Hl|Hl]; cbn [negb].
    + destruct (nth_error data k) as [y|] eqn:E; [|apply nth_error_None in E; lia].
      cbn [answer]. pose proof (skipn_nth _ _ _ E) as S.
      destruct (IH st (k + 1)%nat Hst ltac:(lia)) as [I1 I2].
      split.
      * intros a c b Ha Hc Hne Hlen. rewrite S in Ha. destruct a as [|z a].
        -- cbn in Ha. injection Ha as -> _. destruct (Z.eqb_spec (code tr c) delim); [|congruence].
           cbn [length]. do 3 f_equal. lia.
        -- cbn in Ha. injection Ha as -> Ha. destruct (Z.eqb_spec (code tr z) delim) as [e|_].
           { exfalso. exact (Hne z (or_introl eq_refl) e). }
           rewrite (I1 a c b); [cbn [length]; do 2 f_equal; lia| |assumption| |cbn in Hlen; lia].
           ++ replace (k + 1)%nat with (Datatypes.S k) by lia. exact Ha.
           ++ intros x Hx. apply Hne. right; exact Hx.
      * intros Hne. rewrite S in Hne. cbn [firstn] in Hne.
        destruct (Z.eqb_spec (code tr y) delim) as [e|_].
        { exfalso. exact (Hne y (or_introl eq_refl) e). }
        apply I2. intros x Hx. apply Hne. right. replace (k + 1)%nat with (Datatypes.S k) in Hx by lia. exact Hx.
    + split; [|reflexivity]. intros a c b Ha. rewrite skipn_all2 in Ha by lia. destruct a; discriminate.
Qed.

Lemma read_at tr st data k n : plain tr data -> (k <= length data)%nat ->
  read (at_str st data k) (Z.of_nat n)
  = Ok (firstn n (skipn k data),
        at_str (if Nat.leb n (length data - k) then st else setstate st eofbit) data (Nat.min (k + n) (length data))).
Proof.
  intros P Hk. unfold read, at_str; cbn [isbuf ist]. rewrite (sgetn_at tr) by assumption. cbn [bind].
  rewrite firstn_length, skipn_length. do 2 f_equal.
  destruct (Nat.leb_spec n (length data - k)).
  - rewrite Nat.min_l by assumption. rewrite Z.eqb_refl. reflexivity.
  - rewrite Nat.min_r by lia. destruct (Z.eqb_spec (Z.of_nat (length data - k)) (Z.of_nat n)); [lia|]. reflexivity.
Qed.

Lemma readsome_at tr st data k n : plain tr data -> (tr = EstdTraits -> Z.of_nat (length data) < 32768) ->
  (k < length data)%nat ->
  readsome tr (at_str st data k) (Z.of_nat n)
  = Ok (firstn n (skipn k data), at_str st data (Nat.min (k + n) (length data))).
Proof.
  intros P He Hk. unfold readsome, at_str; cbn [isbuf ist]. rewrite in_avail_at by (try assumption; lia).
  replace (Nat.ltb k (length data)) with true by (symmetry; apply Nat.ltb_lt; lia).
  rewrite <- Nat2Z.inj_min. rewrite (sgetn_at tr) by (try assumption; lia). cbn [bind].
  destruct (Nat.le_ge_cases n (length data - k)).
  - rewrite Nat.min_l by assumption. reflexivity.
  - rewrite Nat.min_r by assumption. rewrite !(Nat.min_r (k + _)) by lia. rewrite !firstn_all2; rewrite ?skipn_length; auto with arith.
Qed.

Lemma readsome_end tr st data count : plain tr data -> (tr = EstdTraits -> Z.of_nat (length data) < 32768) ->
  readsome tr (at_str st data (length data)) count = UB.
Proof.
  intros P He. unfold readsome, at_str; cbn [isbuf]. rewrite in_avail_at by (try assumption; lia).
  rewrite Nat.ltb_irrefl. unfold sgetn. rewrite xin_avail_at by (try apply P; lia). rewrite Nat.sub_diag.
  destruct (Z.ltb_spec (Z.min (Z.min count (-1)) (Z.of_nat 0)) 0); [reflexivity|lia].
Qed.

Lemma peek_at tr st data k : plain tr data -> (k <= length data)%nat -> good st = true ->
  peek tr (at_str st data k) = Ok (answer tr (nth_error data k)).
Proof. intros. unfold peek, at_str; cbn [ist isbuf]. rewrite H1. now apply sgetc_at. Qed.

Lemma peek_blocking_same tr st data k : plain tr data -> (tr = EstdTraits -> Z.of_nat (length data) < 32768) ->
  (k <= length data)%nat ->
  peek_blocking tr (at_str st data k) = peek tr (at_str st data k).
Proof.
  intros P He Hk. unfold peek_blocking, peek, at_str; cbn [ist isbuf]. destruct (good st); [|reflexivity].
  rewrite in_avail_at by assumption. destruct (Nat.ltb_spec k (length data)).
  - destruct (Z.eqb_spec (Z.of_nat (length data - k)) (-1)); [lia|].
    destruct (Z.eqb_spec (Z.of_nat (length data - k)) 0); [lia|]. reflexivity.
  - change (-1 =? -1) with true. cbn iota. rewrite sgetc_at by assumption.
    replace (nth_error data k) with (@None Z) by (symmetry; apply nth_error_None; lia). reflexivity.
Qed.

Lemma isspace_spec c : isspace c = true <-> space c.
Proof.
  unfold isspace, space. rewrite !orb_true_iff, !Z.eqb_eq. cbn [In]. intuition lia.
Qed.

Lemma ws_loop_at tr data : plain tr data -> forall lead fuel st k rest,
  good st = true -> 0 <= iost st < 16 -> (k <= length data)%nat ->
  skipn k data = lead ++ rest -> Forall space lead ->
  match rest with [] => True | c :: _ => ~ space c end -> (length lead < fuel)%nat ->
  ws_loop tr fuel (at_str st data k) = Ok (at_str st data (k + length lead)).
Proof.
  intros P. induction lead as [|c lead IH]; intros fuel st k rest Hg Hst Hk Hs Hl Hr Hf.
  - destruct fuel as [|f]; [cbn in Hf; lia|]. cbn [ws_loop app length] in *. rewrite peek_at by assumption.
    cbn [bind]. rewrite Nat.add_0_r.
    replace (isspace (to_char_type (answer tr (nth_error data k)))) with false; [reflexivity|].
    symmetry. apply not_true_is_false. rewrite isspace_spec. intros Hsp.
    destruct rest as [|c rest].
    + assert (k = length data) by (assert (length (skipn k data) = 0%nat) by (rewrite Hs; reflexivity); rewrite skipn_length in *; lia).
      subst k. replace (nth_error data (length data)) with (@None Z) in Hsp by (symmetry; apply nth_error_None; lia).
      unfold answer, to_char_type, wraps, space in Hsp.
      change ((-1 + 2 ^ (8 - 1)) mod 2 ^ 8 - 2 ^ (8 - 1)) with (-1) in Hsp. cbn [In] in Hsp. lia.
    + destruct (split_nth data k [] c rest Hs) as [E _]. cbn [length] in E. rewrite Nat.add_0_r in E.
      rewrite E in Hsp. cbn [answer] in Hsp. destruct (plain_nth _ _ _ _ P E) as (Hc & _).
      rewrite to_char_code in Hsp by assumption. exact (Hr Hsp).
  - destruct fuel as [|f]; [cbn in Hf; lia|]. cbn [ws_loop]. rewrite peek_at by assumption. cbn [bind].
    destruct (split_nth data k [] c (lead ++ rest) Hs) as [E Hlt]. cbn [length] in E, Hlt. rewrite Nat.add_0_r in E, Hlt.
    destruct (plain_nth _ _ _ _ P E) as (Hc & _).
    rewrite E. cbn [answer]. rewrite to_char_code by assumption.
    inversion Hl as [|? ? Hc0 Hl']; subst.
    replace (isspace c) with true by (symmetry; apply isspace_spec; exact Hc0).
    rewrite ignore_at by assumption. replace (Nat.leb 1 (length data - k)) with true by (symmetry; apply Nat.leb_le; lia).
    cbn [bind]. rewrite (IH f st (k + 1)%nat rest); auto; try lia.
    + cbn [length]. do 2 f_equal. lia.
    + pose proof (skipn_nth _ _ _ E) as S. rewrite Hs in S. cbn [app] in S. injection S as S.
      replace (k + 1)%nat with (Datatypes.S k) by lia. symmetry. exact S.
    + cbn [length] in Hf. lia.
Qed.

Lemma ws_at tr st data k lead rest : plain tr data -> good st = true -> 0 <= iost st < 16 -> (k <= length data)%nat ->
  skipn k data = lead ++ rest -> Forall space lead ->
  match rest with [] => True | c :: _ => ~ space c end ->
  ws tr (at_str st data k) = Ok (at_str st data (k + length lead)).
Proof.
  intros P Hg Hst Hk Hs Hl Hr. unfold ws. cbn [isbuf at_str idata at_pos].
  apply (ws_loop_at tr data P lead _ st k rest); auto.
  assert (L : length (skipn k data) = length (lead ++ rest)) by (rewrite Hs; reflexivity).
  rewrite skipn_length, app_length in L. lia.
Qed.

Lemma ws_not_good tr st data k : good st = false -> ws tr (at_str st data k) = Ok (at_str st data k).
Proof. intros H. unfold ws, ws_loop, peek; cbn [isbuf at_str ist]. rewrite H. reflexivity. Qed.

Lemma get_unget tr st data k : plain tr data -> (k < length data)%nat ->
  exists c, nth_error data k = Some c /\
    (' p <- get tr (at_str st data k) ;; Ok (fst p)) = Ok (code tr c) /\
    (' p <- get tr (at_str st data k) ;; unget tr (snd p)) = Ok (at_str st data k).
Proof.
  intros P Hk. destruct (nth_error data k) as [c|] eqn:E; [|apply nth_error_None in E; lia].
  exists c. split; [reflexivity|]. rewrite get_at by (try assumption; lia). rewrite E. cbn [bind fst snd answer].
  replace (Nat.ltb k (length data)) with true by (symmetry; apply Nat.ltb_lt; lia).
  split; [reflexivity|]. unfold unget. cbn [isbuf at_str ist]. rewrite sungetc_at by (try assumption; lia).
  replace (k + 1)%nat with (S k) by lia. cbn [bind].
  rewrite answer_eof by assumption. replace (Nat.ltb k (length data)) with true by (symmetry; apply Nat.ltb_lt; lia).
  cbn [negb]. replace (S k - 1)%nat with k by lia. reflexivity.
Qed.

(* ---- getline ---- *)

Lemma eq_chars_code tr a b : is_char a -> is_char b -> eq_chars (code tr a) b = (a =? b).
Proof.
  intros Ha Hb. unfold eq_chars. rewrite to_char_code by assumption.
  replace (to_char_type b) with b; [reflexivity|].
  unfold to_char_type, wraps, is_char in *. change (2 ^ (8 - 1)) with 128. change (2 ^ 8) with 256.
  rewrite Z.mod_small; lia.
Qed.


Lemma getline_stop tr data fuel dst j count delim st k : plain tr data -> (k <= length data)%nat ->
  nth_error data k = None ->
  getline_loop tr (S fuel) dst j count delim (at_str st data k) = Ok (dst, j, at_str (setstate st eofbit) data k).
Proof.
  intros P Hk E. cbn [getline_loop isbuf ist at_str]. rewrite sbumpc_at by assumption. cbn [bind]. rewrite E.
  apply nth_error_None in E. change (eq_chars (answer tr None) eof) with true. cbn iota.
  rewrite Nat.min_r by lia. replace (length data) with k by lia. reflexivity.
Qed.

Lemma getline_char tr data fuel dst j count delim st k c : plain tr data -> no_ff data -> is_char delim ->
  nth_error data k = Some c ->
  getline_loop tr (S fuel) dst j count delim (at_str st data k)
  = if (count =? 0) || (c =? delim) then Ok (dst, j, at_str (setstate st failbit) data (k + 1))
    else (dst' <- wr dst j c ;; getline_loop tr fuel dst' (S j) (count - 1) delim (at_str st data (k + 1))).
Proof.
  intros P Hff Hd E. assert (k < length data)%nat by (apply nth_error_Some; congruence).
  cbn [getline_loop isbuf ist at_str]. rewrite sbumpc_at by (try assumption; lia). cbn [bind]. rewrite E.
  destruct (plain_nth _ _ _ _ P E) as (Hc & _). cbn [answer].
  rewrite !eq_chars_code by (try assumption; unfold eof, is_char; lia).
  destruct (Z.eqb_spec c eof) as [e|_].
  { exfalso. apply Hff. apply nth_error_In in E. unfold eof in e. congruence. }
  rewrite Nat.min_l by lia. rewrite to_char_code by assumption. reflexivity.
Qed.

Lemma wr_fit {A} (m : list A) j c : (j < length m)%nat -> wr m j c = Ok (overwrite m j [c]).
Proof.
  intros H. pose proof (wrn_overwrite [c] m j) as W. cbn [wrn length] in W. specialize (W ltac:(lia)).
  destruct (wr m j c); cbn [bind] in W; try discriminate. exact W.
Qed.

(* the whole line fits in count *)
Lemma getline_line tr data delim : plain tr data -> no_ff data -> is_char delim ->
  forall line fuel dst j count st k tail,
  (k <= length data)%nat -> skipn k data = line ++ tail -> ~ In delim line ->
  (tail = [] \/ exists t, tail = delim :: t) ->
  Z.of_nat (length line) <= count -> (j + length line <= length dst)%nat -> (length line < fuel)%nat ->
  getline_loop tr fuel dst j count delim (at_str st data k)
  = Ok (overwrite dst j line, (j + length line)%nat,
        match tail with
        | [] => at_str (setstate st eofbit) data (length data)
        | _ => at_str (setstate st failbit) data (k + length line + 1)
        end).
Proof.
  intros P Hff Hd. induction line as [|c line IH]; intros fuel dst j count st k tail Hk Hs Hn Ht Hc Hj Hf.
  - destruct fuel as [|f]; [cbn in Hf; lia|]. cbn [app length] in *. rewrite Nat.add_0_r.
    rewrite overwrite_nil by lia. destruct Ht as [-> | [t ->]].
    + assert (k = length data) by (assert (length (skipn k data) = 0%nat) by (rewrite Hs; reflexivity); rewrite skipn_length in *; lia).
      rewrite getline_stop by (try assumption; apply nth_error_None; lia). subst k. reflexivity.
    + destruct (split_nth data k [] delim t Hs) as [E _]. cbn [length] in E. rewrite Nat.add_0_r in E.
      rewrite (getline_char tr data f dst j count delim st k delim) by assumption.
      rewrite Z.eqb_refl, orb_true_r. rewrite Nat.add_0_r. reflexivity.
  - destruct fuel as [|f]; [cbn in Hf; lia|]. cbn [length] in *.
    destruct (split_nth data k [] c (line ++ tail) Hs) as [E Hlt]. cbn [length] in E, Hlt. rewrite Nat.add_0_r in E, Hlt.
    rewrite (getline_char tr data f dst j count delim st k c) by assumption.
    destruct (Z.eqb_spec count 0); [lia|]. destruct (Z.eqb_spec c delim) as [e|]; [exfalso; apply Hn; left; exact e|].
    cbn [orb]. rewrite wr_fit by lia. cbn [bind].
    rewrite (IH f (overwrite dst j [c]) (S j) (count - 1) st (k + 1)%nat tail); auto; try lia.
    + assert (W : overwrite (overwrite dst j [c]) (S j) line = overwrite dst j (c :: line)).
      { pose proof (overwrite_two dst [c] line j) as W. cbn [length app] in W. rewrite Nat.add_1_r in W. apply W. lia. }
      rewrite W. do 2 f_equal.
      * f_equal. lia.
      * destruct tail; [reflexivity|]. f_equal. lia.
    + pose proof (skipn_nth _ _ _ E) as S. rewrite Hs in S. cbn [app] in S. injection S as S.
      replace (k + 1)%nat with (Datatypes.S k) by lia. symmetry. exact S.
    + intros Hin. apply Hn. right. exact Hin.
    + rewrite overwrite_length by (cbn; lia). lia.
Qed.

(* the line is longer than count *)
Lemma getline_long tr data delim : plain tr data -> no_ff data -> is_char delim ->
  forall line fuel dst j st k x tail,
  (k <= length data)%nat -> skipn k data = line ++ x :: tail -> ~ In delim line ->
  (j + length line <= length dst)%nat -> (length line < fuel)%nat ->
  getline_loop tr fuel dst j (Z.of_nat (length line)) delim (at_str st data k)
  = Ok (overwrite dst j line, (j + length line)%nat, at_str (setstate st failbit) data (k + length line + 1)).
Proof.
  intros P Hff Hd. induction line as [|c line IH]; intros fuel dst j st k x tail Hk Hs Hn Hj Hf.
  - destruct fuel as [|f]; [cbn in Hf; lia|]. cbn [app length] in *. rewrite Nat.add_0_r.
    rewrite overwrite_nil by lia.
    destruct (split_nth data k [] x tail Hs) as [E _]. cbn [length] in E. rewrite Nat.add_0_r in E.
    rewrite (getline_char tr data f dst j _ delim st k x) by assumption.
    change (Z.of_nat 0 =? 0) with true. cbn [orb]. rewrite Nat.add_0_r. reflexivity.
  - destruct fuel as [|f]; [cbn in Hf; lia|]. cbn [length] in *.
    destruct (split_nth data k [] c (line ++ x :: tail) Hs) as [E Hlt]. cbn [length] in E, Hlt. rewrite Nat.add_0_r in E, Hlt.
    rewrite (getline_char tr data f dst j _ delim st k c) by assumption.
    destruct (Z.eqb_spec (Z.of_nat (S (length line))) 0); [lia|].
    destruct (Z.eqb_spec c delim) as [e|]; [exfalso; apply Hn; left; exact e|].
    cbn [orb]. rewrite wr_fit by lia. cbn [bind].
    replace (Z.of_nat (S (length line)) - 1) with (Z.of_nat (length line)) by lia.
    rewrite (IH f (overwrite dst j [c]) (S j) st (k + 1)%nat x tail); auto; try lia.
    + assert (W : overwrite (overwrite dst j [c]) (S j) line = overwrite dst j (c :: line)).
      { pose proof (overwrite_two dst [c] line j) as W. cbn [length app] in W. rewrite Nat.add_1_r in W. apply W. lia. }
      rewrite W. do 2 f_equal.
      * f_equal. lia.
      * f_equal. lia.
    + pose proof (skipn_nth _ _ _ E) as S. rewrite Hs in S. cbn [app] in S. injection S as S.
      replace (k + 1)%nat with (Datatypes.S k) by lia. symmetry. exact S.
    + intros Hin. apply Hn. right. exact Hin.
    + rewrite overwrite_length by (cbn; lia). lia.
Qed.

Lemma skipn_len {A} (data a b : list A) k : skipn k data = a ++ b -> (k <= length data)%nat ->
  length data = (k + length a + length b)%nat.
Proof.
  intros H Hk. assert (L : length (skipn k data) = length (a ++ b)) by (rewrite H; reflexivity).
  rewrite skipn_length, app_length in L. lia.
Qed.

Lemma C50_line tr data delim dst count st k line tail :
  plain tr data -> no_ff data -> is_char delim -> (k <= length data)%nat ->
  skipn k data = line ++ tail -> ~ In delim line -> (tail = [] \/ exists t, tail = delim :: t) ->
  Z.of_nat (length line) < count -> Z.of_nat (length dst) = count ->
  getline tr dst count delim (at_str st data k)
  = Ok (line ++ [0] ++ skipn (length line + 1) dst,
        match tail with
        | [] => at_str (setstate st eofbit) data (length data)
        | _ => at_str (setstate st failbit) data (k + length line + 1)
        end).
Proof.
  intros P Hff Hd Hk Hs Hn Ht Hc Hdst. unfold getline.
  rewrite (getline_line tr data delim P Hff Hd line _ dst 0 count st k tail); auto; try lia.
  - cbn [bind Nat.add]. rewrite wr_fit by (rewrite overwrite_length; lia). cbn [bind].
    pose proof (overwrite_two dst line [0] 0) as W. cbn [Nat.add length] in W. rewrite W by lia.
    unfold overwrite. cbn [firstn app Nat.add]. rewrite app_length. cbn [length]. now rewrite <- app_assoc.
  - cbn [isbuf at_str idata at_pos]. pose proof (skipn_len _ _ _ _ Hs Hk). lia.
Qed.

Lemma C50_overrun tr data delim dst count st k line tail :
  plain tr data -> no_ff data -> is_char delim -> (k <= length data)%nat ->
  skipn k data = line ++ tail -> ~ In delim line -> (tail = [] \/ exists t, tail = delim :: t) ->
  count <= Z.of_nat (length line) -> Z.of_nat (length dst) = count ->
  getline tr dst count delim (at_str st data k) = UB.
Proof.
  intros P Hff Hd Hk Hs Hn Ht Hc Hdst. unfold getline.
  assert (Hlen := skipn_len _ _ _ _ Hs Hk).
  set (n := length dst) in *.
  assert (Hsplit : line = firstn n line ++ skipn n line) by (symmetry; apply firstn_skipn).
  assert (L1 : length (firstn n line) = n) by (rewrite firstn_length; lia).
  assert (Hn1 : ~ In delim (firstn n line)) by (intros Hin; apply Hn; rewrite Hsplit; apply in_or_app; left; exact Hin).
  assert (R : exists s', getline_loop tr (S (length (idata (isbuf (at_str st data k))))) dst 0 count delim (at_str st data k)
     = Ok (overwrite dst 0 (firstn n line), n, s')).
  { destruct (skipn n line ++ tail) as [|x t] eqn:E.
    - assert (Ht0 : tail = []) by (destruct (skipn n line); [exact E|discriminate]).
      rewrite (getline_line tr data delim P Hff Hd (firstn n line) _ dst 0 count st k []); auto.
      + rewrite L1. cbn [Nat.add]. eexists. reflexivity.
      + rewrite Hs, Ht0, !app_nil_r. rewrite <- (firstn_skipn n line) at 1.
        rewrite Ht0, app_nil_r in E. rewrite E, app_nil_r. reflexivity.
      + lia.
      + rewrite L1. unfold n. lia.
      + rewrite L1. cbn [isbuf at_str idata at_pos]. lia.
    - replace count with (Z.of_nat (length (firstn n line))) by (rewrite L1; unfold n; lia).
      rewrite (getline_long tr data delim P Hff Hd (firstn n line) _ dst 0 st k x t); auto.
      + rewrite L1. cbn [Nat.add]. eexists. reflexivity.
      + rewrite Hs, <- E, app_assoc, firstn_skipn. reflexivity.
      + rewrite L1. unfold n. lia.
      + rewrite L1. cbn [isbuf at_str idata at_pos]. lia. }
  destruct R as [s' R]. rewrite R. cbn [bind].
  unfold wr. replace (Nat.ltb n (length (overwrite dst 0 (firstn n line)))) with false; [reflexivity|].
  symmetry. apply Nat.ltb_ge. rewrite overwrite_length by (rewrite L1; unfold n; lia). unfold n. lia.
Qed.

Lemma C50_failbit tr data delim dst count st k line t :
  plain tr data -> no_ff data -> is_char delim -> (k <= length data)%nat -> 0 <= iost st < 16 ->
  skipn k data = line ++ delim :: t -> ~ In delim line ->
  Z.of_nat (length line) < count -> Z.of_nat (length dst) = count ->
  exists d s', getline tr dst count delim (at_str st data k) = Ok (d, s') /\ fail (ist s') = true.
Proof.
  intros P Hff Hd Hk Hst Hs Hn Hc Hdst.
  rewrite (C50_line tr data delim dst count st k line (delim :: t)); auto; [|right; exists t; reflexivity].
  do 2 eexists. split; [reflexivity|]. cbn [ist at_str]. rewrite fail_bit.
  replace (Z.testbit (rdstate (setstate st failbit)) 1) with true; [reflexivity|].
  unfold rdstate, setstate; cbn [iost]. rewrite field_bit by lia. rewrite Z.lor_spec.
  change (Z.testbit failbit 1) with true. now rewrite orb_true_r.
Qed.

(* ---- seekg ---- *)

Lemma seekg_at st data k target : Z.of_nat (length data) < 65536 ->
  (k <= length data)%nat -> (target <= length data)%nat ->
  isbuf (seekg (at_str st data k) (Z.of_nat target) SeekBeg) = at_pos data target /\
  isbuf (seekg (at_str st data k) (Z.of_nat target - Z.of_nat k) SeekCur) = at_pos data target.
Proof.
  intros L Hk Ht. unfold seekg, at_str, at_pos; cbn [isbuf idata ipos]. split; f_equal.
  - apply Z.mod_small. lia.
  - replace (Z.of_nat k + (Z.of_nat target - Z.of_nat k)) with (Z.of_nat target) by lia. apply Z.mod_small. lia.
Qed.

Lemma seekg_end st data k off : isbuf (seekg (at_str st data k) off SeekEnd) = at_pos data k.
Proof. reflexivity. Qed.

Lemma seekg_eof st data k off dir : 0 <= iost st < 16 ->
  eof_set st = true -> eof_set (ist (seekg (at_str st data k) off dir)) = true.
Proof.
  intros Hst. rewrite !eof_bit. cbn [ist seekg at_str]. intros H.
  rewrite unsetstate_bit by (try assumption; lia). rewrite H. reflexivity.
Qed.

Lemma seekg_state s off dir i : 0 <= iost (ist s) < 16 -> 0 <= i ->
  let st := ist (seekg s off dir) in
  Z.testbit (rdstate st) i = Z.testbit (rdstate (ist s)) i && negb (i =? 1) /\
  flags st = flags (ist s) /\ width st = width (ist s) /\ (forall b, fill b st = fill b (ist s)).
Proof.
  intros H Hi st. subst st. unfold seekg. cbn [ist]. rewrite unsetstate_bit by assumption.
  split; [|repeat split; reflexivity]. f_equal. f_equal. unfold failbit.
  destruct (Z.eqb_spec i 1) as [-> |N]; [reflexivity|]. change 2 with (2 ^ 1). rewrite Z.pow2_bits_false by lia. reflexivity.
Qed.
