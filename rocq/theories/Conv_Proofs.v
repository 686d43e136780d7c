(* Proofs for Conv_Model against Conv_Spec. *)
From Coq Require Import List ZArith Bool Lia.
From Verif Require Import Base MachInt Charconv_Spec Charconv_Model Charconv_Proofs Conv_Spec Conv_Model.
Import ListNotations.
Local Open Scope Z_scope.
Local Open Scope res_scope.

(* ---- the pieces of the subject sequence ---- *)

Lemma isspace_true c : blank c -> c_isspace c = true.
Proof. unfold blank, c_isspace. intros [->|H]; [reflexivity|]. apply orb_true_iff. right. apply andb_true_iff. split; apply Z.leb_le; lia. Qed.
Lemma isspace_false c : ~ blank c -> c_isspace c = false.
Proof.
  unfold blank, c_isspace. intros H. apply orb_false_iff. split; [apply Z.eqb_neq; lia|].
  apply andb_false_iff. destruct (Z_le_gt_dec 9 c); [right|left]; apply Z.leb_gt; lia.
Qed.

Lemma skip_blanks_spec ws c q : Forall blank ws -> ~ blank c ->
  skip_blanks (ws ++ c :: q) = Ok (length ws, c :: q).
Proof.
  induction ws as [|x ws IH]; intros F N; cbn [app skip_blanks length].
  - rewrite isspace_false by assumption. reflexivity.
  - inversion F; subst. rewrite isspace_true by assumption. rewrite IH by assumption. reflexivity.
Qed.

Lemma take_digits_spec base pre ds : forall c rest v n, spells base pre ds -> no_digit_head base (c :: rest) ->
  take_digits base (pre ++ c :: rest) v n = Ok (fold_left (fun v d => v * base + d) ds v, (n + length pre)%nat).
Proof.
  revert ds. induction pre as [|x pre IH]; intros ds c rest v n S N.
  - inversion S; subst. cbn [app take_digits fold_left length]. rewrite Nat.add_0_r.
    destruct (digit_value c) as [d|] eqn:E; [|reflexivity].
    destruct (d <? base) eqn:L; [|reflexivity]. apply Z.ltb_lt in L. exfalso. apply (N d). split; assumption.
  - inversion S as [|? d ? ds' D S']; subst. destruct D as [D L]. cbn [app take_digits fold_left length].
    rewrite D. apply Z.ltb_lt in L. rewrite L. rewrite (IH ds') by assumption.
    f_equal. f_equal. lia.
Qed.


Lemma x_no_digit base c d : (c = 120 \/ c = 88) -> base = 16 -> ~ is_digit base c d.
Proof. intros [->| ->] -> [H L]; vm_compute in H; injection H as <-; lia. Qed.

Lemma take_prefix_none base pre ds c rest : spells base pre ds -> no_hex base pre (c :: rest) -> pre <> [] ->
  take_prefix base (pre ++ c :: rest) = (0%nat, pre ++ c :: rest).
Proof.
  intros S H NE. unfold take_prefix. destruct (Z.eqb_spec base 16) as [B|B].
  - destruct pre as [|a pre]; [congruence|]. cbn [app].
    destruct (Z.eq_dec a 48) as [->|NA].
    2:{ destruct a as [|p|p]; try reflexivity. do 6 (destruct p; try reflexivity; try congruence). }
    destruct pre as [|x pre]; cbn [app].
    + destruct rest as [|d r]; [reflexivity|]. destruct (H B eq_refl c (d :: r) eq_refl) as [H1 H2].
      apply Z.eqb_neq in H1, H2. rewrite H1, H2. reflexivity.
    + assert (Hx : x <> 120 /\ x <> 88).
      { inversion S as [|? d0 ? ds0 _ S2]; subst. inversion S2 as [|? d1 ? ds1 D1 _]; subst.
        split; intros ->; eapply x_no_digit; eauto. }
      destruct Hx as [H1 H2]. apply Z.eqb_neq in H1, H2. rewrite H1, H2.
      destruct (pre ++ c :: rest); reflexivity.
  - cbn [andb]. destruct (pre ++ c :: rest) as [|a l]; [reflexivity|].
    destruct a as [|p|p]; try reflexivity. do 6 (destruct p; try reflexivity).
    destruct l as [|x [|y l]]; reflexivity.
Qed.

Lemma digit_char_code c d : digit_value c = Some d -> 48 <= c <= 57 \/ 65 <= c <= 90 \/ 97 <= c <= 122.
Proof.
  unfold digit_value. destruct ((48 <=? c) && (c <=? 57)) eqn:E1.
  - apply andb_prop in E1. destruct E1 as [H1 H2]. apply Z.leb_le in H1, H2. lia.
  - destruct ((65 <=? c) && (c <=? 90)) eqn:E2.
    + apply andb_prop in E2. destruct E2 as [H1 H2]. apply Z.leb_le in H1, H2. lia.
    + destruct ((97 <=? c) && (c <=? 122)) eqn:E3; [|discriminate].
      apply andb_prop in E3. destruct E3 as [H1 H2]. apply Z.leb_le in H1, H2. lia.
Qed.

Lemma take_sign_spec neg sg c q : sign_text neg sg -> (sg = [] -> c <> 45 /\ c <> 43) ->
  take_sign (sg ++ c :: q) = Ok (neg, length sg, c :: q).
Proof.
  unfold sign_text. destruct neg; intros S H.
  - subst sg. reflexivity.
  - destruct S as [->| ->]; [|reflexivity]. destruct (H eq_refl) as [H1 H2]. cbn [app take_sign].
    apply Z.eqb_neq in H1, H2. rewrite H1, H2. reflexivity.
Qed.

Lemma sign_not_blank neg sg c q : sign_text neg sg -> ~ blank c ->
  exists c' q', sg ++ c :: q = c' :: q' /\ ~ blank c'.
Proof.
  unfold sign_text, blank. intros S N. destruct neg.
  - subst sg. exists 45, (c :: q). split; [reflexivity|lia].
  - destruct S as [->| ->].
    + exists c, q. split; [reflexivity|assumption].
    + exists 43, (c :: q). split; [reflexivity|lia].
Qed.

(* A number there. *)
Lemma subject_number base ws neg sg pre ds c rest : Forall blank ws -> sign_text neg sg -> spells base pre ds ->
  ds <> [] -> no_digit_head base (c :: rest) -> no_hex base pre (c :: rest) ->
  subject (ws ++ sg ++ pre ++ c :: rest) base =
    Ok (Some (neg, value_of base ds, (length ws + length sg + length pre)%nat)).
Proof.
  intros W S P NE N X. unfold subject.
  assert (PE : pre <> []) by (intros ->; inversion P; subst; congruence).
  destruct pre as [|x pre]; [congruence|].
  assert (Hx : 48 <= x).
  { inversion P as [|? d ? ? D _]; subst. destruct D as [D _]. apply digit_char_code in D. lia. }
  assert (NB : ~ blank x) by (unfold blank; lia).
  destruct (sign_not_blank neg sg x (pre ++ c :: rest) S NB) as (c' & q' & E & NB').
  change (sg ++ (x :: pre) ++ c :: rest) with (sg ++ x :: pre ++ c :: rest). rewrite E.
  rewrite skip_blanks_spec by assumption. cbn [bind]. rewrite <- E.
  rewrite (take_sign_spec neg) by (assumption || (intros _; lia)). cbn [bind].
  change (x :: pre ++ c :: rest) with ((x :: pre) ++ c :: rest).
  rewrite (take_prefix_none base (x :: pre) ds) by assumption.
  rewrite (take_digits_spec base (x :: pre) ds) by assumption. cbn [bind].
  destruct ((0 + length (x :: pre)) =? 0)%nat eqn:Z0; [apply Nat.eqb_eq in Z0; cbn [length] in Z0; lia|].
  unfold value_of. do 4 f_equal. lia.
Qed.

(* None there. *)
Lemma subject_none base ws neg sg c rest : Forall blank ws -> sign_text neg sg ->
  no_digit_head base (c :: rest) -> 1 <= base -> ~ blank c -> (sg = [] -> c <> 45 /\ c <> 43) ->
  subject (ws ++ sg ++ c :: rest) base = Ok None.
Proof.
  intros W S N B NB H. unfold subject.
  destruct (sign_not_blank neg sg c rest S NB) as (c' & q' & E & NB').
  rewrite E, skip_blanks_spec by assumption. cbn [bind]. rewrite <- E.
  rewrite (take_sign_spec neg) by assumption. cbn [bind].
  assert (T : take_prefix base (c :: rest) = (0%nat, c :: rest)).
  { unfold take_prefix. assert (NC : c <> 48).
    { intros ->. apply (N 0). split; [reflexivity|lia]. }
    destruct c as [|p|p]; try reflexivity. do 6 (destruct p; try reflexivity; try congruence). }
  rewrite T. change (c :: rest) with ([] ++ c :: rest).
  rewrite (take_digits_spec base [] []) by (assumption || constructor). reflexivity.
Qed.

(* The text in memory: what follows it is NUL. *)
Lemma tail_in_memory tail rest base : no_digit_head base tail ->
  exists c r, tail ++ 0 :: rest = c :: r /\ no_digit_head base (c :: r) /\ (tail = [] -> c = 0) /\
    (forall c0 r0, tail = c0 :: r0 -> c = c0).
Proof.
  destruct tail as [|c t]; intros N.
  - exists 0, rest. repeat split; auto.
    + intros d [D _]. vm_compute in D. discriminate.
    + intros c0 r0 E. discriminate.
  - exists c, (t ++ 0 :: rest). repeat split; auto.
    + intros E. discriminate.
    + intros c0 r0 E. injection E as -> ->. reflexivity.
Qed.

Lemma no_hex_10 pre tail : no_hex 10 pre tail.
Proof. intros H. discriminate. Qed.

Lemma subject_begins s v rest : begins_with s v -> exists neg m n,
  subject (c_string s rest) 10 = Ok (Some (neg, m, n)) /\ v = (if neg then - m else m) /\ 0 <= m /\ (0 < n)%nat.
Proof.
  intros (ws & neg & sg & pre & ds & tail & -> & W & S & P & NE & N & ->).
  destruct (tail_in_memory tail rest 10 N) as (c & r & E & N' & _).
  exists neg, (value_of 10 ds), (length ws + length sg + length pre)%nat.
  split; [|split; [reflexivity|split]].
  - unfold c_string. rewrite <- !app_assoc, E. apply subject_number; try assumption. apply no_hex_10.
  - apply value_nonneg; [lia|]. eapply spells_digits; eauto.
  - destruct pre; [inversion P; subst; congruence|cbn [length]; lia].
Qed.

Lemma subject_begins_none s rest : begins_with_none s -> subject (c_string s rest) 10 = Ok None.
Proof.
  intros (ws & neg & sg & tail & -> & W & S & N & H).
  destruct (tail_in_memory tail rest 10 N) as (c & r & E & N' & H0 & H1).
  unfold c_string. rewrite <- !app_assoc, E.
  apply (subject_none 10 ws neg); try assumption; try lia.
  - destruct tail as [|c0 t].
    + rewrite (H0 eq_refl). unfold blank. lia.
    + rewrite (H1 c0 t eq_refl). destruct (H c0 t eq_refl) as [A _]. exact A.
  - intros Hs. destruct tail as [|c0 t].
    + rewrite (H0 eq_refl). lia.
    + rewrite (H1 c0 t eq_refl). destruct (H c0 t eq_refl) as [_ A]. destruct (A Hs). split; assumption.
Qed.

Lemma fits_iff t z : fits t z = true <-> in_range t z.
Proof. unfold fits, in_range. rewrite andb_true_iff, !Z.leb_le. tauto. Qed.

(* ---- fromString ---- *)

Lemma atoi_begins s v rest : begins_with s v ->
  c_atoi (c_string s rest) = if fits (Ity 32 true) v then Ok v else UB.
Proof.
  intros B. destruct (subject_begins s v rest B) as (neg & m & n & E & -> & _). unfold c_atoi. rewrite E.
  cbn [bind]. reflexivity.
Qed.

Lemma strtoul_begins w s v rest : begins_with s v -> 1 <= w ->
  exists n, (0 < n)%nat /\ c_strtoul w (c_string s rest) 10 =
    Ok (if Z.abs v <=? imax (Ity w false) then wrapu w v else imax (Ity w false), n,
        negb (Z.abs v <=? imax (Ity w false))).
Proof.
  intros B W. destruct (subject_begins s v rest B) as (neg & m & n & E & -> & M & L). exists n. split; [exact L|].
  unfold c_strtoul. rewrite E. cbn [bind].
  replace (Z.abs (if neg then - m else m)) with m by (destruct neg; lia).
  destruct (m <=? imax (Ity w false)) eqn:F; [|reflexivity].
  apply Z.leb_le in F. destruct neg; [reflexivity|].
  unfold imax in F. cbn [sgn bits] in F. unfold wrapu. rewrite Z.mod_small by lia. reflexivity.
Qed.

Lemma wrapu_id w v : 0 <= v < 2 ^ w -> wrapu w v = v.
Proof. intros. unfold wrapu. apply Z.mod_small. lia. Qed.

(* ---- digits only ---- *)

Lemma digits_spell s : Forall (fun c => 48 <= c <= 57) s -> spells 10 s (map (fun c => c - 48) s).
Proof.
  induction s as [|c s IH]; intros F; [constructor|]. inversion F; subst. cbn [map]. constructor; [|apply IH; assumption].
  split; [|lia]. unfold digit_value.
  assert (E : (48 <=? c) && (c <=? 57) = true) by (apply andb_true_iff; split; apply Z.leb_le; lia).
  rewrite E. reflexivity.
Qed.

Lemma digits_begin s : all_digits s -> begins_with s (number_of s).
Proof.
  intros [NE F]. exists [], false, [], s, (map (fun c => c - 48) s), [].
  split; [rewrite app_nil_r; reflexivity|]. split; [constructor|]. split; [left; reflexivity|].
  split; [apply digits_spell; assumption|]. split; [destruct s; [congruence|discriminate]|].
  split; [exact I|reflexivity].
Qed.

Lemma minus_begins s : all_digits s -> begins_with (45 :: s) (- number_of s).
Proof.
  intros [NE F]. exists [], true, [45], s, (map (fun c => c - 48) s), [].
  split; [rewrite app_nil_r; reflexivity|]. split; [constructor|]. split; [reflexivity|].
  split; [apply digits_spell; assumption|]. split; [destruct s; [congruence|discriminate]|].
  split; [exact I|reflexivity].
Qed.

Lemma number_nonneg s : Forall (fun c => 48 <= c <= 57) s -> 0 <= number_of s.
Proof. intros F. apply value_nonneg; [lia|]. eapply spells_digits. apply digits_spell. exact F. Qed.

Lemma isdigit_ascii c : -1 <= c <= 127 -> c_isdigit c = Ok ((48 <=? c) && (c <=? 57)).
Proof.
  intros H. unfold c_isdigit. assert (E : (-1 <=? c) && (c <=? 255) = true)
    by (apply andb_true_iff; split; apply Z.leb_le; lia). rewrite E. reflexivity.
Qed.
Lemma digit_true c : 48 <= c <= 57 -> (48 <=? c) && (c <=? 57) = true.
Proof. intros. apply andb_true_iff; split; apply Z.leb_le; lia. Qed.
Lemma digit_false c : ~ 48 <= c <= 57 -> (48 <=? c) && (c <=? 57) = false.
Proof. intros. apply andb_false_iff. destruct (Z_le_gt_dec 48 c); [right|left]; apply Z.leb_gt; lia. Qed.

(* A run of digits, then what follows. *)
Lemma validate_int_run ds c rest : Forall (fun c => 48 <= c <= 57) ds -> ds <> [] ->
  validate_int (ds ++ c :: rest) = if c =? 0 then Ok Accept else validate_int (c :: rest).
Proof.
  induction ds as [|d ds IH]; intros F NE; [congruence|]. inversion F; subst.
  destruct ds as [|d' ds].
  - cbn [app validate_int]. rewrite isdigit_ascii by lia. rewrite digit_true by assumption. reflexivity.
  - change ((d :: d' :: ds) ++ c :: rest) with (d :: (d' :: ds) ++ c :: rest).
    cbn [validate_int]. rewrite isdigit_ascii by lia. rewrite digit_true by assumption. cbn [bind negb].
    cbn [app]. inversion H2; subst. assert (E : (d' =? 0) = false) by (apply Z.eqb_neq; lia). rewrite E.
    change (d' :: ds ++ c :: rest) with ((d' :: ds) ++ c :: rest). apply IH; [assumption|discriminate].
Qed.

Lemma split_run s : exists ds tail, s = ds ++ tail /\ Forall (fun c => 48 <= c <= 57) ds /\
  match tail with [] => True | c :: _ => ~ 48 <= c <= 57 end.
Proof.
  induction s as [|c s (ds & tail & -> & F & T)].
  - exists [], []. repeat split; constructor.
  - destruct (Z_le_gt_dec 48 c); [destruct (Z_le_gt_dec c 57)|].
    + exists (c :: ds), tail. split; [reflexivity|]. split; [constructor; [lia|assumption]|exact T].
    + exists [], (c :: ds ++ tail). split; [reflexivity|]. split; [constructor|lia].
    + exists [], (c :: ds ++ tail). split; [reflexivity|]. split; [constructor|lia].
Qed.

Lemma validate_int_bad c rest : -1 <= c <= 127 -> ~ 48 <= c <= 57 -> validate_int (c :: rest) = Ok BadFormat.
Proof. intros H N. cbn [validate_int]. rewrite isdigit_ascii by lia. rewrite digit_false by assumption. reflexivity. Qed.

Lemma validate_int_digits s rest : all_digits s -> validate_int (c_string s rest) = Ok Accept.
Proof. intros [NE F]. unfold c_string. rewrite validate_int_run by assumption. reflexivity. Qed.

Lemma validate_int_other s rest : ascii s -> ~ all_digits s -> validate_int (c_string s rest) = Ok BadFormat.
Proof.
  intros A N. destruct (split_run s) as (ds & tail & -> & F & T). unfold ascii in A.
  apply Forall_app in A. destruct A as [_ A]. unfold c_string. destruct tail as [|c tail].
  - destruct ds as [|d ds].
    + apply validate_int_bad; lia.
    + exfalso. apply N. rewrite app_nil_r. split; [discriminate|exact F].
  - inversion A; subst. rewrite <- app_assoc. cbn [app]. destruct ds as [|d ds].
    + cbn [app]. apply validate_int_bad; [lia|exact T].
    + rewrite validate_int_run by (assumption || discriminate).
      assert (E : (c =? 0) = false) by (apply Z.eqb_neq; lia). rewrite E. apply validate_int_bad; [lia|exact T].
Qed.

Lemma validate_int_negative ds c rest : Forall (fun c => 48 <= c <= 57) ds -> c < -1 ->
  validate_int (ds ++ c :: rest) = UB.
Proof.
  intros F H. assert (U : validate_int (c :: rest) = UB).
  { cbn [validate_int]. unfold c_isdigit. assert (E : (-1 <=? c) = false) by (apply Z.leb_gt; lia).
    rewrite E. reflexivity. }
  destruct ds as [|d ds]; [exact U|]. rewrite validate_int_run by (assumption || discriminate).
  assert (E : (c =? 0) = false) by (apply Z.eqb_neq; lia). rewrite E. exact U.
Qed.

Lemma strlen_spec s rest : Forall (fun c => c <> 0) s -> c_strlen (c_string s rest) = Ok (length s).
Proof.
  induction s as [|c s IH]; intros F; [reflexivity|]. inversion F; subst.
  unfold c_string in *. cbn [app c_strlen length].
  assert (E : (c =? 0) = false) by (apply Z.eqb_neq; assumption). rewrite E, IH by assumption. reflexivity.
Qed.

(* ---- legacy::from_chars ---- *)

Lemma legacy_number w mem last base ws neg sg pre ds c rest :
  mem = ws ++ sg ++ pre ++ c :: rest -> Forall blank ws -> sign_text neg sg -> spells base pre ds ->
  ds <> [] -> no_digit_head base (c :: rest) -> no_hex base pre (c :: rest) ->
  legacy_from_chars w mem last base =
    let v := if neg then - value_of base ds else value_of base ds in
    Ok (LfcR (length ws + length sg + length pre)
      (if fits (Ity w true) v then NoErr else ResultOutOfRange)
      (if fits (Ity w true) v then v else if neg then imin (Ity w true) else imax (Ity w true))).
Proof.
  intros -> W S P NE N X. unfold legacy_from_chars, c_strtol.
  rewrite (subject_number base ws neg sg pre ds) by assumption. cbn [bind].
  set (v := if neg then - value_of base ds else value_of base ds).
  assert (L : ((length ws + length sg + length pre) =? 0)%nat = false).
  { apply Nat.eqb_neq. destruct pre; [inversion P; subst; congruence|cbn [length]; lia]. }
  destruct (fits (Ity w true) v); cbn [bind]; rewrite L; reflexivity.
Qed.

Lemma legacy_none w mem last base ws neg sg c rest :
  mem = ws ++ sg ++ c :: rest -> Forall blank ws -> sign_text neg sg -> no_digit_head base (c :: rest) ->
  1 <= base -> ~ blank c -> (sg = [] -> c <> 45 /\ c <> 43) ->
  legacy_from_chars w mem last base = Ok (LfcR 0 InvalidArgument 0).
Proof.
  intros -> W S N B NB H. unfold legacy_from_chars, c_strtol.
  rewrite (subject_none base ws neg sg) by assumption. reflexivity.
Qed.

(* ---- maxStringLength ---- *)

Lemma numeral_length v k : 0 <= v < 10 ^ Z.of_nat k -> (0 < k)%nat -> numeral_fits v k.
Proof.
  intros H K s (ds & -> & NE & F & V & C). assert (E : (v <? 0) = false) by (apply Z.ltb_ge; lia). rewrite E.
  cbn [app]. rewrite map_length. rewrite Z.abs_eq in V by lia.
  destruct (Nat.le_gt_cases (length ds) k) as [L|L]; [exact L|exfalso].
  destruct ds as [|d ds]; [congruence|]. destruct (Z.eq_dec d 0) as [->|ND].
  - specialize (C eq_refl). injection C as ->. cbn [length] in L. lia.
  - inversion F as [|? ? Hd Fd]; subst.
    assert (P : d * 10 ^ Z.of_nat (length ds) <= value_of 10 (d :: ds)).
    { clear -Hd Fd. unfold value_of. cbn [fold_left]. replace (0 * 10 + d) with d by lia.
      assert (D : 0 <= d) by lia. clear Hd. revert d D. induction ds as [|x ds IH]; intros d D.
      - cbn [fold_left length]. change (10 ^ Z.of_nat 0) with 1. lia.
      - inversion Fd; subst. cbn [fold_left length]. rewrite Nat2Z.inj_succ, Z.pow_succ_r by lia.
        etransitivity; [|apply IH; [assumption|lia]].
        assert (0 < 10 ^ Z.of_nat (length ds)) by (apply Z.pow_pos_nonneg; lia). nia. }
    cbn [length] in L. assert (Q : 10 ^ Z.of_nat k <= 10 ^ Z.of_nat (length ds)) by (apply Z.pow_le_mono_r; lia).
    assert (0 < 10 ^ Z.of_nat (length ds)) by (apply Z.pow_pos_nonneg; lia). nia.
Qed.

Lemma numeral_length_neg v k : - 10 ^ Z.of_nat k < v < 0 -> (0 < k)%nat -> numeral_fits v (S k).
Proof.
  intros H K s (ds & -> & NE & F & V & C). assert (E : (v <? 0) = true) by (apply Z.ltb_lt; lia). rewrite E.
  cbn [app length]. apply le_n_S.
  assert (N : is_numeral false 10 (- v) (map (digit_char false) ds)).
  { exists ds. assert (E' : (- v <? 0) = false) by (apply Z.ltb_ge; lia). rewrite E'.
    split; [reflexivity|]. split; [exact NE|]. split; [exact F|]. split; [rewrite V; lia|exact C]. }
  apply (numeral_length (- v) k); [lia|assumption|exact N].
Qed.

Lemma numeral_length_both v k : - 10 ^ Z.of_nat k < v < 10 ^ Z.of_nat k -> (0 < k)%nat -> numeral_fits v (S k).
Proof.
  intros H K. destruct (Z_lt_le_dec v 0).
  - apply numeral_length_neg; lia.
  - intros s N. assert (L : (length s <= k)%nat) by (apply (numeral_length v k); [lia|assumption|exact N]). lia.
Qed.

(* ---- logging ---- *)

Lemma vprintf_plain s args : plain s -> c_vprintf s args = Ok s.
Proof.
  unfold plain. induction s as [|c s IH]; intros N; [reflexivity|].
  assert (NC : c <> 37) by (intros ->; apply N; left; reflexivity).
  assert (NS : ~ In 37 s) by (intros I; apply N; right; exact I).
  assert (E : c_vprintf (c :: s) args = (o <- c_vprintf s args ;; Ok (c :: o))).
  { destruct c as [|p|p]; try reflexivity. do 6 (destruct p; try reflexivity; try congruence). }
  rewrite E, IH by assumption. reflexivity.
Qed.

Lemma vprintf_char c s args : c <> 37 -> c_vprintf (c :: s) args = (o <- c_vprintf s args ;; Ok (c :: o)).
Proof. intros NC. destruct c as [|p|p]; try reflexivity. do 6 (destruct p; try reflexivity; try congruence). Qed.

Lemma vprintf_prints fmt args out : prints fmt args out -> c_vprintf fmt args = Ok out.
Proof.
  induction 1 as [args|c fmt args out N P IH|fmt args out P IH|c fmt a args out N P IH].
  - reflexivity.
  - rewrite vprintf_char, IH by assumption. reflexivity.
  - cbn [c_vprintf]. rewrite IH. reflexivity.
  - cbn [c_vprintf]. apply Z.eqb_neq in N. rewrite N, IH. reflexivity.
Qed.

Lemma vprintf_conversion s : has_conversion s -> c_vprintf s [] = UB.
Proof.
  intros (a & c & b & -> & P & N). unfold plain in P. induction a as [|x a IH].
  - cbn [app c_vprintf]. apply Z.eqb_neq in N. rewrite N. reflexivity.
  - cbn [app]. rewrite vprintf_char by (intros ->; apply P; left; reflexivity).
    rewrite IH by (intros I; apply P; right; exact I). reflexivity.
Qed.

Lemma header_plain l : plain (level_header l).
Proof. unfold plain. destruct l; cbn; intuition discriminate. Qed.

Lemma log_write_line l tag fmt args msg g : (level_no l <= 3)%nat -> plain tag -> prints fmt args msg ->
  log_write l tag fmt args g =
    Ok (Logger (writer g) ((writer g, log_line (level_header l) tag msg) :: written g)).
Proof.
  intros L P M. unfold log_write. assert (E : (level_no l <=? level_no local_level)%nat = true)
    by (apply Nat.leb_le; exact L). rewrite E. unfold write_header.
  rewrite (vprintf_plain (level_header l)) by apply header_plain. cbn [bind].
  rewrite (vprintf_plain tag) by assumption. cbn [bind].
  rewrite (vprintf_prints fmt args msg) by assumption. cbn [bind c_vprintf].
  unfold log_line. rewrite <- !app_assoc. reflexivity.
Qed.

Lemma level_shown l : shown l <-> (level_no l <= 3)%nat.
Proof. unfold shown. destruct l; cbn; split; intros; try (split; discriminate); try lia; tauto. Qed.
Lemma header_letter l : level_header l = letter l.
Proof. destruct l; reflexivity. Qed.

Lemma log_run_logs ops : forall g lines rets, logs (writer g) ops lines rets ->
  exists g', log_run ops g = Ok (g', rets) /\ rev (written g') = rev (written g) ++ lines.
Proof.
  induction ops as [|op ops IH]; intros g lines rets L; inversion L; subst; clear L; cbn [log_run].
  - exists g. rewrite app_nil_r. split; reflexivity.
  - destruct (IH (Logger f (written g)) lines rets0) as (g' & E & W); [assumption|].
    cbn [set_vprintf]. unfold set_vprintf. rewrite E. cbn [bind]. exists g'. split; [reflexivity|exact W].
  - match goal with H : shown _ |- _ => apply level_shown in H end. rewrite (log_write_line l tag fmt args msg) by assumption. cbn [bind].
    destruct (IH (Logger (writer g) ((writer g, log_line (level_header l) tag msg) :: written g)) lines0 rets)
      as (g' & E & W); [assumption|].
    exists g'. split; [exact E|]. rewrite W. cbn [written rev]. rewrite <- app_assoc, header_letter. reflexivity.
  - assert (K : log_write l tag fmt args g = Ok g).
    { unfold log_write. assert (E : (level_no l <=? level_no local_level)%nat = false).
      { apply Nat.leb_gt. match goal with H : ~ shown _ |- _ => rewrite level_shown in H end. change (level_no local_level) with 3%nat. lia. }
      rewrite E. reflexivity. }
    rewrite K. cbn [bind]. apply IH. assumption.
Qed.
