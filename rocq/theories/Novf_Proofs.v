From Coq Require Import List ZArith Bool Lia.
From Verif Require Import Base BaseLemmas SliceLemmas MachInt Ios_Model Ios_Proofs Streambuf_Model Istream_Model
  Charconv_Model Charconv_Spec Charconv_Proofs Stream_Spec Stream_Proofs Ostream_Spec
  Numio_Model Numio_Spec Numio_Proofs Timep_Proofs Novf_Spec Novf_Model.
Import ListNotations.
Local Open Scope Z_scope.
Local Open Scope res_scope.

Lemma std_bits t : std_ity t -> 1 <= bits t.
Proof. intros [H|[H|[H|H]]]; lia. Qed.

Lemma wide_dec t : {wide_signed t} + {~ wide_signed t}.
Proof.
  unfold wide_signed. destruct (sgn t); [|right; intros []; discriminate].
  destruct (Z_le_gt_dec 32 (bits t)); [left; auto|right; lia].
Qed.

(* ---- types that wrap round ---- *)

(* results that fit int, if the type is narrower *)
Lemma calc_wraps t z : ~ wide_signed t -> (bits t < 32 -> - 2 ^ 31 <= z < 2 ^ 31) -> assign_calc t z = Ok (wrap t z).
Proof.
  intros W R. unfold assign_calc. destruct (Z.ltb_spec (bits t) 32).
  - rewrite fits_true; [reflexivity|]. specialize (R H). split; cbn [imin imax sgn bits]; lia.
  - destruct (sgn t) eqn:E; [|reflexivity]. exfalso. apply W. split; assumption.
Qed.

Lemma wrap_add_l t a b : 1 <= bits t -> wrap t (wrap t a + b) = wrap t (a + b).
Proof.
  intros B. destruct (wrap_diff t a B) as [k ->]. apply wrap_mod; [assumption|]. exists k. lia.
Qed.
Lemma wrap_mul_l t a b : 1 <= bits t -> wrap t (wrap t a * b) = wrap t (a * b).
Proof.
  intros B. destruct (wrap_diff t a B) as [k ->]. apply wrap_mod; [assumption|]. exists (k * b). lia.
Qed.
Lemma wrap_opp t a : 1 <= bits t -> wrap t (- wrap t a) = wrap t (- a).
Proof.
  intros B. destruct (wrap_diff t a B) as [k ->]. apply wrap_mod; [assumption|]. exists (- k). lia.
Qed.

(* values of the narrow types *)
Lemma narrow_range t v : std_ity t -> bits t < 32 -> in_range t v -> - 32768 <= v <= 65535.
Proof.
  intros S B [H1 H2]. unfold imin, imax in *. destruct S as [E|[E|[E|E]]]; rewrite E in *; try lia.
  - change (2 ^ (8 - 1)) with 128 in *. change (2 ^ 8) with 256 in *. destruct (sgn t); lia.
  - change (2 ^ (16 - 1)) with 32768 in *. change (2 ^ 16) with 65536 in *. destruct (sgn t); lia.
Qed.

Lemma digit_char8 d base : base <= 36 -> 0 <= d < base -> wrapu 8 d = d.
Proof. intros. unfold wrapu. apply Z.mod_small. change (2 ^ 8) with 256. lia. Qed.

Lemma nraise_wraps t v base d : std_ity t -> ~ wide_signed t -> 2 <= base <= 36 -> 0 <= d < base ->
  nraise t (wrap t v) base d = Ok (wrap t (v * base + d)).
Proof.
  intros S W B D. pose proof (std_bits t S) as B1. unfold nraise.
  rewrite calc_wraps; [|assumption|].
  - cbn [bind]. rewrite (digit_char8 d base) by lia. rewrite calc_wraps; [|assumption|].
    + rewrite wrap_add_l by assumption. f_equal.
      rewrite <- (wrap_add_l t (wrap t v * base)), wrap_mul_l, wrap_add_l by assumption. reflexivity.
    + intros N. pose proof (narrow_range t _ S N (wrap_range t (wrap t v * base) B1)). lia.
  - intros N. pose proof (narrow_range t _ S N (wrap_range t v B1)). nia.
Qed.

Lemma nlower_wraps t v base d : std_ity t -> ~ wide_signed t -> 2 <= base <= 36 -> 0 <= d < base ->
  nlower t (wrap t (- v)) base d = Ok (wrap t (- (v * base + d))).
Proof.
  intros S W B D. pose proof (std_bits t S) as B1. unfold nlower.
  rewrite calc_wraps; [|assumption|].
  - cbn [bind]. rewrite (digit_char8 d base) by lia. rewrite calc_wraps; [|assumption|].
    + unfold Z.sub. rewrite wrap_add_l by assumption. f_equal.
      rewrite <- (wrap_add_l t (wrap t (- v) * base)), wrap_mul_l, wrap_add_l by assumption. f_equal. ring.
    + intros N. pose proof (narrow_range t _ S N (wrap_range t (wrap t (- v) * base) B1)). lia.
  - intros N. pose proof (narrow_range t _ S N (wrap_range t (- v) B1)). nia.
Qed.

(* ---- int and wider ---- *)

Lemma calc_wide t z : wide_signed t -> assign_calc t z = if fits t z then Ok z else UB.
Proof.
  intros [S B]. unfold assign_calc. destruct (Z.ltb_spec (bits t) 32); [lia|]. now rewrite S.
Qed.

Lemma nraise_wide t v base d : wide_signed t -> 2 <= base <= 36 -> 0 <= d < base -> 0 <= v ->
  nraise t v base d = if v * base + d <=? imax t then Ok (v * base + d) else UB.
Proof.
  intros W B D V. pose proof (imin_nonpos t). unfold nraise. rewrite !calc_wide by assumption. unfold fits.
  rewrite (digit_char8 d base) by lia. assert (0 <= v * base) by nia.
  destruct (Z.leb_spec (imin t) (v * base)); [|lia]. cbn [andb].
  destruct (Z.leb_spec (v * base) (imax t)); cbn [bind].
  - rewrite calc_wide by assumption. unfold fits. destruct (Z.leb_spec (imin t) (v * base + d)); [|lia]. cbn [andb].
    reflexivity.
  - destruct (Z.leb_spec (v * base + d) (imax t)); [lia|reflexivity].
Qed.

Lemma nlower_wide t v base d : wide_signed t -> 2 <= base <= 36 -> 0 <= d < base -> 0 <= v ->
  nlower t (- v) base d = if imin t <=? - (v * base + d) then Ok (- (v * base + d)) else UB.
Proof.
  intros W B D V. assert (1 <= bits t) by (destruct W; lia). pose proof (imax_nonneg t H).
  unfold nlower. rewrite !calc_wide by assumption. unfold fits.
  rewrite (digit_char8 d base) by lia. assert (0 <= v * base) by nia.
  replace (- v * base) with (- (v * base)) by ring. replace (- (v * base + d)) with (- (v * base) - d) by ring.
  destruct (Z.leb_spec (- (v * base)) (imax t)); [|lia]. rewrite andb_true_r.
  destruct (Z.leb_spec (imin t) (- (v * base))); cbn [bind].
  - rewrite calc_wide by assumption. unfold fits. destruct (Z.leb_spec (- (v * base) - d) (imax t)); [|lia]. rewrite andb_true_r.
    reflexivity.
  - destruct (Z.leb_spec (imin t) (- (v * base) - d)); [lia|reflexivity].
Qed.

(* ---- from_chars ---- *)

(* what is answered behind the digits *)
Definition nfc_end (t : ity) (neg : bool) (rest : list Z) (cur : nat) (v : Z) : result fc_result :=
  match rest with
  | [] => w <- (if sgn t && neg then assign_calc t (- v) else Ok v) ;; Ok (FcR cur NoErr (Some w))
  | _ => if Nat.eqb cur 0 then Ok (FcR 0 InvalidArgument None) else Ok (FcR cur NoErr (Some v))
  end.

Lemma nfc_rest t base neg rest cur v : 2 <= base <= 36 -> no_digit_head base rest ->
  nfc_loop t base neg rest cur v = nfc_end t neg rest cur v.
Proof.
  intros B N. destruct rest as [|c rest]; [reflexivity|]. cbn [nfc_loop nfc_end].
  rewrite from_char_none by assumption. destruct (Nat.eqb_spec cur 0); subst; reflexivity.
Qed.

Lemma nfc_wraps t base neg pre ds rest : std_ity t -> ~ wide_signed t -> 2 <= base <= 36 ->
  spells base pre ds -> no_digit_head base rest -> forall cur v,
  nfc_loop t base neg (pre ++ rest) cur (wrap t v)
  = nfc_end t neg rest (cur + length pre) (wrap t (horner base ds v)).
Proof.
  intros S W B Sp N. induction Sp as [|c d pre ds H Sp IH]; intros cur v.
  - cbn [app length fold_left]. rewrite Nat.add_0_r. apply nfc_rest; assumption.
  - cbn [app length fold_left nfc_loop]. rewrite (from_char_digit base c d) by assumption.
    rewrite nraise_wraps by (try assumption; eapply digit_nonneg; eassumption). cbn [bind].
    rewrite IH. f_equal. lia.
Qed.

Lemma nfc_wide t base neg pre ds rest : wide_signed t -> 2 <= base <= 36 ->
  spells base pre ds -> no_digit_head base rest -> forall cur v, 0 <= v <= imax t ->
  nfc_loop t base neg (pre ++ rest) cur v
  = if horner base ds v <=? imax t then nfc_end t neg rest (cur + length pre) (horner base ds v) else UB.
Proof.
  intros W B Sp N. induction Sp as [|c d pre ds H Sp IH]; intros cur v V.
  - cbn [app length fold_left]. rewrite Nat.add_0_r. destruct (Z.leb_spec v (imax t)); [|lia]. apply nfc_rest; assumption.
  - cbn [app length fold_left nfc_loop]. rewrite (from_char_digit base c d) by assumption.
    pose proof (digit_nonneg _ _ _ H). rewrite nraise_wide by (assumption || lia).
    pose proof (fold_ge base ds (v * base + d) ltac:(lia) ltac:(nia) (spells_digits _ _ _ Sp)).
    destruct (Z.leb_spec (v * base + d) (imax t)); cbn [bind].
    + rewrite IH by nia. replace (Datatypes.S cur + length pre)%nat with (cur + Datatypes.S (length pre))%nat by lia. reflexivity.
    + destruct (Z.leb_spec (horner base ds (v * base + d)) (imax t)); [lia|reflexivity].
Qed.

Lemma nfrom_start t base text sign pre ds rest : number_text t base text sign pre ds rest -> text <> [] ->
  nfrom_chars t base text
  = nfc_loop t base (match sign with [] => false | _ => true end) (pre ++ rest) (length sign) 0.
Proof.
  intros (-> & Hsg & Hs & Hr) Hn. unfold nfrom_chars. destruct Hsg as [[-> E]|[-> E]].
  - rewrite E. reflexivity.
  - cbn [app length] in *. destruct (sgn t); [|reflexivity]. specialize (E eq_refl).
    destruct (pre ++ rest) as [|c l]; [congruence|]. unfold rd. cbn [nth_error bind].
    destruct (Z.eqb_spec c 45); [subst; now destruct E|reflexivity].
Qed.

Lemma wrap_0 t : 1 <= bits t -> wrap t 0 = 0.
Proof. intros B. apply wrap_id; [assumption|]. pose proof (imin_nonpos t). pose proof (imax_nonneg t B). unfold in_range. lia. Qed.

Lemma nt_nonempty t base text sign pre ds rest : number_text t base text sign pre ds rest -> pre <> [] -> text <> [].
Proof. intros (-> & _) Hn E. apply app_eq_nil in E. destruct E as [_ E]. apply app_eq_nil in E. now destruct E. Qed.

(* every type that wraps *)
Lemma from_wraps t base text sign pre ds rest : std_ity t -> ~ wide_signed t -> 2 <= base <= 36 ->
  number_text t base text sign pre ds rest -> pre <> [] -> sign = [] \/ rest = [] ->
  nfrom_chars t base text
  = Ok (FcR (length sign + length pre) NoErr (Some (wrap t (signed_value base sign ds)))).
Proof.
  intros S W B NT Hn Hx. pose proof (std_bits t S) as B1.
  rewrite (nfrom_start t base text sign pre ds rest NT (nt_nonempty _ _ _ _ _ _ _ NT Hn)).
  destruct NT as (-> & Hsg & Hs & Hr). replace 0 with (wrap t 0) at 1 by (apply wrap_0; assumption).
  rewrite (nfc_wraps t base _ pre ds rest) by assumption. unfold signed_value. fold (value_of base ds).
  destruct pre as [|c pre]; [congruence|]. cbn [length].
  destruct Hsg as [[-> E]|[-> E]]; cbn [length Nat.add].
  - destruct Hx as [Hx| ->]; [discriminate|]. cbn [nfc_end]. rewrite E. cbn [andb].
    rewrite calc_wraps; [cbn [bind]; rewrite wrap_opp by assumption; reflexivity|assumption|].
    intros N. pose proof (narrow_range t _ S N (wrap_range t (value_of base ds) B1)). lia.
  - destruct rest; cbn [nfc_end]; [rewrite andb_false_r|]; reflexivity.
Qed.

Lemma from_wide t base text sign pre ds rest : wide_signed t -> 2 <= base <= 36 ->
  number_text t base text sign pre ds rest -> pre <> [] ->
  (value_of base ds <= imax t -> sign = [] \/ rest = [] ->
     nfrom_chars t base text = Ok (FcR (length sign + length pre) NoErr (Some (signed_value base sign ds)))) /\
  (imax t < value_of base ds -> nfrom_chars t base text = UB).
Proof.
  intros W B NT Hn. assert (B1 : 1 <= bits t) by (destruct W; lia).
  rewrite (nfrom_start t base text sign pre ds rest NT (nt_nonempty _ _ _ _ _ _ _ NT Hn)).
  destruct NT as (-> & Hsg & Hs & Hr). pose proof (imax_nonneg t B1).
  rewrite (nfc_wide t base _ pre ds rest) by (assumption || lia). fold (value_of base ds).
  destruct (Z.leb_spec (value_of base ds) (imax t)); split; try lia; [|reflexivity].
  intros _ Hx. destruct pre as [|c pre]; [congruence|]. cbn [length]. unfold signed_value.
  destruct Hsg as [[-> E]|[-> E]]; cbn [length Nat.add].
  - destruct Hx as [Hx| ->]; [discriminate|]. cbn [nfc_end]. rewrite E. cbn [andb].
    rewrite calc_wide by assumption. rewrite fits_true; [reflexivity|].
    pose proof (value_nonneg base ds ltac:(lia) (spells_digits _ _ _ Hs)).
    unfold in_range, imin, imax in *. destruct (sgn t); [lia|discriminate].
  - destruct rest; cbn [nfc_end]; [rewrite andb_false_r|]; reflexivity.
Qed.

Lemma from_fits t base text sign pre ds rest : std_ity t -> 2 <= base <= 36 ->
  number_text t base text sign pre ds rest -> pre <> [] -> sign = [] \/ rest = [] ->
  in_range t (signed_value base sign ds) -> (wide_signed t -> signed_value base sign ds <> imin t) ->
  nfrom_chars t base text = Ok (FcR (length sign + length pre) NoErr (Some (signed_value base sign ds))).
Proof.
  intros S B NT Hn Hx I M. destruct (wide_dec t) as [W|W].
  - apply (from_wide t base text sign pre ds rest W B NT Hn); [|assumption].
    specialize (M W). destruct W as [Es _]. destruct NT as (_ & Hsg & _). unfold signed_value, in_range, imin, imax in *. rewrite Es in *.
    destruct Hsg as [[-> _]|[-> _]]; lia.
  - rewrite (from_wraps t base text sign pre ds rest) by assumption. rewrite wrap_id; auto using std_bits.
Qed.

Lemma from_none t base text ds rest : 2 <= base <= 36 ->
  number_text t base text [] [] ds rest -> text <> [] ->
  nfrom_chars t base text = Ok (FcR 0 InvalidArgument None).
Proof.
  intros B NT Hn. rewrite (nfrom_start t base text [] [] ds rest NT Hn).
  destruct NT as (-> & _ & _ & Hr). cbn [app length] in *. rewrite nfc_rest by assumption.
  destruct rest; [congruence|reflexivity].
Qed.

(* numbers that do not fit *)
Lemma from_over t base text sign pre ds rest : std_ity t -> 2 <= base <= 36 ->
  number_text t base text sign pre ds rest -> pre <> [] -> sign = [] \/ rest = [] ->
  ~ in_range t (signed_value base sign ds) ->
  (~ wide_signed t -> exists v, nfrom_chars t base text = Ok (FcR (length sign + length pre) NoErr (Some v)) /\
     in_range t v /\ v <> signed_value base sign ds) /\
  (wide_signed t -> nfrom_chars t base text = UB).
Proof.
  intros S B NT Hn Hx I. pose proof (std_bits t S) as B1. split; intros W.
  - exists (wrap t (signed_value base sign ds)). split; [apply (from_wraps t base text sign pre ds rest); assumption|].
    pose proof (wrap_range t (signed_value base sign ds) B1). split; [assumption|]. congruence.
  - apply (from_wide t base text sign pre ds rest W B NT Hn).
    destruct W as [Es _]. destruct NT as (_ & Hsg & Hs & _).
    pose proof (value_nonneg base ds ltac:(lia) (spells_digits _ _ _ Hs)).
    assert (0 < 2 ^ (bits t - 1)) by (apply Z.pow_pos_nonneg; lia).
    unfold signed_value, in_range, imin, imax in *. rewrite Es in *.
    destruct Hsg as [[-> _]|[-> _]]; lia.
Qed.

(* the least int *)
Lemma from_least t base text pre ds : wide_signed t -> 2 <= base <= 36 ->
  number_text t base text [45] pre ds [] -> value_of base ds = 2 ^ (bits t - 1) ->
  in_range t (signed_value base [45] ds) /\ nfrom_chars t base text = UB.
Proof.
  intros W B NT V. assert (B1 : 1 <= bits t) by (destruct W; lia).
  assert (0 < 2 ^ (bits t - 1)) by (apply Z.pow_pos_nonneg; lia). split.
  - destruct W as [Es _]. unfold in_range, imin, imax, signed_value. rewrite Es. lia.
  - apply (from_wide t base text [45] pre ds [] W B NT).
    + intros ->. destruct NT as (_ & _ & Hs & _). inversion Hs; subst. cbn in V. lia.
    + destruct W as [Es _]. unfold imax. rewrite Es. lia.
Qed.

(* ---- the drivers ---- *)

Lemma ndrive_rest t base pos st err v rest n : 2 <= base <= 36 -> no_digit_head base rest ->
  st = (if pos : bool then GPos else GNeg) ->
  ndrive t base st err v rest n = Ok (n, match rest with [] => Z.lor err eofbit | _ => err end, v).
Proof.
  intros Hb Hr ->. destruct rest as [|c rest]; [reflexivity|]. cbn [ndrive].
  assert (F : from_char base c = None) by (apply from_char_none; assumption).
  destruct pos; cbn [nget1]; unfold nnominal; rewrite F; reflexivity.
Qed.

Definition acc (positive : bool) (z : Z) : Z := if positive then z else - z.
Definition going (positive : bool) : gstate := if positive then GPos else GNeg.

Lemma ndrive_wraps t base positive pre ds rest : std_ity t -> ~ wide_signed t -> 2 <= base <= 36 ->
  spells base pre ds -> no_digit_head base rest -> forall err v n,
  ndrive t base (going positive) err (wrap t (acc positive v)) (pre ++ rest) n
  = Ok ((n + length pre)%nat, match rest with [] => Z.lor err eofbit | _ => err end, wrap t (acc positive (horner base ds v))).
Proof.
  intros S W B Sp N err. induction Sp as [|c d pre ds H Sp IH]; intros v n.
  - cbn [app length fold_left]. rewrite Nat.add_0_r. apply (ndrive_rest t base positive); auto.
  - cbn [app length fold_left ndrive]. pose proof (digit_nonneg _ _ _ H).
    replace (nget1 t base (going positive) err (wrap t (acc positive v)) c)
      with (Ok (GR false (going positive) err (wrap t (acc positive (v * base + d))))).
    + cbn [bind gdone gst gerr gval]. rewrite IH. do 3 f_equal. lia.
    + destruct positive; cbn [going nget1 acc]; unfold nnominal; rewrite (from_char_digit base c d) by assumption.
      * rewrite nraise_wraps by assumption. reflexivity.
      * rewrite nlower_wraps by assumption. reflexivity.
Qed.

Definition in_limit (t : ity) (positive : bool) (z : Z) : bool :=
  if positive then z <=? imax t else imin t <=? - z.

Lemma ndrive_wide t base positive pre ds rest : wide_signed t -> 2 <= base <= 36 ->
  spells base pre ds -> no_digit_head base rest -> forall err v n, 0 <= v -> in_limit t positive v = true ->
  ndrive t base (going positive) err (acc positive v) (pre ++ rest) n
  = if in_limit t positive (horner base ds v)
    then Ok ((n + length pre)%nat, match rest with [] => Z.lor err eofbit | _ => err end, acc positive (horner base ds v))
    else UB.
Proof.
  intros W B Sp N err. induction Sp as [|c d pre ds H Sp IH]; intros v n V L.
  - cbn [app length fold_left]. rewrite Nat.add_0_r, L. apply (ndrive_rest t base positive); auto.
  - cbn [app length fold_left ndrive]. pose proof (digit_nonneg _ _ _ H).
    pose proof (fold_ge base ds (v * base + d) ltac:(lia) ltac:(nia) (spells_digits _ _ _ Sp)).
    replace (nget1 t base (going positive) err (acc positive v) c)
      with (if in_limit t positive (v * base + d) then Ok (GR false (going positive) err (acc positive (v * base + d))) else UB).
    + destruct (in_limit t positive (v * base + d)) eqn:E.
      * cbn [bind gdone gst gerr gval]. rewrite IH by (auto; nia).
        replace (Datatypes.S n + length pre)%nat with (n + Datatypes.S (length pre))%nat by lia. reflexivity.
      * cbn [bind]. replace (in_limit t positive (horner base ds (v * base + d))) with false; [reflexivity|].
        symmetry. unfold in_limit in *. destruct positive; rewrite Z.leb_gt in *; lia.
    + unfold in_limit. destruct positive; cbn [going nget1 acc]; unfold nnominal; rewrite (from_char_digit base c d) by assumption.
      * rewrite nraise_wide by assumption. destruct (v * base + d <=? imax t); reflexivity.
      * rewrite nlower_wide by assumption. destruct (imin t <=? - (v * base + d)); reflexivity.
Qed.

(* the start: a sign, or the first digit *)
Lemma start_same t base err c d rest n v : 2 <= base <= 36 -> is_digit base c d ->
  ndrive t base GStart err v (c :: rest) n = ndrive t base GPos err v (c :: rest) n.
Proof.
  intros B H. cbn [ndrive nget1]. replace (sgn t && (c =? 45)) with false.
  - unfold nnominal. rewrite (from_char_digit base c d) by assumption.
    destruct (nraise t v base d); reflexivity.
  - destruct (Z.eqb_spec c 45) as [->|]; [|now rewrite andb_false_r]. exfalso. eapply no_minus_digit; eassumption.
Qed.

Lemma ndrive_start t base text sign pre ds rest err : 2 <= base <= 36 ->
  number_text t base text sign pre ds rest -> pre <> [] ->
  ndrive t base GStart err 0 text 0
  = ndrive t base (going (match sign with [] => true | _ => false end)) err 0 (pre ++ rest) (length sign).
Proof.
  intros B (-> & Hsg & Hs & Hr) Hn. destruct Hsg as [[-> E]|[-> E]].
  - cbn [app ndrive nget1]. rewrite E. reflexivity.
  - destruct (first_digit base pre ds rest Hs Hn) as (c & d & p & -> & Hd & _). cbn [app length going].
    eapply start_same; eassumption.
Qed.

Lemma drive_wraps t base text sign pre ds rest err : std_ity t -> ~ wide_signed t -> 2 <= base <= 36 ->
  number_text t base text sign pre ds rest -> pre <> [] ->
  ndrive t base GStart err 0 text 0
  = Ok ((length sign + length pre)%nat, match rest with [] => Z.lor err eofbit | _ => err end,
        wrap t (signed_value base sign ds)).
Proof.
  intros S W B NT Hn. rewrite (ndrive_start t base text sign pre ds rest err B NT Hn).
  destruct NT as (-> & Hsg & Hs & Hr). pose proof (std_bits t S) as B1.
  set (p := match sign with [] => true | _ => false end).
  replace 0 with (wrap t (acc p 0)) at 1 by (destruct p; apply (wrap_0 t B1)).
  rewrite (ndrive_wraps t base p pre ds rest) by assumption. fold (value_of base ds).
  unfold p, signed_value. destruct Hsg as [[-> E]|[-> E]]; reflexivity.
Qed.

Lemma drive_wide t base text sign pre ds rest err : wide_signed t -> 2 <= base <= 36 ->
  number_text t base text sign pre ds rest -> pre <> [] ->
  (in_range t (signed_value base sign ds) ->
   ndrive t base GStart err 0 text 0
   = Ok ((length sign + length pre)%nat, match rest with [] => Z.lor err eofbit | _ => err end, signed_value base sign ds)) /\
  (~ in_range t (signed_value base sign ds) -> ndrive t base GStart err 0 text 0 = UB).
Proof.
  intros W B NT Hn. rewrite (ndrive_start t base text sign pre ds rest err B NT Hn).
  destruct NT as (-> & Hsg & Hs & Hr). assert (B1 : 1 <= bits t) by (destruct W; lia).
  pose proof (imax_nonneg t B1). pose proof (imin_nonpos t).
  pose proof (value_nonneg base ds ltac:(lia) (spells_digits _ _ _ Hs)).
  set (p := match sign with [] => true | _ => false end).
  replace 0 with (acc p 0) at 1 2 by (destruct p; reflexivity).
  rewrite (ndrive_wide t base p pre ds rest) by
    (try assumption; try lia; destruct p; cbn [in_limit]; apply Z.leb_le; lia).
  fold (value_of base ds). unfold p, signed_value, in_range.
  destruct Hsg as [[-> E]|[-> E]]; cbn [in_limit acc].
  - destruct (Z.leb_spec (imin t) (- value_of base ds)); split; try lia; reflexivity.
  - destruct (Z.leb_spec (value_of base ds) (imax t)); split; try lia; reflexivity.
Qed.

Lemma drive_fits t base text sign pre ds rest err : std_ity t -> 2 <= base <= 36 ->
  number_text t base text sign pre ds rest -> pre <> [] -> in_range t (signed_value base sign ds) ->
  ndrive t base GStart err 0 text 0
  = Ok ((length sign + length pre)%nat, match rest with [] => Z.lor err eofbit | _ => err end, signed_value base sign ds).
Proof.
  intros S B NT Hn I. destruct (wide_dec t) as [W|W].
  - apply (drive_wide t base text sign pre ds rest err W B NT Hn). assumption.
  - rewrite (drive_wraps t base text sign pre ds rest err) by assumption. rewrite wrap_id; auto using std_bits.
Qed.

Lemma ndrive_none t base text ds rest err : 2 <= base <= 36 ->
  number_text t base text [] [] ds rest -> rest <> [] ->
  ndrive t base GStart err 0 text 0 = Ok (0%nat, Z.lor err failbit, 0).
Proof.
  intros Hb (-> & Hsg & _ & Hr) Hn. cbn [app] in *. destruct Hsg as [[? _]|[_ Sg]]; [discriminate|].
  destruct rest as [|c rest]; [congruence|]. cbn [ndrive nget1].
  replace (sgn t && (c =? 45)) with false.
  - unfold nnominal. replace (from_char base c) with (@None Z); [reflexivity|].
    symmetry. apply from_char_none; assumption.
  - destruct (sgn t); [|reflexivity]. destruct (Z.eqb_spec c 45) as [->|]; [|reflexivity].
    exfalso. apply (Sg eq_refl). reflexivity.
Qed.

(* ---- over streams ---- *)

Lemma nsdrive_at tr t base data : plain tr data -> forall text fuel k st err v n,
  (k < length data)%nat -> skipn k data = text -> (length text <= fuel)%nat ->
  match ndrive t base st err v text n with
  | Ok (m, err', v') => (n <= m)%nat /\
      nsdrive fuel tr t base st err v (at_pos data k) = Ok (at_pos data (k + (m - n)), err', v')
  | UB => nsdrive fuel tr t base st err v (at_pos data k) = UB
  | Diverge => True
  end.
Proof.
  intros P text. induction text as [|c text IH]; intros fuel k st err v n Hk Hs Hf.
  - apply (f_equal (@length Z)) in Hs. rewrite skipn_length in Hs. cbn in Hs. lia.
  - destruct fuel as [|fuel]; [cbn in Hf; lia|]. cbn [nsdrive ndrive].
    assert (Ec : nth_error data k = Some c).
    { replace k with (k + 0)%nat by lia. rewrite <- nth_error_skipn, Hs. reflexivity. }
    rewrite sgetc_at by (try assumption; lia). rewrite Ec. cbn [bind answer].
    destruct (plain_nth _ _ _ _ P Ec) as (Hc & _ & _ & _). rewrite to_char_code by assumption.
    destruct (nget1 t base st err v c) as [[dn st1 err1 v1]| |]; cbn [bind gdone gst gerr gval]; auto.
    destruct dn.
    + split; [lia|]. do 4 f_equal. lia.
    + rewrite isbi_next_at by assumption. cbn [bind].
      assert (Hs' : skipn (k + 1) data = text).
      { pose proof (skipn_nth data k c Ec) as H. rewrite Hs in H. rewrite Nat.add_1_r. congruence. }
      assert (Hl : length text = (length data - (k + 1))%nat) by (rewrite <- Hs'; apply skipn_length).
      destruct (Nat.ltb_spec (k + 1) (length data)); cbn [negb].
      * specialize (IH fuel (k + 1)%nat st1 err1 v1 (S n) H Hs' ltac:(cbn in Hf; lia)).
        destruct (ndrive t base st1 err1 v1 text (S n)) as [[[m err'] v']| |]; auto.
        destruct IH as [Hm ->]. split; [lia|]. do 4 f_equal. lia.
      * assert (text = []) by (destruct text; [reflexivity|cbn in Hl; lia]). rewrite H0.
        cbn [ndrive]. split; [lia|]. do 4 f_equal. lia.
Qed.

Lemma nextract_at tr t st data base k lead text :
  plain tr data -> good st = true -> flag_base st base -> (k <= length data)%nat ->
  skipn k data = lead ++ text -> Forall space lead -> text <> [] ->
  match text with [] => True | c :: _ => ~ space c end ->
  match ndrive t base GStart 0 0 text 0 with
  | Ok (m, err', v') =>
      nextract_int tr t (at_str st data k) = Ok (Some v', at_str (setstate st err') data (k + length lead + m))
  | UB => nextract_int tr t (at_str st data k) = UB
  | Diverge => True
  end.
Proof.
  intros P Hg Hb Hk Hs Hl Hn Hh. destruct (good_state _ Hg) as [G1 G2].
  unfold nextract_int. rewrite (ws_at tr st data k lead text); auto; [|lia]. cbn [bind at_str ist isbuf].
  destruct (stream_base_ok _ _ Hb) as [-> Hb']. rewrite G1.
  assert (L : length (skipn k data) = length (lead ++ text)) by (rewrite Hs; reflexivity).
  rewrite skipn_length, app_length in L. destruct text as [|c text]; [congruence|]. cbn [length] in L.
  assert (Hs' : skipn (k + length lead) data = c :: text).
  { rewrite skipn_add, Hs. rewrite skipn_app, skipn_all2, Nat.sub_diag by lia. reflexivity. }
  pose proof (nsdrive_at tr t base data P (c :: text) (S (length (idata (at_pos data (k + length lead))))) (k + length lead)
    GStart 0 0 0 ltac:(lia) Hs' ltac:(cbn [length idata at_pos]; lia)) as D.
  destruct (ndrive t base GStart 0 0 (c :: text) 0) as [[[m err'] v']| |]; auto.
  - destruct D as [_ ->]. rewrite Nat.sub_0_r. reflexivity.
  - rewrite D. reflexivity.
Qed.

Lemma extract_fits tr t st data base k lead text sign pre ds rest :
  std_ity t -> plain tr data -> good st = true -> flag_base st base -> (k <= length data)%nat ->
  skipn k data = lead ++ text -> Forall space lead ->
  number_text t base text sign pre ds rest -> pre <> [] -> in_range t (signed_value base sign ds) ->
  nextract_int tr t (at_str st data k)
  = Ok (Some (signed_value base sign ds),
        at_str (match rest with [] => setstate st eofbit | _ => st end) data
               (k + length lead + length sign + length pre)).
Proof.
  intros S P Hg Hb Hk Hs Hl NT Hn I. destruct (stream_base_ok _ _ Hb) as [_ Hb'].
  destruct (nt_head t base text sign pre ds rest NT (or_introl Hn)) as [Ht Hh].
  pose proof (nextract_at tr t st data base k lead text P Hg Hb Hk Hs Hl Ht Hh) as D.
  rewrite (drive_fits t base text sign pre ds rest 0 S Hb' NT Hn I) in D. rewrite D.
  rewrite Nat.add_assoc. destruct rest; [reflexivity|]. rewrite setstate_0 by assumption. reflexivity.
Qed.

Lemma extract_wraps tr t st data base k lead text sign pre ds rest :
  std_ity t -> ~ wide_signed t -> plain tr data -> good st = true -> flag_base st base -> (k <= length data)%nat ->
  skipn k data = lead ++ text -> Forall space lead ->
  number_text t base text sign pre ds rest -> pre <> [] ->
  nextract_int tr t (at_str st data k)
  = Ok (Some (wrap t (signed_value base sign ds)),
        at_str (match rest with [] => setstate st eofbit | _ => st end) data
               (k + length lead + length sign + length pre)).
Proof.
  intros S W P Hg Hb Hk Hs Hl NT Hn. destruct (stream_base_ok _ _ Hb) as [_ Hb'].
  destruct (nt_head t base text sign pre ds rest NT (or_introl Hn)) as [Ht Hh].
  pose proof (nextract_at tr t st data base k lead text P Hg Hb Hk Hs Hl Ht Hh) as D.
  rewrite (drive_wraps t base text sign pre ds rest 0 S W Hb' NT Hn) in D. rewrite D.
  rewrite Nat.add_assoc. destruct rest; [reflexivity|]. rewrite setstate_0 by assumption. reflexivity.
Qed.

Lemma extract_wide tr t st data base k lead text sign pre ds rest :
  wide_signed t -> plain tr data -> good st = true -> flag_base st base -> (k <= length data)%nat ->
  skipn k data = lead ++ text -> Forall space lead ->
  number_text t base text sign pre ds rest -> pre <> [] -> ~ in_range t (signed_value base sign ds) ->
  nextract_int tr t (at_str st data k) = UB.
Proof.
  intros W P Hg Hb Hk Hs Hl NT Hn I. destruct (stream_base_ok _ _ Hb) as [_ Hb'].
  destruct (nt_head t base text sign pre ds rest NT (or_introl Hn)) as [Ht Hh].
  pose proof (nextract_at tr t st data base k lead text P Hg Hb Hk Hs Hl Ht Hh) as D.
  rewrite (proj2 (drive_wide t base text sign pre ds rest 0 W Hb' NT Hn) I) in D. exact D.
Qed.

Lemma extract_none tr t st data base k lead c text ds :
  plain tr data -> good st = true -> flag_base st base -> (k <= length data)%nat ->
  skipn k data = lead ++ c :: text -> Forall space lead ->
  number_text t base (c :: text) [] [] ds (c :: text) -> ~ space c ->
  nextract_int tr t (at_str st data k) = Ok (Some 0, at_str (setstate st failbit) data (k + length lead)).
Proof.
  intros P Hg Hb Hk Hs Hl NT Hc. destruct (stream_base_ok _ _ Hb) as [_ Hb'].
  pose proof (nextract_at tr t st data base k lead (c :: text) P Hg Hb Hk Hs Hl ltac:(discriminate) Hc) as D.
  rewrite (ndrive_none t base (c :: text) ds (c :: text) 0 Hb' NT ltac:(discriminate)) in D. rewrite D.
  rewrite Nat.add_0_r. reflexivity.
Qed.

(* numbers that do not fit: failbit stays off *)
Lemma extract_over tr t st data base k lead text sign pre ds rest :
  std_ity t -> plain tr data -> good st = true -> flag_base st base -> (k <= length data)%nat ->
  skipn k data = lead ++ text -> Forall space lead ->
  number_text t base text sign pre ds rest -> pre <> [] -> ~ in_range t (signed_value base sign ds) ->
  (~ wide_signed t -> exists v s', nextract_int tr t (at_str st data k) = Ok (Some v, s') /\
     Z.testbit (rdstate (ist s')) 1 = false) /\
  (wide_signed t -> nextract_int tr t (at_str st data k) = UB).
Proof.
  intros S P Hg Hb Hk Hs Hl NT Hn I. split; intros W; [|eapply extract_wide; eassumption].
  do 2 eexists. split; [eapply extract_wraps; eassumption|]. cbn [ist at_str].
  destruct (good_state _ Hg) as [G1 _]. destruct rest.
  - rewrite setstate_good by (assumption || (change eofbit with 4; lia) || (change eofbit with 2; lia)). reflexivity.
  - rewrite G1. reflexivity.
Qed.
