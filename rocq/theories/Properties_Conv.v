(* C273-C287: internal/string_convert, internal/utility.cpp.  c_string s rest is the text s in memory, its
   NUL and whatever follows; w is the width of long. *)
From Coq Require Import List ZArith Bool Lia.
From Verif Require Import Base MachInt Charconv_Spec Charconv_Model Charconv_Proofs Conv_Spec Conv_Model Conv_Proofs.
Import ListNotations.
Local Open Scope Z_scope.

(* C273 *)
Theorem C273_number : forall w s v rest, 16 <= w -> begins_with s v ->
  (in_range (Ity 32 true) v -> from_string_int (c_string s rest) = Ok v) /\
  (in_range (Ity 8 false) v -> from_string_uchar (c_string s rest) = Ok v) /\
  (in_range (Ity w false) v -> from_string_ulong w (c_string s rest) = Ok v) /\
  (in_range (Ity 16 false) v -> from_string_ushort w (c_string s rest) = Ok v).
Proof.
  intros w s v rest W B. split; [|split; [|split]]; intros R.
  - unfold from_string_int. rewrite (atoi_begins s v) by assumption. apply fits_iff in R. rewrite R. reflexivity.
  - unfold from_string_uchar. rewrite (atoi_begins s v) by assumption.
    assert (F : fits (Ity 32 true) v = true).
    { apply fits_iff. unfold in_range, imin, imax in *. cbn [sgn bits] in *. lia. }
    rewrite F. cbn [bind]. rewrite wrap_id; [reflexivity|cbn; lia|exact R].
  - destruct (strtoul_begins w s v rest B ltac:(lia)) as (n & _ & E). unfold from_string_ulong. rewrite E.
    unfold in_range, imin, imax in *. cbn [sgn bits] in *.
    assert (L : (Z.abs v <=? 2 ^ w - 1) = true) by (apply Z.leb_le; lia). rewrite L. cbn [bind].
    rewrite wrapu_id by lia. reflexivity.
  - destruct (strtoul_begins w s v rest B ltac:(lia)) as (n & _ & E). unfold from_string_ushort. rewrite E.
    unfold in_range, imin, imax in *. cbn [sgn bits] in *.
    assert (P : 2 ^ 16 <= 2 ^ w) by (apply Z.pow_le_mono_r; lia).
    assert (L : (Z.abs v <=? 2 ^ w - 1) = true) by (apply Z.leb_le; lia). rewrite L. cbn [bind].
    rewrite wrapu_id by lia. unfold wrap. cbn [sgn bits]. rewrite wrapu_id by lia. reflexivity.
Qed.
Print Assumptions C273_number.
Theorem C273_no_number : forall w s rest, begins_with_none s ->
  from_string_int (c_string s rest) = Ok 0 /\ from_string_uchar (c_string s rest) = Ok 0 /\
  from_string_ulong w (c_string s rest) = Ok 0 /\ from_string_ushort w (c_string s rest) = Ok 0.
Proof.
  intros w s rest B. pose proof (subject_begins_none s rest B) as E.
  unfold from_string_int, from_string_uchar, from_string_ulong, from_string_ushort, c_atoi, c_strtoul.
  rewrite E. repeat split.
Qed.
Print Assumptions C273_no_number.
(* " -42x" *)
Example C273_case : begins_with [32; 45; 52; 50; 120] (-42) /\ begins_with_none [120; 49] /\
  from_string_int (c_string [32; 45; 52; 50; 120] []) = Ok (-42).
Proof.
  split; [|split].
  - exists [32], true, [45], [52; 50], [4; 2], [120]. split; [reflexivity|].
    split; [constructor; [left; reflexivity|constructor]|]. split; [reflexivity|].
    split; [repeat constructor|]. split; [discriminate|]. split; [|reflexivity].
    intros d [D L]. vm_compute in D. injection D as <-. lia.
  - exists [], false, [], [120; 49]. split; [reflexivity|]. split; [constructor|]. split; [left; reflexivity|].
    split; [intros d [D L]; vm_compute in D; injection D as <-; lia|].
    intros c r E. injection E as <- <-. unfold blank. lia.
  - vm_compute. reflexivity.
Qed.

(* C274 *)
Theorem C274_accepts_digits : forall s rest, ascii s ->
  (validate_int (c_string s rest) = Ok Accept <-> all_digits s) /\
  (validate_int (c_string s rest) = Ok BadFormat <-> ~ all_digits s) /\
  validate_uchar (c_string s rest) = validate_int (c_string s rest).
Proof.
  intros s rest A. split; [|split; [|reflexivity]].
  - split; [|apply validate_int_digits]. intros V.
    destruct s as [|c s]; [discriminate|].
    destruct (Forall_dec (fun c => 48 <= c <= 57)) with (l := c :: s) as [F|F].
    + intros x. destruct (Z_le_gt_dec 48 x); [destruct (Z_le_gt_dec x 57)|]; [left|right|right]; lia.
    + split; [discriminate|exact F].
    + rewrite validate_int_other in V; [discriminate|exact A|intros [_ H]; contradiction].
  - split; [|apply validate_int_other; exact A]. intros V D. rewrite validate_int_digits in V by exact D. discriminate.
Qed.
Print Assumptions C274_accepts_digits.
Theorem C274_then_converts : forall s rest, ascii s -> validate_int (c_string s rest) = Ok Accept ->
  (number_of s < 2 ^ 31 -> from_string_int (c_string s rest) = Ok (number_of s)) /\
  (number_of s < 2 ^ 8 -> from_string_uchar (c_string s rest) = Ok (number_of s)).
Proof.
  intros s rest A V. apply (C274_accepts_digits s rest A) in V.
  pose proof (number_nonneg s (proj2 V)) as N.
  destruct (C273_number 64 s (number_of s) rest ltac:(lia) (digits_begin s V)) as (H1 & H2 & _).
  split; intros L; [apply H1|apply H2]; unfold in_range, imin, imax; cbn [sgn bits]; lia.
Qed.
Print Assumptions C274_then_converts.
(* "120" and "12a" *)
Example C274_case : ascii [49; 50; 48] /\ validate_int (c_string [49; 50; 48] []) = Ok Accept /\
  number_of [49; 50; 48] = 120 /\ validate_int (c_string [49; 50; 97] []) = Ok BadFormat.
Proof. split; [repeat constructor; discriminate|]. vm_compute. repeat split. Qed.

(* C275 *)
Theorem C275_one_character : forall s rest, text s ->
  (validate_char (c_string s rest) = Ok Accept <-> (length s <= 1)%nat) /\
  (forall c, s = [c] -> from_string_char (c_string s rest) = Ok c).
Proof.
  intros s rest T. split.
  - unfold validate_char. rewrite strlen_spec.
    + cbn [bind]. destruct (1 <? length s)%nat eqn:E.
      * apply Nat.ltb_lt in E. split; [discriminate|lia].
      * apply Nat.ltb_ge in E. split; [intros _; exact E|reflexivity].
    + eapply Forall_impl; [|exact T]. intros a [_ H]. exact H.
  - intros c ->. reflexivity.
Qed.
Print Assumptions C275_one_character.
Example C275_case : validate_char (c_string [65; 66] []) = Ok TooLong /\ from_string_char (c_string [65] []) = Ok 65.
Proof. split; reflexivity. Qed.

(* C276 *)
Theorem C276_too_big_int_refuted : forall s rest, all_digits s -> 2 ^ 31 <= number_of s ->
  validate_int (c_string s rest) = Ok Accept /\ from_string_int (c_string s rest) = UB.
Proof.
  intros s rest D L. split; [apply validate_int_digits; exact D|].
  unfold from_string_int. rewrite (atoi_begins s (number_of s)) by (apply digits_begin; exact D).
  destruct (fits (Ity 32 true) (number_of s)) eqn:F; [|reflexivity].
  apply fits_iff in F. unfold in_range, imax in F. cbn [sgn bits] in F. lia.
Qed.
Print Assumptions C276_too_big_int_refuted.
Theorem C276_too_big_byte_refuted : forall s rest, all_digits s -> 2 ^ 8 <= number_of s < 2 ^ 31 ->
  validate_uchar (c_string s rest) = Ok Accept /\
  exists v, from_string_uchar (c_string s rest) = Ok v /\ v < 2 ^ 8 <= number_of s.
Proof.
  intros s rest D L. split; [apply validate_int_digits; exact D|].
  unfold from_string_uchar. rewrite (atoi_begins s (number_of s)) by (apply digits_begin; exact D).
  assert (F : fits (Ity 32 true) (number_of s) = true).
  { apply fits_iff. unfold in_range, imin, imax. cbn [sgn bits]. lia. }
  rewrite F. cbn [bind]. eexists. split; [reflexivity|]. split; [|lia].
  unfold wrap, wrapu. cbn [sgn bits]. apply Z.mod_pos_bound. lia.
Qed.
Print Assumptions C276_too_big_byte_refuted.
(* "3000000000" and "300" *)
Example C276_case : all_digits [51; 48; 48; 48; 48; 48; 48; 48; 48; 48] /\
  number_of [51; 48; 48; 48; 48; 48; 48; 48; 48; 48] = 3000000000 /\
  from_string_uchar (c_string [51; 48; 48] []) = Ok 44.
Proof. split; [split; [discriminate|repeat constructor; discriminate]|]. vm_compute. split; reflexivity. Qed.

(* C277 *)
Theorem C277_negative_refuted : forall s rest, all_digits s -> 0 < number_of s <= 2 ^ 31 ->
  from_string_int (c_string (45 :: s) rest) = Ok (- number_of s) /\
  validate_int (c_string (45 :: s) rest) = Ok BadFormat.
Proof.
  intros s rest D L. split.
  - destruct (C273_number 64 (45 :: s) (- number_of s) rest ltac:(lia) (minus_begins s D)) as (H & _).
    apply H. unfold in_range, imin, imax. cbn [sgn bits]. lia.
  - unfold c_string. cbn [app]. apply validate_int_bad; lia.
Qed.
Print Assumptions C277_negative_refuted.
Example C277_case : all_digits [53] /\ number_of [53] = 5 /\ validate_int (c_string [45; 53] []) = Ok BadFormat.
Proof. split; [split; [discriminate|repeat constructor; discriminate]|split; reflexivity]. Qed.

(* C278 *)
Theorem C278_rest_ignored_refuted : forall w d s rest, 16 <= w -> 48 <= d <= 57 ->
  validate_ushort w (c_string (d :: s) rest) = Ok Accept.
Proof.
  intros w d s rest W D. destruct (split_run (d :: s)) as (ds & tail & E & F & T).
  assert (B : exists v, begins_with (d :: s) v).
  { exists (number_of ds), [], false, [], ds, (map (fun c => c - 48) ds), tail.
    split; [exact E|]. split; [constructor|]. split; [left; reflexivity|]. split; [apply digits_spell; exact F|].
    split. { destruct ds; [|discriminate]. cbn [app] in E. subst tail. lia. }
    split; [|reflexivity]. destruct tail as [|c t]; [exact I|].
    intros k [K L]. apply T. unfold digit_value in K.
    destruct ((48 <=? c) && (c <=? 57)) eqn:E1.
    { apply andb_prop in E1. destruct E1 as [A1 A2]. apply Z.leb_le in A1, A2. lia. }
    destruct ((65 <=? c) && (c <=? 90)) eqn:E2.
    { injection K as <-. apply andb_prop in E2. destruct E2 as [A1 A2]. apply Z.leb_le in A1, A2. lia. }
    destruct ((97 <=? c) && (c <=? 122)) eqn:E3; [|discriminate].
    injection K as <-. apply andb_prop in E3. destruct E3 as [A1 A2]. apply Z.leb_le in A1, A2. lia. }
  destruct B as (v & B). destruct (strtoul_begins w (d :: s) v rest B ltac:(lia)) as (n & L & E').
  unfold validate_ushort. rewrite E'. cbn [bind]. assert (N : (n =? 0)%nat = false) by (apply Nat.eqb_neq; lia).
  rewrite N. reflexivity.
Qed.
Print Assumptions C278_rest_ignored_refuted.
Theorem C278_negative_refuted : forall w s rest, 16 <= w -> all_digits s -> 0 < number_of s < 2 ^ 16 ->
  validate_ushort w (c_string (45 :: s) rest) = Ok Accept /\
  from_string_ushort w (c_string (45 :: s) rest) = Ok (2 ^ 16 - number_of s).
Proof.
  intros w s rest W D L. destruct (strtoul_begins w _ _ rest (minus_begins s D) ltac:(lia)) as (n & P & E).
  assert (K : 2 ^ 16 <= 2 ^ w) by (apply Z.pow_le_mono_r; lia).
  unfold imax in E. cbn [sgn bits] in E.
  assert (A : (Z.abs (- number_of s) <=? 2 ^ w - 1) = true) by (apply Z.leb_le; lia). rewrite A in E.
  unfold validate_ushort, from_string_ushort. rewrite E. cbn [bind]. split.
  - assert (N : (n =? 0)%nat = false) by (apply Nat.eqb_neq; lia). rewrite N. reflexivity.
  - unfold wrap. cbn [sgn bits]. f_equal. unfold wrapu.
    replace (2 ^ w) with (2 ^ 16 * 2 ^ (w - 16)) by (rewrite <- Z.pow_add_r by lia; f_equal; lia).
    rewrite Z.rem_mul_r by lia || (apply Z.pow_nonzero; lia) || (apply Z.pow_pos_nonneg; lia).
    rewrite (Z.mul_comm (2 ^ 16)), Z.add_mod_idemp_l by lia || idtac.
    rewrite Z_mod_plus_full.
    replace (- number_of s) with (2 ^ 16 - number_of s + (-1) * 2 ^ 16) by lia.
    rewrite Z_mod_plus_full. apply Z.mod_small. lia.
Qed.
Print Assumptions C278_negative_refuted.
Theorem C278_too_big_refuted : forall w s rest, 17 <= w -> all_digits s -> 2 ^ 16 <= number_of s < 2 ^ w ->
  validate_ushort w (c_string s rest) = Ok Accept /\
  from_string_ushort w (c_string s rest) = Ok (number_of s mod 2 ^ 16).
Proof.
  intros w s rest W D L. destruct (strtoul_begins w _ _ rest (digits_begin s D) ltac:(lia)) as (n & P & E).
  unfold imax in E. cbn [sgn bits] in E.
  assert (A : (Z.abs (number_of s) <=? 2 ^ w - 1) = true) by (apply Z.leb_le; lia). rewrite A in E.
  rewrite wrapu_id in E by lia. unfold validate_ushort, from_string_ushort. rewrite E. cbn [bind]. split.
  - assert (N : (n =? 0)%nat = false) by (apply Nat.eqb_neq; lia). rewrite N. reflexivity.
  - reflexivity.
Qed.
Print Assumptions C278_too_big_refuted.
(* "12abc", "-1" and "70000" *)
Example C278_case : validate_ushort 64 (c_string [49; 50; 97; 98; 99] []) = Ok Accept /\
  from_string_ushort 64 (c_string [45; 49] []) = Ok 65535 /\
  from_string_ushort 32 (c_string [55; 48; 48; 48; 48] []) = Ok 4464.
Proof. vm_compute. repeat split. Qed.

(* C279 *)
Theorem C279_undefined_refuted : forall ds c s rest, Forall (fun c => 48 <= c <= 57) ds -> c < -1 ->
  validate_int (c_string (ds ++ c :: s) rest) = UB.
Proof.
  intros ds c s rest F H. unfold c_string. rewrite <- app_assoc. cbn [app]. apply validate_int_negative; assumption.
Qed.
Print Assumptions C279_undefined_refuted.
(* "1" followed by a byte of a non-ASCII letter *)
Example C279_case : validate_int (c_string [49; -61; -92] []) = UB.
Proof. reflexivity. Qed.

(* C280 *)
Theorem C280_number : forall w base sg neg pre ds tail rest, 2 <= base <= 36 ->
  (sg = [] /\ neg = false \/ sg = [45] /\ neg = true) -> spells base pre ds -> ds <> [] ->
  no_digit_head base tail -> no_hex base pre tail ->
  let s := sg ++ pre ++ tail in let v := if neg then - value_of base ds else value_of base ds in
  (in_range (Ity w true) v ->
     legacy_from_chars w (c_string s rest) (length s) base = Ok (LfcR (length (sg ++ pre)) NoErr v)) /\
  (~ in_range (Ity w true) v ->
     exists r, legacy_from_chars w (c_string s rest) (length s) base = Ok r /\
       lptr r = length (sg ++ pre) /\ lec r = ResultOutOfRange).
Proof.
  intros w base sg neg pre ds tail rest B G P NE N X s v.
  destruct (tail_in_memory tail rest base N) as (c & r & E & N' & H0 & H1).
  assert (S : sign_text neg sg) by (destruct G as [[-> ->]|[-> ->]]; [left|]; reflexivity).
  assert (X' : no_hex base pre (c :: r)).
  { intros Hb Hp c1 r1 E1. injection E1 as <- <-. destruct tail as [|c0 t].
    - rewrite (H0 eq_refl). lia.
    - rewrite (H1 c0 t eq_refl). apply (X Hb Hp c0 t eq_refl). }
  assert (M : c_string s rest = [] ++ sg ++ pre ++ c :: r).
  { unfold c_string, s. cbn [app]. rewrite <- !app_assoc, E. reflexivity. }
  pose proof (legacy_number w _ (length s) base [] neg sg pre ds c r M (Forall_nil _) S P NE N' X') as L.
  cbn zeta in L. fold v in L. cbn [length] in L. rewrite app_length. cbn [Nat.add] in L. split; intros R.
  - apply fits_iff in R. rewrite R in L. exact L.
  - assert (F : fits (Ity w true) v = false).
    { destruct (fits (Ity w true) v) eqn:K; [|reflexivity]. apply fits_iff in K. contradiction. }
    rewrite F in L. eexists. split; [exact L|split; reflexivity].
Qed.
Print Assumptions C280_number.
Theorem C280_no_number : forall w base tail rest, 2 <= base <= 36 -> no_digit_head base tail ->
  (forall c r, tail = c :: r -> ~ blank c /\ c <> 43 /\ c <> 45) ->
  (exists v, legacy_from_chars w (c_string tail rest) (length tail) base = Ok (LfcR 0 InvalidArgument v)) /\
  (exists v, legacy_from_chars w (c_string (45 :: tail) rest) (length (45 :: tail)) base =
     Ok (LfcR 0 InvalidArgument v)).
Proof.
  intros w base tail rest B N H. destruct (tail_in_memory tail rest base N) as (c & r & E & N' & H0 & H1).
  assert (C : ~ blank c /\ c <> 43 /\ c <> 45).
  { destruct tail as [|c0 t]; [rewrite (H0 eq_refl); unfold blank; lia|].
    rewrite (H1 c0 t eq_refl). apply (H c0 t eq_refl). }
  destruct C as (C1 & C2 & C3). split; exists 0.
  - unfold c_string. rewrite E.
    exact (legacy_none w _ _ base [] false [] c r eq_refl (Forall_nil _) (or_introl eq_refl) N' (ltac:(lia)) C1 (fun _ => conj C3 C2)).
  - unfold c_string. cbn [app]. rewrite E.
    exact (legacy_none w _ _ base [] true [45] c r eq_refl (Forall_nil _) eq_refl N' (ltac:(lia)) C1 (fun K => ltac:(discriminate K))).
Qed.
Print Assumptions C280_no_number.
(* "-17," *)
Example C280_case : legacy_from_chars 64 (c_string [45; 49; 55; 44] []) 4 10 = Ok (LfcR 3 NoErr (-17)) /\
  spells 10 [49; 55] [1; 7] /\ no_digit_head 10 [44] /\ no_hex 10 [49; 55] [44].
Proof.
  split; [reflexivity|]. split; [repeat constructor|]. split; [|apply no_hex_10].
  intros d [D L]. vm_compute in D. discriminate.
Qed.

(* C281 *)
Theorem C281_past_the_end_refuted : forall w base pre ds more ds' c rest, 2 <= base <= 36 ->
  spells base pre ds -> spells base more ds' -> ds <> [] -> ds' <> [] -> no_digit_head base (c :: rest) ->
  no_hex base (pre ++ more) (c :: rest) ->
  exists r, legacy_from_chars w (pre ++ more ++ c :: rest) (length pre) base = Ok r /\
    lptr r = (length pre + length more)%nat /\ (length pre < lptr r)%nat.
Proof.
  intros w base pre ds more ds' c rest B P P' NE NE' N X.
  assert (S : spells base (pre ++ more) (ds ++ ds')) by (apply Forall2_app; assumption).
  assert (M : pre ++ more ++ c :: rest = [] ++ [] ++ (pre ++ more) ++ c :: rest) by (cbn [app]; rewrite <- app_assoc; reflexivity).
  pose proof (legacy_number w _ (length pre) base [] false [] (pre ++ more) (ds ++ ds') c rest M (Forall_nil _)
    (or_introl eq_refl) S) as L.
  rewrite L by (assumption || (intros K; apply app_eq_nil in K; tauto)).
  eexists. split; [reflexivity|]. cbn [lptr length Nat.add]. rewrite app_length. split; [reflexivity|].
  destruct more; [inversion P'; subst; congruence|cbn [length]; lia].
Qed.
Print Assumptions C281_past_the_end_refuted.
Theorem C281_array_of_digits_refuted : forall w base pre ds, spells base pre ds ->
  legacy_from_chars w pre (length pre) base = UB.
Proof.
  intros w base pre ds P.
  assert (X : forall x r, pre = 48 :: x :: r -> base = 16 -> x <> 120 /\ x <> 88).
  { intros x r -> B. inversion P as [|? d0 ? l0 _ S2]; subst. inversion S2 as [|? d1 ? l1 D1 _]; subst.
    split; intros ->; eapply x_no_digit; eauto. }
  unfold legacy_from_chars, c_strtol, subject.
  assert (D : forall q ds v n, spells base q ds -> take_digits base q v n = UB).
  { induction q as [|x q IH]; intros l v n Q; [reflexivity|]. inversion Q as [|? d ? l' D Q']; subst.
    destruct D as [D L]. cbn [take_digits]. rewrite D. apply Z.ltb_lt in L. rewrite L. eapply IH; eauto. }
  destruct pre as [|x pre]; [reflexivity|].
  inversion P as [|? d ? l Dx P']; subst. destruct Dx as [Dx Lx]. pose proof (digit_char_code _ _ Dx) as C.
  cbn [skip_blanks]. rewrite isspace_false by (unfold blank; lia). cbn [bind take_sign].
  assert (E1 : (x =? 45) = false) by (apply Z.eqb_neq; lia). assert (E2 : (x =? 43) = false) by (apply Z.eqb_neq; lia).
  rewrite E1, E2. cbn [bind].
  assert (T : take_prefix base (x :: pre) = (0%nat, x :: pre)).
  { unfold take_prefix. destruct (Z.eq_dec x 48) as [->|NX].
    - destruct pre as [|y [|z pre]]; try reflexivity.
      destruct (Z.eqb_spec base 16) as [B|B]; [|reflexivity].
      destruct (X y (z :: pre) eq_refl B) as [A1 A2]. apply Z.eqb_neq in A1, A2. rewrite A1, A2. reflexivity.
    - destruct x as [|p|p]; try reflexivity. do 6 (destruct p; try reflexivity; try congruence). }
  rewrite T. rewrite (D _ (d :: l)) by (constructor; [split; assumption|assumption]). reflexivity.
Qed.
Print Assumptions C281_array_of_digits_refuted.
(* "12" of "1234"; an array of two digits *)
Example C281_case : legacy_from_chars 64 [49; 50; 51; 52; 0] 2 10 = Ok (LfcR 4 NoErr 1234) /\
  legacy_from_chars 64 [49; 50] 2 10 = UB.
Proof. split; reflexivity. Qed.

(* C282 *)
Theorem C282_blank_refuted : forall w base b pre ds rest, 2 <= base <= 36 -> blank b -> spells base pre ds ->
  ds <> [] -> in_range (Ity w true) (value_of base ds) ->
  legacy_from_chars w (c_string (b :: pre) rest) (length (b :: pre)) base =
    Ok (LfcR (length (b :: pre)) NoErr (value_of base ds)).
Proof.
  intros w base b pre ds rest B K P NE R. apply fits_iff in R.
  assert (N : no_digit_head base (0 :: rest)) by (intros d [D _]; vm_compute in D; discriminate).
  assert (X : no_hex base pre (0 :: rest)) by (intros _ _ c r E; injection E as <- _; lia).
  unfold c_string.
  pose proof (legacy_number w _ (length (b :: pre)) base [b] false [] pre ds 0 rest eq_refl
    (Forall_cons _ K (Forall_nil _)) (or_introl eq_refl) P NE N X) as L.
  cbv beta iota zeta in L. rewrite R in L. exact L.
Qed.
Print Assumptions C282_blank_refuted.
Theorem C282_plus_refuted : forall w base pre ds rest, 2 <= base <= 36 -> spells base pre ds ->
  ds <> [] -> in_range (Ity w true) (value_of base ds) ->
  legacy_from_chars w (c_string (43 :: pre) rest) (length (43 :: pre)) base =
    Ok (LfcR (length (43 :: pre)) NoErr (value_of base ds)).
Proof.
  intros w base pre ds rest B P NE R. apply fits_iff in R.
  assert (N : no_digit_head base (0 :: rest)) by (intros d [D _]; vm_compute in D; discriminate).
  assert (X : no_hex base pre (0 :: rest)) by (intros _ _ c r E; injection E as <- _; lia).
  unfold c_string.
  pose proof (legacy_number w _ (length (43 :: pre)) base [] false [43] pre ds 0 rest eq_refl
    (Forall_nil _) (or_intror eq_refl) P NE N X) as L.
  cbv beta iota zeta in L. rewrite R in L. exact L.
Qed.
Print Assumptions C282_plus_refuted.
Theorem C282_hex_refuted : forall w pre ds rest, spells 16 pre ds -> ds <> [] ->
  in_range (Ity w true) (value_of 16 ds) ->
  legacy_from_chars w (c_string (48 :: 120 :: pre) rest) (length (48 :: 120 :: pre)) 16 =
    Ok (LfcR (length (48 :: 120 :: pre)) NoErr (value_of 16 ds)).
Proof.
  intros w pre ds rest P NE R. apply fits_iff in R.
  assert (N : no_digit_head 16 (0 :: rest)) by (intros d [D _]; vm_compute in D; discriminate).
  pose proof (take_digits_spec 16 pre ds 0 rest 0 0 P N) as T.
  unfold legacy_from_chars, c_strtol, subject, c_string. cbn [app skip_blanks c_isspace].
  change (c_isspace 48) with false. cbn [bind take_sign]. change (48 =? 45) with false. change (48 =? 43) with false.
  cbn [bind]. destruct pre as [|x pre]; [inversion P; subst; congruence|]. cbn [app take_prefix].
  inversion P as [|? d ? l D P']; subst. destruct D as [D L]. rewrite D. apply Z.ltb_lt in L. rewrite L.
  cbn [Z.eqb Pos.eqb orb andb]. cbn [app] in T. rewrite T. cbn [bind Nat.add length Nat.eqb]. unfold value_of in R |- *. rewrite R.
  reflexivity.
Qed.
Print Assumptions C282_hex_refuted.
(* "+5", and "0x1f" in base 16 *)
Example C282_case : legacy_from_chars 64 (c_string [43; 53] []) 2 10 = Ok (LfcR 2 NoErr 5) /\
  legacy_from_chars 64 (c_string [48; 120; 49; 102] []) 4 16 = Ok (LfcR 4 NoErr 31).
Proof. split; reflexivity. Qed.

(* C283 *)
Theorem C283_no_number_refuted : forall w base old rest, 2 <= base <= 36 -> old <> 0 ->
  exists r, legacy_from_chars w (c_string [] rest) 0 base = Ok r /\ lec r = InvalidArgument /\ lval r <> old.
Proof.
  intros w base old rest B O. eexists. split.
  - unfold c_string. cbn [app].
    refine (legacy_none w _ _ base [] false [] 0 rest eq_refl (Forall_nil _) (or_introl eq_refl) _ (ltac:(lia)) _ _).
    + intros d [D _]. vm_compute in D. discriminate.
    + unfold blank. lia.
    + intros _. lia.
  - split; [reflexivity|]. cbn [lval]. congruence.
Qed.
Print Assumptions C283_no_number_refuted.
Theorem C283_too_big_refuted : forall w base pre ds old rest, 2 <= base <= 36 -> spells base pre ds -> ds <> [] ->
  2 <= w -> imax (Ity w true) < value_of base ds -> old <> imax (Ity w true) ->
  exists r, legacy_from_chars w (c_string pre rest) (length pre) base = Ok r /\
    lec r = ResultOutOfRange /\ lval r = imax (Ity w true) /\ lval r <> old.
Proof.
  intros w base pre ds old rest B P NE W G O.
  assert (N : no_digit_head base (0 :: rest)) by (intros d [D _]; vm_compute in D; discriminate).
  assert (X : no_hex base pre (0 :: rest)) by (intros _ _ c r E; injection E as <- _; lia).
  pose proof (legacy_number w _ (length pre) base [] false [] pre ds 0 rest eq_refl
    (Forall_nil _) (or_introl eq_refl) P NE N X) as L. cbv beta iota zeta in L.
  assert (F : fits (Ity w true) (value_of base ds) = false).
  { destruct (fits (Ity w true) (value_of base ds)) eqn:K; [|reflexivity]. apply fits_iff in K.
    unfold in_range in K. lia. }
  rewrite F in L. eexists. split; [exact L|]. cbn [lec lval]. repeat split. congruence.
Qed.
Print Assumptions C283_too_big_refuted.
(* "99999" into 16 bits *)
Example C283_case : legacy_from_chars 16 (c_string [57; 57; 57; 57; 57] []) 5 10 = Ok (LfcR 5 ResultOutOfRange 32767) /\
  legacy_from_chars 16 (c_string [] []) 0 10 = Ok (LfcR 0 InvalidArgument 0).
Proof. split; reflexivity. Qed.

(* C284: int8_t to uint64_t, whichever types these are.  The types of 32 and 64 bits are what the
   platform calls int32_t, uint32_t, int64_t and uint64_t; each has the width and sign of its name. *)
Theorem C284_named_types : forall pl,
  (exists! t, is_i32 pl t = true) /\ (exists! t, is_u32 pl t = true) /\
  (exists! t, is_i64 pl t = true) /\ (exists! t, is_u64 pl t = true) /\
  forall t, (is_i32 pl t = true -> repr pl t = Ity 32 true) /\ (is_u32 pl t = true -> repr pl t = Ity 32 false) /\
            (is_i64 pl t = true -> repr pl t = Ity 64 true) /\ (is_u64 pl t = true -> repr pl t = Ity 64 false).
Proof.
  intros pl.
  assert (U : forall (f : ctype -> bool) t0, f t0 = true -> (forall t, f t = true -> t0 = t) -> exists! t, f t = true)
    by (intros f t0 A B; exists t0; split; assumption).
  repeat split; try (destruct pl, t; cbn; congruence).
  - apply (U _ (match pl with ILP32_newlib | ARM32_newlib => TLong | _ => TInt end)); [destruct pl; reflexivity|destruct pl, t; cbn; congruence].
  - apply (U _ (match pl with ILP32_newlib | ARM32_newlib => TUlong | _ => TUint end)); [destruct pl; reflexivity|destruct pl, t; cbn; congruence].
  - apply (U _ (match pl with LP64 => TLong | _ => TLlong end)); [destruct pl; reflexivity|destruct pl, t; cbn; congruence].
  - apply (U _ (match pl with LP64 => TUlong | _ => TUllong end)); [destruct pl; reflexivity|destruct pl, t; cbn; congruence].
Qed.
Print Assumptions C284_named_types.
Definition exact_width (pl : platform) (t : ctype) : Prop :=
  t = TSchar \/ t = TUchar \/ t = TShort \/ t = TUshort \/
  is_i32 pl t = true \/ is_u32 pl t = true \/ is_i64 pl t = true \/ is_u64 pl t = true.
Theorem C284_enough : forall pl t v, pl <> ARM32_newlib -> exact_width pl t -> in_range (repr pl t) v ->
  numeral_fits v (max_string_length pl t).
Proof.
  intros pl t v A T R. unfold in_range, imin, imax in R.
  assert (H : match sgn (repr pl t) with
    | true => exists k, max_string_length pl t = S k /\ (0 < k)%nat /\ 2 ^ (bits (repr pl t) - 1) < 10 ^ Z.of_nat k
    | false => (0 < max_string_length pl t)%nat /\ 2 ^ bits (repr pl t) <= 10 ^ Z.of_nat (max_string_length pl t)
    end).
  { unfold exact_width in T. destruct pl, t; cbn [repr sgn bits max_string_length is_i32 is_u32 is_i64 is_u64 is_arm negb andb] in *;
      try (exfalso; intuition congruence);
      first [ split; [apply Nat.ltb_lt; reflexivity|vm_compute; discriminate]
            | eexists; split; [reflexivity|]; split; [apply Nat.ltb_lt; reflexivity|vm_compute; reflexivity] ]. }
  destruct (sgn (repr pl t)).
  - destruct H as (k & -> & K & P). apply numeral_length_both; [lia|exact K].
  - destruct H as (K & P). apply numeral_length; [lia|exact K].
Qed.
Print Assumptions C284_enough.
Theorem C284_needed : forall pl t, pl <> ARM32_newlib -> exact_width pl t -> is_u64 pl t = false ->
  ~ (pl = ARM32 /\ t = TUint) ->
  exists v, in_range (repr pl t) v /\ numeral_fills v (max_string_length pl t).
Proof.
  intros pl t A T U X.
  assert (K : forall neg ds, Forall (fun d => 0 <= d < 10) ds -> (hd 0 ds =? 0) = false ->
    (neg = true -> 0 < value_of 10 ds) ->
    numeral_fills (if neg then - value_of 10 ds else value_of 10 ds) ((if neg then 1 else 0) + length ds)).
  { intros neg ds F H0 H1. exists ((if neg then [45] else []) ++ map (digit_char false) ds). split.
    - exists ds. pose proof (value_nonneg 10 ds ltac:(lia) F) as V.
      assert (E : ((if neg then - value_of 10 ds else value_of 10 ds) <? 0) = neg).
      { destruct neg; [apply Z.ltb_lt; specialize (H1 eq_refl); lia|apply Z.ltb_ge; lia]. }
      rewrite E. split; [reflexivity|]. split; [intros ->; discriminate|]. split; [exact F|].
      split; [destruct neg; lia|]. intros C. rewrite C in H0. discriminate.
    - rewrite app_length, map_length. destruct neg; reflexivity. }
  unfold exact_width in T.
  destruct pl, t; cbn [repr sgn bits max_string_length is_i32 is_u32 is_i64 is_u64 is_arm negb andb] in *;
    try (exfalso; intuition congruence); clear T U X;
    first
    [ exists (-128); split; [split; vm_compute; discriminate|apply (K true [1;2;8])]
    | exists 255; split; [split; vm_compute; discriminate|apply (K false [2;5;5])]
    | exists (-32768); split; [split; vm_compute; discriminate|apply (K true [3;2;7;6;8])]
    | exists 65535; split; [split; vm_compute; discriminate|apply (K false [6;5;5;3;5])]
    | exists (-2147483648); split; [split; vm_compute; discriminate|apply (K true [2;1;4;7;4;8;3;6;4;8])]
    | exists 4294967295; split; [split; vm_compute; discriminate|apply (K false [4;2;9;4;9;6;7;2;9;5])]
    | exists (-9223372036854775808); split; [split; vm_compute; discriminate|apply (K true [9;2;2;3;3;7;2;0;3;6;8;5;4;7;7;5;8;0;8])] ];
    first [reflexivity|intros _; reflexivity|intros E; discriminate|repeat constructor; discriminate].
Qed.
Print Assumptions C284_needed.
Example C284_case : exact_width LP64 TLong /\ max_string_length LP64 TLong = 20%nat /\ exact_width ILP32_newlib TLong /\
  max_string_length ILP32_newlib TLong = 11%nat.
Proof. unfold exact_width. cbn. repeat split; tauto. Qed.

(* C285 *)
Theorem C285_no_room_refuted : forall pl, exists t, max_string_length pl t = 0%nat /\
  forall v s, is_numeral false 10 v s -> (max_string_length pl t < length s)%nat.
Proof.
  intros pl. exists (match pl with LP64 => TLlong | ILP32_newlib => TInt | _ => TLong end).
  split; [destruct pl; reflexivity|]. intros v s (ds & -> & NE & _).
  assert (E : max_string_length pl (match pl with LP64 => TLlong | ILP32_newlib => TInt | _ => TLong end) = 0%nat)
    by (destruct pl; reflexivity).
  rewrite E, app_length, map_length. destruct ds; [congruence|cbn [length]; lia].
Qed.
Print Assumptions C285_no_room_refuted.
Theorem C285_arm_int32_refuted : forall t, is_i32 ARM32_newlib t = true \/ is_u32 ARM32_newlib t = true ->
  max_string_length ARM32_newlib t = 0%nat.
Proof. intros t H. destruct t; cbn in H; reflexivity || (exfalso; destruct H; discriminate). Qed.
Print Assumptions C285_arm_int32_refuted.
Theorem C285_traits_refuted : forall v s, -32768 <= v <= -10000 -> is_numeral false 10 v s ->
  in_range (Ity 16 true) v /\ (traits_i16_max_size < length s)%nat.
Proof.
  intros v s R (ds & -> & NE & F & V & C). split; [unfold in_range, imin, imax; cbn [sgn bits]; lia|].
  assert (E : (v <? 0) = true) by (apply Z.ltb_lt; lia). rewrite E. cbn [app length]. rewrite map_length.
  assert (L : (5 <= length ds)%nat); [|unfold traits_i16_max_size; lia].
  destruct (Nat.le_gt_cases 5 (length ds)) as [L|L]; [exact L|exfalso].
  assert (U : forall l v, Forall (fun d => 0 <= d < 10) l -> 0 <= v ->
    fold_left (fun v d => v * 10 + d) l v < (v + 1) * 10 ^ Z.of_nat (length l)).
  { clear. induction l as [|d l IH]; intros v F V; cbn [fold_left length].
    - change (10 ^ Z.of_nat 0) with 1. lia.
    - inversion F; subst. rewrite Nat2Z.inj_succ, Z.pow_succ_r by lia.
      specialize (IH (v * 10 + d) H2 ltac:(lia)).
      assert (0 < 10 ^ Z.of_nat (length l)) by (apply Z.pow_pos_nonneg; lia). nia. }
  specialize (U ds 0 F ltac:(lia)). fold (value_of 10 ds) in U. rewrite V in U.
  assert (Q : 10 ^ Z.of_nat (length ds) <= 10 ^ 4) by (apply Z.pow_le_mono_r; lia).
  change (10 ^ 4) with 10000 in Q. lia.
Qed.
Print Assumptions C285_traits_refuted.
Example C285_case : max_string_length LP64 TLlong = 0%nat /\ max_string_length ILP32 TLong = 0%nat.
Proof. split; reflexivity. Qed.

(* C286 *)
Theorem C286_log : forall ops lines rets, logs 0 ops lines rets ->
  exists g, log_run ops log_init = Ok (g, rets) /\ rev (written g) = lines.
Proof.
  intros ops lines rets L. destruct (log_run_logs ops log_init lines rets L) as (g & E & W).
  exists g. split; [exact E|]. rewrite W. reflexivity.
Qed.
Print Assumptions C286_log.
(* a writer 7 is set; "W" tag "T", format "%d!" with 42; a debug message is dropped *)
Example C286_case : logs 0 [SetWriter 7; Log LWarn [84] [37; 100; 33] [[52; 50]]; Log LDebug [84] [33] []; SetWriter 0]
  [(7%nat, [87; 32; 84; 58; 32; 52; 50; 33; 10])] [0%nat; 7%nat].
Proof.
  apply l_set. apply (l_shown 7 LWarn [84] [37; 100; 33] [[52; 50]] [52; 50; 33]).
  - split; discriminate.
  - intros [E|[]]; discriminate.
  - apply (p_conv 100 [33] [52; 50] [] [33]); [discriminate|]. apply p_char; [discriminate|apply p_end].
  - apply l_hidden; [intros [H _]; congruence|]. apply l_set. apply l_end.
Qed.

(* C287 *)
Theorem C287_percent_refuted : forall l tag fmt args g, shown l -> has_conversion tag ->
  log_write l tag fmt args g = UB.
Proof.
  intros l tag fmt args g S H. apply level_shown in S. unfold log_write.
  assert (E : (level_no l <=? level_no local_level)%nat = true) by (apply Nat.leb_le; exact S). rewrite E.
  unfold write_header. rewrite (vprintf_plain (level_header l)) by apply header_plain. cbn [bind].
  rewrite vprintf_conversion by exact H. reflexivity.
Qed.
Print Assumptions C287_percent_refuted.
(* "50%s" *)
Example C287_case : has_conversion [53; 48; 37; 115] /\ log_write LInfo [53; 48; 37; 115] [] [] log_init = UB.
Proof.
  split; [|reflexivity]. exists [53; 48], 115, []. split; [reflexivity|]. split; [|discriminate].
  intros [E|[E|[]]]; discriminate.
Qed.
