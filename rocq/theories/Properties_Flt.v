(* Reading float and double from a stream (C388-C397).
   [at_str st data k]: a stream over the text data that stands before its character k, with state
   st.  [plain]: see Stream_Spec.v.  [decimal_text text sign ip fp ds rest]: text is sign, the
   digits ip, perhaps a point and the digits fp, all of which have the values ds, then rest.
   [nearest], [within]: see Flt_Spec.v.  [val fm u]: the number the result Fin u stands for. *)
From Coq Require Import List ZArith QArith Bool Lia.
From Verif Require Import Base Charconv_Spec Ios_Model Streambuf_Model Istream_Model Stream_Spec Stream_Proofs
  Flt_Spec Flt_Model Flt_View Flt_Proofs.
Import ListNotations.
Local Open Scope Z_scope.

(* ---- C388: if the digits, read as one integer, fit the significand, and 5^places does too (float:
   integers up to 16777216 and 10 places; double: up to 9007199254740992 and 22 places), the
   value read is the number of the format nearest to the number written, and exactly its
   characters are consumed. *)
Theorem C388_nearest : forall fm tr st data k lead text sign ip fp ds rest,
  std_fmt fm -> plain tr data -> good st = true -> (k <= length data)%nat ->
  skipn k data = lead ++ text -> Forall space lead -> decimal_text text sign ip fp ds rest -> ds <> [] ->
  value_of 10 ds <= 2 ^ prec fm -> 5 ^ Z.of_nat (places fp) < 2 ^ prec fm ->
  exists u,
    extract_flt fm tr (at_str st data k)
    = Ok (Fin u, at_str (match rest with [] => setstate st eofbit | _ => st end) data
                        (k + length lead + (length text - length rest))) /\
    nearest fm (dec_value sign ds (places fp)) (val fm u).
Proof. exact decimal_nearest. Qed.
Print Assumptions C388_nearest.

Definition clean : ios := ios_init.
Definition run32 (data : list Z) : option (Z * Z * Z) :=
  match extract_flt binary32 StdTraits (at_str clean data 0) with
  | Ok (Fin u, s) => Some (u, rdstate (ist s), ipos (isbuf s)) | _ => None end.
(* " -12.50," is -12.5, seven characters; "0.1" is 13421773 / 2^27 in single precision *)
Example C388_case :
  plain StdTraits [32; 45; 49; 50; 46; 53; 48; 44] /\
  decimal_text [45; 49; 50; 46; 53; 48; 44] [45] [49; 50] (Some [53; 48]) [1; 2; 5; 0] [44] /\
  value_of 10 [1; 2; 5; 0] <= 2 ^ prec binary32 /\ 5 ^ 2 < 2 ^ prec binary32 /\
  run32 [32; 45; 49; 50; 46; 53; 48; 44] = Some (- 25 * 2 ^ 148, 0, 7) /\
  run32 [48; 46; 49] = Some (13421773 * 2 ^ 122, eofbit, 3).
Proof.
  split; [|split; [|repeat apply conj; try (vm_compute; reflexivity); vm_compute; discriminate]].
  - split; [vm_compute; reflexivity|]. split; [repeat constructor; vm_compute; discriminate|discriminate].
  - split; [reflexivity|]. split; [now left|]. split; [repeat constructor|]. split; [|discriminate].
    cbn. intros d [H _]. discriminate H.
Qed.

(* ---- C389: any decimal of at most 254 places that is zero or at least 2^(3 - emax), if neither its
   digits as one integer nor 10^places exceed 2^(emax - 2): the value read is off by at most two
   roundings for each digit, one for the division and one for each place. *)
Theorem C389_error : forall fm tr st data k lead text sign ip fp ds rest,
  std_fmt fm -> plain tr data -> good st = true -> (k <= length data)%nat ->
  skipn k data = lead ++ text -> Forall space lead -> decimal_text text sign ip fp ds rest -> ds <> [] ->
  4 * value_of 10 ds <= 2 ^ emax fm -> 4 * 10 ^ Z.of_nat (places fp) <= 2 ^ emax fm -> (places fp < 255)%nat ->
  value_of 10 ds = 0 \/ (pow2 (3 - emax fm) <= dec_value [] ds (places fp))%Q ->
  exists u, 0 <= u /\
    extract_flt fm tr (at_str st data k)
    = Ok (Fin (match sign with [] => u | _ => - u end),
          at_str (match rest with [] => setstate st eofbit | _ => st end) data
                 (k + length lead + (length text - length rest))) /\
    within fm (2 * length ds + 1) (places fp) (dec_value [] ds (places fp)) (val fm u).
Proof. exact decimal_within. Qed.
Print Assumptions C389_error.

(* 3.14159265358979 into a float *)
Example C389_case :
  let ds := [3; 1; 4; 1; 5; 9; 2; 6; 5; 3; 5; 8; 9; 7; 9] in
  let f := map (fun d => 48 + d) (tl ds) in
  decimal_text (51 :: 46 :: f) [] [51] (Some f) ds [] /\
  4 * value_of 10 ds <= 2 ^ emax binary32 /\ 4 * 10 ^ Z.of_nat (places (Some f)) <= 2 ^ emax binary32 /\
  2 ^ prec binary32 < value_of 10 ds /\
  (pow2 (3 - emax binary32) <= dec_value [] ds (places (Some f)))%Q /\
  run32 (51 :: 46 :: f) = Some (13176795 * 2 ^ 127, eofbit, 16).
Proof.
  cbv zeta. split; [|repeat apply conj; try (vm_compute; reflexivity); vm_compute; discriminate].
  split; [reflexivity|]. split; [now right|]. split; [repeat constructor|]. split; [exact I|discriminate].
Qed.

(* ---- C390: if what follows the blanks is no digit, minus or point (or nothing follows), failbit
   is set, the value is 0 and only the blanks are consumed. *)
Theorem C390_nothing : forall fm tr st data k lead rest,
  plain tr data -> good st = true -> (k <= length data)%nat ->
  skipn k data = lead ++ rest -> Forall space lead ->
  no_digit_head 10 rest -> match rest with [] => True | c :: _ => c <> 45 /\ c <> 46 /\ ~ space c end ->
  extract_flt fm tr (at_str st data k) = Ok (Fin 0, at_str (setstate st failbit) data (k + length lead)).
Proof. exact nothing. Qed.
Print Assumptions C390_nothing.

(* " x", and " +1": a plus sign is not understood *)
Example C390_case : run32 [32; 120] = Some (0, failbit, 1) /\ run32 [32; 43; 49] = Some (0, failbit, 1) /\ run32 [] = Some (0, failbit, 0).
Proof. repeat apply conj; vm_compute; reflexivity. Qed.

(* ---- C391: a number ends before a second point.  False: every text a.b.c is consumed whole, and
   read as ab.c. *)
Theorem C391_two_points_refuted : forall fm tr st data k lead text sign a b c ds rest,
  std_fmt fm -> plain tr data -> good st = true -> (k <= length data)%nat ->
  skipn k data = lead ++ text -> Forall space lead ->
  text = sign ++ a ++ [46] ++ b ++ [46] ++ c ++ rest -> sign = [45] \/ sign = [] ->
  spells 10 (a ++ b ++ c) ds -> no_digit_head 10 rest -> hd_error rest <> Some 46 ->
  value_of 10 ds <= 2 ^ prec fm -> 5 ^ Z.of_nat (length c) < 2 ^ prec fm ->
  exists u, extract_flt fm tr (at_str st data k)
    = Ok (Fin u, at_str (match rest with [] => setstate st eofbit | _ => st end) data
                        (k + length lead + (length text - length rest))) /\
    nearest fm (dec_value sign ds (length c)) (val fm u).
Proof. exact two_points. Qed.
Print Assumptions C391_two_points_refuted.

(* "1.2.5" is 12.5 *)
Example C391_case : run32 [49; 46; 50; 46; 53] = Some (25 * 2 ^ 148, eofbit, 5).
Proof. vm_compute. reflexivity. Qed.

(* ---- C392: the number of decimal places does not matter.  False: with 255 or more, the point is
   ignored, so that the value is the digits read as an integer. *)
Theorem C392_places_refuted : forall fm tr st data k lead text sign ip f ds rest,
  std_fmt fm -> plain tr data -> good st = true -> (k <= length data)%nat ->
  skipn k data = lead ++ text -> Forall space lead -> decimal_text text sign ip (Some f) ds rest ->
  (255 <= length f)%nat -> value_of 10 ds <= 2 ^ prec fm ->
  exists u, extract_flt fm tr (at_str st data k)
    = Ok (Fin u, at_str (match rest with [] => setstate st eofbit | _ => st end) data
                        (k + length lead + (length text - length rest))) /\
    (val fm u == dec_num sign ds # 1)%Q.
Proof. exact places_wrap. Qed.
Print Assumptions C392_places_refuted.

(* "0." and 254 zeros and "7" is 7 *)
Example C392_case : run32 ([48; 46] ++ repeat 48 254 ++ [55]) = Some (7 * one binary32, eofbit, 257).
Proof. vm_compute. reflexivity. Qed.

(* ---- C393: a number too large for the type sets failbit.  False: whatever is too large by a factor of two
   or more reads as an infinity, and the state is that of a good number. *)
Theorem C393_too_large_refuted : forall fm tr st data k lead text sign ip ds rest,
  std_fmt fm -> plain tr data -> good st = true -> (k <= length data)%nat ->
  skipn k data = lead ++ text -> Forall space lead -> decimal_text text sign ip None ds rest ->
  2 ^ (emax fm + 1) <= value_of 10 ds ->
  extract_flt fm tr (at_str st data k)
  = Ok (Inf (minus sign),
        at_str (match rest with [] => setstate st eofbit | _ => st end) data
               (k + length lead + (length text - length rest))).
Proof.
  intros fm tr st data k lead text sign ip ds rest Hf P Hg Hk Hs Hl D Hv.
  eapply overflow_inf; eauto; cbn [places]; [|lia]. change (10 ^ Z.of_nat 0) with 1.
  destruct Hf as [-> | ->]; vm_compute; discriminate.
Qed.
Print Assumptions C393_too_large_refuted.

Definition ends32 (data : list Z) : option (flt * Z) :=
  match extract_flt binary32 StdTraits (at_str clean data 0) with
  | Ok (v, s) => Some (v, rdstate (ist s)) | _ => None end.
(* -1 and 39 zeros and a blank *)
Example C393_case :
  ends32 ([45; 49] ++ repeat 48 39 ++ [32]) = Some (Inf true, 0) /\ 2 ^ (emax binary32 + 1) <= value_of 10 (1 :: repeat 0 39).
Proof. split; vm_compute; [reflexivity|discriminate]. Qed.

(* ---- C394: a number within the range of the type is read as a finite number near it, however
   many digits it is written with.  False: if both the digits as one integer and 10^places are
   beyond the range (float: 39 places or more) the value is not a number; if only the
   former is, an infinity; if only the latter is, zero. *)
Theorem C394_nan_refuted : forall fm tr st data k lead text sign ip fp ds rest,
  std_fmt fm -> plain tr data -> good st = true -> (k <= length data)%nat ->
  skipn k data = lead ++ text -> Forall space lead -> decimal_text text sign ip fp ds rest ->
  2 ^ (emax fm + 1) <= value_of 10 ds -> 2 ^ (emax fm + 1) <= 10 ^ Z.of_nat (places fp) -> (places fp < 255)%nat ->
  extract_flt fm tr (at_str st data k)
  = Ok (NaN, at_str (match rest with [] => setstate st eofbit | _ => st end) data
                    (k + length lead + (length text - length rest))).
Proof. exact overflow_nan. Qed.
Print Assumptions C394_nan_refuted.

Theorem C394_infinity_refuted : forall fm tr st data k lead text sign ip fp ds rest,
  std_fmt fm -> plain tr data -> good st = true -> (k <= length data)%nat ->
  skipn k data = lead ++ text -> Forall space lead -> decimal_text text sign ip fp ds rest ->
  2 ^ (emax fm + 1) <= value_of 10 ds -> 4 * 10 ^ Z.of_nat (places fp) <= 2 ^ emax fm -> (places fp < 255)%nat ->
  extract_flt fm tr (at_str st data k)
  = Ok (Inf (minus sign), at_str (match rest with [] => setstate st eofbit | _ => st end) data
                                 (k + length lead + (length text - length rest))).
Proof. exact overflow_inf. Qed.
Print Assumptions C394_infinity_refuted.

Theorem C394_zero_refuted : forall fm tr st data k lead text sign ip fp ds rest,
  std_fmt fm -> plain tr data -> good st = true -> (k <= length data)%nat ->
  skipn k data = lead ++ text -> Forall space lead -> decimal_text text sign ip fp ds rest -> ds <> [] ->
  value_of 10 ds <= 2 ^ prec fm -> 2 ^ (emax fm + 1) <= 10 ^ Z.of_nat (places fp) -> (places fp < 255)%nat ->
  extract_flt fm tr (at_str st data k)
  = Ok (Fin 0, at_str (match rest with [] => setstate st eofbit | _ => st end) data
                      (k + length lead + (length text - length rest))).
Proof. exact overflow_zero. Qed.
Print Assumptions C394_zero_refuted.

(* 1.000... with 39 zeros; 1234567.000... with 35 zeros; 0.000...12345 with 39 places *)
Example C394_case :
  ends32 ([49; 46] ++ repeat 48 39) = Some (NaN, eofbit) /\
  2 ^ (emax binary32 + 1) <= value_of 10 (1 :: repeat 0 39) /\ 2 ^ (emax binary32 + 1) <= 10 ^ 39 /\
  ends32 ([49; 50; 51; 52; 53; 54; 55; 46] ++ repeat 48 35) = Some (Inf false, eofbit) /\
  ends32 ([48; 46] ++ repeat 48 34 ++ [49; 50; 51; 52; 53]) = Some (Fin 0, eofbit).
Proof. repeat apply conj; try (vm_compute; reflexivity); vm_compute; discriminate. Qed.

(* ---- C395: scientific notation is understood.  False: every number followed by an exponent is read
   without it, up to the letter, and the state is good. *)
Theorem C395_exponent_refuted : forall fm tr st data k lead text sign ip fp ds e more,
  std_fmt fm -> plain tr data -> good st = true -> (k <= length data)%nat ->
  skipn k data = lead ++ text -> Forall space lead -> decimal_text text sign ip fp ds (e :: more) -> ds <> [] ->
  e = 101 \/ e = 69 ->
  value_of 10 ds <= 2 ^ prec fm -> 5 ^ Z.of_nat (places fp) < 2 ^ prec fm ->
  exists u,
    extract_flt fm tr (at_str st data k)
    = Ok (Fin u, at_str st data (k + length lead + (length text - length (e :: more)))) /\
    nearest fm (dec_value sign ds (places fp)) (val fm u).
Proof.
  intros fm tr st data k lead text sign ip fp ds e more Hf P Hg Hk Hs Hl D Hn _ Hv Hp.
  exact (decimal_nearest fm tr st data k lead text sign ip fp ds (e :: more) Hf P Hg Hk Hs Hl D Hn Hv Hp).
Qed.
Print Assumptions C395_exponent_refuted.

(* "2e3" is 2 *)
Example C395_case : run32 [50; 101; 51] = Some (2 * one binary32, 0, 1).
Proof. vm_compute. reflexivity. Qed.

(* ---- C396: a text without a digit sets failbit.  False: a minus, a point, or a minus and a point are read as
   zero, and the state is that of a good number. *)
Theorem C396_no_digit_refuted : forall fm tr st data k lead sign point rest,
  std_fmt fm -> plain tr data -> good st = true -> (k <= length data)%nat ->
  skipn k data = lead ++ sign ++ point ++ rest -> Forall space lead ->
  sign = [45] \/ sign = [] -> point = [46] \/ point = [] -> sign ++ point <> [] ->
  no_digit_head 10 rest -> hd_error rest <> Some 46 ->
  extract_flt fm tr (at_str st data k)
  = Ok (Fin 0, at_str (match rest with [] => setstate st eofbit | _ => st end) data
                      (k + length lead + length (sign ++ point))).
Proof. exact only_signs. Qed.
Print Assumptions C396_no_digit_refuted.

(* ".x" and "-.x" *)
Example C396_case : run32 [46; 120] = Some (0, 0, 1) /\ run32 [45; 46; 120] = Some (0, 0, 2).
Proof. split; vm_compute; reflexivity. Qed.

(* ---- C397: every number is read as the nearest one of the type.  False: for both types there are
   digits one more than the significand holds that are read as another number. *)
Theorem C397_long_refuted : forall fm tr st data k lead text rest,
  std_fmt fm -> plain tr data -> good st = true -> (k <= length data)%nat ->
  skipn k data = lead ++ text -> Forall space lead ->
  decimal_text text [] (long_text fm) None (long_digits fm) rest ->
  exists u s', extract_flt fm tr (at_str st data k) = Ok (Fin u, s') /\
    ~ nearest fm (dec_value [] (long_digits fm) 0) (val fm u).
Proof. exact long_digits_off. Qed.
Print Assumptions C397_long_refuted.

(* 167772171 is read as 167772160; 167772176 is nearer *)
Example C397_case :
  run32 (long_text binary32) = Some (167772160 * one binary32, eofbit, 9) /\
  decimal_text (long_text binary32) [] (long_text binary32) None (long_digits binary32) [].
Proof.
  split; [vm_compute; reflexivity|]. split; [reflexivity|]. split; [now right|].
  split; [vm_compute; repeat constructor|]. split; [exact I|discriminate].
Qed.
