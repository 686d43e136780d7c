(* Properties C11-C15: integer <-> text conversion. *)
From Coq Require Import List ZArith Bool.
From Verif Require Import Base MachInt Charconv_Model Charconv_Spec Charconv_Proofs.
Import ListNotations.
Local Open Scope Z_scope.

(* Every number has exactly one canonical numeral, every text splits into its maximal
   digit prefix and the rest: the hypotheses below can always be met. *)
Theorem C11_numeral_exists_unique :
  forall (upper : bool) (base v : Z), 2 <= base ->
    exists s, is_numeral upper base v s /\ forall s', is_numeral upper base v s' -> s' = s.
Proof.
  exact (fun up base v Hb =>
    match numeral_exists up base v Hb with
    | ex_intro _ s Hs => ex_intro _ s (conj Hs (fun s' Hs' => numeral_unique up base v s' s Hb Hs' Hs))
    end).
Qed.
Print Assumptions C11_numeral_exists_unique.

Theorem C12_every_text_splits :
  forall (base : Z) (text : list Z),
    exists pre ds rest, text = pre ++ rest /\ spells base pre ds /\ no_digit_head base rest.
Proof. exact split_digits. Qed.
Print Assumptions C12_every_text_splits.

(* C11: for every width, signed or unsigned (except the most negative number, see C13 and
   C14), every base, and a buffer with one spare character. *)
Theorem C11_to_chars_from_chars_round_trip :
  forall (t : ity) (base : Z) (buf : list Z) (v : Z) (s : list Z),
    1 <= bits t -> 2 <= base <= 36 -> in_range t v -> (sgn t = true -> v <> imin t) ->
    is_numeral false base v s -> (length s < length buf)%nat ->
    exists r, to_chars t base buf v = Ok r /\ tec r = NoErr /\
      from_chars t base (firstn (tptr r) (tbuf r)) = Ok (FcR (tptr r) NoErr (Some v)).
Proof. exact round_trip. Qed.
Print Assumptions C11_to_chars_from_chars_round_trip.

Theorem C11_to_chars_exp_round_trip :
  forall (t : ity) (base : Z) (buf : list Z) (v : Z) (s : list Z),
    1 <= bits t -> 2 <= base <= 36 -> in_range t v -> (sgn t = true -> v <> imin t) ->
    is_numeral false base v s -> (length s <= length buf)%nat ->
    exists r, to_chars_exp t base buf v = Ok r /\ tec r = NoErr /\
      from_chars t base (firstn (tptr r) (tbuf r)) = Ok (FcR (tptr r) NoErr (Some v)).
Proof. exact round_trip_exp. Qed.
Print Assumptions C11_to_chars_exp_round_trip.

(* from_chars reads canonical numerals of either case *)
Theorem C11_from_chars_reads_numerals :
  forall (t : ity) (base : Z) (upper : bool) (v : Z) (s : list Z),
    1 <= bits t -> 2 <= base <= 36 -> in_range t v -> (sgn t = true -> v <> imin t) ->
    is_numeral upper base v s ->
    from_chars t base s = Ok (FcR (length s) NoErr (Some v)).
Proof. exact from_numeral. Qed.
Print Assumptions C11_from_chars_reads_numerals.

Example C11_case :
  in_range (Ity 16 true) (-1234) /\ is_numeral false 16 (-1234) [45; 52; 100; 50] /\
  to_chars (Ity 16 true) 16 [0;0;0;0;0] (-1234) = Ok (TcR 4 NoErr [45; 52; 100; 50; 50]) /\
  from_chars (Ity 16 true) 16 [45; 52; 100; 50] = Ok (FcR 4 NoErr (Some (-1234))).
Proof.
  split; [split; vm_compute; discriminate|].
  split; [|split; vm_compute; reflexivity].
  exists [4; 13; 2]. split; [reflexivity|]. split; [discriminate|].
  split; [repeat constructor; discriminate|]. split; [reflexivity|discriminate].
Qed.

(* C12.  Excluded: the empty text is accepted, and after an overflow
   in a base other than 10 and 36 the pointer may pass characters that are not digits of
   the base (both refuted below). *)
Theorem C12_from_chars_unsigned :
  forall (w base : Z) (pre ds rest : list Z),
    1 <= w -> 2 <= base <= 36 -> spells base pre ds -> no_digit_head base rest -> pre ++ rest <> [] ->
    (pre = [] -> from_chars (Ity w false) base (pre ++ rest) = Ok (FcR 0 InvalidArgument None)) /\
    (pre <> [] -> value_of base ds < 2 ^ w ->
       from_chars (Ity w false) base (pre ++ rest) = Ok (FcR (length pre) NoErr (Some (value_of base ds)))) /\
    (2 ^ w <= value_of base ds ->
       exists p, from_chars (Ity w false) base (pre ++ rest) = Ok (FcR p ResultOutOfRange None) /\
         (length pre <= p)%nat /\ (base = 10 \/ base = 36 \/ rest = [] -> p = length pre)).
Proof. exact C12_main. Qed.
Print Assumptions C12_from_chars_unsigned.

(* No digits, yet success with value 0, at every width and base. *)
Theorem C169_empty_text_refuted :
  forall w base : Z, from_chars (Ity w false) base [] = Ok (FcR 0 NoErr (Some 0)).
Proof. exact C12_empty. Qed.
Print Assumptions C169_empty_text_refuted.

(* After an overflow ptr passes all that are digits in base 36 (in bases above 10) or in base 10
   (below), whether or not they are digits of the base. *)
Theorem C169_overflow_pointer_refuted :
  forall (w base : Z) (pre ds more ds' tail : list Z), 1 <= w -> 2 <= base <= 36 ->
    spells base pre ds -> no_digit_head base (more ++ tail) -> 2 ^ w <= value_of base ds ->
    spells (if 10 <? base then 36 else 10) more ds' -> no_digit_head (if 10 <? base then 36 else 10) tail ->
    from_chars (Ity w false) base (pre ++ more ++ tail) = Ok (FcR (length pre + length more) ResultOutOfRange None).
Proof. exact C12_overflow_pointer. Qed.
Print Assumptions C169_overflow_pointer_refuted.

(* "fffzz" in base 16 into 8 bits: the digits are "fff", but ptr is past the 'z's. *)
Example C169_case :
  spells 16 [102; 102; 102] [15; 15; 15] /\ no_digit_head 16 [122; 122] /\ 2 ^ 8 <= value_of 16 [15; 15; 15] /\
  spells 36 [122; 122] [35; 35] /\
  from_chars (Ity 8 false) 16 [102; 102; 102; 122; 122] = Ok (FcR 5 ResultOutOfRange None).
Proof.
  split; [repeat constructor|]. split; [intros d [H1 H2]; injection H1 as <-; discriminate|].
  split; [discriminate|]. split; [repeat constructor|reflexivity].
Qed.

Example C12_case :
  spells 10 [50; 53; 53] [2; 5; 5] /\ no_digit_head 10 [97] /\
  from_chars (Ity 8 false) 10 [50; 53; 53; 97] = Ok (FcR 3 NoErr (Some 255)) /\
  from_chars (Ity 8 false) 10 [50; 53; 54; 97] = Ok (FcR 3 ResultOutOfRange None).
Proof.
  split; [repeat constructor|]. split; [intros d [H1 H2]; injection H1 as <-; discriminate|].
  split; reflexivity.
Qed.

(* C13, no minus sign: as C12 (the empty text is UB for signed types). *)
Theorem C13_from_chars_no_sign :
  forall (w base : Z) (pre ds rest : list Z),
    1 <= w -> 2 <= base <= 36 -> spells base pre ds -> no_digit_head base rest -> pre ++ rest <> [] ->
    hd_error (pre ++ rest) <> Some 45 ->
    (pre = [] -> from_chars (Ity w true) base (pre ++ rest) = Ok (FcR 0 InvalidArgument None)) /\
    (pre <> [] -> value_of base ds < 2 ^ (w - 1) ->
       from_chars (Ity w true) base (pre ++ rest) = Ok (FcR (length pre) NoErr (Some (value_of base ds)))) /\
    (2 ^ (w - 1) <= value_of base ds ->
       exists p, from_chars (Ity w true) base (pre ++ rest) = Ok (FcR p ResultOutOfRange None) /\
         (length pre <= p)%nat /\ (base = 10 \/ base = 36 \/ rest = [] -> p = length pre)).
Proof. exact C13_plain. Qed.
Print Assumptions C13_from_chars_no_sign.

(* C13, minus sign.  Excluded: a negative number followed by
   something else, the minimum, and the lone minus sign (all refuted below). *)
Theorem C13_from_chars_minus :
  forall (w base : Z) (pre ds rest : list Z),
    1 <= w -> 2 <= base <= 36 -> spells base pre ds -> no_digit_head base rest ->
    (rest = [] -> pre <> [] -> value_of base ds < 2 ^ (w - 1) ->
       from_chars (Ity w true) base (45 :: pre) = Ok (FcR (S (length pre)) NoErr (Some (- value_of base ds)))) /\
    (2 ^ (w - 1) < value_of base ds ->
       exists p, from_chars (Ity w true) base (45 :: pre ++ rest) = Ok (FcR p ResultOutOfRange None) /\
         (S (length pre) <= p)%nat /\ (base = 10 \/ base = 36 \/ rest = [] -> p = S (length pre))).
Proof. exact C13_minus. Qed.
Print Assumptions C13_from_chars_minus.

(* "-12x" is read as +12: whenever anything follows the digits, the sign is lost; with no
   digits at all ("-x") the result is 0 without error. *)
Theorem C170_sign_lost_before_trailing_text_refuted :
  forall (w base : Z) (pre ds : list Z) (c : Z) (rest : list Z),
    1 <= w -> 2 <= base <= 36 -> spells base pre ds -> no_digit_head base (c :: rest) ->
    value_of base ds < 2 ^ (w - 1) ->
    from_chars (Ity w true) base (45 :: pre ++ c :: rest) =
      Ok (FcR (S (length pre)) NoErr (Some (value_of base ds))).
Proof. exact C13_trailing. Qed.
Print Assumptions C170_sign_lost_before_trailing_text_refuted.

Theorem C170_minimum_rejected_refuted :
  forall (w base : Z) (s : list Z),
    1 <= w -> 2 <= base <= 36 -> is_numeral false base (- 2 ^ (w - 1)) s ->
    from_chars (Ity w true) base s = Ok (FcR (length s) ResultOutOfRange None).
Proof. exact C13_minimum. Qed.
Print Assumptions C170_minimum_rejected_refuted.

Theorem C170_lone_minus_and_empty_refuted :
  forall w base : Z,
    from_chars (Ity w true) base [45] = Ok (FcR 1 NoErr (Some 0)) /\
    from_chars (Ity w true) base [] = UB.
Proof. exact (fun w base => conj eq_refl eq_refl). Qed.
Print Assumptions C170_lone_minus_and_empty_refuted.

Example C13_case :
  from_chars (Ity 8 true) 10 [45; 49; 50; 55] = Ok (FcR 4 NoErr (Some (-127))) /\
  from_chars (Ity 8 true) 10 [45; 49; 50; 56] = Ok (FcR 4 ResultOutOfRange None) /\
  from_chars (Ity 8 true) 10 [45; 49; 50; 120] = Ok (FcR 3 NoErr (Some 12)).
Proof. repeat split. Qed.

(* C14.  A buffer access outside [first,last) would be UB in the model.  Excluded: a nonnegative number needs one character more than its numeral, an
   empty buffer, and the most negative number (refuted below). *)
Theorem C14_to_chars :
  forall (t : ity) (base : Z) (buf : list Z) (v : Z) (s : list Z),
    1 <= bits t -> 2 <= base <= 36 -> in_range t v -> (sgn t = true -> v <> imin t) ->
    is_numeral false base v s -> (1 <= length buf)%nat ->
    let need := (if v <? 0 then length s else S (length s)) in
    (need <= length buf ->
       exists buf', to_chars t base buf v = Ok (TcR (length s) NoErr buf') /\
         length buf' = length buf /\ firstn (length s) buf' = s)%nat /\
    (length buf < need ->
       exists buf', to_chars t base buf v = Ok (TcR (length buf) ValueTooLarge buf') /\
         length buf' = length buf)%nat.
Proof. exact to_chars_spec. Qed.
Print Assumptions C14_to_chars.

(* to_chars_opt writes the numeral at the end of the buffer and nothing else. *)
Theorem C14_to_chars_opt :
  forall (t : ity) (base : Z) (upper : bool) (buf : list Z) (v : Z) (s : list Z),
    1 <= bits t -> 2 <= base <= 36 -> in_range t v -> (sgn t = true -> v <> imin t) ->
    is_numeral upper base v s -> (1 <= length buf)%nat ->
    let need := (if v <? 0 then length s else S (length s)) in
    (need <= length buf ->
       to_chars_opt t base upper buf v =
         Ok (TcR (length buf - length s) NoErr
               (firstn (length buf - length s) buf ++ s)))%nat /\
    (length buf < need ->
       exists buf', to_chars_opt t base upper buf v = Ok (TcR 0 ValueTooLarge buf') /\
         length buf' = length buf)%nat.
Proof. exact to_chars_opt_at_end. Qed.
Print Assumptions C14_to_chars_opt.

(* to_chars_exp uses the whole buffer; excluded: the most negative number, and a negative
   number into an empty buffer. *)
Theorem C14_to_chars_exp :
  forall (t : ity) (base : Z) (buf : list Z) (v : Z) (s : list Z),
    1 <= bits t -> 2 <= base <= 36 -> in_range t v -> (sgn t = true -> v <> imin t) ->
    is_numeral false base v s -> (v < 0 -> (1 <= length buf)%nat) ->
    (length s <= length buf ->
       exists buf', to_chars_exp t base buf v = Ok (TcR (length s) NoErr buf') /\
         length buf' = length buf /\ firstn (length s) buf' = s)%nat /\
    (length buf < length s ->
       exists buf', to_chars_exp t base buf v = Ok (TcR (length buf) ValueTooLarge buf') /\
         length buf' = length buf)%nat.
Proof. exact to_chars_exp_spec. Qed.
Print Assumptions C14_to_chars_exp.

(* A nonnegative number never fits exactly. *)
Theorem C171_exact_fit_refuted :
  forall (t : ity) (base : Z) (buf : list Z) (v : Z) (s : list Z),
    1 <= bits t -> 2 <= base <= 36 -> in_range t v -> 0 <= v -> is_numeral false base v s ->
    length s = length buf ->
    exists buf', to_chars t base buf v = Ok (TcR (length buf) ValueTooLarge buf').
Proof. exact to_chars_exact_fit. Qed.
Print Assumptions C171_exact_fit_refuted.

(* An empty buffer makes to_chars write outside it. *)
Theorem C171_empty_buffer_refuted :
  forall (t : ity) (base v : Z),
    (sgn t = true -> v <> imin t) -> 1 <= bits t -> in_range t v -> to_chars t base [] v = UB.
Proof. exact to_chars_empty. Qed.
Print Assumptions C171_empty_buffer_refuted.

(* The most negative number of int and wider types is UB; of int8 it is garbage. *)
Theorem C171_minimum_refuted :
  forall (t : ity) (base : Z) (buf : list Z),
    32 <= bits t -> sgn t = true -> to_chars t base buf (imin t) = UB /\
    (buf <> [] -> to_chars_exp t base buf (imin t) = UB) /\ to_string t buf (imin t) = UB.
Proof. exact to_chars_min_ub. Qed.
Print Assumptions C171_minimum_refuted.

Example C14_case :
  to_chars (Ity 32 true) 10 [0;0;0;0] (-305) = Ok (TcR 4 NoErr [45; 51; 48; 53]) /\
  to_chars (Ity 32 true) 10 [0;0;0;0] 305 = Ok (TcR 3 NoErr [51; 48; 53; 53]) /\
  (exists b, to_chars (Ity 32 true) 10 [0;0;0] 305 = Ok (TcR 3 ValueTooLarge b)) /\
  to_chars_exp (Ity 32 true) 10 [0;0;0] 305 = Ok (TcR 3 NoErr [51; 48; 53]) /\
  to_chars_opt (Ity 32 true) 16 true [0;0;0] 255 = Ok (TcR 1 NoErr [0; 70; 70]) /\
  to_chars (Ity 8 true) 10 [0;0;0;0;0;0] (-128) = Ok (TcR 6 ValueTooLarge [0; 50; 50; 50; 48; 56]).
Proof. repeat split; try (eexists; reflexivity); reflexivity. Qed.

(* C15: every value of every width except the most negative one. *)
Theorem C15_to_string :
  forall (t : ity) (uninitialised : list Z) (v : Z) (s : list Z),
    std_ity t -> in_range t v -> (sgn t = true -> v <> imin t) ->
    length uninitialised = (int_length 10 t + 1)%nat ->
    is_numeral false 10 v s -> to_string t uninitialised v = Ok s.
Proof. exact to_string_spec. Qed.
Print Assumptions C15_to_string.

Theorem C15_to_string_injective :
  forall (t : ity) (uninitialised : list Z) (v v' : Z) (s : list Z),
    std_ity t -> in_range t v -> in_range t v' ->
    (sgn t = true -> v <> imin t) -> (sgn t = true -> v' <> imin t) ->
    length uninitialised = (int_length 10 t + 1)%nat ->
    to_string t uninitialised v = Ok s -> to_string t uninitialised v' = Ok s -> v = v'.
Proof. exact to_string_distinct. Qed.
Print Assumptions C15_to_string_injective.

Theorem C15_to_string_opt :
  forall (t : ity) (base : Z) (buf : list Z) (v : Z) (s : list Z),
    1 <= bits t -> 2 <= base <= 36 -> in_range t v -> (sgn t = true -> v <> imin t) ->
    is_numeral false base v s -> ((if (v <? 0)%Z then length s else S (length s)) < length buf)%nat ->
    to_string_opt t base buf v =
      Ok (TcR (length buf - 1 - length s) NoErr
            (firstn (length buf - 1 - length s) buf ++ s ++ [0])).
Proof. exact to_string_opt_spec. Qed.
Print Assumptions C15_to_string_opt.

(* to_string(int8_t(-128)) is five wrong characters, whatever was in the first one. *)
Theorem C172_minimum_int8_refuted :
  forall a b c d e : Z, to_string (Ity 8 true) [a; b; c; d; e] (-128) = Ok [a; 50; 50; 48; 56].
Proof. exact (fun a b c d e => eq_refl). Qed.
Print Assumptions C172_minimum_int8_refuted.

Example C15_case :
  std_ity (Ity 64 false) /\ in_range (Ity 64 false) 18446744073709551615 /\
  to_string (Ity 64 false) (repeat 7 21) 18446744073709551615 =
    Ok [49;56;52;52;54;55;52;52;48;55;51;55;48;57;53;53;49;54;49;53] /\
  to_string (Ity 8 true) (repeat 7 5) (-127) = Ok [45; 49; 50; 55] /\
  to_string_opt (Ity 8 false) 16 [1;1;1;1] 254 = Ok (TcR 1 NoErr [1; 102; 101; 0]).
Proof.
  split; [unfold std_ity; auto|]. split; [split; vm_compute; discriminate|].
  repeat split; vm_compute; reflexivity.
Qed.
