(* Formatted output to a span stream (C52) and through num_put (C64).  [Ostr i b] is a stream
   with format state i on buffer b; [after b text] is b with text stored where it stood. *)
From Coq Require Import List ZArith Bool Lia.
From Verif Require Import Base MachInt Ios_Model Streambuf_Model Charconv_Model Charconv_Spec Charconv_Proofs
  Stream_Spec Ostream_Model Ostream_Spec Ostream_Proofs.
Import ListNotations.
Local Open Scope Z_scope.

(* Inserting an integer stores its numeral in the base and case of the flags, padded with the
   fill character to width() on the adjusted side, and resets the width; nothing else of the
   stream changes.  Excluded: the most negative value (undefined), octal numerals of the upper
   half of uint16 and uint64, both or no adjustment flag, widths that setw truncates. *)
Theorem C52_insert_integer : forall tr i b t base a junk v s,
  std_ity t -> in_range t v -> not_min t v -> flag_base i base ->
  representable t base v -> length junk = (int_length 8 t + 1)%nat -> is_numeral (upper i) base v s ->
  0 <= width i < 16 -> 0 <= fill true i <= 127 -> adjusted i a ->
  room b (Nat.max (Z.to_nat (width i)) (length s)) ->
  insert_int tr (Ostr i b) t junk v
  = Ok (Ostr (fst (set_width i 0)) (after b (padded a (Z.to_nat (width i)) (fill true i) s))).
Proof. exact insert_int_ok. Qed.
Print Assumptions C52_insert_integer.

(* That is max(width, length) characters, and width() is then 0. *)
Theorem C52_padded_length : forall a w c text i,
  length (padded a w c text) = Nat.max w (length text) /\ width (fst (set_width i 0)) = 0.
Proof. intros. exact (conj (padded_length a w c text) eq_refl). Qed.
Print Assumptions C52_padded_length.

(* Octal numerals of the upper half of uint16 and uint64 are not written: badbit. *)
Theorem C197_octal_refuted : forall tr i b t junk v, sgn t = false -> bits t = 16 \/ bits t = 64 ->
  2 ^ (bits t - 1) <= v < 2 ^ bits t -> Z.land (flags i) f_basefield = f_oct ->
  length junk = (int_length 8 t + 1)%nat ->
  insert_int tr (Ostr i b) t junk v = Ok (Ostr (setstate i badbit) b).
Proof. exact insert_octal_bad. Qed.
Print Assumptions C197_octal_refuted.

(* A character is padded in front, whatever the adjustment; the width is reset. *)
Theorem C52_insert_char : forall tr i b ch, 0 <= width i < 16 -> 0 <= fill true i <= 127 ->
  is_char ch -> to_int tr ch <> eof -> room b (Nat.max (Z.to_nat (width i)) 1) ->
  insert_char tr (Ostr i b) ch
  = Ok (Ostr (fst (set_width i 0)) (after b (padded PadBefore (Z.to_nat (width i)) (fill true i) [ch]))).
Proof. exact insert_char_ok. Qed.
Print Assumptions C52_insert_char.

(* So with left adjustment it is on the wrong side, for every width above 1. *)
Theorem C197_char_left_refuted : forall tr i b ch, 1 < width i < 16 -> 0 <= fill true i <= 127 ->
  is_char ch -> to_int tr ch <> eof -> ch <> fill true i ->
  adjusted i PadAfter -> room b (Z.to_nat (width i)) ->
  exists s', insert_char tr (Ostr i b) ch = Ok s' /\
    osbuf s' <> after b (padded PadAfter (Z.to_nat (width i)) (fill true i) [ch]).
Proof. exact char_left_wrong. Qed.
Print Assumptions C197_char_left_refuted.

(* A string is never padded, and the width stays. *)
Theorem C197_string_refuted : forall i b text, room b (length text) ->
  insert_str (Ostr i b) text = Ok (Ostr i (after b text)).
Proof. exact insert_str_ok. Qed.
Print Assumptions C197_string_refuted.

(* setw(n) keeps n modulo 16 only. *)
Theorem C197_setw_refuted : forall s n, 0 <= n -> width (ost (insert_setw s n)) = n mod 16.
Proof. exact insert_setw_width. Qed.
Print Assumptions C197_setw_refuted.

(* The fill character is always a character 0..127, as assumed above. *)
Theorem C52_fill_range : forall s c, 0 <= fill true ios_init <= 127 /\ 0 <= fill true (fst (set_fill true s c)) <= 127.
Proof. intros s c. exact (conj fill_init_range (fill_range_any s c)). Qed.
Print Assumptions C52_fill_range.

Example C52_case :
  let i := fst (set_width (fst (set_fill true ios_init 42)) 6) in
  let b := osb_init (repeat 0 9) in
  flag_base i 10 /\ adjusted i PadBefore /\ room b 6 /\ is_numeral (upper i) 10 (-42) [45; 52; 50] /\
  insert_int StdTraits (Ostr i b) (Ity 16 true) (repeat 7 7) (-42)
  = Ok (Ostr (fst (set_width i 0)) (Osb [42; 42; 42; 45; 52; 50; 0; 0; 0] 6)) /\
  insert_char StdTraits (Ostr i b) 65
  = Ok (Ostr (fst (set_width i 0)) (Osb [42; 42; 42; 42; 42; 65; 0; 0; 0] 6)).
Proof.
  cbv zeta. split; [left; split; reflexivity|]. split; [reflexivity|]. split; [unfold room; cbn; lia|].
  split; [|split; vm_compute; reflexivity].
  exists [4; 2]. repeat split; try discriminate; repeat constructor; lia.
Qed.

(* ---- C64: num_put writes the padded numeral through its iterator. *)
Theorem C64_num_put : forall i t base a fillc junk v s,
  std_ity t -> in_range t v -> not_min t v -> flag_base i base ->
  representable t base v -> length junk = (int_length 8 t + 1)%nat -> is_numeral (upper i) base v s ->
  0 <= width i -> adjusted i a ->
  put_integer i t fillc junk v = Ok (padded a (Z.to_nat (width i)) fillc s).
Proof. exact put_integer_ok. Qed.
Print Assumptions C64_num_put.

(* Without an adjustment flag, a number shorter than the width is not written at all. *)
Theorem C207_num_put_refuted : forall i t base fillc junk v s,
  std_ity t -> in_range t v -> not_min t v -> flag_base i base ->
  representable t base v -> length junk = (int_length 8 t + 1)%nat -> is_numeral (upper i) base v s ->
  Z.of_nat (length s) < width i -> Z.land (flags i) f_adjustfield = 0 ->
  put_integer i t fillc junk v = Ok [].
Proof. exact put_integer_none. Qed.
Print Assumptions C207_num_put_refuted.

Example C64_case :
  let i := Ios (Z.lor f_hex (Z.lor f_uppercase f_left)) 0 5 0 in
  put_integer i (Ity 16 false) 46 (repeat 7 6) 48879 = Ok [66; 69; 69; 70; 46] /\ adjusted i PadAfter /\ flag_base i 16.
Proof. cbv zeta. split; [vm_compute; reflexivity|]. split; [reflexivity|]. right; left. split; reflexivity. Qed.

(* ---- C67: put(c) stores exactly c and leaves the state alone when there is room, and
   otherwise changes nothing but sets eofbit.  Excluded: the character -1 with estd's own traits. *)
Theorem C67_put : forall tr i b c, to_int tr c <> eof ->
  put tr (Ostr i b) c =
  Ok (if (opos b <? length (obuf b))%nat then Ostr i (after b [c]) else Ostr (setstate i eofbit) b).
Proof. exact put_spec. Qed.
Print Assumptions C67_put.

(* With estd's own traits char(-1) is indistinguishable from the end-of-file value: it is stored,
   and eofbit is set although there was room. *)
Theorem C209_put_eof_refuted : forall i b, room b 1 ->
  put EstdTraits (Ostr i b) (-1) = Ok (Ostr (setstate i eofbit) (after b [-1])).
Proof. exact put_minus_one. Qed.
Print Assumptions C209_put_eof_refuted.

Example C67_case :
  put StdTraits (Ostr (Ios 0 0 0 0) (Osb [1; 2; 3] 1)) 65 = Ok (Ostr (Ios 0 0 0 0) (Osb [1; 65; 3] 2)) /\
  put StdTraits (Ostr (Ios 0 0 0 0) (Osb [1; 2; 3] 3)) 65 = Ok (Ostr (setstate (Ios 0 0 0 0) eofbit) (Osb [1; 2; 3] 3)) /\
  to_int StdTraits 65 <> eof.
Proof. split; [reflexivity|]. split; [reflexivity|]. discriminate. Qed.
