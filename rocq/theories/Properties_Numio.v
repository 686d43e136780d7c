(* Formatted input: integers, bool and characters (C16-C18, C54, C65, C66).
   [number_text t base text sign pre ds rest]: text is sign, then the maximal run pre of digits
   (with values ds), then rest.  [at_str st data k]: a stream over the text data that stands
   before its character k, with state st.  [plain]: see Stream_Spec.v. *)
From Coq Require Import List ZArith Bool Lia.
From Verif Require Import Base MachInt Charconv_Model Charconv_Spec Charconv_Proofs Ios_Model Streambuf_Model Istream_Model Stream_Spec
  Stream_Proofs Ostream_Model Ostream_Spec Numio_Model Numio_Spec Numio_Proofs.
Import ListNotations.
Local Open Scope Z_scope.

(* ---- C16: the value is the number written, or the nearest value of the type; failbit says
   which.  Over a range of characters, and by operator>>. *)
Theorem C16_range : forall t bf base err text sign pre ds rest, 1 <= bits t ->
  base = (if bf =? f_oct then 8 else if bf =? f_hex then 16 else 10) ->
  number_text t base text sign pre ds rest -> pre <> [] -> Z.testbit err 1 = false ->
  exists n e, range_get t bf err text = (n, e, saturate t (signed_value base sign ds)) /\
    (Z.testbit e 1 = true <-> ~ in_range t (signed_value base sign ds)).
Proof. intros t bf base err text sign pre ds rest Hb ->. now apply C16_range_main. Qed.
Print Assumptions C16_range.

Theorem C16_stream : forall tr t st data base k lead text sign pre ds rest,
  1 <= bits t -> plain tr data -> good st = true -> flag_base st base -> (k <= length data)%nat ->
  skipn k data = lead ++ text -> Forall space lead ->
  number_text t base text sign pre ds rest -> pre <> [] ->
  exists s', extract_int tr t (at_str st data k) = Ok (Some (saturate t (signed_value base sign ds)), s') /\
    (Z.testbit (rdstate (ist s')) 1 = true <-> ~ in_range t (signed_value base sign ds)).
Proof. exact C16_stream_main. Qed.
Print Assumptions C16_stream.

Example C16_case :
  number_text (Ity 8 true) 10 [45; 49; 50; 56; 32] [45] [49; 50; 56] [1; 2; 8] [32] /\
  signed_value 10 [45] [1; 2; 8] = -128 /\ in_range (Ity 8 true) (-128) /\
  saturate (Ity 8 true) 300 = 127 /\ range_base f_dec = 10 /\
  range_get (Ity 8 true) f_dec 0 [45; 49; 50; 56; 32] = (4%nat, 0, -128) /\
  range_get (Ity 8 true) f_dec 0 [51; 48; 48] = (3%nat, Z.lor failbit eofbit, 127).
Proof.
  split; [|split; [reflexivity|split; [vm_compute; split; discriminate|repeat split; reflexivity]]].
  split; [reflexivity|]. split; [left; split; reflexivity|]. split.
  - repeat constructor.
  - cbn. intros d [H _]. discriminate H.
Qed.

(* ---- C17: a number that fits is consumed exactly, whatever follows it; if nothing follows,
   eofbit is set; otherwise the state does not change.  Excluded: numbers
   that overflow and a minus without digits, see the refutations. *)
Theorem C17_exact : forall tr t st data base k lead text sign pre ds rest,
  1 <= bits t -> plain tr data -> good st = true -> flag_base st base -> (k <= length data)%nat ->
  skipn k data = lead ++ text -> Forall space lead ->
  number_text t base text sign pre ds rest -> pre <> [] -> in_range t (signed_value base sign ds) ->
  extract_int tr t (at_str st data k)
  = Ok (Some (signed_value base sign ds),
        at_str (match rest with [] => setstate st eofbit | _ => st end) data
               (k + length lead + length sign + length pre)).
Proof. exact C17_stream_exact. Qed.
Print Assumptions C17_exact.

Theorem C17_exact_range : forall t base text sign pre ds rest err, 2 <= base <= 36 -> 1 <= bits t ->
  number_text t base text sign pre ds rest -> pre <> [] -> in_range t (signed_value base sign ds) ->
  drive t base GStart err 0 text 0
  = ((length sign + length pre)%nat, match rest with [] => Z.lor err eofbit | _ => err end, signed_value base sign ds).
Proof. exact range_in. Qed.
Print Assumptions C17_exact_range.

(* With neither sign nor digit: failbit, 0, and only whitespace is consumed. *)
Theorem C17_no_digit : forall tr t st data base k lead text ds rest,
  plain tr data -> good st = true -> flag_base st base -> (k <= length data)%nat ->
  skipn k data = lead ++ text -> Forall space lead ->
  number_text t base text [] [] ds rest -> match rest with [] => True | c :: _ => ~ space c end ->
  extract_int tr t (at_str st data k) = Ok (Some 0, at_str (setstate st failbit) data (k + length lead)).
Proof. exact C17_stream_none. Qed.
Print Assumptions C17_no_digit.

(* Without a base flag nothing is read: failbit, and the value is not assigned. *)
Theorem C17_no_base : forall tr t st data k lead rest, plain tr data -> good st = true -> (k <= length data)%nat ->
  skipn k data = lead ++ rest -> Forall space lead -> match rest with [] => True | c :: _ => ~ space c end ->
  Z.land (flags st) f_basefield = 0 ->
  extract_int tr t (at_str st data k) = Ok (None, at_str (setstate st failbit) data (k + length lead)).
Proof. exact Numio_Proofs.C17_no_base. Qed.
Print Assumptions C17_no_base.

(* Every number whose digits overflow before the last one: digits are left unread. *)
Theorem C173_overflow_early_refuted : forall tr t st data base k lead text sign pa pb dsa dsb rest,
  1 <= bits t -> plain tr data -> good st = true -> flag_base st base -> (k <= length data)%nat ->
  skipn k data = lead ++ text -> Forall space lead ->
  number_text t base text sign (pa ++ pb) (dsa ++ dsb) rest -> spells base pa dsa -> pb <> [] ->
  ~ in_range t (signed_value base sign dsa) ->
  exists v st' k', extract_int tr t (at_str st data k) = Ok (Some v, at_str st' data k') /\
    (k' < k + length lead + length sign + length (pa ++ pb))%nat.
Proof. exact C17_early. Qed.
Print Assumptions C173_overflow_early_refuted.

(* Every number that overflows with its last digit and is followed by something: characters
   behind it are consumed. *)
Theorem C173_overflow_late_refuted : forall tr t st data base k lead text sign pa c dsa d rest,
  1 <= bits t -> plain tr data -> good st = true -> flag_base st base -> (k <= length data)%nat ->
  skipn k data = lead ++ text -> Forall space lead ->
  number_text t base text sign (pa ++ [c]) (dsa ++ [d]) rest -> spells base pa dsa -> is_digit base c d ->
  rest <> [] ->
  in_range t (signed_value base sign dsa) -> ~ in_range t (signed_value base sign (dsa ++ [d])) ->
  exists v st' k', extract_int tr t (at_str st data k) = Ok (Some v, at_str st' data k') /\
    (k + length lead + length sign + length (pa ++ [c]) < k')%nat.
Proof. exact C17_late. Qed.
Print Assumptions C173_overflow_late_refuted.

(* A minus without digits reads as 0, without failbit. *)
Theorem C173_minus_refuted : forall tr t st data base k lead text ds rest,
  plain tr data -> good st = true -> flag_base st base -> (k <= length data)%nat ->
  skipn k data = lead ++ text -> Forall space lead ->
  number_text t base text [45] [] ds rest ->
  extract_int tr t (at_str st data k)
  = Ok (Some 0, at_str (match rest with [] => setstate st eofbit | _ => st end) data (k + length lead + 1)).
Proof. exact C17_stream_minus. Qed.
Print Assumptions C173_minus_refuted.

(* An empty range sets eofbit only. *)
Theorem C173_empty_refuted : forall t bf err, range_get t bf err [] = (0%nat, Z.lor err eofbit, 0).
Proof. exact (fun _ _ _ => eq_refl). Qed.
Print Assumptions C173_empty_refuted.

Example C17_case :
  let st := ios_init in
  good st = true /\ flag_base st 10 /\ plain StdTraits [32; 45; 55; 120] /\
  extract_int StdTraits (Ity 8 true) (at_str st [32; 45; 55; 120] 0)
  = Ok (Some (-7), at_str st [32; 45; 55; 120] 3) /\
  extract_int StdTraits (Ity 8 true) (at_str st [49; 50; 56; 57; 57] 0)
  = Ok (Some 127, at_str (setstate st failbit) [49; 50; 56; 57; 57] 3) /\
  extract_int StdTraits (Ity 8 true) (at_str st [49; 50; 56; 44; 57] 0)
  = Ok (Some 127, at_str (setstate st failbit) [49; 50; 56; 44; 57] 4).
Proof.
  split; [reflexivity|]. split; [left; split; reflexivity|]. split; [|repeat split; reflexivity].
  split; [reflexivity|]. split; [repeat constructor; unfold is_char; lia|discriminate].
Qed.

(* ---- C18: what operator<< writes, operator>> reads back, with eofbit only.  Excluded: the most
   negative value and the octal numerals that operator<< does not write (C15, C52), padding
   with another character or behind the number. *)
Theorem C18_round_trip : forall tr t i st buf base junk v s,
  std_ity t -> in_range t v -> not_min t v -> flag_base i base -> representable t base v ->
  length junk = (int_length 8 t + 1)%nat -> is_numeral (upper i) base v s ->
  0 <= width i < 16 -> fill true i = 32 -> adjusted i PadBefore ->
  room (osb_init buf) (Nat.max (Z.to_nat (width i)) (length s)) ->
  good st = true -> flag_base st base ->
  exists o', insert_int tr (Ostr i (osb_init buf)) t junk v = Ok o' /\
    let text := firstn (opos (osbuf o')) (obuf (osbuf o')) in
    extract_int tr t (at_str st text 0) = Ok (Some v, at_str (setstate st eofbit) text (length text)).
Proof. exact C18_main. Qed.
Print Assumptions C18_round_trip.

Example C18_case :
  let i := fst (set_width ios_init 7) in
  fill true i = 32 /\ adjusted i PadBefore /\ flag_base i 10 /\ room (osb_init (repeat 0 9)) 7 /\
  is_numeral (upper i) 10 (-42) [45; 52; 50] /\
  insert_int StdTraits (Ostr i (osb_init (repeat 0 9))) (Ity 16 true) (repeat 7 7) (-42)
  = Ok (Ostr ios_init (Osb [32; 32; 32; 32; 45; 52; 50; 0; 0] 7)) /\
  extract_int StdTraits (Ity 16 true) (at_str ios_init [32; 32; 32; 32; 45; 52; 50] 0)
  = Ok (Some (-42), at_str (setstate ios_init eofbit) [32; 32; 32; 32; 45; 52; 50] 7).
Proof.
  cbv zeta. split; [reflexivity|]. split; [reflexivity|]. split; [left; split; reflexivity|].
  split; [unfold room; cbn; lia|]. split; [|split; vm_compute; reflexivity].
  exists [4; 2]. split; [reflexivity|]. split; [discriminate|]. split; [repeat constructor; lia|].
  split; [reflexivity|discriminate].
Qed.

(* ---- C54: a text that begins with a name is accepted, with its value, consuming the name. *)
Theorem C54_accepts : forall tr st data k lead text rest b want, plain tr data -> good st = true ->
  (k <= length data)%nat ->
  skipn k data = lead ++ text -> Forall space lead -> nonzero (Z.land (flags st) f_boolalpha) = true ->
  (b = true /\ want = true_name \/ b = false /\ want = false_name) -> text = want ++ rest ->
  extract_bool tr (at_str st data k) = Ok (Some b, at_str st data (k + length lead + length want)).
Proof. exact C54_accepts_lemma. Qed.
Print Assumptions C54_accepts.

(* A text that starts like a name but does not begin with it is rejected: the state is no longer
   good, and the value is not true.  Excluded: other first characters, see the refutations. *)
Theorem C54_rejects : forall tr st data k lead c text, plain tr data -> good st = true ->
  (k <= length data)%nat ->
  skipn k data = lead ++ c :: text -> Forall space lead -> nonzero (Z.land (flags st) f_boolalpha) = true ->
  c = 116 \/ c = 102 ->
  (forall rest, c :: text <> true_name ++ rest) -> (forall rest, c :: text <> false_name ++ rest) ->
  exists r st' k', extract_bool tr (at_str st data k) = Ok (r, at_str st' data k') /\
    r <> Some true /\ good st' = false.
Proof. exact C54_rejects_lemma. Qed.
Print Assumptions C54_rejects.

(* Exactly how far it reads and what it reports; a text that ends inside the name sets eofbit
   only, and assigns nothing. *)
Theorem C54_compares : forall tr st data k lead c text b want, plain tr data -> good st = true ->
  (k <= length data)%nat ->
  skipn k data = lead ++ c :: text -> Forall space lead -> nonzero (Z.land (flags st) f_boolalpha) = true ->
  (b = true /\ want = true_name \/ b = false /\ want = false_name) -> hd_error want = Some c ->
  extract_bool tr (at_str st data k)
  = let (n, v) := compare_name (c :: text) want in
    Ok (match v with Same => Some b | Different => Some false | TooShort => None end,
        at_str (match v with Same => st | Different => setstate st failbit | TooShort => setstate st eofbit end)
               data (k + length lead + n)).
Proof. exact C54_main. Qed.
Print Assumptions C54_compares.

(* Any other first character followed by "rue" reads as true. *)
Theorem C199_first_char_refuted : forall tr st data k lead c rest, plain tr data -> good st = true ->
  (k <= length data)%nat ->
  skipn k data = lead ++ c :: 114 :: 117 :: 101 :: rest -> Forall space lead -> ~ space c ->
  nonzero (Z.land (flags st) f_boolalpha) = true -> c <> 116 -> c <> 102 ->
  extract_bool tr (at_str st data k) = Ok (Some true, at_str st data (k + length lead + 4)).
Proof. exact C54_skips_first. Qed.
Print Assumptions C199_first_char_refuted.

(* Six characters none of which is the one in its place in a name: the names are read past
   their end. *)
Theorem C199_overrun_refuted : forall tr st data k lead c0 c1 c2 c3 c4 c5 rest, plain tr data -> good st = true ->
  (k <= length data)%nat ->
  skipn k data = lead ++ [c0; c1; c2; c3; c4; c5] ++ rest -> Forall space lead -> ~ space c0 ->
  nonzero (Z.land (flags st) f_boolalpha) = true ->
  ~ In c0 [116; 102] -> ~ In c1 [114; 97] -> ~ In c2 [117; 108] -> ~ In c3 [101; 115] -> ~ In c4 [0; 101] ->
  extract_bool tr (at_str st data k) = UB.
Proof. exact C54_overrun. Qed.
Print Assumptions C199_overrun_refuted.

Example C54_case :
  let st := fst (setf1 ios_init f_boolalpha) in
  good st = true /\ nonzero (Z.land (flags st) f_boolalpha) = true /\
  extract_bool EstdTraits (at_str st [32; 102; 97; 108; 115; 101; 46] 0)
  = Ok (Some false, at_str st [32; 102; 97; 108; 115; 101; 46] 6) /\
  extract_bool EstdTraits (at_str st [116; 114; 121] 0)
  = Ok (Some false, at_str (setstate st failbit) [116; 114; 121] 3) /\
  compare_name [116; 114; 121] true_name = (3%nat, Different) /\
  extract_bool EstdTraits (at_str st [120; 114; 117; 101] 0) = Ok (Some true, at_str st [120; 114; 117; 101] 4) /\
  extract_bool EstdTraits (at_str st [49; 50; 51; 52; 53; 54] 0) = UB.
Proof. repeat split; vm_compute; reflexivity. Qed.

(* ---- C65: a bool read as a digit: 0 is false, 1 is true, anything else and the end of the
   input are true with failbit. *)
Theorem C65_numeric_bool : forall tr st data k lead text, plain tr data -> good st = true ->
  (k <= length data)%nat ->
  skipn k data = lead ++ text -> Forall space lead -> match text with [] => True | c :: _ => ~ space c end ->
  nonzero (Z.land (flags st) f_boolalpha) = false ->
  extract_bool tr (at_str st data k)
  = Ok (match text with
        | 48 :: _ => (Some false, at_str st data (k + length lead + 1))
        | 49 :: _ => (Some true, at_str st data (k + length lead + 1))
        | [] => (Some true, at_str (setstate st failbit) data (k + length lead))
        | _ => (Some true, at_str (setstate st failbit) data (k + length lead + 1))
        end).
Proof. exact C65_main. Qed.
Print Assumptions C65_numeric_bool.

Example C65_case :
  nonzero (Z.land (flags ios_init) f_boolalpha) = false /\
  extract_bool StdTraits (at_str ios_init [10; 48; 49] 0) = Ok (Some false, at_str ios_init [10; 48; 49] 2) /\
  extract_bool StdTraits (at_str ios_init [50] 0) = Ok (Some true, at_str (setstate ios_init failbit) [50] 1).
Proof. repeat split; vm_compute; reflexivity. Qed.

(* ---- C66: extracting a character skips whitespace and stores the next character; at the end
   of the input nothing is stored and failbit and eofbit are set.  Excluded: the character NUL
   with std::char_traits. *)
Theorem C66_extract_char : forall tr st data k lead c text, plain tr data -> good st = true ->
  (k <= length data)%nat ->
  skipn k data = lead ++ c :: text -> Forall space lead -> ~ space c -> (tr = StdTraits -> c <> 0) ->
  extract_char tr (at_str st data k) = Ok (Some c, at_str st data (k + length lead + 1)).
Proof. exact C66_main. Qed.
Print Assumptions C66_extract_char.

Theorem C66_extract_char_end : forall tr st data k, plain tr data -> good st = true -> (k <= length data)%nat ->
  Forall space (skipn k data) ->
  extract_char tr (at_str st data k) = Ok (None, at_str (setstate st (Z.lor failbit eofbit)) data (length data)).
Proof. exact C66_end. Qed.
Print Assumptions C66_extract_char_end.

(* With std::char_traits a NUL is consumed, not stored, and no error is reported. *)
Theorem C208_nul_refuted : forall st data k lead text, plain StdTraits data -> good st = true ->
  (k <= length data)%nat -> skipn k data = lead ++ 0 :: text -> Forall space lead ->
  extract_char StdTraits (at_str st data k) = Ok (None, at_str st data (k + length lead + 1)).
Proof. exact C66_nul. Qed.
Print Assumptions C208_nul_refuted.

Example C66_case :
  extract_char StdTraits (at_str ios_init [9; 32; -20; 65] 0) = Ok (Some (-20), at_str ios_init [9; 32; -20; 65] 3) /\
  extract_char StdTraits (at_str ios_init [0; 65] 0) = Ok (None, at_str ios_init [0; 65] 1) /\
  extract_char EstdTraits (at_str ios_init [0; 65] 0) = Ok (Some 0, at_str ios_init [0; 65] 1).
Proof. repeat split; vm_compute; reflexivity. Qed.
