(* Reading integers on tool chains without overflow builtins (C407-C411).
   [number_text t base text sign pre ds rest]: text is sign, then the maximal run pre of digits
   (with values ds), then rest.  [at_str st data k]: a stream over the text data that stands
   before its character k, with state st.  [wrap t z]: z reduced to the type t modulo 2 ^ bits t. *)
From Coq Require Import List ZArith Bool Lia.
From Verif Require Import Base MachInt Charconv_Model Charconv_Spec Ios_Model Streambuf_Model Istream_Model Stream_Spec
  Stream_Proofs Ostream_Spec Numio_Spec Novf_Spec Novf_Model Novf_Proofs.
Import ListNotations.
Local Open Scope Z_scope.

(* ---- C407: from_chars reads every number that fits.  Excluded as with the builtins (C170): a
   negative number followed by something else; and the least value of int and wider types. *)
Theorem C407_reads : forall t base text sign pre ds rest, std_ity t -> 2 <= base <= 36 ->
  number_text t base text sign pre ds rest -> pre <> [] -> sign = [] \/ rest = [] ->
  in_range t (signed_value base sign ds) -> (wide_signed t -> signed_value base sign ds <> imin t) ->
  nfrom_chars t base text = Ok (FcR (length sign + length pre) NoErr (Some (signed_value base sign ds))).
Proof. exact from_fits. Qed.
Print Assumptions C407_reads.

Theorem C407_no_digit : forall t base text ds rest, 2 <= base <= 36 ->
  number_text t base text [] [] ds rest -> text <> [] ->
  nfrom_chars t base text = Ok (FcR 0 InvalidArgument None).
Proof. exact from_none. Qed.
Print Assumptions C407_no_digit.

Example C407_case :
  number_text (Ity 32 true) 10 [45; 49; 50] [45] [49; 50] [1; 2] [] /\
  nfrom_chars (Ity 32 true) 10 [45; 49; 50] = Ok (FcR 3 NoErr (Some (-12))) /\
  nfrom_chars (Ity 8 true) 10 [45; 49; 50; 56] = Ok (FcR 4 NoErr (Some (-128))) /\
  nfrom_chars (Ity 8 false) 16 [102; 70; 120] = Ok (FcR 2 NoErr (Some 255)) /\
  nfrom_chars (Ity 8 false) 16 [120] = Ok (FcR 0 InvalidArgument None).
Proof.
  split; [|repeat split; reflexivity]. split; [reflexivity|]. split; [left; split; reflexivity|].
  split; [repeat constructor|exact I].
Qed.

(* ---- C408: operator>> reads every number that fits, consumes it exactly and sets at most
   eofbit; where there is no number it sets failbit. *)
Theorem C408_reads : forall tr t st data base k lead text sign pre ds rest,
  std_ity t -> plain tr data -> good st = true -> flag_base st base -> (k <= length data)%nat ->
  skipn k data = lead ++ text -> Forall space lead ->
  number_text t base text sign pre ds rest -> pre <> [] -> in_range t (signed_value base sign ds) ->
  nextract_int tr t (at_str st data k)
  = Ok (Some (signed_value base sign ds),
        at_str (match rest with [] => setstate st eofbit | _ => st end) data
               (k + length lead + length sign + length pre)).
Proof. exact extract_fits. Qed.
Print Assumptions C408_reads.

Theorem C408_no_digit : forall tr t st data base k lead c text ds,
  plain tr data -> good st = true -> flag_base st base -> (k <= length data)%nat ->
  skipn k data = lead ++ c :: text -> Forall space lead ->
  number_text t base (c :: text) [] [] ds (c :: text) -> ~ space c ->
  nextract_int tr t (at_str st data k) = Ok (Some 0, at_str (setstate st failbit) data (k + length lead)).
Proof. exact extract_none. Qed.
Print Assumptions C408_no_digit.

Example C408_case :
  let st := ios_init in
  good st = true /\ flag_base st 10 /\ plain StdTraits [32; 45; 55; 120] /\
  nextract_int StdTraits (Ity 32 true) (at_str st [32; 45; 55; 120] 0)
  = Ok (Some (-7), at_str st [32; 45; 55; 120] 3) /\
  nextract_int StdTraits (Ity 8 true) (at_str st [45; 49; 50; 56] 0)
  = Ok (Some (-128), at_str (setstate st eofbit) [45; 49; 50; 56] 4).
Proof.
  split; [reflexivity|]. split; [left; split; reflexivity|]. split; [|repeat split; reflexivity].
  split; [reflexivity|]. split; [repeat constructor; unfold is_char; lia|discriminate].
Qed.

(* ---- C409: into a type that is unsigned or narrower than int, every number is read modulo a
   power of two, and its text is consumed exactly. *)
Theorem C409_from_chars : forall t base text sign pre ds rest, std_ity t -> ~ wide_signed t -> 2 <= base <= 36 ->
  number_text t base text sign pre ds rest -> pre <> [] -> sign = [] \/ rest = [] ->
  nfrom_chars t base text
  = Ok (FcR (length sign + length pre) NoErr (Some (wrap t (signed_value base sign ds)))).
Proof. exact from_wraps. Qed.
Print Assumptions C409_from_chars.

Theorem C409_stream : forall tr t st data base k lead text sign pre ds rest,
  std_ity t -> ~ wide_signed t -> plain tr data -> good st = true -> flag_base st base -> (k <= length data)%nat ->
  skipn k data = lead ++ text -> Forall space lead ->
  number_text t base text sign pre ds rest -> pre <> [] ->
  nextract_int tr t (at_str st data k)
  = Ok (Some (wrap t (signed_value base sign ds)),
        at_str (match rest with [] => setstate st eofbit | _ => st end) data
               (k + length lead + length sign + length pre)).
Proof. exact extract_wraps. Qed.
Print Assumptions C409_stream.

Example C409_case :
  ~ wide_signed (Ity 8 true) /\ ~ wide_signed (Ity 32 false) /\
  nfrom_chars (Ity 8 false) 10 [51; 48; 48] = Ok (FcR 3 NoErr (Some 44)) /\
  nfrom_chars (Ity 8 true) 10 [45; 49; 50; 57] = Ok (FcR 4 NoErr (Some 127)) /\
  nextract_int StdTraits (Ity 16 true) (at_str ios_init [52; 48; 48; 48; 48; 32] 0)
  = Ok (Some (-25536), at_str ios_init [52; 48; 48; 48; 48; 32] 5).
Proof.
  split; [intros [_ H]; cbn in H; lia|]. split; [intros [H _]; discriminate|]. repeat split; reflexivity.
Qed.

(* ---- C410: from_chars does not report numbers that do not fit: into a type that wraps, each of
   them is success with another number; into int and wider, undefined behaviour. *)
Theorem C410_unnoticed_refuted : forall t base text sign pre ds rest, std_ity t -> 2 <= base <= 36 ->
  number_text t base text sign pre ds rest -> pre <> [] -> sign = [] \/ rest = [] ->
  ~ in_range t (signed_value base sign ds) ->
  (~ wide_signed t -> exists v, nfrom_chars t base text = Ok (FcR (length sign + length pre) NoErr (Some v)) /\
     in_range t v /\ v <> signed_value base sign ds) /\
  (wide_signed t -> nfrom_chars t base text = UB).
Proof. exact from_over. Qed.
Print Assumptions C410_unnoticed_refuted.

(* The least int fits, yet reading it is undefined. *)
Theorem C410_least_refuted : forall t base text pre ds, wide_signed t -> 2 <= base <= 36 ->
  number_text t base text [45] pre ds [] -> value_of base ds = 2 ^ (bits t - 1) ->
  in_range t (signed_value base [45] ds) /\ nfrom_chars t base text = UB.
Proof. exact from_least. Qed.
Print Assumptions C410_least_refuted.

Example C410_case :
  number_text (Ity 32 true) 16 [45; 56; 48; 48; 48; 48; 48; 48; 48] [45] [56; 48; 48; 48; 48; 48; 48; 48] [8; 0; 0; 0; 0; 0; 0; 0] [] /\
  value_of 16 [8; 0; 0; 0; 0; 0; 0; 0] = 2 ^ 31 /\
  nfrom_chars (Ity 32 true) 16 [45; 56; 48; 48; 48; 48; 48; 48; 48] = UB /\
  ~ in_range (Ity 8 false) 256 /\ nfrom_chars (Ity 8 false) 10 [50; 53; 54] = Ok (FcR 3 NoErr (Some 0)).
Proof.
  split; [|split; [reflexivity|split; [reflexivity|split; [intros [_ H]; now apply H|reflexivity]]]].
  split; [reflexivity|]. split; [left; split; reflexivity|]. split; [repeat constructor|exact I].
Qed.

(* ---- C411: nor does operator>>: failbit stays off, or the behaviour is undefined. *)
Theorem C411_unnoticed_refuted : forall tr t st data base k lead text sign pre ds rest,
  std_ity t -> plain tr data -> good st = true -> flag_base st base -> (k <= length data)%nat ->
  skipn k data = lead ++ text -> Forall space lead ->
  number_text t base text sign pre ds rest -> pre <> [] -> ~ in_range t (signed_value base sign ds) ->
  (~ wide_signed t -> exists v s', nextract_int tr t (at_str st data k) = Ok (Some v, s') /\
     Z.testbit (rdstate (ist s')) 1 = false) /\
  (wide_signed t -> nextract_int tr t (at_str st data k) = UB).
Proof. exact extract_over. Qed.
Print Assumptions C411_unnoticed_refuted.

Example C411_case :
  nextract_int StdTraits (Ity 8 false) (at_str ios_init [50; 53; 54] 0)
  = Ok (Some 0, at_str (setstate ios_init eofbit) [50; 53; 54] 3) /\
  nextract_int StdTraits (Ity 32 true) (at_str ios_init [57; 57; 57; 57; 57; 57; 57; 57; 57; 57] 0) = UB /\
  ~ in_range (Ity 32 true) 9999999999.
Proof.
  split; [reflexivity|]. split; [reflexivity|]. intros [_ H]. now apply H.
Qed.
