(* Model of integer <-> text conversion:
   /repo/src/estd/charconv.h, internal/charconv.hpp, internal/charconv/from_chars.hpp,
   internal/charconv/reverse.hpp, internal/locale/cbase.h, internal/raise_and_add.h,
   internal/to_string.h and internal/limits/{traits,integer}.h.
   Characters are their codes (Z); a text is the list of characters of [first,last);
   pointers are indices from first.  Integer types are given by width and signedness.
   The overflow builtins (raise_and_add.h:8, FEATURE_TOOLCHAIN_OVERFLOW_BUILTIN) are
   assumed to be available; the branch for other tool chains is in Novf_Model.v. *)
From Coq Require Import List ZArith Bool.
From Verif Require Import Base MachInt Swap_Model Algo_Model.
Import ListNotations.
Local Open Scope Z_scope.
Local Open Scope res_scope.

Inductive errc := NoErr | InvalidArgument | ResultOutOfRange | ValueTooLarge.

(* ---- cbase.h: characters and digits ---- *)

(* internal/locale/ctype.h ascii_isdigit: '0' <= c <= '9' *)
Definition ascii_isdigit (c : Z) : bool := (48 <=? c) && (c <=? 57).

(* cbase.h:138-141  is_in_base, templates with b <= 10 *)
Definition is_in_base_10 (c base : Z) : bool := (48 <=? c) && (c <=? 48 + (base - 1)).
(* cbase.h:157-164  from_char, b <= 10 *)
Definition from_char_10 (c base : Z) : option Z :=
  if is_in_base_10 c base then Some (c - 48) else None.

(* cbase.h:183-186, 194-197  isupper, islower *)
Definition isupper (c base : Z) : bool := (65 <=? c) && (c <=? 65 + (base - 11)).
Definition islower (c base : Z) : bool := (97 <=? c) && (c <=? 97 + (base - 11)).
(* cbase.h:199-205  is_in_base, templates with 10 < b <= 36 *)
Definition is_in_base_36 (c base : Z) : bool :=
  ascii_isdigit c || isupper c base || islower c base.
(* cbase.h:207-220  from_char, 10 < b <= 36 *)
Definition from_char_36 (c base : Z) : option Z :=
  if ascii_isdigit c then Some (c - 48)                              (* :211 *)
  else let c := Z.land c (Z.lnot 32) in                              (* :213 *)
       if isupper c base then Some (c - 65 + 10) else None.          (* :215-219 *)

(* charconv.h:79-82  the run-time base picks the template: 36 if base > 10, else 10 *)
Definition from_char (base c : Z) : option Z :=
  if 10 <? base then from_char_36 c base else from_char_10 c base.
(* from_chars.hpp:63 calls is_in_base(c) with the template's default base. *)
Definition is_in_template_base (base c : Z) : bool :=
  if 10 <? base then is_in_base_36 c 36 else is_in_base_10 c 10.

(* cbase.h:152-155 and 232-241  to_char; upper: the casing of :60-77 *)
Definition to_char (base : Z) (upper : bool) (v : Z) : Z :=
  if 10 <? base then
    if v <? 10 then 48 + v else (if upper then 65 else 97) + (v - 10)
  else 48 + v.

(* ---- from_chars ---- *)

(* raise_and_add.h:14-20: multiply by base, add the digit, each checked to fit T *)
Definition fits (t : ity) (z : Z) : bool := (imin t <=? z) && (z <=? imax t).
Definition raise_and_add (t : ity) (v base d : Z) : option Z :=
  if fits t (v * base) then
    if fits t (v * base + d) then Some (v * base + d) else None
  else None.

(* ptr, ec, and the new value of the output argument if it is assigned *)
Record fc_result := FcR { fptr : nat; fec : errc; fval : option Z }.

(* from_chars.hpp:63  while (++current != last && is_in_base( *current )) {}
   [rest] are the characters after current, [cur] the index of the first of them *)
Fixpoint fc_skip (base : Z) (rest : list Z) (cur : nat) : nat :=
  match rest with
  | [] => cur
  | c :: rest' => if is_in_template_base base c then fc_skip base rest' (S cur) else cur
  end.

(* from_chars.hpp:50-97  the loop from current on; [rest] = [current,last) *)
Fixpoint fc_loop (t : ity) (base : Z) (negate : bool) (rest : list Z) (cur : nat) (local : Z)
  : fc_result :=
  match rest with
  | [] => FcR cur NoErr (Some (if sgn t && negate then - local else local))    (* :94-101 *)
  | c :: rest' =>
      match from_char base c with                                              (* :53 *)
      | Some d =>
          match raise_and_add t local base d with                              (* :56 *)
          | Some local' => fc_loop t base negate rest' (S cur) local'          (* :90 *)
          | None => FcR (fc_skip base rest' (S cur)) ResultOutOfRange None     (* :59-70 *)
          end
      | None =>
          if Nat.eqb cur 0 then FcR cur InvalidArgument None                   (* :72-80 *)
          else FcR cur NoErr (Some local)                                      (* :83-88 *)
      end
  end.

(* from_chars.hpp:11-103 and charconv.h:72-83.  Reading *first of an empty range
   (:45, signed types only) is UB. *)
Definition from_chars (t : ity) (base : Z) (text : list Z) : result fc_result :=
  if sgn t then
    c <- rd text 0 ;;                                                          (* :45 *)
    if c =? 45 then Ok (fc_loop t base true (tl text) 1 0)                     (* :47 *)
    else Ok (fc_loop t base false text 0 0)
  else Ok (fc_loop t base false text 0 0).

(* ---- to_chars ---- *)

(* value *= -1 (charconv.hpp:54, reverse.hpp:21).  Types narrower than int are
   promoted, multiplied and converted back; for int and wider, overflow is UB. *)
Definition times_minus_one (t : ity) (v : Z) : result Z :=
  if bits t <? 32 then Ok (wrap t (- v))
  else if fits t (- v) then Ok (- v) else UB.

(* charconv.hpp:67-68  value % base() and value / base() with base() unsigned (32 bits):
   operands of at most 32 bits are converted to unsigned 32; a 64-bit value keeps its
   type.  The quotient is converted back to the type of value. *)
Definition as_operand (t : ity) (v : Z) : Z := if bits t <=? 32 then u32 v else v.
Definition opt_rem (t : ity) (v base : Z) : Z := Z.rem (as_operand t v) base.
Definition opt_quot (t : ity) (v base : Z) : Z := wrap t (Z.quot (as_operand t v) base).

(* ptr, ec, the buffer afterwards *)
Record tc_result := TcR { tptr : nat; tec : errc; tbuf : list Z }.

(* charconv.hpp:56-88  the loop with [last] before its decrement.  --last below first
   leaves the buffer: UB. *)
Fixpoint tco_loop (t : ity) (base : Z) (upper negative : bool) (last : nat) (buf : list Z) (value : Z)
  : result tc_result :=
  match last with
  | O => UB
  | S l =>
      if Nat.eqb l 0 then Ok (TcR l ValueTooLarge buf)                         (* :56, 84-88 *)
      else
        buf1 <- wr buf l (to_char base upper (opt_rem t value base)) ;;        (* :67 *)
        let value' := opt_quot t value base in                                 (* :68 *)
        if value' =? 0 then                                                    (* :71 *)
          if sgn t && negative then                                            (* :73 *)
            buf2 <- wr buf1 (l - 1) 45 ;;                                      (* :74 *)
            Ok (TcR (l - 1) NoErr buf2)
          else Ok (TcR l NoErr buf1)                                           (* :77 *)
        else tco_loop t base upper negative l buf1 value'
  end.

(* charconv.hpp:38-89 to_chars_integer_opt over a whole buffer; charconv.h:95-113
   to_chars_opt (the flag upper only reaches bases above 10) *)
Definition to_chars_opt (t : ity) (base : Z) (upper : bool) (buf : list Z) (value : Z)
  : result tc_result :=
  let negative := sgn t && (value <? 0) in                                     (* :47 *)
  v <- (if negative then times_minus_one t value else Ok value) ;;             (* :54 *)
  tco_loop t base upper negative (length buf) buf v.

(* charconv.h:115-127  to_chars: convert, then copy to the front *)
Definition to_chars (t : ity) (base : Z) (buf : list Z) (value : Z) : result tc_result :=
  r <- to_chars_opt t base false buf value ;;                                  (* :122 *)
  r2 <- copy (tbuf r) (tptr r) (length buf) 0 ;;                               (* :124 *)
  Ok (TcR (snd r2) (tec r) (fst r2)).

(* reverse.hpp:26-49  the loop; [n] = last - current.  base is int here, so there is no
   unsigned conversion of a signed value *)
Fixpoint tcr_loop (t : ity) (base : Z) (n : nat) (first current : nat) (buf : list Z) (value : Z)
  : result tc_result :=
  match n with
  | O => Ok (TcR current ValueTooLarge buf)                                    (* :45-49 *)
  | S n' =>
      buf1 <- wr buf current (to_char base false (Z.rem value base)) ;;        (* :29 *)
      let value' := wrap t (Z.quot value base) in                              (* :30 *)
      if value' =? 0 then                                                      (* :34 *)
        buf2 <- reverse xor_swap buf1 first (S current) ;;                     (* :36 *)
        Ok (TcR (S current) NoErr buf2)
      else tcr_loop t base n' first (S current) buf1 value'
  end.

(* reverse.hpp:12-50 and charconv.h:129-136  to_chars_exp.  For an empty buffer and a
   negative value, *first++ leaves the buffer (UB). *)
Definition to_chars_exp (t : ity) (base : Z) (buf : list Z) (value : Z) : result tc_result :=
  if sgn t && (value <? 0) then
    buf1 <- wr buf 0 45 ;;                                                     (* :20 *)
    v <- times_minus_one t value ;;                                            (* :21 *)
    tcr_loop t base (length buf - 1) 1 1 buf1 v
  else tcr_loop t base (length buf) 0 0 buf value.

(* ---- to_string ---- *)

(* limits/traits.h:19-38 and limits/integer.h:38-44: characters reserved for a numeral *)
Definition uint_strlen (base w : Z) : nat :=
  if base =? 16 then Z.to_nat (w / 4)
  else if base =? 8 then Z.to_nat ((w + 1) / 3)
  else if w =? 8 then 3%nat else if w =? 16 then 5%nat else if w =? 32 then 10%nat else 20%nat.
Definition int_length (base : Z) (t : ity) : nat :=
  (uint_strlen base (bits t) + (if sgn t then 1 else 0))%nat.

(* to_string.h:83-94 (FEATURE_ESTD_TO_STRING_OPT, set in internal/feature/string.h) with
   internal/charconv/string.h:17-105: the returned string is [begin + (ptr - begin), begin + N).
   [junk] is the uninitialised buffer, of length N = length<10> + 1.  r.ec is ignored. *)
Definition to_string (t : ity) (junk : list Z) (value : Z) : result (list Z) :=
  r <- to_chars_opt t 10 false junk value ;;
  Ok (skipn (tptr r) (tbuf r)).

(* to_string.h:50-64  to_string_opt(char (&buffer)[N], value, base) : ptr, ec and buffer *)
Definition to_string_opt (t : ity) (base : Z) (buf : list Z) (value : Z) : result tc_result :=
  r <- to_chars_opt t base false (firstn (length buf - 1) buf) value ;;
  b <- wr (tbuf r ++ skipn (length buf - 1) buf) (length buf - 1) 0 ;;
  Ok (TcR (tptr r) (tec r) b).
