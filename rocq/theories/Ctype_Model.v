(* Model of character classification: /repo/src/estd/cctype.h, internal/cctype.h,
   internal/locale/ctype.h, locale.h:65-69 and the digits of internal/locale/cbase.h (whose
   from_char, to_char and is_in_base are in Charconv_Model).  Characters are their codes. *)
From Coq Require Import ZArith Bool.
From Verif Require Import Ctype_Spec Charconv_Model.
Local Open Scope Z_scope.

(* cctype.h:9-12, 14-17, 19-22 *)
Definition c_isupper (ch : Z) : bool := (65 <=? ch) && (ch <=? 90).
Definition c_islower (ch : Z) : bool := (97 <=? ch) && (ch <=? 122).
Definition c_isalpha (ch : Z) : bool := c_isupper ch || c_islower ch.
(* internal/cctype.h:10-13, 5-8; cctype.h:24-32 *)
Definition c_isspace (ch : Z) : bool := ch =? 32.
Definition c_isdigit (ch : Z) : bool := (48 <=? ch) && (ch <=? 57).

(* locale/ctype.h:23-29 *)
Definition bit (k : category) : Z :=
  match k with
  | Space => 1 | Digit => 2 | Alpha => 4 | Punct => 8 | Upper => 16 | Lower => 32 | Xdigit => 64
  end.
(* ctype.h:52-67 *)
Definition l_isspace (ch : Z) : bool :=
  (ch =? 32) || (ch =? 13) || (ch =? 10) || (ch =? 12) || (ch =? 9) || (ch =? 11).
(* ctype.h:69-72 *)
Definition l_isupper (ch : Z) : bool := (65 <=? ch) && (ch <=? 90).
(* ctype.h:74-77 *)
Definition l_islower (ch : Z) : bool := (97 <=? ch) && (ch <=? 97).
(* ctype.h:86-111 *)
Definition has (m : Z) (k : category) : bool := negb (Z.land m (bit k) =? 0).
Definition is (m ch : Z) : bool :=
  (has m Space && l_isspace ch) ||
  (if has m Xdigit then is_in_base_36 ch 16 else has m Digit && is_in_base_10 ch 10) ||
  (if has m Upper then l_isupper ch else has m Lower && l_islower ch).
(* locale.h:65-69 *)
Definition isspace_loc (ch : Z) : bool := is 1 ch.

(* cbase.h:147-150 and 222-230 from_char_raw *)
Definition from_char_raw (base c : Z) : Z :=
  if 10 <? base then (if c <=? 57 then c - 48 else if c <=? 90 then c - 65 + 10 else c - 97 + 10)
  else c - 48.
