(* Model of flags.h, internal/raw/cstddef.h (byte) and limits.h, internal/limits/integer.h. *)
From Coq Require Import ZArith Bool.
From Verif Require Import Base MachInt Charconv_Model.
Local Open Scope Z_scope.

(* ---- flags.h:12-70 flags<Enum>.  t: the underlying type of Enum (int_type, line 17); the value is
   that of the enumeration.  Where int_type is smaller than int, the braces of lines 58, 63 and 68 allow
   the conversion back in constant expressions only; here it is the conversion.  operator|= (37-41)
   uses itself on Enum and does not compile. *)
Section Flags.
Variable t : ity.
Definition fl_not (a : Z) : Z := wrap t (Z.lnot a).             (* :51-54 *)
Definition fl_xor (a v : Z) : Z := wrap t (Z.lxor v a).         (* :56-59 *)
Definition fl_or (a v : Z) : Z := wrap t (Z.lor v a).           (* :61-64 *)
Definition fl_and (a v : Z) : Z := wrap t (Z.land v a).         (* :66-69 *)
Definition fl_bool (a : Z) : bool := negb (a =? 0).             (* :45, value_type{} is 0 *)
Definition fl_eq (a b : Z) : bool := a =? b.                    (* :73-84 *)
Definition fl_ne (a b : Z) : bool := negb (a =? b).             (* :86-90 *)
End Flags.

(* ---- internal/raw/cstddef.h:13-98, with enum class byte : unsigned char *)
Definition to_byte (v : Z) : Z := v mod 256.                    (* :49-57 *)
Definition to_integer (t : ity) (b : Z) : Z := wrap t b.        (* :34-43 *)
(* :60-65: the operand is promoted to int (32 bits).  Before C++20 the product has to fit the unsigned
   type, and the shift the width. *)
Definition byte_shl (b s : Z) : result Z :=
  if (s <? 0) || (32 <=? s) then UB
  else if b * 2 ^ s <? 2 ^ 32 then Ok (to_byte (wraps 32 (b * 2 ^ s))) else UB.
(* :67-73 operator >>= *)
Definition byte_shr (b s : Z) : result Z :=
  if (s <? 0) || (32 <=? s) then UB else Ok (to_byte (Z.shiftr b s)).
Definition byte_or (l r : Z) : Z := to_byte (Z.lor (wrapu 32 l) (wrapu 32 r)).   (* :85-98 *)

(* ---- limits.h:12-25 and internal/limits/integer.h:18-124, for the types of 8, 16, 32 and 64 bits.
   length<base> is int_length of Charconv_Model. *)
Record limits := Limits { l_min : Z; l_max : Z; l_digits : Z; l_digits10 : Z }.
Definition integer_limits (t : ity) : option limits :=
  let d := bits t - (if sgn t then 1 else 0) in                 (* :28 *)
  if sgn t then
    if bits t =? 8 then Some (Limits (-128) 127 d 2)            (* :46-54 *)
    else if bits t =? 16 then Some (Limits (-32768) 32767 d 4)  (* :66-74 *)
    else if bits t =? 32 then Some (Limits (-2147483648) 2147483647 d 9)                        (* :86-94 *)
    else if bits t =? 64 then Some (Limits (-9223372036854775808) 9223372036854775807 d 18)     (* :106-114 *)
    else None
  else
    if bits t =? 8 then Some (Limits 0 255 d 2)                 (* :56-64 *)
    else if bits t =? 16 then Some (Limits 0 65535 d 4)         (* :76-84 *)
    else if bits t =? 32 then Some (Limits 0 4294967295 d 9)    (* :96-104 *)
    else if bits t =? 64 then Some (Limits 0 18446744073709551615 d 19)                         (* :116-124 *)
    else None.
