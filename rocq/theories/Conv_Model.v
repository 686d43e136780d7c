(* Model of the older text conversions and of the logging stand-in:
   /repo/src/estd/internal/string_convert.h and string_convert.cpp (fromString, validateString,
   maxStringLength, legacy::from_chars), internal/to_string.h string_convert_traits, and
   internal/utility.cpp with port/esp-idf/fake/esp_log.h (esp_log_write, esp_log_set_vprintf).
   char is signed and has 8 bits, int 32 bits; w is the width of long.  A pointer is the list of
   characters from it to the end of the array it points into; a read beyond that is undefined.
   atoi, strtol, strtoul, isdigit, strlen and vprintf are those of the C standard, in the C locale, for
   the bases 2 to 36.  The features FEATURE_ESTD_STRING_LEGACY_VALIDATION and _FROM_CHARS are on and
   VALIDATE_FEATURE_NULLCHECK is off.  The float, double and sprintf variants are not modelled. *)
From Coq Require Import List ZArith Bool.
From Verif Require Import Base MachInt Charconv_Spec Charconv_Model Conv_Spec.
Import ListNotations.
Local Open Scope Z_scope.
Local Open Scope res_scope.

(* ---- the C library (C11 7.22.1, 7.4.1.5, 7.24.6.3) ---- *)

Definition c_isspace (c : Z) : bool := (c =? 32) || ((9 <=? c) && (c <=? 13)).
(* 7.4p1: the argument must be EOF or representable as an unsigned char *)
Definition c_isdigit (c : Z) : result bool :=
  if (-1 <=? c) && (c <=? 255) then Ok ((48 <=? c) && (c <=? 57)) else UB.

Fixpoint c_strlen (p : list Z) : result nat :=
  match p with
  | [] => UB
  | c :: r => if c =? 0 then Ok 0%nat else n <- c_strlen r ;; Ok (S n)
  end.

(* The initial blanks: how many, and what follows. *)
Fixpoint skip_blanks (p : list Z) : result (nat * list Z) :=
  match p with
  | [] => UB
  | c :: r => if c_isspace c then ' (n, q) <- skip_blanks r ;; Ok (S n, q) else Ok (0%nat, p)
  end.

(* The optional sign: whether it is a minus, its length, and what follows. *)
Definition take_sign (p : list Z) : result (bool * nat * list Z) :=
  match p with
  | [] => UB
  | c :: r => if c =? 45 then Ok (true, 1%nat, r) else if c =? 43 then Ok (false, 1%nat, r) else Ok (false, 0%nat, p)
  end.

(* The digits of the base: the number and how many digits. *)
Fixpoint take_digits (base : Z) (p : list Z) (v : Z) (n : nat) : result (Z * nat) :=
  match p with
  | [] => UB
  | c :: r =>
      match digit_value c with
      | Some d => if d <? base then take_digits base r (v * base + d) (S n) else Ok (v, n)
      | None => Ok (v, n)
      end
  end.

(* The 0x or 0X that base 16 allows, when a digit follows it. *)
Definition take_prefix (base : Z) (p : list Z) : nat * list Z :=
  match p with
  | 48 :: x :: d :: r =>
      if (base =? 16) && ((x =? 120) || (x =? 88)) &&
         match digit_value d with Some k => k <? 16 | None => false end
      then (2%nat, d :: r) else (0%nat, p)
  | _ => (0%nat, p)
  end.

(* The subject sequence of strtol and strtoul: None if there is none; else minus?, magnitude, length. *)
Definition subject (p : list Z) (base : Z) : result (option (bool * Z * nat)) :=
  ' (nb, q) <- skip_blanks p ;;
  ' (neg, ns, q) <- take_sign q ;;
  let (np, q) := take_prefix base q in
  ' (v, nd) <- take_digits base q 0 0 ;;
  Ok (if (nd =? 0)%nat then None else Some (neg, v, (nb + ns + np + nd)%nat)).

Definition ERANGE : bool := true.
(* Answer, end of the number, whether errno was set to ERANGE.  No number: 0 and the start. *)
Definition c_strtol (w : Z) (p : list Z) (base : Z) : result (Z * nat * bool) :=
  s <- subject p base ;;
  Ok (match s with
      | None => (0, 0%nat, false)
      | Some (neg, v, n) =>
          let z := if neg then - v else v in
          if fits (Ity w true) z then (z, n, false)
          else (if neg then imin (Ity w true) else imax (Ity w true), n, ERANGE)
      end).
(* The minus sign negates in the unsigned type. *)
Definition c_strtoul (w : Z) (p : list Z) (base : Z) : result (Z * nat * bool) :=
  s <- subject p base ;;
  Ok (match s with
      | None => (0, 0%nat, false)
      | Some (neg, v, n) =>
          if v <=? imax (Ity w false) then (if neg then wrapu w (- v) else v, n, false)
          else (imax (Ity w false), n, ERANGE)
      end).
(* 7.22.1p1: if the value cannot be represented, the behaviour is undefined *)
Definition c_atoi (p : list Z) : result Z :=
  s <- subject p 10 ;;
  match s with
  | None => Ok 0
  | Some (neg, v, _) => let z := if neg then - v else v in if fits (Ity 32 true) z then Ok z else UB
  end.

(* ---- string_convert.h:30-67 fromString ---- *)

(* string_convert.h:32-36 *)
Definition from_string_uchar (p : list Z) : result Z := v <- c_atoi p ;; Ok (wrap (Ity 8 false) v).
(* string_convert.h:38-42 *)
Definition from_string_int (p : list Z) : result Z := c_atoi p.
(* string_convert.h:49-52 *)
Definition from_string_ulong (w : Z) (p : list Z) : result Z := ' (v, _, _) <- c_strtoul w p 10 ;; Ok v.
(* string_convert.h:59-62 *)
Definition from_string_char (p : list Z) : result Z := rd p 0.
(* string_convert.h:64-67 *)
Definition from_string_ushort (w : Z) (p : list Z) : result Z :=
  ' (v, _, _) <- c_strtoul w p 10 ;; Ok (wrap (Ity 16 false) v).

(* ---- validateString: nullptr (Accept) or one of the messages ---- *)

Inductive verdict := Accept | TooLong | BadFormat.

(* string_convert.cpp:31-37 *)
Definition validate_char (p : list Z) : result verdict :=
  n <- c_strlen p ;; Ok (if (1 <? n)%nat then TooLong else Accept).

(* string_convert.cpp:40-49: do { if(!isdigit( *input)) return ...; } while( *++input) *)
Fixpoint validate_int (p : list Z) : result verdict :=
  match p with
  | [] => UB                                                       (* :45 *)
  | c :: r =>
      b <- c_isdigit c ;;                                          (* :45 *)
      if negb b then Ok BadFormat
      else match r with
           | [] => UB                                              (* :46 *)
           | c' :: _ => if c' =? 0 then Ok Accept else validate_int r
           end
  end.

(* string_convert.h:156-159 *)
Definition validate_uchar (p : list Z) : result verdict := validate_int p.

(* string_convert.cpp:74-82: input == str_end *)
Definition validate_ushort (w : Z) (p : list Z) : result verdict :=
  ' (_, e, _) <- c_strtoul w p 10 ;; Ok (if (e =? 0)%nat then BadFormat else Accept).

(* ---- legacy::from_chars, string_convert.cpp:172-194 ---- *)

(* ptr (an offset from first), ec and the new value.  [last] is only where strtol writes its end. *)
Record lfc_result := LfcR { lptr : nat; lec : errc; lval : Z }.
Definition legacy_from_chars (w : Z) (mem : list Z) (last : nat) (base : Z) : result lfc_result :=
  let last0 := last in                                              (* :175 str_end = &last *)
  ' (value, last, erange) <- c_strtol w mem base ;;                 (* :176-182 *)
  Ok (if (last =? 0)%nat then LfcR 0 InvalidArgument value          (* :184-185 *)
      else LfcR last (if (erange : bool) then ResultOutOfRange else NoErr) value).  (* :187 *)

(* ---- string_convert.h:78-122 maxStringLength ---- *)

(* The integer types of the language.  Which of them is int32_t, int64_t depends on the platform. *)
Inductive ctype := TChar | TSchar | TUchar | TShort | TUshort | TInt | TUint | TLong | TUlong | TLlong | TUllong.
(* LP64: int32_t is int, int64_t is long.  ILP32 (a desktop): int32_t is int, int64_t is long long.
   ILP32_newlib (bare metal, not ARM): int32_t is long, int64_t is long long.  ARM32 and ARM32_newlib: the
   same two on a 32-bit ARM, where ESTD_MCU_ARM is set (port/toolchain/gnuc.h:67-71). *)
Inductive platform := LP64 | ILP32 | ILP32_newlib | ARM32 | ARM32_newlib.
Definition is_arm (pl : platform) : bool := match pl with ARM32 | ARM32_newlib => true | _ => false end.
Definition is_i32 (pl : platform) (t : ctype) : bool :=
  match pl, t with
  | LP64, TInt | ILP32, TInt | ARM32, TInt | ILP32_newlib, TLong | ARM32_newlib, TLong => true | _, _ => false
  end.
Definition is_u32 (pl : platform) (t : ctype) : bool :=
  match pl, t with
  | LP64, TUint | ILP32, TUint | ARM32, TUint | ILP32_newlib, TUlong | ARM32_newlib, TUlong => true | _, _ => false
  end.
Definition is_i64 (pl : platform) (t : ctype) : bool :=
  match pl, t with LP64, TLong => true | LP64, _ => false | _, TLlong => true | _, _ => false end.
Definition is_u64 (pl : platform) (t : ctype) : bool :=
  match pl, t with LP64, TUlong => true | LP64, _ => false | _, TUllong => true | _, _ => false end.
(* The representation of each type. *)
Definition repr (pl : platform) (t : ctype) : ity :=
  match t with
  | TChar | TSchar => Ity 8 true | TUchar => Ity 8 false
  | TShort => Ity 16 true | TUshort => Ity 16 false
  | TInt => Ity 32 true | TUint => Ity 32 false
  | TLong => Ity (match pl with LP64 => 64 | _ => 32 end) true
  | TUlong => Ity (match pl with LP64 => 64 | _ => 32 end) false
  | TLlong => Ity 64 true | TUllong => Ity 64 false
  end.
(* string_convert.h:79-80 the fallback, :87-96, :99-104 except on ARM, :106-109, :115-118 on ARM.  The
   RISC-V extras of :122-125 are not modelled. *)
Definition max_string_length (pl : platform) (t : ctype) : nat :=
  match t with
  | TChar => 1                                                      (* :88 *)
  | TUchar => 3 | TSchar => 4 | TUshort => 5 | TShort => 6           (* :90-96 *)
  | _ => if negb (is_arm pl) && is_u32 pl t then 10                  (* :101 *)
         else if negb (is_arm pl) && is_i32 pl t then 11             (* :103 *)
         else if is_u64 pl t then 21 else if is_i64 pl t then 20     (* :107-109 *)
         else if is_arm pl then match t with TInt | TUint => 11 | _ => 0 end   (* :116-117 *)
         else 0                                                      (* :80 *)
  end%nat.
(* to_string.h:118-121 string_convert_traits<char, int16_t>::max_size *)
Definition traits_i16_max_size : nat := 5.

(* ---- logging, internal/utility.cpp:18-68, fake/esp_log.h ---- *)

(* esp_log.h:14-22 *)
Definition level_no (l : level) : nat :=
  match l with LNone => 0 | LError => 1 | LWarn => 2 | LInfo => 3 | LDebug => 4 | LVerbose => 5 end.
(* esp_log.h:24 LOG_LOCAL_LEVEL *)
Definition local_level : level := LInfo.

(* vprintf(fmt, args), C11 7.21.6.1: a percent sign and the character after it make a conversion, %% is a
   percent sign, any other takes the next argument; without one the behaviour is undefined.  args are
   the texts the arguments print as; flags, widths and precisions are not modelled. *)
Fixpoint c_vprintf (fmt : list Z) (args : list (list Z)) : result (list Z) :=
  match fmt with
  | [] => Ok []
  | 37 :: [] => UB
  | 37 :: c :: r =>
      if c =? 37 then o <- c_vprintf r args ;; Ok (37 :: o)
      else match args with
           | [] => UB
           | a :: args' => o <- c_vprintf r args' ;; Ok (a ++ o)
           end
  | c :: r => o <- c_vprintf r args ;; Ok (c :: o)
  end.

(* utility.cpp:35-51 esp_log_write_header: everything goes through the writer as a format *)
Definition level_header (l : level) : list Z :=
  match l with
  | LError => [69; 32] | LWarn => [87; 32] | LInfo => [73; 32]       (* :41-43 *)
  | LDebug => [68; 32] | LVerbose => [86; 32]                        (* :44-45 *)
  | LNone => []                                                      (* :46 *)
  end.
Definition write_header (l : level) (tag : list Z) : result (list Z) :=
  h <- c_vprintf (level_header l) [] ;;                              (* :41-45 *)
  t <- c_vprintf tag [] ;;                                           (* :49 *)
  c <- c_vprintf [58; 32] [] ;;                                      (* :50 *)
  Ok (h ++ t ++ c).

(* The writer in use and what each has been given, latest first. *)
Record logger := Logger { writer : nat; written : list (nat * list Z) }.
(* utility.cpp:22 the initial writer is vprintf: writer 0.  The writers print like vprintf. *)
Definition log_init : logger := Logger 0 [].
(* utility.cpp:25-31 *)
Definition set_vprintf (f : nat) (g : logger) : logger * nat := (Logger f (written g), writer g).
(* utility.cpp:53-66 *)
Definition log_write (l : level) (tag fmt : list Z) (args : list (list Z)) (g : logger) : result logger :=
  if (level_no l <=? level_no local_level)%nat then                  (* :55 *)
    h <- write_header l tag ;;                                       (* :57 *)
    m <- c_vprintf fmt args ;;                                       (* :61 *)
    n <- c_vprintf [10] [] ;;                                        (* :64 *)
    Ok (Logger (writer g) ((writer g, h ++ m ++ n) :: written g))
  else Ok g.

(* A program's calls, in order; what SetWriter returned, in order. *)
Fixpoint log_run (ops : list log_call) (g : logger) : result (logger * list nat) :=
  match ops with
  | [] => Ok (g, [])
  | SetWriter f :: ops => let (g', r) := set_vprintf f g in ' (g', rs) <- log_run ops g' ;; Ok (g', r :: rs)
  | Log l tag fmt args :: ops => g' <- log_write l tag fmt args g ;; log_run ops g'
  end.
