(* Quantities as rational numbers of a base unit, SI prefixes, and shares of a range. *)
From Coq Require Export ZArith QArith List String Ascii.
From Verif Require Export MachInt Ratio_Spec Chrono_Spec.
Import ListNotations.
Local Open Scope Z_scope.

(* v counts of num/den base units *)
Definition quantity (v : Z) (period : Z * Z) : Q := seconds_of v period.

(* the character codes of a text *)
Fixpoint codes (s : string) : list Z :=
  match s with EmptyString => [] | String a r => Z.of_nat (nat_of_ascii a) :: codes r end.
(* name, symbol and value of the SI prefixes the library has ratios for (u for micro) *)
Definition si_prefixes : list (string * string * (Z * Z)) :=
  [("pico", "p", (1, 1000000000000)); ("nano", "n", (1, 1000000000)); ("micro", "u", (1, 1000000));
   ("milli", "m", (1, 1000)); ("centi", "c", (1, 100)); ("deci", "d", (1, 10)); ("deca", "da", (10, 1));
   ("kilo", "k", (1000, 1)); ("mega", "M", (1000000, 1)); ("giga", "G", (1000000000, 1)); ("tera", "T", (1000000000000, 1))]%string.

(* the value p hundredths (of n/d each) of the way from lo to hi, toward lo *)
Definition share (p : Z) (unit : Z * Z) (lo hi : Z) : Z := lo + Z.quot ((hi - lo) * p * fst unit) (100 * snd unit).
