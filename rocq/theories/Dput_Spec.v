(* The text of a number with two decimals.  Nothing here mentions the code. *)
From Coq Require Import List ZArith.
From Verif Require Import Charconv_Spec.
Import ListNotations.
Local Open Scope Z_scope.

(* The point and the last two digits of n hundredths. *)
Definition decimals (n : Z) : list Z := [46; 48 + n / 10 mod 10; 48 + n mod 10].
(* [ip] is the numeral of the hundreds of n, with a minus sign if neg says so and it is not 0. *)
Definition int_part (up neg : bool) (n : Z) (ip : list Z) : Prop :=
  is_numeral up 10 (if neg then - (n / 100) else n / 100) ip.
