(* The Gregorian calendar, counted from 1 January 1970 (day 0). *)
From Verif Require Export Chrono_Spec.
Local Open Scope Z_scope.

Definition year_length (y : Z) : Z := if gregorian_leapb y then 366 else 365.
(* the number of the first day of the year 1970 + k *)
Fixpoint new_year (k : nat) : Z :=
  match k with O => 0 | S k' => new_year k' + year_length (1970 + Z.of_nat k') end.
