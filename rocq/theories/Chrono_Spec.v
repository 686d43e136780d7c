(* Durations as rational numbers of seconds, and the Gregorian calendar. *)
From Coq Require Export ZArith QArith.
From Verif Require Export MachInt Ratio_Spec.
Local Open Scope Z_scope.

(* v ticks of num/den seconds *)
Definition seconds_of (v : Z) (period : Z * Z) : Q := (inject_Z v * frac (fst period) (snd period))%Q.
Definition positive_period (p : Z * Z) : Prop := 0 < fst p /\ 0 < snd p.
(* the integer part of a rational number, toward zero *)
Definition truncated (q : Q) : Z := Z.quot (Qnum q) (Zpos (Qden q)).
(* the compile time products for the common period of two periods are representable *)
Definition representable (p1 p2 : Z * Z) : Prop :=
  fits (snd p1 * snd p2) /\ fits (Z.lcm (snd p1) (snd p2) * fst p1) /\ fits (Z.lcm (snd p1) (snd p2) * fst p2).
(* representable in std::int64_t *)
Definition int64 (z : Z) : Prop := - 2 ^ 63 <= z < 2 ^ 63.
(* the larger type is unsigned and the smaller signed, the types having different widths *)
Definition mixed (t1 t2 : ity) : Prop :=
  (sgn t1 = false /\ sgn t2 = true /\ bits t2 < bits t1) \/ (sgn t2 = false /\ sgn t1 = true /\ bits t1 < bits t2).

(* a representation of at least 16 bits, other than unsigned 64 *)
Definition clock_rep (t : ity) : Prop := bits t = 16 \/ bits t = 32 \/ (bits t = 64 /\ sgn t = true).

Definition gregorian_leap (y : Z) : Prop := (y mod 4 = 0 /\ y mod 100 <> 0) \/ y mod 400 = 0.
Definition gregorian_leapb (y : Z) : bool :=
  ((y mod 4 =? 0) && negb (y mod 100 =? 0))%bool || (y mod 400 =? 0).
Definition month_length (y m : Z) : Z :=
  if m =? 2 then (if gregorian_leapb y then 29 else 28)
  else if (m =? 4) || (m =? 6) || (m =? 9) || (m =? 11) then 30 else 31.
Definition gregorian_date (y m d : Z) : Prop := 1 <= m <= 12 /\ 1 <= d <= month_length y m.
