(* The lengths of the predefined durations, in seconds, and how far each has to reach. *)
From Coq Require Export ZArith QArith.
Local Open Scope Q_scope.

Inductive unit_name := Nano | Micro | Milli | Second | Minute | Hour | Day | Week | Month | Year.
Definition a_day : Q := inject_Z (24 * 60 * 60).
(* a year is the average one of the Gregorian calendar, 365.2425 days *)
Definition a_year : Q := (365 + (97 # 400)) * a_day.
Definition length_of (u : unit_name) : Q :=
  match u with
  | Nano => 1 # 1000000000 | Micro => 1 # 1000000 | Milli => 1 # 1000 | Second => 1
  | Minute => 60 | Hour => 60 * 60 | Day => a_day | Week => 7 * a_day
  | Month => a_year / 12 | Year => a_year
  end.
(* [time.syn] has the days, weeks, months and years cover 40000 years; the finer ones cover 292 *)
Definition reach_of (u : unit_name) : Q :=
  match u with Day | Week | Month | Year => 40000 * a_year | _ => 292 * a_year end.
