(* Model of the predefined durations (internal/chrono/duration.h:114-132, internal/fwd/chrono.h:94-118),
   of the literals ""s, ""ms, ""us and ""ns (port/chrono.h:37-55) and of min(), max() and zero() of a
   duration (internal/chrono/duration.h:25-31, 107-110).  The literals exist with GCC only. *)
From Coq Require Import ZArith.
From Verif Require Import Base MachInt Ratio_Model Chrono_Model Lit_Spec.
Local Open Scope Z_scope.

(* FEATURE_ESTD_CHRONO_LOWPRECISION or not *)
Inductive precision := Full | Low.
(* fwd/chrono.h:96-118 *)
Definition rep_of (c : precision) (u : unit_name) : ity :=
  match c, u with
  | Low, (Nano | Micro | Milli) => I32
  | Low, (Second | Minute | Hour | Day) => Ity 16 true
  | Low, (Week | Month | Year) => Ity 8 true
  | Full, (Nano | Micro | Milli | Second) => I64
  | Full, (Minute | Hour | Day | Week | Month) => I32
  | Full, Year => Ity 16 true
  end.
(* duration.h:115-132, ratio.h:32-34 *)
Definition period_of (u : unit_name) : ratio :=
  match u with
  | Nano => (1, 1000000000) | Micro => (1, 1000000) | Milli => (1, 1000) | Second => (1, 1)
  | Minute => (60, 1) | Hour => (3600, 1) | Day => (3600 * 24, 1) | Week => (3600 * 24 * 7, 1)
  | Month => (2629746, 1) | Year => (31556952, 1)
  end.
Definition predefined (c : precision) (u : unit_name) : dty := Dty (rep_of c u) (period_of u).
(* port/chrono.h:37-55; the parameter is an unsigned long long.  None: there is no such literal. *)
Definition literal (c : precision) (u : unit_name) (n : Z) : option Z :=
  match u with
  | Second | Milli | Micro | Nano => Some (make (predefined c u) (wrap U64 n))
  | _ => None
  end.
(* duration.h:28-30, 107-109; numeric_limits is in Bits_Model.v *)
Definition d_zero (d : dty) : Z := make d 0.
Definition d_min (d : dty) : Z := make d (imin (rep d)).
Definition d_max (d : dty) : Z := make d (imax (rep d)).
