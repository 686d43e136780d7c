(* Model of estd::chrono::time_point (internal/chrono/time_point.h and
   internal/chrono/operators.hpp:107-151) and of the product of a duration and a number
   (internal/chrono/operators.hpp:36-46, internal/chrono/duration.h:92-96).  A time point is the
   count of its duration, its clock a type that is never used.  Conversion from a
   std::chrono::time_point is in Sch_Model.v.  The outer option is None where the program does not
   compile, as in Chrono_Model. *)
From Coq Require Import ZArith Bool List.
From Verif Require Import Base MachInt Ratio_Model Chrono_Model.
Import ListNotations.
Local Open Scope Z_scope.

Definition same_dty (a b : dty) : bool :=
  ity_eqb (rep a) (rep b) && (fst (per a) =? fst (per b)) && (snd (per a) =? snd (per b)).
(* an argument of type dw for a parameter "const duration&": bound directly when the types are
   the same, else converted (duration.h:60-63) *)
Definition as_duration (d dw : dty) (w : Z) : option (result Z) :=
  if same_dty d dw then Some (Ok w) else convert dw d w.

(* time_point.h:46 *)
Definition tp_default : Z := 0.
(* time_point.h:51 *)
Definition tp_make (d dw : dty) (w : Z) : option (result Z) := as_duration d dw w.
(* time_point.h:54-57 and the implicit copy constructor *)
Definition tp_convert (d d2 : dty) (v : Z) : option (result Z) := as_duration d d2 v.
(* time_point.h:84-88 *)
Definition tp_add_assign (d : dty) (v : Z) (dw : dty) (w : Z) : option (result Z) :=
  rbind (as_duration d dw w) (fun x => Some (dadd_assign d v x)).
(* time_point.h:90-94 *)
Definition tp_sub_assign (d : dty) (v : Z) (dw : dty) (w : Z) : option (result Z) :=
  rbind (as_duration d dw w) (fun x => Some (dsub_assign d v x)).
(* time_point.h:97-102 *)
Definition tp_plus (d : dty) (v : Z) (dw : dty) (w : Z) : option (result Z) :=
  let copied := v in tp_add_assign d copied dw w.
(* time_point.h:105-110 *)
Definition tp_minus (d : dty) (v : Z) (dw : dty) (w : Z) : option (result Z) :=
  let copied := v in tp_sub_assign d copied dw w.
(* time_point.h:112-115, duration.h:29, 107 *)
Definition tp_min (d : dty) : Z := make d (imin (rep d)).

(* operators.hpp:107-113 *)
Definition tp_diff (d1 d2 : dty) (v1 v2 : Z) : option (result Z) := dsub d1 d2 v1 v2.
(* operators.hpp:116-121, 124-129, 131-136, 139-144, 146-151.  There is no operator<=. *)
Definition tp_lt (d1 d2 : dty) (v1 v2 : Z) : option (result bool) := dlt d1 d2 v1 v2.
Definition tp_gt (d1 d2 : dty) (v1 v2 : Z) : option (result bool) := dgt d1 d2 v1 v2.
Definition tp_ge (d1 d2 : dty) (v1 v2 : Z) : option (result bool) := dge d1 d2 v1 v2.
Definition tp_eq (d1 d2 : dty) (v1 v2 : Z) : option (result bool) := deq d1 d2 v1 v2.
Definition tp_ne (d1 d2 : dty) (v1 v2 : Z) : option (result bool) := dne d1 d2 v1 v2.

(* a caller's statements t += w; and t -= w; with w of type dw *)
Inductive tstmt := Later (dw : dty) (w : Z) | Earlier (dw : dty) (w : Z).
(* the change in ticks, and that the duration is of the time point's own type *)
Definition delta (s : tstmt) : Z := match s with Later _ w => w | Earlier _ w => - w end.
Definition own (d : dty) (s : tstmt) : Prop := match s with Later dw _ => dw = d | Earlier dw _ => dw = d end.
Definition tp_step (d : dty) (v : Z) (s : tstmt) : option (result Z) :=
  match s with Later dw w => tp_add_assign d v dw w | Earlier dw w => tp_sub_assign d v dw w end.
Fixpoint tp_run (d : dty) (v : Z) (ss : list tstmt) : option (result Z) :=
  match ss with
  | [] => Some (Ok v)
  | s :: r => rbind (tp_step d v s) (fun v' => tp_run d v' r)
  end.

(* operators.hpp:36-46: the type of the product and the product; the constructor from a count
   (duration.h:55-58) narrows *)
Definition scaled_type (d : dty) (t : ity) : dty := Dty (common_type (rep d) t) (per d).
Definition dscale (d : dty) (t : ity) (v k : Z) : result Z :=
  let u := usual (rep d) t in
  (z <- arith u (wrap u v * wrap u k) ;; Ok (make (scaled_type d t) z))%res.
(* duration.h:92-96 *)
Definition dscale_assign (d : dty) (v k : Z) : result Z :=
  (z <- arith (promote (rep d)) (v * k) ;; Ok (wrap (rep d) z))%res.
