(* Model of estd::chrono::duration with an integer representation (internal/chrono/duration.h,
   operators.hpp, math.h, ratio.h), of the conversion it inherits (internal/units/base.h), of
   promoted_type (internal/promoted_type.h), of hh_mm_ss and year_month_day
   (internal/chrono/formatter.hpp) and of year, month and day (internal/chrono/units.hpp).
   A duration type is its Rep and its Period as given (not reduced).  The outer option is None
   where the program does not compile.  int is 32 bits and std::intmax_t 64. *)
From Coq Require Import ZArith Bool.
From Verif Require Import Base MachInt Ratio_Model.
Local Open Scope Z_scope.

Record dty := Dty { rep : ity; per : ratio }.

Definition ity_eqb (a b : ity) : bool := (bits a =? bits b) && Bool.eqb (sgn a) (sgn b).
Definition I32 : ity := Ity 32 true.
Definition I64 : ity := Ity 64 true.
Definition U64 : ity := Ity 64 false.
Definition U8 : ity := Ity 8 false.

(* ---- the language: integral promotion and the usual arithmetic conversions *)
Definition promote (t : ity) : ity := if bits t <? 32 then I32 else t.
Definition usual (a b : ity) : ity :=
  let a := promote a in let b := promote b in
  if Bool.eqb (sgn a) (sgn b) then (if bits a <? bits b then b else a)
  else let u := if sgn a then b else a in let s := if sgn a then a else b in
       if bits s <=? bits u then u else s.
(* common_type.h:24-34, the type of "false ? a : b" *)
Definition common_type (a b : ity) : ity := if ity_eqb a b then a else usual a b.
Definition in_rangeb (t : ity) (z : Z) : bool := (imin t <=? z) && (z <=? imax t).
(* the result z of an arithmetic operation on type t (promoted) *)
Definition arith (t : ity) (z : Z) : result Z :=
  if sgn t then (if in_rangeb t z then Ok z else UB) else Ok (wrap t z).

(* ---- promoted_type.h:76-124 *)
Definition digits (t : ity) : Z := if sgn t then bits t - 1 else bits t.
Definition make_signed (t : ity) : ity := Ity (bits t) true.
(* promote_type (promoted_type.h:21-68): void past 64 bits; not defined at all for uint64_t, and
   named whether or not it is selected, so that case does not compile *)
Definition promoted_type (t1 t2 : ity) : option ity :=
  let more := if digits t2 <=? digits t1 then t1 else t2 in
  let less := if digits t1 <? digits t2 then t1 else t2 in
  let aligned := if negb (sgn more) && sgn less then make_signed more else more in
  if ity_eqb aligned U64 then None
  else if (digits aligned =? digits less) && sgn less && negb (sgn more)
  then if bits aligned =? 64 then None else Some (Ity (2 * bits aligned) (sgn aligned))
  else Some aligned.

(* ---- chrono/ratio.h:12-49 *)
Definition common (d1 d2 : dty) : option dty :=
  (r <- promoted_type (rep d1) (rep d2) ;;
   g <- gcd (fst (per d1)) (fst (per d2)) ;;
   l <- lcm (snd (per d1)) (snd (per d2)) ;;
   Some (Dty r (g, l)))%ratio.

(* units/base.h:135-171, 193-197 (rep_{Rep(convert_from(s))}) and fwd.h:20-38: from d1 to d2.
   rd::num and rd::den are std::intmax_t. *)
Definition convert (d1 d2 : dty) (v : Z) : option (result Z) :=
  (rd <- ratio_divide (per d1) (per d2) ;;
   let ct := common_type (rep d2) (rep d1) in
   let mt := usual ct I64 in
   Some (p <- arith mt (wrap mt (wrap ct v) * wrap mt (fst rd)) ;;
         q <- arith mt (Z.quot p (wrap mt (snd rd))) ;;
         Ok (wrap (rep d2) q))%res)%ratio.

(* duration.h:62-65: the constructor from a count of type t narrows to Rep *)
Definition make (d : dty) (v : Z) : Z := wrap (rep d) v.

(* both operands as the common type *)
Definition with_common {A} (d1 d2 : dty) (v1 v2 : Z) (f : dty -> Z -> Z -> result A) : option (result A) :=
  (c <- common d1 d2 ;; a <- convert d1 c v1 ;; b <- convert d2 c v2 ;;
   Some (x <- a ;; y <- b ;; f c x y)%res)%ratio.
(* operators.hpp:11-20 *)
Definition dsub (d1 d2 : dty) (v1 v2 : Z) : option (result Z) :=
  with_common d1 d2 v1 v2 (fun c x y => z <- arith (promote (rep c)) (x - y) ;; Ok (make c z))%res.
(* operators.hpp:24-33 *)
Definition dadd (d1 d2 : dty) (v1 v2 : Z) : option (result Z) :=
  with_common d1 d2 v1 v2 (fun c x y => z <- arith (promote (rep c)) (x + y) ;; Ok (make c z))%res.
(* operators.hpp:50-58, 61-70 *)
Definition dgt (d1 d2 : dty) (v1 v2 : Z) : option (result bool) := with_common d1 d2 v1 v2 (fun _ x y => Ok (y <? x)).
Definition dlt (d1 d2 : dty) (v1 v2 : Z) : option (result bool) := with_common d1 d2 v1 v2 (fun _ x y => Ok (x <? y)).
Definition rnot (r : option (result bool)) : option (result bool) :=
  (x <- r ;; Some (b <- x ;; Ok (negb b))%res)%ratio.
(* operators.hpp:72-77, 80-85 *)
Definition dle (d1 d2 : dty) (v1 v2 : Z) : option (result bool) := rnot (dgt d1 d2 v1 v2).
Definition dge (d1 d2 : dty) (v1 v2 : Z) : option (result bool) := rnot (dlt d1 d2 v1 v2).
(* operators.hpp:88-106 *)
Definition deq (d1 d2 : dty) (v1 v2 : Z) : option (result bool) := with_common d1 d2 v1 v2 (fun _ x y => Ok (x =? y)).
Definition dne (d1 d2 : dty) (v1 v2 : Z) : option (result bool) := with_common d1 d2 v1 v2 (fun _ x y => Ok (negb (x =? y))).

(* duration.h:97-104 *)
Definition dneg (d : dty) (v : Z) : result Z := (z <- arith (promote (rep d)) (- v) ;; Ok (make d z))%res.
(* duration.h:79-90: rep_ += d.count() narrows back to Rep *)
Definition dadd_assign (d : dty) (v w : Z) : result Z := (z <- arith (promote (rep d)) (v + w) ;; Ok (wrap (rep d) z))%res.
Definition dsub_assign (d : dty) (v w : Z) : result Z := (z <- arith (promote (rep d)) (v - w) ;; Ok (wrap (rep d) z))%res.
(* math.h:10-34.  (The comparison with zero of a duration of the same type.) *)
Definition dabs (d : dty) (v : Z) : option (result Z) :=
  if sgn (rep d) then (c <- dge d d v 0 ;; Some (b <- c ;; if (b : bool) then Ok v else dneg d v)%res)%ratio
  else Some (Ok v).

(* ---- hh_mm_ss, formatter.hpp:143-201 *)
Definition hours_type : dty := Dty U8 (3600, 1).
Definition minutes_type : dty := Dty U8 (60, 1).
Definition seconds_type (d : dty) : dty := Dty (rep d) (1, 1).
(* Duration::period is the reduced period (duration.h:51) *)
Definition duration_type (d : dty) : option dty := (p <- type (per d) ;; Some (Dty (rep d) p))%ratio.

Definition rbind {A B} (x : option (result A)) (f : A -> option (result B)) : option (result B) :=
  match x with
  | None => None
  | Some (Ok a) => f a
  | Some UB => Some UB
  | Some Diverge => Some Diverge
  end.
(* formatter.hpp:167-170 *)
Definition is_negative (d : dty) (v : Z) : bool := if sgn (rep d) then v <? 0 else false.
(* formatter.hpp:172-175 *)
Definition hours (d : dty) (v : Z) : option (result Z) :=
  (t <- duration_type d ;; rbind (dabs t v) (convert t hours_type))%ratio.
(* formatter.hpp:177-180 *)
Definition minutes (d : dty) (v : Z) : option (result Z) :=
  (t <- duration_type d ;; c <- common t hours_type ;;
   rbind (dabs t v) (fun a => rbind (hours d v) (fun h =>
   rbind (dsub t hours_type a h) (convert c minutes_type))))%ratio.
(* formatter.hpp:182-187 *)
Definition seconds (d : dty) (v : Z) : option (result Z) :=
  (t <- duration_type d ;; c <- common t minutes_type ;;
   rbind (dabs t v) (fun a => rbind (convert t minutes_type a) (fun m =>
   rbind (dsub t minutes_type a m) (convert c (seconds_type d)))))%ratio.
(* formatter.hpp:189-193 *)
Definition subseconds (d : dty) (v : Z) : option (result Z) :=
  (t <- duration_type d ;; c <- common t (seconds_type d) ;;
   rbind (dabs t v) (fun a => rbind (convert t (seconds_type d) a) (fun s =>
   rbind (dsub t (seconds_type d) a s) (convert c d))))%ratio.

(* ---- the calendar, units.hpp *)
(* units.hpp:69-84 *)
Definition year (y : Z) : Z := wrap (Ity 16 true) y.
Definition is_leap (y : Z) : bool := Z.rem y 400 =? 0.
Definition year_ok (y : Z) : bool := -32767 <=? y.
(* units.hpp:86-96; ys.count() is int16_t *)
Definition year_plus (y ys : Z) : Z := year (y + ys).
(* units.hpp:99-108, 111-120, 38-41 *)
Definition month (m : Z) : Z := wrap U8 m.
Definition month_ok (m : Z) : bool := (1 <=? m) && (m <=? 12).
Definition day (d : Z) : Z := wrap U8 d.
Definition day_ok (d : Z) : bool := (1 <=? d) && (d <=? 31).
(* formatter.hpp:111-133: a year_month_day given by its fields *)
Definition date_ok (y m d : Z) : bool := day_ok (day d) && month_ok (month m) && year_ok (year y).
(* formatter.hpp:60-72 month_day_last, 75-88 and 104-107 year_month_day_last; its day() (:90-102)
   calls itself with an argument it does not take and cannot be used *)
Definition last_ok (y m : Z) : bool := month_ok (month m) && year_ok (year y).
(* units.hpp:46-56, on month and day (uint8_t) *)
Definition unit_add (t : ity) (a b : Z) : Z := wrap t (a + b).
Definition unit_sub (t : ity) (a b : Z) : Z := wrap t (a - b).

(* fwd/chrono.h:128-137, duration.h:119-128 *)
Definition days_t : dty := Dty I32 (86400, 1).
Definition months_t : dty := Dty I32 (2629746, 1).
Definition years_t : dty := Dty (Ity 16 true) (31556952, 1).
(* formatter.hpp:29-34 (adjust_epoch, units.hpp:147-155, leaves days and months alone) *)
Definition ymd_day (n : Z) : option (result Z) :=
  (c <- common days_t months_t ;;
   rbind (convert days_t months_t n) (fun m => rbind (dsub days_t months_t n m) (fun r =>
   rbind (convert c days_t r) (fun d =>
   Some (z <- arith I32 (d + 1) ;; Ok (day z))%res))))%ratio.
(* formatter.hpp:37-43 *)
Definition ymd_month (n : Z) : option (result Z) :=
  (c <- common days_t days_t ;;
   rbind (convert days_t years_t n) (fun y => rbind (convert years_t days_t y) (fun d =>
   rbind (dsub days_t days_t n d) (fun r => rbind (convert c months_t r) (fun m =>
   Some (z <- arith I32 (m + 1) ;; Ok (month z))%res)))))%ratio.
(* formatter.hpp:46-50 *)
Definition ymd_year (n : Z) : option (result Z) :=
  rbind (convert days_t years_t n) (fun y => Some (Ok (year (year y + 1970)))).
