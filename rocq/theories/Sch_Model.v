(* Model of how estd::chrono meets std::chrono: the constructor of duration from an
   std::chrono::duration and the conversion back (internal/chrono/duration.h,
   internal/chrono/duration.hpp), the constructor of time_point from an std::chrono::time_point
   (internal/chrono/time_point.h), duration_cast of an std::chrono::duration and the operators on
   an std::chrono::time_point and an estd duration (port/std/chrono.h).  An std duration or time
   point is its count of ticks; its type is a Rep and a Period, as for estd (Chrono_Model.v).
   What std::chrono itself does is modelled as the C++ standard has it.  Simplified: integer
   representations and positive periods only; that the standard library takes an estd::ratio where
   it expects an std::ratio (duration.hpp:47) is taken for granted, which depends on its age. *)
From Coq Require Import ZArith Bool.
From Verif Require Import Base MachInt Ratio_Model Chrono_Model.
Local Open Scope Z_scope.

(* ---- the standard library *)
Definition intmax (z : Z) : bool := (- 2 ^ 63 <? z) && (z <? 2 ^ 63).
(* std::ratio_divide ([ratio.arithmetic]): the quotient in lowest terms; it compiles when that is
   representable *)
Definition std_divide (p q : ratio) : option ratio :=
  let a := fst p * snd q in let b := snd p * fst q in
  let n := a / Z.gcd a b in let d := b / Z.gcd a b in
  if intmax n && intmax d then Some (n, d) else None.
(* std::common_type of two durations ([time.traits.specializations]) *)
Definition std_common (d1 d2 : dty) : option dty :=
  let l := Z.lcm (snd (per d1)) (snd (per d2)) in
  if intmax l then Some (Dty (common_type (rep d1) (rep d2)) (Z.gcd (fst (per d1)) (fst (per d2)), l)) else None.
(* the implicit conversion of an std::chrono::duration to one whose period divides its own
   ([time.duration.cons], [time.duration.cast]) *)
Definition std_convert (d1 d2 : dty) (v : Z) : option (result Z) :=
  (rd <- std_divide (per d1) (per d2) ;;
   if snd rd =? 1
   then let mt := usual (common_type (rep d2) (rep d1)) I64 in
        Some (p <- arith mt (wrap mt v * wrap mt (fst rd)) ;; Ok (wrap (rep d2) p))%res
   else None)%ratio.

(* ---- durations *)
(* duration.hpp:40-54: d.count() * rd::num / rd::den, narrowed to Rep by the return *)
Definition convert_from (d1 d2 : dty) (v : Z) : option (result Z) :=
  (rd <- std_divide (per d1) (per d2) ;;
   let mt := usual (rep d1) I64 in
   Some (p <- arith mt (wrap mt v * wrap mt (fst rd)) ;;
         q <- arith mt (Z.quot p (wrap mt (snd rd))) ;;
         Ok (wrap (rep d2) q))%res)%ratio.
(* duration.h:65-68 *)
Definition from_std (d1 d2 : dty) (v : Z) : option (result Z) :=
  (r <- convert_from d1 d2 v ;; Some (z <- r ;; Ok (make d2 z))%res)%ratio.
(* duration.h:70-75: the type and the count *)
Definition to_std (d : dty) (v : Z) : dty * Z := (d, v).
(* port/std/chrono.h:10-18 *)
Definition cast_std (d1 d2 : dty) (v : Z) : option (result Z) :=
  rbind (from_std d1 d1 v) (convert d1 d2).

(* ---- time points *)
(* time_point.h:66-82, for two clocks that count from the Unix epoch *)
Definition tp_from_std (d1 d2 : dty) (t : Z) : option (result Z) := from_std d1 d2 t.
(* [time.point.nonmember], [time.duration.nonmember] *)
Definition std_sum (f : Z -> Z -> Z) (d1 d2 : dty) (t v : Z) : option (result Z) :=
  (c <- std_common d1 d2 ;; a <- std_convert d1 c t ;; b <- std_convert d2 c v ;;
   Some (x <- a ;; y <- b ;; z <- arith (promote (rep c)) (f x y) ;; Ok (wrap (rep c) z))%res)%ratio.
(* port/std/chrono.h:31-38, 40-47 *)
Definition tp_add (d1 d2 : dty) (t v : Z) : option (result Z) := std_sum Z.add d1 (fst (to_std d2 v)) t (snd (to_std d2 v)).
Definition tp_sub (d1 d2 : dty) (t v : Z) : option (result Z) := std_sum Z.sub d1 (fst (to_std d2 v)) t (snd (to_std d2 v)).
(* [time.point.arithmetic] *)
Definition std_assign (f : Z -> Z -> Z) (d1 d2 : dty) (t v : Z) : option (result Z) :=
  (b <- std_convert d2 d1 v ;;
   Some (y <- b ;; z <- arith (promote (rep d1)) (f t y) ;; Ok (wrap (rep d1) z))%res)%ratio.
(* port/std/chrono.h:49-56, 58-65: the new time point.  The operator returns a copy of it, converted
   to the common type *)
Definition tp_add_assign (d1 d2 : dty) (t v : Z) : option (result Z) := std_assign Z.add d1 d2 t v.
Definition tp_sub_assign (d1 d2 : dty) (t v : Z) : option (result Z) := std_assign Z.sub d1 d2 t v.
Definition returned (d1 d2 : dty) (r : option (result Z)) : option (result Z) :=
  (c <- std_common d1 d2 ;; rbind r (std_convert d1 c))%ratio.
