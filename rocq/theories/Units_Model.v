(* Model of units (internal/units/base.h, operators.hpp, common_type.h, bytes.h, percent.h,
   si.h, ostream.h) with integer representations.  A unit type is Rep, Period as given (not
   reduced) and projector F; its value is rep_ (root_count()).  The tag is left out: units of
   different tags do not mix (they do not compile).  The outer option is None where the program
   does not compile.  Floating point counts, compound units (base.h:61-86) and unit_traits are
   not modelled; FEATURE_ESTD_DEBUG_CONVERT_FROM is off. *)
From Coq Require Import ZArith Bool List String.
From Verif Require Import Base MachInt Ratio_Model Chrono_Model Ios_Model Streambuf_Model Charconv_Model Ostream_Model Units_Spec.
Import ListNotations.
Local Open Scope Z_scope.

(* fwd.h:24-44 passthrough, base.h:36-48 adder, 22-34 subtractor (with their Int) *)
Inductive proj := Pass | Add (t : ity) (a : Z) | Sub (t : ity) (a : Z).
Definition reversal (f : proj) : proj := match f with Pass => Pass | Add t a => Sub t a | Sub t a => Add t a end.
Definition proj_eqb (f g : proj) : bool :=
  match f, g with
  | Pass, Pass => true
  | Add t a, Add t' a' | Sub t a, Sub t' a' => ity_eqb t t' && (a =? a')
  | _, _ => false
  end.
(* a projector applied to v of type tv; passthrough's parameter is Rep *)
Definition project (f : proj) (rep : ity) (tv : ity) (v : Z) : result Z :=
  match f with
  | Pass => Ok (wrap rep v)
  | Add t a => let u := usual tv t in (z <- arith u (wrap u v + wrap u a) ;; Ok (wrap t z))%res
  | Sub t a => let u := usual tv t in (z <- arith u (wrap u v - wrap u a) ;; Ok (wrap t z))%res
  end.

Record uty := Uty { urep : ity; uper : ratio; uf : proj }.
Definition per_eqb (p q : ratio) : bool := (fst p =? fst q) && (snd p =? snd q).
Definition uty_eqb (a b : uty) : bool := ity_eqb (urep a) (urep b) && per_eqb (uper a) (uper b) && proj_eqb (uf a) (uf b).
(* base.h:207-208 f_rep, rep *)
Definition f_rep (u : uty) : ity := match uf u with Pass => urep u | Add t _ | Sub t _ => t end.
(* base.h:221 count() *)
Definition count (u : uty) (r : Z) : result Z := project (uf u) (urep u) (urep u) r.

(* base.h:135-165 convert_from: from a count v of type tv and period p *)
Definition convert_count (u : uty) (p : ratio) (tv : ity) (v : Z) : option (result Z) :=
  (rd <- ratio_divide p (uper u) ;;
   let ct := common_type (urep u) tv in
   let mt := usual ct I64 in
   Some (x <- arith mt (wrap mt (wrap ct v) * wrap mt (fst rd)) ;;
         q <- arith mt (Z.quot x (wrap mt (snd rd))) ;;
         z <- project (reversal (uf u)) (urep u) mt q ;;
         Ok (wrap (urep u) z))%res)%ratio.
(* base.h:167-171 *)
Definition convert_from (u s : uty) (r : Z) : option (result Z) :=
  match count s r with
  | Ok v => convert_count u (uper s) (f_rep s) v
  | UB => Some UB
  | Diverge => Some Diverge
  end.

(* every value of a is one of b: braces do not narrow *)
Definition widens (a b : ity) : bool :=
  if Bool.eqb (sgn a) (sgn b) then bits a <=? bits b else negb (sgn a) && (bits a <? bits b).
(* the converting constructors, base.h:183-193; between equal types the copy constructor *)
Definition construct (u s : uty) (r : Z) : option (result Z) :=
  if uty_eqb u s then Some (Ok r)
  else if per_eqb (uper u) (uper s) then                                       (* :183-187 rep_{s.count()} *)
    if widens (f_rep s) (urep u) then Some (count s r) else None
  else convert_from u s r.                                                     (* :189-193 *)
(* base.h:201-206 operator=; between equal types the copy assignment *)
Definition assign (u s : uty) (r : Z) : option (result Z) :=
  if uty_eqb u s then Some (Ok r) else convert_from u s r.

(* base.h:231-241 operator+=, operator-= of the same type *)
Definition add_assign (u : uty) (r s : Z) : result Z := (z <- arith (promote (urep u)) (r + s) ;; Ok (wrap (urep u) z))%res.
Definition sub_assign (u : uty) (r s : Z) : result Z := (z <- arith (promote (urep u)) (r - s) ;; Ok (wrap (urep u) z))%res.
(* base.h:271-275, 277-280 operator++, unary - *)
Definition incr (u : uty) (r : Z) : result Z := (z <- arith (promote (urep u)) (r + 1) ;; Ok (wrap (urep u) z))%res.
Definition neg (u : uty) (r : Z) : result Z := (z <- arith (promote (urep u)) (- r) ;; Ok (wrap (urep u) z))%res.

(* common_type.h:16-38: for passthrough units only *)
Definition dty_of (u : uty) : dty := Dty (urep u) (uper u).
Definition ucommon (a b : uty) : option uty :=
  match uf a, uf b with
  | Pass, Pass => (c <- common (dty_of a) (dty_of b) ;; Some (Uty (rep c) (per c) Pass))%ratio
  | _, _ => None
  end.
(* decltype(lhs + rhs) *)
Definition usum (a b : uty) : option uty := if uty_eqb a b then Some a else ucommon a b.
Definition both {A} (a b : uty) (r s : Z) (f : uty -> Z -> Z -> result A) : option (result A) :=
  (c <- usum a b ;; x <- construct c a r ;; y <- construct c b s ;;
   Some (x <- x ;; y <- y ;; f c x y)%res)%ratio.
(* operators.hpp:14-20, 22-31 and 33-39, 42-51 *)
Definition uadd (a b : uty) (r s : Z) : option (result Z) := both a b r s add_assign.
Definition usub (a b : uty) (r s : Z) : option (result Z) := both a b r s sub_assign.
Definition counts {A} (f : Z -> Z -> A) (c : uty) (x y : Z) : result A := (m <- count c x ;; n <- count c y ;; Ok (f m n))%res.
(* operators.hpp:55-98 *)
Definition ugt (a b : uty) (r s : Z) : option (result bool) := both a b r s (counts (fun m n => n <? m)).
Definition ult (a b : uty) (r s : Z) : option (result bool) := both a b r s (counts (fun m n => m <? n)).
Definition uge (a b : uty) (r s : Z) : option (result bool) := both a b r s (counts (fun m n => n <=? m)).
Definition ule (a b : uty) (r s : Z) : option (result bool) := both a b r s (counts (fun m n => m <=? n)).
(* base.h:225-228 for the same type, operators.hpp:102-110; 113-121 *)
Definition ueq (a b : uty) (r s : Z) : option (result bool) :=
  if uty_eqb a b then Some (Ok (r =? s)) else both a b r s (counts (fun m n => m =? n)).
Definition une (a b : uty) (r s : Z) : option (result bool) := both a b r s (counts (fun m n => negb (m =? n))).
(* base.h:243-259: += and -= of another unit; the static_assert refuses if it loses precision *)
Definition uadd_assign (u s : uty) (r x : Z) : option (result Z) :=
  if uty_eqb u s then Some (add_assign u r x)
  else (c <- ucommon u s ;; if uty_eqb c u then v <- construct u s x ;; Some (v <- v ;; add_assign u r v)%res else None)%ratio.
Definition usub_assign (u s : uty) (r x : Z) : option (result Z) :=
  if uty_eqb u s then Some (sub_assign u r x)
  else (c <- ucommon u s ;; if uty_eqb c u then v <- construct u s x ;; Some (v <- v ;; sub_assign u r v)%res else None)%ratio.

(* operators.hpp:125-142: += and -= of a number of type t, with period ratio<1>; the explicit
   constructor takes const Rep& *)
Definition add_number (u : uty) (r : Z) (k : Z) : result Z := add_assign u r (wrap (urep u) k).
Definition sub_number (u : uty) (r : Z) (k : Z) : result Z := sub_assign u r (wrap (urep u) k).
(* operators.hpp:145-169: comparison with a number, under the usual arithmetic conversions *)
Definition with_number (f : Z -> Z -> bool) (u : uty) (r : Z) (t : ity) (k : Z) : result bool :=
  (m <- count u r ;; let c := usual (f_rep u) t in Ok (f (wrap c m) (wrap c k)))%res.
Definition eq_number := with_number Z.eqb.
Definition gt_number := with_number (fun a b => b <? a).
Definition lt_number := with_number Z.ltb.

(* ---- bytes.h:19-41, percent.h:17-31 *)
Definition U32 : ity := Ity 32 false.
Definition bytes (t : ity) : uty := Uty t (1, 1) Pass.
Definition kilobytes (t : ity) : uty := Uty t (1024, 1) Pass.
Definition megabytes (t : ity) : uty := Uty t (1024 * 1024, 1) Pass.
Definition gigabytes (t : ity) : uty := Uty t (1024 * 1024 * 1024, 1) Pass.
(* operator ""_bytes and operator ""_pct: of type unsigned *)
Definition literal (v : Z) : Z := wrap U32 v.

(* percent.h:48-67 get_from_percent.  p of unit type u, min and max of unit type w, both
   passthrough; v has the type of range.count() * p.count(); Ratio1::num and 100 * Ratio1::den
   are std::intmax_t *)
Definition get_from_percent (u w : uty) (p lo hi : Z) : result Z :=
  (range <- sub_assign w hi lo ;;                                              (* :54 *)
   let tv := usual (urep w) (urep u) in
   v <- arith tv (wrap tv range * wrap tv p) ;;                                (* :57 *)
   let tm := usual tv I64 in
   x <- arith tm (wrap tm v * wrap tm (fst (uper u))) ;; let v := wrap tv x in (* :62 *)
   y <- arith tm (Z.quot (wrap tm v) (wrap tm (100 * snd (uper u)))) ;; let v := wrap tv y in   (* :63 *)
   let ts := usual tv (urep w) in
   z <- arith ts (wrap ts v + wrap ts lo) ;;                                   (* :65 *)
   Ok (wrap (urep w) z))%res.
(* percent.h:69-77 *)
Definition get_from_percent0 (u w : uty) (p hi : Z) : result Z := get_from_percent u w p 0 hi.

(* ---- put_unit *)
(* si.h:25-101 for any tag but giga; bytes.h:56-71.  The period as given. *)
Definition prefix (is_bytes : bool) (p : ratio) : option (string * string) :=
  (if per_eqb p (1000, 1) then Some ("kilo", "k")
   else if per_eqb p (1000000, 1) then Some ("mega", "M")
   else if per_eqb p (1000000000000, 1) then Some ("tera", "T")
   else if per_eqb p (1, 10) then Some ("deci", "d")
   else if per_eqb p (10, 1) then Some ("deca", "da")
   else if per_eqb p (1, 100) then Some ("centi", "c")
   else if per_eqb p (1, 1000) then Some ("milli", "m")
   else if per_eqb p (1, 1000000) then Some ("micro", "u")
   else if per_eqb p (1, 1000000000) then Some ("nano", "n")
   else if is_bytes && per_eqb p (1024, 1) then Some ("kilo", "k")
   else if is_bytes && per_eqb p (1048576, 1) then Some ("mega", "M")
   else if is_bytes && per_eqb p (1073741824, 1) then Some ("giga", "G")
   else None)%string.
(* ostream.h:33-66 write_suffix, write_suffix_abbrev; [nm] is traits<Tag>::name() or abbrev() *)
Definition suffix (abbrev is_bytes : bool) (p : ratio) (nm : string) : option (list (list Z)) :=
  if per_eqb p (1, 1) then Some [codes nm]
  else (x <- prefix is_bytes p ;; Some [codes (if abbrev then snd x else fst x); codes nm])%ratio.
Fixpoint put_all (s : ostr) (l : list (list Z)) : result ostr :=
  (match l with [] => Ok s | t :: r => s' <- insert_str s t ;; put_all s' r end)%res.
(* ostream.h:68-84 write, write_abbrev (include_space false), 88-109 and 131-138 put_unit *)
Definition put_unit (abbrev is_bytes : bool) (nm : string) (tr : traits) (s : ostr) (u : uty) (junk : list Z) (r : Z)
  : option (result ostr) :=
  (l <- suffix abbrev is_bytes (uper u) nm ;;
   Some (c <- count u r ;;
         s1 <- insert_int tr s (f_rep u) junk c ;;
         s2 <- (if abbrev then Ok s1 else insert_char tr s1 32) ;;
         put_all s2 l)%res)%ratio.
