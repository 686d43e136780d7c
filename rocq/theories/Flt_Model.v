(* Model of operator>> for float and double: the floating point side of
   /repo/src/estd/internal/locale/iterated/num_get.h, its driver in internal/locale/num_get.h and
   operator>> of istream.h, on a span stream.  The other num_get::get, over a range of
   characters (num_get.h:262-265), does not compile for them: it instantiates bases 8 and 16,
   which iterated/num_get.h:95 rejects. *)
From Coq Require Import List ZArith Bool.
From Verif Require Import Base MachInt Ios_Model Streambuf_Model Istream_Model Charconv_Model Numio_Model Flt_Spec.
Import ListNotations.
Local Open Scope Z_scope.
Local Open Scope res_scope.

(* ---- the arithmetic of the language: IEEE 754, round to nearest, each operation rounded to
   the type of v (FLT_EVAL_METHOD 0).  Of fmt, prec and emax are used.  A finite number is an
   integral multiple of the smallest one, 2^(3 - emax - prec); the two zeros are not told
   apart. *)
Inductive flt := Fin (u : Z) | Inf (neg : bool) | NaN.

(* How many of the units make 1. *)
Definition one (fm : fmt) : Z := 2 ^ (emax fm + prec fm - 3).

(* p / q to the nearest integer, ties to even, for p >= 0 and q > 0 *)
Definition rne (p q : Z) : Z :=
  let n := p / q in
  match Z.compare (2 * (p mod q)) q with
  | Lt => n
  | Gt => n + 1
  | Eq => if Z.even n then n else n + 1
  end.
(* p / q units to the nearest number with at most prec binary digits; q > 0 *)
Definition round_abs (fm : fmt) (p q : Z) : Z :=
  let e := Z.max 0 (Z.log2 (p / q) - prec fm + 1) in
  rne p (q * 2 ^ e) * 2 ^ e.
Definition round (fm : fmt) (p q : Z) : flt :=
  let m := round_abs fm (Z.abs p) q in
  if 2 ^ emax fm * one fm <=? m then Inf (p <? 0) else Fin (Z.sgn p * m).

(* v *= c, v += c, v -= c, v /= d, for c and d positive or zero; c an integer converted to the
   type of v *)
Definition of_int (fm : fmt) (n : Z) : flt := round fm (n * one fm) 1.
Definition fmul (fm : fmt) (a b : flt) : flt :=
  match a, b with
  | Fin x, Fin y => round fm (x * y) (one fm)
  | NaN, _ | _, NaN => NaN
  | Inf s, Fin y => if y =? 0 then NaN else Inf (xorb s (y <? 0))
  | Fin x, Inf s => if x =? 0 then NaN else Inf (xorb s (x <? 0))
  | Inf s, Inf s' => Inf (xorb s s')
  end.
Definition fneg (a : flt) : flt :=
  match a with Fin x => Fin (- x) | Inf s => Inf (negb s) | NaN => NaN end.
Definition fadd (fm : fmt) (a b : flt) : flt :=
  match a, b with
  | Fin x, Fin y => round fm (x + y) 1
  | NaN, _ | _, NaN => NaN
  | Inf s, Fin _ => Inf s
  | Fin _, Inf s => Inf s
  | Inf s, Inf s' => if Bool.eqb s s' then Inf s else NaN
  end.
Definition fdiv (fm : fmt) (a b : flt) : flt :=
  match a, b with
  | Fin x, Fin y =>
      if y =? 0 then (if x =? 0 then NaN else Inf (x <? 0))
      else round fm (Z.sgn y * x * one fm) (Z.abs y)
  | NaN, _ | _, NaN => NaN
  | Inf s, Fin y => Inf (xorb s (y <? 0))
  | Fin _, Inf _ => Fin 0
  | Inf _, Inf _ => NaN
  end.

(* ---- iterated/num_get.h ---- *)

(* :92-111 raise_and_add for floating point; [dp]: decimal_place_, 8 bits (:56).  It never
   fails. *)
Definition fraise (fm : fmt) (positive : bool) (dp : Z) (v : flt) (n : Z) : Z * flt :=
  let v := fmul fm v (of_int fm 10) in                                         (* :98 *)
  let v := fadd fm v (if positive then of_int fm n else fneg (of_int fm n)) in (* :99-102 *)
  (if negb (dp =? 0) then (dp + 1) mod 256 else dp, v).                        (* :104-108 *)

(* What a call of get leaves: done, state, decimal_place_, err, v. *)
Record fres := FR { rdone : bool; rst : gstate; rdp : Z; rerr : Z; rval : flt }.

(* :121-158 nominal<positive>; numpunct.h: the decimal point is '.' *)
Definition fnominal (fm : fmt) (positive : bool) (st : gstate) (dp err : Z) (v : flt) (c : Z) : fres :=
  match from_char 10 c with                                                    (* :124 *)
  | Some n => let (dp', v') := fraise fm positive dp v n in FR false st dp' err v'   (* :128, 143 *)
  | None => if c =? 46 then FR false st 1 err v                                (* :150-153 *)
            else FR true st dp err v                                           (* :157 *)
  end.

(* :202-260 get<false>(c, err, v); the state Overflow is not entered *)
Definition fnum_get1 (fm : fmt) (st : gstate) (dp err : Z) (v : flt) (c : Z) : fres :=
  match st with
  | GStart =>
      if c =? 45 then FR false GNeg dp err v                                   (* :214-218 *)
      else let r := fnominal fm true GPos dp err v c in                        (* :220, 227 *)
           if rdone r then FR true (rst r) (rdp r) (Z.lor (rerr r) failbit) (rval r) (* :230-231 *)
           else r
  | GPos => fnominal fm true GPos dp err v c                                   (* :247 *)
  | GNeg => fnominal fm false GNeg dp err v c                                  (* :250 *)
  | GOverflow => FR (match from_char 10 c with Some _ => true | None => false end) GOverflow dp err v
  end.

(* :169-183 finalize: for(int i = decimal_place_; --i;) divider *= base;  [n]: how often *)
Fixpoint divider (fm : fmt) (n : nat) (d : flt) : flt :=
  match n with O => d | S n => divider fm n (fmul fm d (of_int fm 10)) end.
Definition finalize (fm : fmt) (dp : Z) (v : flt) : flt :=
  if negb (dp =? 0) then                                                       (* :171 *)
    fdiv fm v (divider fm (Z.to_nat (dp - 1)) (of_int fm 1))                   (* :173-181 *)
  else v.

(* ---- locale/num_get.h:40-75 get_signed_number<10> over istreambuf_iterators ---- *)
Fixpoint fsdrive (fuel : nat) (fm : fmt) (tr : traits) (st : gstate) (dp err : Z) (v : flt) (b : isb)
  : result (isb * Z * flt) :=
  match fuel with
  | O => Diverge
  | S f =>
      c <- sgetc tr b ;;                                                       (* :54 *)
      let r := fnum_get1 fm st dp err v (to_char_type c) in                    (* :62 *)
      if rdone r then Ok (b, rerr r, finalize fm (rdp r) (rval r))             (* :67-68 *)
      else
        ' p <- isbi_next tr b ;;                                               (* :52 ++i *)
        let (b', at_end) := p in
        if at_end : bool then Ok (b', Z.lor (rerr r) eofbit, finalize fm (rdp r) (rval r)) (* :72-74 *)
        else fsdrive f fm tr (rst r) (rdp r) (rerr r) (rval r) b'
  end.

(* num_get.h:125-131, 228-235 and istream.h:113-148 operator>>: whatever the basefield *)
Definition extract_flt (fm : fmt) (tr : traits) (s : istr) : result (flt * istr) :=
  s1 <- ws tr s ;;                                                             (* istream.h:133 *)
  let err := rdstate (ist s1) in                                               (* :136 *)
  ' r <- fsdrive (S (length (idata (isbuf s1)))) fm tr GStart 0 err (Fin 0) (isbuf s1) ;;   (* num_get.h:50 v = 0 *)
  let '(b, err', v) := r in
  Ok (v, add_state (Istr (ist s1) b) err').                                    (* istream.h:145 *)
