(* Model of operator<< for double: /repo/src/estd/internal/units/ostream.h:12-30, on a span
   stream.  double is IEEE 754 binary64; the arithmetic is that of Flt_Model, the two zeros are
   not told apart (neither does the code). *)
From Coq Require Import List ZArith Bool.
From Verif Require Import Base MachInt Ios_Model Streambuf_Model Charconv_Model Ostream_Model Flt_Spec Flt_Model.
Import ListNotations.
Local Open Scope Z_scope.
Local Open Scope res_scope.

(* int64_t *)
Definition i64 : ity := Ity 64 true.

(* (int64_t)v: the fraction is dropped; undefined if the result does not fit, and for
   infinities and NaN *)
Definition to_int64 (v : flt) : result Z :=
  match v with
  | Fin u =>
      let k := Z.quot u (one binary64) in
      if (- 2 ^ 63 <=? k) && (k <? 2 ^ 63) then Ok k else UB
  | _ => UB
  end.

(* ostream.h:12-30; estd::dec is ios.h:35-39.  [j1], [j2]: the uninitialised buffers of the two
   integer insertions *)
Definition insert_double (tr : traits) (s : ostr) (j1 j2 : list Z) (v : flt) : result ostr :=
  v_ <- to_int64 v ;;                                                          (* :17 *)
  c <- to_int64 (fmul binary64 v (of_int binary64 100)) ;;                     (* :18 v * 100 *)
  let v_dec := Z.rem c 100 in                                                  (* :18 *)
  let v_dec := if v_dec <? 0 then - v_dec else v_dec in                        (* :20 *)
  let s := o_state s (fun i => fst (setf2 i f_dec f_basefield)) in             (* :23 << dec *)
  s <- insert_int tr s i64 j1 v_ ;;                                            (* :23 *)
  s <- insert_char tr s 46 ;;                                                  (* :24 *)
  s <- (if v_dec <? 10 then insert_char tr s 48 else Ok s) ;;                  (* :25 *)
  insert_int tr s i64 j2 v_dec.                                                (* :26 *)
