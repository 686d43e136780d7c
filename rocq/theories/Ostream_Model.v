(* Model of formatted and unformatted output to a span stream:
   /repo/src/estd/internal/ostream.h, internal/ostream/integer.h, ostream.h, the string
   insertion of internal/ostream_basic_string.hpp, and internal/locale/num_put.h.
   char is signed.  FEATURE_ESTD_OSTREAM_SETW and FEATURE_ESTD_OSTREAM_OCTAL are on (the
   defaults).  sentry::destroy flushes when unitbuf is set; sync of a span buffer is
   base.h's, which answers 0 and does nothing, so it is left out. *)
From Coq Require Import List ZArith Bool.
From Verif Require Import Base MachInt Ios_Model Streambuf_Model Charconv_Model.
Import ListNotations.
Local Open Scope Z_scope.
Local Open Scope res_scope.

Record ostr := Ostr { ost : ios; osbuf : osb }.
Definition o_state (s : ostr) (f : ios -> ios) : ostr := Ostr (f (ost s)) (osbuf s).
Definition flag (s : ostr) (f : Z) : bool := nonzero (Z.land (flags (ost s)) f).

(* internal/ostream.h:170-179 put *)
Definition put (tr : traits) (s : ostr) (ch : Z) : result ostr :=
  ' p <- sputc tr (osbuf s) ch ;;
  let (r, b) := p in
  let s' := Ostr (ost s) b in
  Ok (if r =? eof then o_state s' (fun i => setstate i eofbit) else s').

(* internal/ostream.h:162-167 write, 80-86 write_timeout *)
Definition write (s : ostr) (text : list Z) : result ostr :=
  ' p <- sputn (osbuf s) text ;;
  let (written, b) := p in
  let s' := Ostr (ost s) b in
  Ok (if negb (written =? Z.of_nat (length text)) then o_state s' (fun i => setstate i failbit) else s').

(* internal/ostream.h:106-110  while(n-- > 0) put(c) *)
Fixpoint put_times (tr : traits) (c : Z) (n : nat) (s : ostr) : result ostr :=
  match n with O => Ok s | S n' => s' <- put tr s c ;; put_times tr c n' s' end.
Definition fill_n_c (tr : traits) (s : ostr) (c n : Z) : result ostr := put_times tr c (Z.to_nat n) s.
(* internal/ostream.h:113-116 *)
Definition fill_n (tr : traits) (s : ostr) (n : Z) : result ostr := fill_n_c tr s (fill true (ost s)) n.

(* integer.h:11-28 write_filled_buffer.  pad - sz is an unsigned difference converted to
   the int parameter of fill_n *)
Definition write_filled_buffer (tr : traits) (s : ostr) (text : list Z) : result ostr :=
  let pad := width (ost s) in                                                  (* :17 *)
  let n := s32 (u32 (pad - Z.of_nat (length text))) in
  let s1 := o_state s (fun i => fst (set_width i 0)) in                        (* :18 *)
  s2 <- (if flag s1 f_right then fill_n tr s1 n else Ok s1) ;;                 (* :20 *)
  s3 <- write s2 text ;;                                                       (* :23 *)
  if flag s3 f_left then fill_n tr s3 n else Ok s3.                            (* :26 *)

(* locale/num_put.h:64-91 integer_put::to_chars *)
Definition put_to_chars (i : ios) (t : ity) (buf : list Z) (value : Z) : result tc_result :=
  let base := get_base (Z.land (flags i) f_basefield) in                       (* :70 *)
  to_chars_opt t base (nonzero (Z.land (flags i) f_uppercase)) buf value.

(* integer.h:65-95 out_int_helper; ostream.h:53-56 operator<< of an integer.
   [junk] is the uninitialised buffer, of length N = length<8> + 1 *)
Definition insert_int (tr : traits) (s : ostr) (t : ity) (junk : list Z) (value : Z) : result ostr :=
  r <- put_to_chars (ost s) t junk value ;;                                    (* :84 *)
  match tec r with
  | NoErr => write_filled_buffer tr s (skipn (tptr r) (tbuf r))                (* :88-89 *)
  | _ => Ok (o_state s (fun i => setstate i badbit))                           (* :92 *)
  end.

(* ostream.h:67-79 operator<< of a character *)
Definition insert_char (tr : traits) (s : ostr) (ch : Z) : result ostr :=
  let pad := width (ost s) in
  s1 <- fill_n tr s (pad - 1) ;;                                               (* :74 *)
  put tr (o_state s1 (fun i => fst (set_width i 0))) ch.                       (* :75-78 *)

(* ostream.h:38-43 operator<< of a C string; ostream_basic_string.hpp:37-41 of a string *)
Definition insert_str (s : ostr) (text : list Z) : result ostr := write s text.

(* iomanip.h:30-35 setw: the parameter is unsigned *)
Definition insert_setw (s : ostr) (n : Z) : ostr := o_state s (fun i => fst (set_width i n)).

(* num_put.h:130-175 put_integer; the characters written through the output iterator.
   Its own ec is not looked at. *)
Definition put_integer (i : ios) (t : ity) (fillc : Z) (junk : list Z) (value : Z) : result (list Z) :=
  r <- put_to_chars i t junk value ;;                                          (* :147 *)
  let w := width i in                                                          (* :149 *)
  let text := skipn (tptr r) (tbuf r) in
  let rw := Z.of_nat (length text) in                                          (* :150 *)
  Ok (if rw <? w then                                                          (* :152 *)
        let adj := Z.land (flags i) f_adjustfield in
        if adj =? f_right then repeat fillc (Z.to_nat (w - rw)) ++ text        (* :157-161 *)
        else if adj =? f_left then text ++ repeat fillc (Z.to_nat (w - rw))    (* :162-166 *)
        else []                                                                (* :169-170 *)
      else text).                                                              (* :174 *)
