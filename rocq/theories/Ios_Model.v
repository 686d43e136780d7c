(* Model of the stream state: /repo/src/estd/internal/ios_base.h and the fill character of
   internal/ostream.h.  FEATURE_ESTD_AGGRESSIVE_BITFIELD and FEATURE_ESTD_OSTREAM_OCTAL are
   on (internal/feature/ios.h, the defaults), so the fields have 8, 4 and 4 bits.
   Flag words are uint8_t: the numbers 0..255. *)
From Coq Require Import List ZArith Bool.
From Verif Require Import MachInt.
Local Open Scope Z_scope.

(* ios_base.h:22-43 *)
Definition f_dec := 1.  Definition f_hex := 2.  Definition f_oct := 3.
Definition f_basefield := 3.  Definition f_uppercase := 4.
Definition f_left := 8.  Definition f_right := 16.  Definition f_adjustfield := 24.
Definition f_boolalpha := 32.  Definition f_unitbuf := 64.
(* ios_base.h:58-65 *)
Definition badbit := 1.  Definition failbit := 2.  Definition eofbit := 4.
Definition nodatabit := 8.

(* ios_base.h:74-102 (the bit fields) and 220-237 (fillchar, char : 6) *)
Record ios := Ios { fmtfl : Z; iost : Z; iwidth : Z; ifill : Z }.

(* ios_base.h:83-87, 231-235  constructors: dec | right, goodbit, 0, 0 *)
Definition ios_init : ios := Ios (Z.lor f_dec f_right) 0 0 0.

(* storing into an unsigned field of n bits; ~x of a promoted value *)
Definition field (n x : Z) : Z := x mod 2 ^ n.

(* ios_base.h:109-112 *)
Definition unsetstate (s : ios) (state : Z) : ios :=
  Ios (fmtfl s) (field 4 (Z.land (iost s) (Z.lnot state))) (iwidth s) (ifill s).
(* ios_base.h:117-127  width() and width(new_width) *)
Definition width (s : ios) : Z := iwidth s.
Definition set_width (s : ios) (w : Z) : ios * Z :=
  (Ios (fmtfl s) (iost s) (field 4 w) (ifill s), width s).
(* ios_base.h:130-131 *)
Definition setf1 (s : ios) (flags : Z) : ios * Z :=
  (Ios (field 8 (Z.lor (fmtfl s) flags)) (iost s) (iwidth s) (ifill s), fmtfl s).
(* ios_base.h:133-139 *)
Definition setf2 (s : ios) (flags mask : Z) : ios * Z :=
  let a := field 8 (Z.land (fmtfl s) (Z.lnot mask)) in
  (Ios (field 8 (Z.lor a flags)) (iost s) (iwidth s) (ifill s), fmtfl s).
(* ios_base.h:141-142 *)
Definition unsetf (s : ios) (flags : Z) : ios * Z :=
  (Ios (field 8 (Z.land (fmtfl s) (Z.lnot flags))) (iost s) (iwidth s) (ifill s), fmtfl s).
(* ios_base.h:144-148 *)
Definition flags (s : ios) : Z := fmtfl s.
Definition set_flags (s : ios) (f : Z) : ios * Z :=
  (Ios (field 8 f) (iost s) (iwidth s) (ifill s), fmtfl s).
(* ios_base.h:150-159 *)
Definition rdstate (s : ios) : Z := iost s.
Definition clear (s : ios) (state : Z) : ios := Ios (fmtfl s) (field 4 state) (iwidth s) (ifill s).
Definition setstate (s : ios) (state : Z) : ios :=
  Ios (fmtfl s) (field 4 (Z.lor (iost s) state)) (iwidth s) (ifill s).
(* ios_base.h:161-171 *)
Definition nonzero (z : Z) : bool := negb (z =? 0).
Definition good (s : ios) : bool := rdstate s =? 0.
Definition bad (s : ios) : bool := nonzero (Z.land (rdstate s) badbit).
Definition fail (s : ios) : bool :=
  nonzero (Z.land (rdstate s) failbit) || nonzero (Z.land (rdstate s) badbit).
Definition eof_set (s : ios) : bool := nonzero (Z.land (rdstate s) eofbit).

(* internal/ostream.h:93-103  fill() and fill(ch).  The signedness of plain char decides the
   signedness of the 6-bit field; both are modelled. *)
Definition char_of (schar : bool) (z : Z) : Z := if schar then wraps 8 z else wrapu 8 z.
Definition fill (schar : bool) (s : ios) : Z := char_of schar (32 + ifill s).
Definition set_fill (schar : bool) (s : ios) (ch : Z) : ios * Z :=
  (Ios (fmtfl s) (iost s) (iwidth s) (if schar then wraps 6 (32 + ch) else wrapu 6 (32 + ch)),
   fill schar s).

(* iomanip.h:37-57  setbase *)
Definition setbase (s : ios) (base : Z) : ios :=
  fst (setf2 s (if base =? 8 then f_oct else if base =? 10 then f_dec
                else if base =? 16 then f_hex else 0) f_basefield).
(* num_put.h:36-41  the base the flags stand for when writing *)
Definition get_base (basefield : Z) : Z :=
  if basefield =? f_hex then 16 else if basefield =? f_dec then 10 else 8.

(* What a caller can do to the state. *)
Inductive ios_op :=
  | OpSetf (f : Z) | OpSetf2 (f m : Z) | OpUnsetf (f : Z) | OpFlags (f : Z)
  | OpClear (st : Z) | OpSetstate (st : Z) | OpWidth (w : Z) | OpFill (b : bool) (c : Z).
Definition ios_do (o : ios_op) (s : ios) : ios :=
  match o with
  | OpSetf f => fst (setf1 s f) | OpSetf2 f m => fst (setf2 s f m) | OpUnsetf f => fst (unsetf s f)
  | OpFlags f => fst (set_flags s f) | OpClear st => clear s st | OpSetstate st => setstate s st
  | OpWidth w => fst (set_width s w) | OpFill b c => fst (set_fill b s c)
  end.
Definition ios_run (ops : list ios_op) (s : ios) : ios := fold_left (fun s o => ios_do o s) ops s.
