(* What padded output is, and what the flags ask for.  Only the flag values and the record
   of a buffer (its characters and position) are taken from the model. *)
From Coq Require Import List ZArith.
From Verif Require Import MachInt SliceLemmas Ios_Model Streambuf_Model.
Import ListNotations.
Local Open Scope Z_scope.

Inductive side := PadBefore | PadAfter.
(* The text in a field of w characters. *)
Definition padded (a : side) (w : nat) (fillc : Z) (text : list Z) : list Z :=
  let pad := repeat fillc (w - length text)%nat in
  match a with PadBefore => pad ++ text | PadAfter => text ++ pad end.

(* what the buffer holds and where it stands after storing text *)
Definition after (b : osb) (text : list Z) : osb :=
  Osb (overwrite (obuf b) (opos b) text) (opos b + length text).
Definition room (b : osb) (n : nat) : Prop := (opos b + n <= length (obuf b))%nat.

(* the adjustment the flags ask for *)
Definition adjusted (i : ios) (a : side) : Prop :=
  Z.land (flags i) f_adjustfield = match a with PadBefore => f_right | PadAfter => f_left end.

(* the base and case the flags ask for *)
Definition flag_base (i : ios) (base : Z) : Prop :=
  (base = 10 /\ Z.land (flags i) f_basefield = f_dec) \/
  (base = 16 /\ Z.land (flags i) f_basefield = f_hex) \/
  (base = 8 /\ Z.land (flags i) f_basefield = f_oct).
Definition upper (i : ios) : bool := Z.testbit (flags i) 2.

(* the buffer of the insertion is long enough for the numeral *)
Definition representable (t : ity) (base v : Z) : Prop :=
  base = 8 -> sgn t = false -> bits t = 16 \/ bits t = 64 -> v < 2 ^ (bits t - 1).
