(* Which integer types have arithmetic that wraps round.  Nothing here mentions the code. *)
From Coq Require Import ZArith.
From Verif Require Import MachInt.
Local Open Scope Z_scope.

(* int, long and long long: their arithmetic is undefined when it overflows.  Unsigned types wrap
   round, and the narrower signed ones are converted back from int, which wraps round too. *)
Definition wide_signed (t : ity) : Prop := sgn t = true /\ 32 <= bits t.
