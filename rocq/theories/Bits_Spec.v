(* Sets of flags, bytes and limits, said by bits and by decimal digits. *)
From Coq Require Import ZArith Bool.
From Verif Require Import MachInt.
Local Open Scope Z_scope.

(* flag number i is in the set v *)
Definition has (v i : Z) : bool := Z.testbit v i.
(* v has the flags that f says, among those of the type *)
Definition flags_are (t : ity) (v : Z) (f : Z -> bool) : Prop :=
  in_range t v /\ forall i, 0 <= i < bits t -> has v i = f i.
Definition byte_is (v : Z) (f : Z -> bool) : Prop := 0 <= v < 256 /\ forall i, 0 <= i < 8 -> Z.testbit v i = f i.
(* every number of d decimal digits, with a sign if the type has one, is a value of the type *)
Definition holds_digits (t : ity) (d : Z) : Prop :=
  forall v, Z.abs v < 10 ^ d -> (0 <= v \/ sgn t = true) -> in_range t v.
