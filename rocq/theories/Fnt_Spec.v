(* Specification for function_traits, common_type, div and errc. *)
From Coq Require Import List Bool Arith ZArith.
From Verif Require Import Tt_Lang Tt_Spec Fnt_Lang.
Import ListNotations.
Local Open Scope Z_scope.

(* t is the arithmetic type b, with any qualifiers, or a reference to it *)
Definition arithmetic_base (b : base) : bool := std_integral b || match b with Float | Double | LDouble => true | _ => false end.
Definition is_a (b : base) (t : ty) : Prop :=
  arithmetic_base b = true /\ exists c v, t = TBase c v b \/ t = TLRef (TBase c v b) \/ t = TRRef (TBase c v b).

(* b can hold every value of a *)
Definition fits (p : plat) (a b : base) : Prop := forall x, lo p a <= x <= hi p a -> lo p b <= x <= hi p b.

(* [expr.mul]: the quotient and the remainder of x by y, truncated towards zero *)
Definition division (x y q r : Z) : Prop := x = y * q + r /\ Z.abs r < Z.abs y /\ (r = 0 \/ Z.sgn r = Z.sgn x).
(* the values of an integer type *)
Definition in_type (sgn : bool) (w : Z) (x : Z) : Prop :=
  if sgn then - 2 ^ (w - 1) <= x <= 2 ^ (w - 1) - 1 else 0 <= x <= 2 ^ w - 1.
