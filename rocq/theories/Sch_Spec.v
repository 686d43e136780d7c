(* The common tick of two periods, in the words of the C++ standard. *)
From Coq Require Export ZArith QArith.
From Verif Require Export MachInt Ratio_Spec Chrono_Spec.
Local Open Scope Z_scope.

(* one tick of period p is k/l ticks of period q, in lowest terms, and both are representable *)
Definition tick_is (p q : Z * Z) (k l : Z) : Prop :=
  0 < k /\ 0 < l /\ lowest_terms k l /\ fits k /\ fits l /\ fst p * snd q * l = snd p * fst q * k.
(* the largest period of which both are whole multiples *)
Definition common_tick (p q : Z * Z) : Z * Z := (Z.gcd (fst p) (fst q), Z.lcm (snd p) (snd q)).
(* one tick of p is k ticks of c *)
Definition whole_ticks (p c : Z * Z) (k : Z) : Prop := 0 < k /\ fits k /\ fst p * snd c = k * (fst c * snd p).
(* the product of a count of type t and a 64 bit factor is representable in the type it has in C++ *)
Definition product_fits (t : ity) (z : Z) : Prop := int64 z \/ (bits t = 64 /\ sgn t = false /\ 0 <= z < 2 ^ 64).
