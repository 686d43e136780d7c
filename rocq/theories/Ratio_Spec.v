(* Fractions. *)
From Coq Require Export ZArith QArith.
Local Open Scope Z_scope.

(* the number n/d (d not zero, of either sign) *)
Definition frac (n d : Z) : Q := (inject_Z n / inject_Z d)%Q.
(* a fraction as a pair *)
Definition value (r : Z * Z) : Q := frac (fst r) (snd r).
Definition lowest_terms (n d : Z) : Prop := Z.gcd n d = 1.
(* the values of std::intmax_t, but for the most negative *)
Definition fits (z : Z) : Prop := - 2 ^ 63 < z < 2 ^ 63.
