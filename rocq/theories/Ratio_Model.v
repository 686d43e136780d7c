(* Model of ratio.h and of gcd and lcm in internal/numeric.h: compile time arithmetic on
   std::intmax_t (64 bits).  None: the program does not compile (an overflow or a division by
   zero in a constant expression).  A ratio is its two template arguments. *)
From Coq Require Import ZArith Bool.
Local Open Scope Z_scope.

Definition obind {A B} (x : option A) (f : A -> option B) : option B :=
  match x with Some a => f a | None => None end.
Declare Scope ratio_scope.
Delimit Scope ratio_scope with ratio.
Notation "x <- m ;; k" := (obind m (fun x => k)) (at level 61, m at next level, right associativity) : ratio_scope.
Local Open Scope ratio_scope.

Definition in64 (z : Z) : option Z := if (- 2 ^ 63 <=? z) && (z <? 2 ^ 63) then Some z else None.
Definition mul64 (a b : Z) : option Z := in64 (a * b).
Definition plus64 (a b : Z) : option Z := in64 (a + b).
Definition div64 (a b : Z) : option Z := if b =? 0 then None else in64 (Z.quot a b).
(* a % b overflows where a / b does *)
Definition rem64 (a b : Z) : option Z := if b =? 0 then None else q <- in64 (Z.quot a b) ;; Some (Z.rem a b).

(* numeric.h:16-26; the fuel is the depth of the template recursion, enough for any 64 bit b
   (proved) *)
Fixpoint gcd_ (fuel : nat) (a b : Z) : option Z :=
  if b =? 0 then Some a
  else match fuel with
       | O => None
       | S fuel' => r <- rem64 a b ;; gcd_ fuel' b r
       end.
Definition gcd (a b : Z) : option Z := gcd_ 130 a b.
(* numeric.h:29-36 *)
Definition lcm (a b : Z) : option Z := p <- mul64 a b ;; g <- gcd a b ;; div64 p g.

Definition ratio := (Z * Z)%type.
(* ratio.h:23-28: num and den are the arguments as given *)
Definition num (r : ratio) : Z := fst r.
Definition den (r : ratio) : Z := snd r.
(* ratio.h:21, 24: ::type *)
Definition type (r : ratio) : option ratio :=
  g <- gcd (fst r) (snd r) ;; n <- div64 (fst r) g ;; d <- div64 (snd r) g ;; Some (n, d).
(* ratio.h:79-92 *)
Definition ratio_divide (r1 r2 : ratio) : option ratio :=
  a <- mul64 (snd r2) (fst r1) ;; b <- mul64 (snd r1) (fst r2) ;;
  g <- gcd a b ;; n <- div64 a g ;; d <- div64 b g ;; type (n, d).
(* ratio.h:94-107 *)
Definition ratio_multiply (r1 r2 : ratio) : option ratio :=
  a <- mul64 (fst r1) (fst r2) ;; b <- mul64 (snd r2) (snd r1) ;;
  g <- gcd b a ;; n <- div64 a g ;; d <- div64 b g ;; type (n, d).
(* ratio.h:110-123 *)
Definition ratio_add (r1 r2 : ratio) : option ratio :=
  a <- mul64 (fst r1) (snd r2) ;; b <- mul64 (fst r2) (snd r1) ;; d <- mul64 (snd r1) (snd r2) ;;
  n <- plus64 a b ;; type (n, d).
