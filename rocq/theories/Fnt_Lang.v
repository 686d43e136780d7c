(* Language rules that common_type and div stand on (C++17): the values of the integer types, the
   integral promotions, the usual arithmetic conversions and integer division.  Nothing here is
   code of /repo. *)
From Coq Require Import List Bool Arith ZArith.
From Verif Require Import Base Tt_Lang.
Import ListNotations.
Local Open Scope Z_scope.

(* [basic.fundamental]: signed integer types are two's complement *)
Definition base_signed (p : plat) (b : base) : bool :=
  match b with
  | SChar | Short | Int | Long | LLong => true
  | Char => char_signed p | WChar => wchar_signed p
  | _ => false
  end.
Definition bits (p : plat) (b : base) : Z := 8 * Z.of_nat (sizeof_base p b).
(* the least and the largest value of an integral type *)
Definition lo (p : plat) (b : base) : Z := if base_signed p b then - 2 ^ (bits p b - 1) else 0.
Definition hi (p : plat) (b : base) : Z :=
  match b with
  | Bool => 1
  | _ => if base_signed p b then 2 ^ (bits p b - 1) - 1 else 2 ^ bits p b - 1
  end.
Definition holds (p : plat) (b b' : base) : bool := (lo p b' <=? lo p b) && (hi p b <=? hi p b').

(* [conv.prom] *)
Definition promote (p : plat) (b : base) : base :=
  match b with
  | Bool | Char | SChar | UChar | WChar | Char16 | Char32 | Short | UShort =>
      match find (holds p b) [Int; UInt; Long; ULong; LLong; ULLong] with Some x => x | None => b end
  | _ => b
  end.
(* [expr.arith.conv], for promoted types *)
Definition rank_of (b : base) : nat :=
  match b with Int | UInt => 1 | Long | ULong => 2 | LLong | ULLong => 3 | Float => 4 | Double => 5 | LDouble => 6 | _ => 0 end%nat.
Definition unsigned_of (b : base) : base := match b with Int => UInt | Long => ULong | LLong => ULLong | _ => b end.
Definition is_signed_int (b : base) : bool := match b with Int | Long | LLong => true | _ => false end.
Definition is_float (b : base) : bool := match b with Float | Double | LDouble => true | _ => false end.
Definition balance (p : plat) (a b : base) : base :=
  let higher := if Nat.leb (rank_of a) (rank_of b) then b else a in
  if is_float a || is_float b then higher
  else if eqb (is_signed_int a) (is_signed_int b) then higher
  else let s := if is_signed_int a then a else b in
       let u := if is_signed_int a then b else a in
       if Nat.leb (rank_of s) (rank_of u) then u
       else if Nat.ltb (sizeof_base p u) (sizeof_base p s) then s
       else unsigned_of s.
Definition usual_arithmetic (p : plat) (a b : base) : base := balance p (promote p a) (promote p b).

(* [expr.mul], and [conv.integral] for the result; int and wider types trap on overflow *)
Definition wrap (sgn : bool) (w : Z) (x : Z) : Z :=
  let r := x mod 2 ^ w in if sgn && (2 ^ (w - 1) <=? r) then r - 2 ^ w else r.
