(* Characters by name: the classes of the C locale, spelled out. *)
From Coq Require Import ZArith List String Ascii.
Import ListNotations.
Local Open Scope Z_scope.

Fixpoint codes (s : string) : list Z :=
  match s with
  | EmptyString => []
  | String a t => Z.of_N (N_of_ascii a) :: codes t
  end.

Definition uppers : list Z := codes "ABCDEFGHIJKLMNOPQRSTUVWXYZ".
Definition lowers : list Z := codes "abcdefghijklmnopqrstuvwxyz".
Definition digits : list Z := codes "0123456789".
Definition xdigits : list Z := codes "0123456789ABCDEFabcdef".
(* space, tab, line feed, vertical tab, form feed, carriage return *)
Definition spaces : list Z := [32; 9; 10; 11; 12; 13].
Definition puncts : list Z := codes "!#$%&'()*+,-./:;<=>?@[\]^_`{|}~" ++ [34].

Inductive category := Space | Digit | Alpha | Punct | Upper | Lower | Xdigit.
Definition members (k : category) : list Z :=
  match k with
  | Space => spaces | Digit => digits | Alpha => uppers ++ lowers | Punct => puncts
  | Upper => uppers | Lower => lowers | Xdigit => xdigits
  end.

(* the digit characters in the order of their values; lower case first *)
Definition digits_lower : list Z := codes "0123456789abcdefghijklmnopqrstuvwxyz".
Definition digits_upper : list Z := codes "0123456789ABCDEFGHIJKLMNOPQRSTUVWXYZ".
(* character c stands for the value v *)
Definition digit_of (c v : Z) : Prop :=
  0 <= v /\ (nth_error digits_lower (Z.to_nat v) = Some c \/ nth_error digits_upper (Z.to_nat v) = Some c).
