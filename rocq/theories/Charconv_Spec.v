(* What a numeral is.  Nothing here mentions the code. *)
From Coq Require Import List ZArith Bool.
From Verif Require Import Base.
Import ListNotations.
Local Open Scope Z_scope.

(* The digit written as character c, letters in either case. *)
Definition digit_value (c : Z) : option Z :=
  if (48 <=? c) && (c <=? 57) then Some (c - 48)            (* 0-9 *)
  else if (65 <=? c) && (c <=? 90) then Some (c - 65 + 10)  (* A-Z *)
  else if (97 <=? c) && (c <=? 122) then Some (c - 97 + 10) (* a-z *)
  else None.

(* c is the digit d of the base. *)
Definition is_digit (base c d : Z) : Prop := digit_value c = Some d /\ d < base.

(* The number written with the digits ds, most significant first. *)
Definition value_of (base : Z) (ds : list Z) : Z := fold_left (fun v d => v * base + d) ds 0.

(* Characters pre spell digits ds. *)
Definition spells (base : Z) (pre ds : list Z) : Prop := Forall2 (is_digit base) pre ds.

(* The text does not start with a digit of the base. *)
Definition no_digit_head (base : Z) (rest : list Z) : Prop :=
  match rest with [] => True | c :: _ => forall d, ~ is_digit base c d end.

(* The upper- or lower-case character for a digit. *)
Definition digit_char (upper : bool) (d : Z) : Z :=
  if d <? 10 then 48 + d else (if upper then 65 else 97) + (d - 10).

(* s is the canonical numeral of v: minus sign exactly for negative numbers, digits of
   the given case, at least one, no leading zero unless the number is 0. *)
Definition is_numeral (upper : bool) (base v : Z) (s : list Z) : Prop :=
  exists ds, s = (if v <? 0 then [45] else []) ++ map (digit_char upper) ds /\
    ds <> [] /\ Forall (fun d => 0 <= d < base) ds /\
    value_of base ds = Z.abs v /\ (hd 0 ds = 0 -> ds = [0]).
