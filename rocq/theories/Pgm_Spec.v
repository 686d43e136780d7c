(* What it means for data to lie in program memory.  Nothing here comes from the model. *)
From Coq Require Import List ZArith.
Import ListNotations.
Local Open Scope Z_scope.

Definition is_byte (b : Z) : Prop := 0 <= b < 256.

(* the bytes bs lie at address a of memory m *)
Definition lies_at (m : list Z) (a : nat) (bs : list Z) : Prop :=
  exists pre post, m = pre ++ bs ++ post /\ length pre = a.

(* the little-endian bytes of a two's complement number v of n bytes *)
Fixpoint bytes_of (n : nat) (v : Z) : list Z :=
  match n with O => [] | S n' => v mod 256 :: bytes_of n' (v / 256) end.

(* the range of a number of n bytes *)
Definition in_range (signed : bool) (n : nat) (v : Z) : Prop :=
  if signed then - 2 ^ (8 * Z.of_nat n - 1) <= v < 2 ^ (8 * Z.of_nat n - 1) else 0 <= v < 2 ^ (8 * Z.of_nat n).

(* a byte read as a (signed) char *)
Definition as_char (b : Z) : Z := if b <? 128 then b else b - 256.

(* how compare orders texts: by length, and texts of one length by their first difference *)
Fixpoint first_difference (t u : list Z) : Z :=
  match t, u with
  | x :: t', y :: u' => if x =? y then first_difference t' u' else x - y
  | _, _ => 0
  end.
Definition order (t u : list Z) : Z :=
  if (length t <? length u)%nat then -1 else if (length u <? length t)%nat then 1 else first_difference t u.
