(* What a user expects of string queries, on lists of characters. *)
From Verif Require Import Base.

(* needle s occurs in l at index p *)
Definition occurs (l s : list Z) (p : nat) : Prop := exists a b, l = a ++ s ++ b /\ length a = p.
(* r is the least index >= pos satisfying P *)
Definition least_from (P : nat -> Prop) (pos r : nat) : Prop :=
  pos <= r /\ P r /\ forall i, pos <= i < r -> ~ P i.
(* r is the greatest index <= pos satisfying P *)
Definition greatest_upto (P : nat -> Prop) (pos r : nat) : Prop :=
  r <= pos /\ P r /\ forall i, r < i <= pos -> ~ P i.
(* the character at index i is in set s *)
Definition char_in (l s : list Z) (i : nat) : Prop := exists x, nth_error l i = Some x /\ In x s.

Definition prefix_of (p l : list Z) : Prop := exists t, l = p ++ t.
Definition suffix_of (p l : list Z) : Prop := exists t, l = t ++ p.

(* the order of dictionaries *)
Fixpoint lex_lt (a b : list Z) : Prop :=
  match a, b with
  | _, [] => False
  | [], _ :: _ => True
  | x :: a', y :: b' => (x < y)%Z \/ (x = y /\ lex_lt a' b')
  end.
(* shorter first, then the order of dictionaries *)
Definition shortlex_lt (a b : list Z) : Prop :=
  length a < length b \/ (length a = length b /\ lex_lt a b).
