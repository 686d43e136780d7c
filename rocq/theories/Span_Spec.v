(* Specification vocabulary for estd::span: what a (pointer, length) pair denotes. *)
From Verif Require Import Base.
Local Open Scope Z_scope.

(* The n elements of array m that start at position o. *)
Definition piece {A} (m : list A) (o n : Z) : list A :=
  firstn (Z.to_nat n) (skipn (Z.to_nat o) m).

(* A position/length pair that stays inside array m. *)
Definition inside {A} (m : list A) (o n : Z) : Prop :=
  0 <= o /\ 0 <= n /\ o + n <= Z.of_nat (length m).

(* Element i of a list, as C++ indexing counts. *)
Definition elem {A} (l : list A) (i : Z) : option A :=
  if i <? 0 then None else nth_error l (Z.to_nat i).

(* The list l with element i replaced by x. *)
Definition put {A} (l : list A) (i : Z) (x : A) : list A := upd l (Z.to_nat i) x.
