(* Model of estd::exchange and of the construction of a pair: /repo/src/estd/utility.h.
   Objects are of class type; [husk v] is what moving from an object of value v leaves in it.  A
   returned local is the caller's object (the copy is elided). *)
From Verif Require Import Base Xch_Spec.

Section Xch.
Context {V : Type} (husk : V -> V).

Definition put (f : nat -> V) (i : nat) (v : V) : nat -> V := fun j => if j =? i then v else f j.
(* the copy and move constructors and assignments of the class (not code of the library): object i
   from object j *)
Definition copy_to (m : objects V) (i j : nat) : objects V :=
  Objects (put (value m) i (value m j)) (copies m + 1) (moves m).
Definition move_to (m : objects V) (i j : nat) : objects V :=
  Objects (put (put (value m) j (husk (value m j))) i (value m j)) (copies m) (moves m + 1).
Definition pass (m : objects V) (i j : nat) (rvalue : bool) : objects V :=
  if rvalue then move_to m i j else copy_to m i j.

(* utility.h:173-179 exchange(obj, new_value); [rvalue]: new_value is one; the result is [old] *)
Definition exchange (m : objects V) (obj new : nat) (rvalue : bool) (old : nat) : objects V :=
  pass (move_to m old obj) obj new rvalue.

(* utility.h:38-42 both constructors from two values: inside, the parameters are lvalues *)
Definition pair_of (m : objects V) (first second a b : nat) (rvalue_a rvalue_b : bool) : objects V :=
  copy_to (copy_to m first a) second b.
(* utility.h:71-75 make_pair(T1 t, T2 u) *)
Definition make_pair (m : objects V) (first second a b : nat) (rvalue_a rvalue_b : bool) (t u : nat) : objects V :=
  pair_of (pass (pass m t a rvalue_a) u b rvalue_b) first second t u false false.
(* utility.h:35-36, the defaulted copy and move constructors: element by element *)
Definition pair_from (m : objects V) (first second a b : nat) (rvalue : bool) : objects V :=
  pass (pass m first a rvalue) second b rvalue.
(* utility.h:56: there is an assignment from a const pair&, and so none from a pair&& *)
Definition pair_assign (m : objects V) (first second a b : nat) (rvalue : bool) : objects V :=
  copy_to (copy_to m first a) second b.
(* utility.h:182-191 swap of two objects of class type; [temp] is the local *)
Definition swap (m : objects V) (a b temp : nat) : objects V := copy_to (copy_to (copy_to m temp a) a b) b temp.
(* utility.h:58-62, 65-69 *)
Definition pair_swap (m : objects V) (p q p' q' temp1 temp2 : nat) : objects V := swap (swap m p p' temp1) q q' temp2.
(* utility.h:125-141, 153-165 get<0> and get<1> of the pair (first, second): which object *)
Definition get (index first second : nat) : option nat :=
  match index with 0 => Some first | 1 => Some second | _ => None end.
End Xch.
