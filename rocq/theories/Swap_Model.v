(* Model of estd::swap, /repo/src/estd/utility.h:182-227, and iter_swap.
   Two objects are two positions of one array, so that swapping an object with
   itself (a = b) is represented.  Accesses outside the array are UB. *)
From Verif Require Import Base.
Local Open Scope res_scope.

(* How elements of type A at positions a and b are exchanged. *)
Definition swapper (A : Type) : Type := list A -> nat -> nat -> result (list A).

(* utility.h:182-191  the primary template, used for class types:
   const T temp = a; a = b; b = temp; *)
Definition temp_swap {A} : swapper A := fun l a b =>
  temp <- rd l a ;;                                  (* :187 *)
  y <- rd l b ;;
  l1 <- wr l a y ;;                                  (* :189 *)
  wr l1 b temp.                                      (* :190 *)

(* lhs ^= rhs on two integer objects, used by utility.h:198-200 *)
Definition xor_into (l : list Z) (lhs rhs : nat) : result (list Z) :=
  x <- rd l lhs ;;
  y <- rd l rhs ;;
  wr l lhs (Z.lxor x y).

(* utility.h:195-201  internal::xor_swap, selected by the explicit specialisations
   :205-227 for char, short, int, long and their unsigned versions.  Integers are
   mathematical; the exclusive or of two values of a type is a value of that type. *)
Definition xor_swap : swapper Z := fun l a b =>
  l1 <- xor_into l a b ;;                            (* :198 a ^= b *)
  l2 <- xor_into l1 b a ;;                           (* :199 b ^= a *)
  xor_into l2 a b.                                   (* :200 a ^= b *)
