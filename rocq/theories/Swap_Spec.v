(* What a user expects of swap. *)
From Verif Require Import Base Swap_Model.

(* The two objects end up with each other's value, everything else unchanged.
   Swapping an object with itself is only required to be defined and to leave the
   other objects alone (compare [keeps_self]). *)
Record exchanges {A} (swp : swapper A) : Prop := {
  ex_swap : forall l a b x y, a <> b ->
    nth_error l a = Some x -> nth_error l b = Some y ->
    swp l a b = Ok (upd (upd l a y) b x);
  ex_self : forall l a x, nth_error l a = Some x ->
    exists y, swp l a a = Ok (upd l a y) }.

(* Swapping an object with itself changes nothing. *)
Definition keeps_self {A} (swp : swapper A) : Prop :=
  forall l a x, nth_error l a = Some x -> swp l a a = Ok l.
