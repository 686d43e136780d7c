(* What copying and moving do to objects of class type. *)
From Verif Require Import Base.

Section Spec.
Context {V : Type}.

(* objects by their number, and how often one was copied or moved since *)
Record objects := Objects { value : nat -> V; copies : nat; moves : nat }.

(* nothing happened to the objects other than those listed *)
Definition same_but (l : list nat) (m m' : objects) : Prop := forall i, ~ In i l -> value m' i = value m i.
End Spec.
Arguments objects : clear implicits.
