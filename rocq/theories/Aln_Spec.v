(* What storage owes the objects constructed in it: room, and an address they may have. *)
From Verif Require Import Base.

(* A complete object type as far as storage is concerned: sizeof and alignof. *)
Record ty := Ty { size_of : nat; align_of : nat }.

(* [basic.align], [expr.sizeof]: an alignment is a power of two; a size is a positive multiple of it *)
Definition is_type (t : ty) : Prop :=
  (exists k, align_of t = 2 ^ k) /\ 0 < size_of t /\ Nat.divide (align_of t) (size_of t).

(* An object of type t may be put at address a. *)
Definition aligned (t : ty) (a : nat) : Prop := Nat.divide (align_of t) a.

(* The bytes of a t at address a are bytes of the o at address b. *)
Definition within (t : ty) (a : nat) (o : ty) (b : nat) : Prop := b <= a /\ a + size_of t <= b + size_of o.

(* A t at address a and a u at address b share no byte. *)
Definition apart (t : ty) (a : nat) (u : ty) (b : nat) : Prop :=
  a + size_of t <= b \/ b + size_of u <= a.
