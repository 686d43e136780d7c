(* What a user expects of the general algorithms. *)
From Verif Require Import Base.

Section Spec.
Context {A : Type}.

(* [m'] is [m] with the [n] cells from [d] on replaced by the original contents of
   the [n] cells from [s] on. *)
Definition moved (m m' : list A) (s n d : nat) : Prop :=
  length m' = length m /\
  forall i, nth_error m' i = if Nat.leb d i && Nat.ltb i (d + n)
                             then nth_error m (s + (i - d)) else nth_error m i.

(* [r] is the first index of [first,last) whose element satisfies P, or last. *)
Definition first_such (m : list A) (first last : nat) (P : A -> Prop) (r : nat) : Prop :=
  first <= r <= last /\
  (forall j x, first <= j < r -> nth_error m j = Some x -> ~ P x) /\
  (r < last -> exists x, nth_error m r = Some x /\ P x).

(* The needle s occurs at index p, entirely before last. *)
Definition occurs_at (P : A -> A -> Prop) (m : list A) (last : nat) (s : list A) (p : nat) : Prop :=
  p + length s <= last /\
  forall j y, nth_error s j = Some y -> exists x, nth_error m (p + j) = Some x /\ P x y.

(* The elements at m1[i1+j] and m2[i2+j] exist and are equal. *)
Definition agree (m1 : list A) (i1 : nat) (m2 : list A) (i2 j : nat) : Prop :=
  exists x, nth_error m1 (i1 + j) = Some x /\ nth_error m2 (i2 + j) = Some x.

(* [r] is the first index in [f,l) that nothing in [f,l) is strictly below (in the
   order lt) *)
Definition first_least (lt : A -> A -> bool) (m : list A) (f l r : nat) : Prop :=
  f <= r < l /\ exists x, nth_error m r = Some x /\
    (forall j y, f <= j < l -> nth_error m j = Some y -> lt y x = false) /\
    (forall j y, f <= j < r -> nth_error m j = Some y -> lt x y = true).

End Spec.
