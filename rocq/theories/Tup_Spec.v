(* Specification of parameter packs, visitors, tuples and pairs. *)
From Verif Require Import Base.

(* The items of a pack with their positions, and the ones among them that satisfy eval. *)
Definition items {A} (l : list A) : list (nat * A) := combine (seq 0 (length l)) l.
Definition chosen {A} (eval : A -> nat -> bool) (l : list A) : list (nat * A) :=
  filter (fun p => eval (snd p) (fst p)) (items l).

(* i is the first position of x in l. *)
Definition first_at {A} (x : A) (l : list A) (i : nat) : Prop :=
  nth_error l i = Some x /\ forall j, j < i -> nth_error l j <> Some x.

(* f is called on these items in turn, and gives false on each. *)
Inductive rejected {A S} (f : nat -> A -> S -> bool * S) : list (nat * A) -> S -> S -> Prop :=
| rej_nil s : rejected f [] s s
| rej_cons i x r s s1 s2 : f i x s = (false, s1) -> rejected f r s1 s2 -> rejected f ((i, x) :: r) s s2.
(* f is called on these items in turn until it gives true: r is the position of that item, or
   -1 when f gives false on all of them. *)
Definition takes {A S} (f : nat -> A -> S -> bool * S) (calls : list (nat * A)) (s : S) (r : Z) (s' : S) : Prop :=
  (r = (-1)%Z /\ rejected f calls s s') \/
  exists pre i x post s1, calls = pre ++ (i, x) :: post /\ rejected f pre s s1 /\
    f i x s1 = (true, s') /\ r = Z.of_nat i.

(* eq and lt are an equality and a strict total order. *)
Definition total_order {A} (eq lt : A -> A -> bool) : Prop :=
  (forall x y, eq x y = true <-> x = y) /\
  (forall x, lt x x = false) /\
  (forall x y z, lt x y = true -> lt y z = true -> lt x z = true) /\
  (forall x y, lt x y = true \/ x = y \/ lt y x = true).
(* lt is a strict weak order. *)
Definition weak_order {A} (lt : A -> A -> bool) : Prop :=
  (forall x, lt x x = false) /\
  (forall x y z, lt x y = true -> lt y z = true -> lt x z = true) /\
  (forall x y z, lt x y = false -> lt y z = false -> lt x z = false).

(* The arguments fit a tuple of these types; an empty type has one value only. *)
Definition fits {V} (is_empty : nat -> bool) (init : nat -> V) (types : list nat) (args : list V) : Prop :=
  length types = length args /\
  forall i t v, nth_error types i = Some t -> nth_error args i = Some v -> is_empty t = true -> v = init t.
