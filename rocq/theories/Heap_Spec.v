(* Specification vocabulary for heaps and priority queues (no reference to the
   model's functions). *)
From Verif Require Import Base.
From Verif Require Heap_Model.   (* only for the type of client calls, pq_op *)

(* comp is a strict weak ordering ("x is below y"). *)
Record strict_weak_order {A} (comp : A -> A -> bool) : Prop := {
  swo_irrefl : forall x, comp x x = false;
  swo_trans : forall x y z, comp x y = true -> comp y z = true -> comp x z = true;
  swo_incomp : forall x y z,
    comp x y = false -> comp y x = false ->
    comp y z = false -> comp z y = false ->
    comp x z = false /\ comp z x = false }.

(* The first [n] elements of [l] form a k-ary heap: no element is above its parent. *)
Definition is_heap {A} (comp : A -> A -> bool) (k n : nat) (l : list A) : Prop :=
  forall i x y,
    0 < i < n ->
    nth_error l i = Some x ->
    nth_error l ((i - 1) / k) = Some y ->
    comp y x = false.

(* [m] is not beaten by any member of [l]. *)
Definition greatest {A} (comp : A -> A -> bool) (m : A) (l : list A) : Prop :=
  In m l /\ forall x, In x l -> comp m x = false.

(* [l] is in priority order: nothing later beats something earlier. *)
Fixpoint priority_sorted {A} (comp : A -> A -> bool) (l : list A) : Prop :=
  match l with
  | [] => True
  | x :: t => (forall y, In y t -> comp x y = false) /\ priority_sorted comp t
  end.

(* Ideal priority queue: a bag of elements (a list up to Permutation).  A history
   of pushes and pops, together with the elements popped. *)
Inductive bag_run {A} (comp : A -> A -> bool) : list A -> list (option A) -> list A -> Prop :=
| bag_nil b b' : Permutation b b' -> bag_run comp b [] b'
| bag_push b v h b' : bag_run comp (v :: b) h b' -> bag_run comp b (Some v :: h) b'
| bag_pop b m rest h b' :
    Permutation b (m :: rest) -> greatest comp m b ->
    bag_run comp rest h b' -> bag_run comp b (None :: h) b'.

(* A client call as seen by the ideal bag: Some v is push(v), None is pop(). *)
Definition op_to_bag {A} (o : Heap_Model.pq_op A) : option A :=
  match o with Heap_Model.Push v => Some v | Heap_Model.Pop => None end.

(* The client respects the container: never pushes when [cap] elements are held,
   never pops when empty.  [n] is the number of elements held. *)
Fixpoint pq_legal {A} (cap n : nat) (os : list (Heap_Model.pq_op A)) : bool :=
  match os with
  | [] => true
  | Heap_Model.Push _ :: os' => Nat.ltb n cap && pq_legal cap (S n) os'
  | Heap_Model.Pop :: os' => Nat.ltb 0 n && pq_legal cap (n - 1) os'
  end.

Fixpoint pushes {A} (os : list (Heap_Model.pq_op A)) : nat :=
  match os with
  | [] => 0 | Heap_Model.Push _ :: t => S (pushes t) | Heap_Model.Pop :: t => pushes t
  end.
Fixpoint pops {A} (os : list (Heap_Model.pq_op A)) : nat :=
  match os with
  | [] => 0 | Heap_Model.Push _ :: t => pops t | Heap_Model.Pop :: t => S (pops t)
  end.
