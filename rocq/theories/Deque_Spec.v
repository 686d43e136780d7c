(* A double-ended queue as a sequence.  Nothing here mentions the code. *)
From Coq Require Import List Arith.
Import ListNotations.

Inductive dop (A : Type) := PushBack (v : A) | PushBackMove (v : A) | EmplaceBack (v : A) | PushFront (v : A)
  | PopBack | PopFront.
Arguments PushBack {A}. Arguments PushBackMove {A}. Arguments EmplaceBack {A}. Arguments PushFront {A}.
Arguments PopBack {A}. Arguments PopFront {A}.

Definition seq_step {A} (o : dop A) (l : list A) : list A :=
  match o with
  | PushBack v | PushBackMove v | EmplaceBack v => l ++ [v]
  | PushFront v => v :: l
  | PopBack => removelast l
  | PopFront => tl l
  end.
(* not pushing when full, not popping when empty *)
Definition allowed {A} (N : nat) (o : dop A) (l : list A) : Prop :=
  match o with
  | PopBack | PopFront => l <> []
  | _ => length l < N
  end.
Fixpoint history_ok {A} (N : nat) (ops : list (dop A)) (l : list A) : Prop :=
  match ops with
  | [] => True
  | o :: ops' => allowed N o l /\ history_ok N ops' (seq_step o l)
  end.
Fixpoint seq_run {A} (ops : list (dop A)) (l : list A) : list A :=
  match ops with [] => l | o :: ops' => seq_run ops' (seq_step o l) end.

(* the operations that construct the new element instead of assigning to an old one *)
Definition constructs {A} (o : dop A) : Prop :=
  match o with PushBack _ | PushFront _ => False | _ => True end.

(* queue histories: what was pushed, how many pops; first in, first out says that the n-th pop
   takes the n-th value pushed *)
Inductive qop (A : Type) := QPush (v : A) | QPushMove (v : A) | QEmplace (v : A) | QPop.
Arguments QPush {A}. Arguments QPushMove {A}. Arguments QEmplace {A}. Arguments QPop {A}.
Fixpoint pushed {A} (ops : list (qop A)) : list A :=
  match ops with
  | [] => []
  | QPop :: t => pushed t
  | QPush v :: t | QPushMove v :: t | QEmplace v :: t => v :: pushed t
  end.
Fixpoint pops {A} (ops : list (qop A)) : nat :=
  match ops with [] => 0 | QPop :: t => S (pops t) | _ :: t => pops t end.
(* pops only when non-empty, pushes only when there is room *)
Definition within {A} (N : nat) (ops : list (qop A)) : Prop :=
  forall a o b, ops = a ++ o :: b ->
    match o with QPop => pops a < length (pushed a) | _ => length (pushed a) - pops a < N end.
Definition qconstructs {A} (o : qop A) : Prop := match o with QPush _ => False | _ => True end.
