(* What is held by the small holders a class can be made of, told from what was done before, latest first:
   the value last set, the value last given to the variable referred to, or a constant. *)
From Coq Require Import Arith List.
Import ListNotations.

Section Evp.
Context {A : Type}.
(* how a holder is made: with a value of its own, referring to a variable, referring to a temporary, or
   evaporated, with the constant it has instead of the value v it is made with *)
Inductive making := Keep (v : A) | Refer (x : nat) | Temporary (v : A) | Gone (constant v : A).
Inductive vop :=
| Make (h : nat) (k : making)
| Copy (h g : nat)               (* h is made as a copy of g *)
| Put (h : nat) (v : A)          (* h.value(v), or h.value() = v *)
| Get (h : nat)                  (* h.value() *)
| Point (h x : nat)              (* h.value_ptr(&x) *)
| Assign (x : nat) (v : A)       (* the variable x begins, or is assigned *)
| End (x : nat).                 (* x goes out of scope *)

Definition same_name (a b : nat) := Nat.eqb a b.
(* what sort of holder h is: None if it was not made *)
Inductive sort := Own | Reference | Dangling | Nothing (constant : A).
Definition sort_made (k : making) : sort :=
  match k with Keep _ => Own | Refer _ => Reference | Temporary _ => Dangling | Gone d _ => Nothing d end.
Fixpoint sort_of (h : nat) (past : list vop) : option sort :=
  match past with
  | [] => None
  | Make h' k :: p => if same_name h h' then Some (sort_made k) else sort_of h p
  | Copy h' g :: p => if same_name h h' then sort_of g p else sort_of h p
  | _ :: p => sort_of h p
  end.
(* the variable a reference refers to *)
Fixpoint target (h : nat) (past : list vop) : option nat :=
  match past with
  | [] => None
  | Make h' k :: p => if same_name h h' then match k with Refer x => Some x | _ => None end else target h p
  | Copy h' g :: p => if same_name h h' then target g p else target h p
  | Point h' x :: p => if same_name h h' then Some x else target h p
  | _ :: p => target h p
  end.
(* the value of a variable: None before it begins and after its end *)
Fixpoint content (x : nat) (past : list vop) : option A :=
  match past with
  | [] => None
  | Assign x' v :: p => if same_name x x' then Some v else content x p
  | End x' :: p => if same_name x x' then None else content x p
  | Put h v :: p => match sort_of h p, target h p with
                    | Some Reference, Some x' => if same_name x x' then Some v else content x p
                    | _, _ => content x p
                    end
  | _ :: p => content x p
  end.
(* the value of its own of a holder *)
Fixpoint kept (h : nat) (past : list vop) : option A :=
  match past with
  | [] => None
  | Make h' k :: p => if same_name h h' then match k with Keep v => Some v | _ => None end else kept h p
  | Copy h' g :: p => if same_name h h' then kept g p else kept h p
  | Put h' v :: p => if same_name h h' then Some v else kept h p
  | _ :: p => kept h p
  end.
(* what value() gives; None: the use is not allowed *)
Definition held (h : nat) (past : list vop) : option A :=
  match sort_of h past with
  | Some Own => kept h past
  | Some Reference => match target h past with Some x => content x past | None => None end
  | Some (Nothing d) => Some d
  | Some Dangling | None => None
  end.
(* a step is allowed: holders are made before they are used, references are pointed to and used while their
   variable is there *)
Definition allowed (o : vop) (past : list vop) : Prop :=
  match o with
  | Make _ (Refer x) => content x past <> None
  | Make _ _ => True
  | Copy _ g => sort_of g past <> None
  | Put h _ | Get h => held h past <> None
  | Point h x => sort_of h past = Some Reference /\ content x past <> None
  | Assign _ _ => True
  | End x => content x past <> None
  end.
Fixpoint sound (past : list vop) (os : list vop) : Prop :=
  match os with [] => True | o :: r => allowed o past /\ sound (o :: past) r end.
(* the values read, in order *)
Fixpoint reads (past : list vop) (os : list vop) : list A :=
  match os with
  | [] => []
  | o :: r => match o with Get h => match held h past with Some v => [v] | None => [] end | _ => [] end ++ reads (o :: past) r
  end.
End Evp.
Arguments making : clear implicits. Arguments vop : clear implicits. Arguments sort : clear implicits.
