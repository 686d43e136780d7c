(* Common vocabulary of the models: outcomes of C++ code and flat storage.
   Nothing here models a particular file of /repo. *)
From Coq Require Export List Arith ZArith NArith Lia Bool Permutation.
Export ListNotations.

(* Outcome of running a piece of C++ code.
   - Ok a     : it finishes with result a;
   - UB       : it does something the C++ standard leaves undefined (out-of-bounds
                access, null dereference, division by zero, signed overflow, ...);
   - Diverge  : the fuel given to a loop ran out (excluded by the theorems). *)
Inductive result (A : Type) : Type :=
| Ok (a : A)
| UB
| Diverge.
Arguments Ok {A} a.
Arguments UB {A}.
Arguments Diverge {A}.

Definition bind {A B} (m : result A) (f : A -> result B) : result B :=
  match m with
  | Ok a => f a
  | UB => UB
  | Diverge => Diverge
  end.

Declare Scope res_scope.
Delimit Scope res_scope with res.
Notation "x <- m ;; k" := (bind m (fun x => k))
  (at level 61, m at next level, right associativity) : res_scope.
Notation "' p <- m ;; k" := (bind m (fun p => k))
  (at level 61, p pattern, m at next level, right associativity) : res_scope.

(* Reading and writing one element of a flat array; outside it, UB. *)
Definition rd {A} (l : list A) (i : nat) : result A :=
  match nth_error l i with
  | Some x => Ok x
  | None => UB
  end.

Fixpoint upd {A} (l : list A) (i : nat) (x : A) : list A :=
  match l, i with
  | [], _ => []
  | _ :: t, O => x :: t
  | h :: t, S i' => h :: upd t i' x
  end.

Definition wr {A} (l : list A) (i : nat) (x : A) : result (list A) :=
  if Nat.ltb i (length l) then Ok (upd l i x) else UB.
