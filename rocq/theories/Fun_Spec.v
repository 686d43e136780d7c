(* What a move-only owner of a callable does: each variable is empty or holds one callable. *)
From Verif Require Import Base Fun_Model.

Section Spec.
Context {St A R : Type}.
Context (step : St -> A -> St * R).

(* None: no such variable; Some None: an empty function; Some (Some s): it holds a callable. *)
Definition fstate : Type := nat -> option (option St).
Definition no_vars : fstate := fun _ => None.


(* The next state and the answer; None: a use the contract does not cover - a call of an empty
   function, a variable made twice or used while it does not exist, a copy (only moves, and
   f2(f1) of a filled f1 that is not const, which is one here), an assignment to itself. *)
Definition owner_step (p : fop St A) (s : fstate) : option (fstate * fout R) :=
  match p with
  | FNew k v => match s k with None => Some (fset s k (Some (Some v)), FNone) | Some _ => None end
  | FMove k j =>
      match s k, s j with
      | None, Some c => Some (fset (fset s k (Some c)) j (Some None), FNone)
      | _, _ => None
      end
  | FCopy k j =>
      match s k, s j with
      | None, Some (Some v) => Some (fset (fset s k (Some (Some v))) j (Some None), FNone)
      | _, _ => None
      end
  | FCopyConst _ _ => None
  | FAssign k j =>
      if Nat.eqb k j then None
      else match s k, s j with
           | Some _, Some c => Some (fset (fset s k (Some c)) j (Some None), FNone)
           | _, _ => None
           end
  | FAssignNew k v => match s k with Some _ => Some (fset s k (Some (Some v)), FNone) | None => None end
  | FDestroy k => match s k with Some _ => Some (fset s k None, FNone) | None => None end
  | FCall k x =>
      match s k with
      | Some (Some v) => Some (fset s k (Some (Some (fst (step v x)))), FRet (snd (step v x)))
      | _ => None
      end
  | FTest k =>
      match s k with
      | Some c => Some (s, FBool match c with Some _ => true | None => false end)
      | None => None
      end
  end.
Fixpoint owner_run (ps : list (fop St A)) (s : fstate) : option (fstate * list (fout R)) :=
  match ps with
  | [] => Some (s, [])
  | p :: t =>
      match owner_step p s with
      | Some (s1, o) =>
          match owner_run t s1 with Some (s2, os) => Some (s2, o :: os) | None => None end
      | None => None
      end
  end.

(* Which bool a test may see when the function is declared never to be null. *)
Definition seen (nullable : bool) (o : fout R) : fout R :=
  match o with FBool b => FBool (if nullable then b else true) | _ => o end.

Definition live_objects (h : heap St) : nat :=
  length (filter (fun c => match c with Some _ => true | None => false end) h).
End Spec.

(* Inline functions that are never copied: each one its own callable. *)
Section InlineSpec.
Context {St A R : Type}.
Context (step : St -> A -> St * R).
Definition own_step (p : iop St A) (s : nat -> option St) : option ((nat -> option St) * list R) :=
  match p with
  | INew k v => match s k with None => Some (fset s k (Some v), []) | Some _ => None end
  | ICopy _ _ => None
  | IDestroy k => match s k with Some _ => Some (fset s k None, []) | None => None end
  | ICall k x =>
      match s k with
      | Some v => Some (fset s k (Some (fst (step v x))), [snd (step v x)])
      | None => None
      end
  end.
Fixpoint own_run (ps : list (iop St A)) (s : nat -> option St) : option ((nat -> option St) * list R) :=
  match ps with
  | [] => Some (s, [])
  | p :: t =>
      match own_step p s with
      | Some (s1, a) => match own_run t s1 with Some (s2, b) => Some (s2, a ++ b) | None => None end
      | None => None
      end
  end.
End InlineSpec.
