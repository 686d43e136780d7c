(* What a user expects of a growable array of bounded capacity: a list. *)
From Verif Require Import Base.

Section Spec.
Context {A : Type}.

(* the operations a history is made of *)
Inductive vop :=
| Push (x : A)                      (* push_back / emplace_back *)
| Append (xs : list A)              (* append(xs, n) *)
| Pop                               (* pop_back *)
| Insert (i : nat) (x : A)          (* insert(begin() + i, x) *)
| InsertRange (i : nat) (xs : list A)
| Erase (i : nat)                   (* erase(begin() + i) *)
| Assign (xs : list A)
| Resize (n : nat)
| Clear.

(* their meaning on lists; None where the operation has no meaning (popping an empty
   list, a position outside the list, growing a list by resize) *)
Definition vstep (l : list A) (o : vop) : option (list A) :=
  match o with
  | Push x => Some (l ++ [x])
  | Append xs => Some (l ++ xs)
  | Pop => match l with [] => None | _ => Some (removelast l) end
  | Insert i x => if Nat.leb i (length l) then Some (firstn i l ++ x :: skipn i l) else None
  | InsertRange i xs => if Nat.leb i (length l) then Some (firstn i l ++ xs ++ skipn i l) else None
  | Erase i => if Nat.ltb i (length l) then Some (firstn i l ++ skipn (S i) l) else None
  | Assign xs => Some xs
  | Resize n => if Nat.leb n (length l) then Some (firstn n l) else None
  | Clear => Some []
  end.

(* the list after a history, each intermediate list of at most [cap] elements satisfying [ok] *)
Inductive vrun (cap : nat) (ok : list A -> vop -> list A -> Prop) : list A -> list vop -> list A -> Prop :=
| vrun_nil l : vrun cap ok l [] l
| vrun_cons l o l1 os l2 :
    vstep l o = Some l1 -> length l1 <= cap -> ok l o l1 -> vrun cap ok l1 os l2 -> vrun cap ok l (o :: os) l2.

End Spec.
Arguments vop : clear implicits.
