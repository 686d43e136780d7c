(* Lists of values.  An element is named by its node (Lnk_Spec.v); [with_values]: the history of
   a list with the value each operation puts in. *)
From Verif Require Import Base Lnk_Spec.

(* the node an operation puts in *)
Definition adds (op : lop) : option nat :=
  match op with PushFront a | InsertAfter _ a | ReplaceAfter _ a => Some a | _ => None end.
Definition dadds (op : dop) : option nat :=
  match op with DPushFront a | DPushBack a | DInsert _ a => Some a end.

(* A history: each operation with the value it puts in, if it puts one in. *)
Definition links {O V} (h : list (O * V)) : list O := map fst h.

(* The value of node a: the one it was last put in with. *)
Fixpoint value_of {O V} (adds : O -> option nat) (h : list (O * V)) (a : nat) (before : option V) : option V :=
  match h with
  | [] => before
  | (op, v) :: t => value_of adds t a (match adds op with
                                       | Some b => if Nat.eqb b a then Some v else before
                                       | None => before
                                       end)
  end.
(* How many values were put in. *)
Definition puts {O V} (adds : O -> option nat) (h : list (O * V)) : nat :=
  length (filter (fun p => match adds (fst p) with Some _ => true | None => false end) h).
