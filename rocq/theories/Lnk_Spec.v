(* Ideal sequences, for the linked lists.  An element is named by its node. *)
From Verif Require Import Base.

(* l with a put right after the element i / right before it *)
Fixpoint put_after (i a : nat) (l : list nat) : list nat :=
  match l with
  | [] => []
  | x :: t => if Nat.eqb x i then x :: a :: t else x :: put_after i a t
  end.
Fixpoint put_before (i a : nat) (l : list nat) : list nat :=
  match l with
  | [] => []
  | x :: t => if Nat.eqb x i then a :: x :: t else x :: put_before i a t
  end.
(* l without the element following i *)
Fixpoint drop_after (i : nat) (l : list nat) : list nat :=
  match l with
  | [] => []
  | x :: t => if Nat.eqb x i then x :: tl t else x :: drop_after i t
  end.

(* ---- the operations of the forward lists *)
Inductive lop :=
| PushFront (a : nat)
| PopFront
| InsertAfter (i a : nat)
| EraseAfter (i : nat)
| ReplaceAfter (i a : nat)
| Clear.

Definition seq1 (op : lop) (l : list nat) : list nat :=
  match op with
  | PushFront a => a :: l
  | PopFront => tl l
  | InsertAfter i a => put_after i a l
  | EraseAfter i => drop_after i l
  | ReplaceAfter i a => put_after i a (drop_after i l)
  | Clear => []
  end.
Definition seqs (ops : list lop) (l : list nat) : list nat := fold_left (fun l op => seq1 op l) ops l.

(* i is an element and has a successor *)
Definition has_next (i : nat) (l : list nat) : Prop := exists p x t, l = p ++ i :: x :: t.

(* only nodes that are not in the list are put in; positions are elements; what is taken out is
   there *)
Definition fits1 (op : lop) (l : list nat) : Prop :=
  match op with
  | PushFront a => ~ In a l
  | PopFront => l <> []
  | InsertAfter i a => In i l /\ ~ In a l
  | EraseAfter i => has_next i l
  | ReplaceAfter i a => has_next i l /\ ~ In a l
  | Clear => True
  end.
Fixpoint fits (ops : list lop) (l : list nat) : Prop :=
  match ops with
  | [] => True
  | op :: t => fits1 op l /\ fits t (seq1 op l)
  end.
(* the nodes an operation names *)
Definition names (op : lop) : list nat :=
  match op with
  | PushFront a => [a]
  | PopFront | Clear => []
  | InsertAfter i a | ReplaceAfter i a => [i; a]
  | EraseAfter i => [i]
  end.
Definition forward_list_op (op : lop) : Prop :=
  match op with ReplaceAfter _ _ | Clear => False | _ => True end.

(* ---- the list with a back pointer *)
Inductive bop := BPushFront (a : nat) | BPushBack (a : nat) | BPopFront.
Definition bseq1 (op : bop) (l : list nat) : list nat :=
  match op with
  | BPushFront a => a :: l
  | BPushBack a => l ++ [a]
  | BPopFront => tl l
  end.
Definition bseqs (ops : list bop) (l : list nat) : list nat := fold_left (fun l op => bseq1 op l) ops l.
(* [bfits own ops l used]: only nodes not in the list are put in, and nodes of the user's at most
   once in their life ([used] were in the list before); only a non-empty list is popped; once
   emptied by a pop the list gets no more elements *)
Fixpoint bfits (own : bool) (ops : list bop) (l used : list nat) : Prop :=
  match ops with
  | [] => True
  | op :: t =>
      match op with
      | BPushFront a | BPushBack a => ~ In a l /\ (own = false -> ~ In a used) /\ (l = [] -> used = [])
      | BPopFront => l <> []
      end /\
      bfits own t (bseq1 op l) (match op with BPushFront a | BPushBack a => a :: used | BPopFront => used end)
  end.
Definition bnodes (ops : list bop) : list nat :=
  flat_map (fun op => match op with BPushFront a | BPushBack a => [a] | BPopFront => [] end) ops.

(* ---- remove_if *)
(* without the first match *)
Fixpoint without_first (p : nat -> bool) (l : list nat) : list nat :=
  match l with
  | [] => []
  | x :: t => if p x then t else x :: without_first p t
  end.
(* two neighbours that match *)
Definition twins (p : nat -> bool) (l : list nat) : Prop :=
  exists u x y v, l = u ++ x :: y :: v /\ p x = true /\ p y = true.
(* without each match that does not itself follow a removed one *)
Fixpoint without_every_other (p : nat -> bool) (l : list nat) : list nat :=
  match l with
  | [] => []
  | x :: t => if p x then match t with [] => [] | y :: t' => y :: without_every_other p t' end
              else x :: without_every_other p t
  end.

(* ---- the doubly linked list *)
Inductive dop := DPushFront (a : nat) | DPushBack (a : nat) | DInsert (pos : option nat) (a : nat).
(* pos None is end() *)
Definition dseq1 (op : dop) (l : list nat) : list nat :=
  match op with
  | DPushFront a => a :: l
  | DPushBack a => l ++ [a]
  | DInsert None a => l ++ [a]
  | DInsert (Some i) a => put_before i a l
  end.
Definition dseqs (ops : list dop) (l : list nat) : list nat := fold_left (fun l op => dseq1 op l) ops l.
(* new nodes; positions are elements *)
Definition dfits1 (op : dop) (l : list nat) : Prop :=
  match op with
  | DPushFront a | DPushBack a => ~ In a l
  | DInsert None a => ~ In a l
  | DInsert (Some i) a => In i l /\ ~ In a l
  end.
Fixpoint dfits (ops : list dop) (l : list nat) : Prop :=
  match ops with
  | [] => True
  | op :: t => dfits1 op l /\ dfits t (dseq1 op l)
  end.
(* no insertion at the end() of a non-empty list *)
Fixpoint no_end (ops : list dop) (l : list nat) : Prop :=
  match ops with
  | [] => True
  | op :: t => (match op with DInsert None _ => l = [] | _ => True end) /\ no_end t (dseq1 op l)
  end.
