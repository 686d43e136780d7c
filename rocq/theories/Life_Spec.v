(* Specification of element lifetimes in a vector whose elements are objects of a class with its own
   constructors, assignment and destructor.  Knows nothing of how the vector is written. *)
From Verif Require Import Base.

(* The constructor and destructor calls of the element class a program can see. *)
Inductive call (V : Type) : Type :=
| Made (v : V)   (* a constructor ran; the object has value v *)
| Died (v : V).  (* the destructor ran on an object of value v *)
Arguments Made {V}. Arguments Died {V}.

Definition is_made {V} (c : call V) : bool := match c with Made _ => true | Died _ => false end.
(* how many objects were constructed, and how many destroyed *)
Definition made {V} (cs : list (call V)) : nat := length (filter is_made cs).
Definition died {V} (cs : list (call V)) : nat := length (filter (fun c => negb (is_made c)) cs).

(* What a program asks of a vector that owns its elements. *)
Inductive req (V : Type) : Type :=
| RPush (v : V)            (* push_back of a temporary of value v *)
| REmplace (v : V)         (* emplace_back of arguments that construct v *)
| RPop                     (* pop_back *)
| RInsert (i : nat) (v : V)  (* insert a temporary of value v before element i *)
| RSet (i : nat) (v : V).  (* assign v to element i *)
Arguments RPush {V}. Arguments REmplace {V}. Arguments RPop {V}. Arguments RInsert {V}. Arguments RSet {V}.

(* The list a request turns l into, for a vector with room for N elements; None: the request is not
   allowed (no room, nothing to remove, no such element). *)
Definition after_req {V} (N : nat) (l : list V) (r : req V) : option (list V) :=
  match r with
  | RPush v | REmplace v => if Nat.ltb (length l) N then Some (l ++ [v]) else None
  | RPop => match l with [] => None | _ => Some (removelast l) end
  | RInsert i v =>
      if Nat.ltb (length l) N && Nat.leb i (length l) then Some (firstn i l ++ v :: skipn i l) else None
  | RSet i v => if Nat.ltb i (length l) then Some (firstn i l ++ v :: skipn (S i) l) else None
  end.

(* The constructor and destructor calls a request should cause: one construction for an element that is added,
   one destruction for an element that is removed. *)
Definition calls_of {V} (l : list V) (r : req V) : list (call V) :=
  match r with
  | RPush v | REmplace v | RInsert _ v => [Made v]
  | RPop => match rev l with x :: _ => [Died x] | [] => [] end
  | RSet _ _ => []
  end.

(* An insertion that is really an addition at the end. *)
Definition at_end {V} (l : list V) (r : req V) : bool :=
  match r with RInsert i _ => Nat.eqb i (length l) | _ => true end.

(* A whole history: the list and the calls it should end with. *)
Fixpoint history {V} (N : nat) (l : list V) (rs : list (req V)) : option (list V) :=
  match rs with
  | [] => Some l
  | r :: t => match after_req N l r with Some l' => history N l' t | None => None end
  end.
Fixpoint history_calls {V} (N : nat) (l : list V) (rs : list (req V)) : list (call V) :=
  match rs with
  | [] => []
  | r :: t => calls_of l r ++ match after_req N l r with Some l' => history_calls N l' t | None => [] end
  end.
(* every insertion of the history is at the end *)
Fixpoint adds_at_end {V} (N : nat) (l : list V) (rs : list (req V)) : bool :=
  match rs with
  | [] => true
  | r :: t => at_end l r && match after_req N l r with Some l' => adds_at_end N l' t | None => true end
  end.

(* What a program asks of a vector that works inside the caller's array of objects. *)
Inductive creq (V : Type) : Type :=
| CAppend (xs : list V)              (* push_back(const T&), append *)
| CInsert (i : nat) (xs : list V)    (* insert copies of a range before element i *)
| CSet (i : nat) (v : V)
| CShrink (n : nat)                  (* resize to at most the present size; clear *).
Arguments CAppend {V}. Arguments CInsert {V}. Arguments CSet {V}. Arguments CShrink {V}.

Definition after_creq {V} (N : nat) (l : list V) (r : creq V) : option (list V) :=
  match r with
  | CAppend xs => if Nat.leb (length l + length xs) N then Some (l ++ xs) else None
  | CInsert i xs =>
      if Nat.leb (length l + length xs) N && Nat.leb i (length l)
      then Some (firstn i l ++ xs ++ skipn i l) else None
  | CSet i v => if Nat.ltb i (length l) then Some (firstn i l ++ v :: skipn (S i) l) else None
  | CShrink n => if Nat.leb n (length l) then Some (firstn n l) else None
  end.
Fixpoint chistory {V} (N : nat) (l : list V) (rs : list (creq V)) : option (list V) :=
  match rs with
  | [] => Some l
  | r :: t => match after_creq N l r with Some l' => chistory N l' t | None => None end
  end.
