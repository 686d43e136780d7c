(* What a user expects of vectors and strings whose memory comes from an allocator and grows.
   An element nobody gave a value (resize to more than the size) is None. *)
From Verif Require Import Base.

Section Grow.
Context {A : Type} (eqA : A -> A -> bool).
(* x, y: containers of one type *)
Inductive gop :=
| GAppend (x : nat) (xs : list A)          (* append(buf, len), += *)
| GPush (x : nat) (a : A)
| GEmplace (x : nat) (a : A)
| GPop (x : nat)
| GInsert (x i : nat) (xs : list A)        (* insert(begin() + i, first, last) *)
| GInsertMove (x i : nat) (a : A)          (* insert(begin() + i, std::move(a)) *)
| GErase (x i : nat)                       (* one-byte elements *)
| GClear (x : nat)
| GResize (x n : nat)
| GReserve (x n : nat)
| GShrink (x : nat)
| GAppendVec (x y : nat)                   (* x.append(y), also of itself *)
| GAssignVec (x y : nat)                   (* x.assign(y) *)
| GSet (x i : nat) (a : A)
| GSize (x : nat) | GEmpty (x : nat) | GAt (x i : nat) | GAll (x : nat) | GEq (x y : nat)
| GRoom (x : nat).                         (* size() <= capacity() *)
Inductive gobs := GoNum (n : nat) | GoBool (b : bool) | GoVal (a : A) | GoAll (l : list A).

Definition gideal : Type := nat -> list (option A).
Definition gset (s : gideal) (x : nat) (l : list (option A)) : gideal := fun y => if Nat.eqb y x then l else s y.
(* the elements, if each has a value *)
Fixpoint values (l : list (option A)) : option (list A) :=
  match l with
  | [] => Some []
  | Some a :: t => match values t with Some r => Some (a :: r) | None => None end
  | None :: _ => None
  end.
Fixpoint same (l r : list A) : bool :=
  match l, r with
  | [], [] => true
  | a :: l', b :: r' => eqA a b && same l' r'
  | _, _ => false
  end.
Definition gideal_step (s : gideal) (o : gop) : option (list gobs * gideal) :=
  match o with
  | GAppend x xs => Some ([], gset s x (s x ++ map Some xs))
  | GPush x a | GEmplace x a => Some ([], gset s x (s x ++ [Some a]))
  | GPop x => if Nat.ltb 0 (length (s x)) then Some ([], gset s x (firstn (length (s x) - 1) (s x))) else None
  | GInsert x i xs => if Nat.leb i (length (s x)) then Some ([], gset s x (firstn i (s x) ++ map Some xs ++ skipn i (s x))) else None
  | GInsertMove x i a => if Nat.leb i (length (s x)) then Some ([], gset s x (firstn i (s x) ++ Some a :: skipn i (s x))) else None
  | GErase x i => if Nat.ltb i (length (s x)) then Some ([], gset s x (firstn i (s x) ++ skipn (S i) (s x))) else None
  | GClear x => Some ([], gset s x [])
  | GResize x n => Some ([], gset s x (firstn n (s x ++ repeat None (n - length (s x)))))
  | GReserve x n => if Nat.leb (length (s x)) n then Some ([], s) else None
  | GShrink x => Some ([], s)
  | GAppendVec x y => Some ([], gset s x (s x ++ s y))
  | GAssignVec x y => if Nat.eqb x y then None else Some ([], gset s x (s y))
  | GSet x i a => if Nat.ltb i (length (s x)) then Some ([], gset s x (firstn i (s x) ++ Some a :: skipn (S i) (s x))) else None
  | GSize x => Some ([GoNum (length (s x))], s)
  | GEmpty x => Some ([GoBool (Nat.eqb (length (s x)) 0)], s)
  | GAt x i => match nth_error (s x) i with Some (Some a) => Some ([GoVal a], s) | _ => None end
  | GAll x => match values (s x) with Some l => Some ([GoAll l], s) | None => None end
  | GEq x y => match values (s x), values (s y) with
               | Some l, Some r => Some ([GoBool (same l r)], s)
               | _, _ => None
               end
  | GRoom x => Some ([GoBool true], s)
  end.
Fixpoint gideal_run (s : gideal) (os : list gop) : option (list gobs * gideal) :=
  match os with
  | [] => Some ([], s)
  | o :: os' => match gideal_step s o with
                | Some (b, s1) => match gideal_run s1 os' with Some (bs, s2) => Some (b ++ bs, s2) | None => None end
                | None => None
                end
  end.
Definition all_empty : gideal := fun _ => [].
End Grow.
Arguments gop : clear implicits. Arguments gobs : clear implicits. Arguments gideal : clear implicits.
