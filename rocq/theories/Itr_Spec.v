(* What a user expects of the iterators and element proxies of a vector or string: an
   iterator is a place 0..n of the list of n elements, v[i] is the i-th element. *)
From Verif Require Import Base Dyn_Spec.
Local Open Scope Z_scope.

Inductive cmp := CEq | CNe | CLt | CGt | CGe.

Section Spec.
Context {A : Type} (eqA : A -> A -> bool).

(* One statement of a program.  x, y are iterator variables, p a variable holding an
   element proxy; v is the container. *)
Inductive stm :=
| ItBegin (x : nat)              (* x = v.begin() *)
| ItEnd (x : nat)                (* x = v.end() *)
| ItCopy (x y : nat)             (* x = y *)
| ItInc (x y : nat)              (* x = ++y *)
| ItDec (x y : nat)              (* x = --y *)
| ItPostInc (x y : nat)          (* x = y++ *)
| ItPostDec (x y : nat)          (* x = y-- *)
| ItPlus (x y : nat) (n : Z)     (* x = y + n *)
| ItMinus (x y : nat) (n : Z)    (* x = y - n *)
| ItAdd (x : nat) (n : Z)        (* x += n *)
| ItSub (x : nat) (n : Z)        (* x -= n *)
| ItDiff (x y : nat)             (* observe x - y *)
| ItCmp (k : cmp) (x y : nat)    (* observe x == y and so on *)
| ItGet (x : nat)                (* observe *x *)
| ItSet (x : nat) (a : A)        (* *x = a *)
| ElGet (i : nat)                (* observe v[i] / v.at(i) *)
| ElSet (i : nat) (a : A)        (* v[i] = a *)
| ElEq (i : nat) (a : A)         (* observe v[i] == a *)
| ElNe (i : nat) (a : A)         (* observe v[i] != a *)
| ElFront                        (* observe v.front() *)
| ElBack                         (* observe v.back() *)
| PxTake (p i : nat)             (* auto p = v[i] *)
| PxGet (p : nat)                (* observe p *)
| PxSet (p : nat) (a : A)        (* p = a *)
| CtErase (x y : nat)            (* x = v.erase(y) *)
| CtInsert (x y : nat) (a : A)   (* x = v.insert(y, a), a moved *)
| CtDo (o : vop A).              (* push_back, pop_back, ... *)

Inductive obs := OVal (a : A) | ODist (d : Z) | OBool (b : bool).

Record ideal := Ideal { els : list A; it_at : nat -> option nat; px_at : nat -> option nat }.

Definition set {B} (f : nat -> option B) (x : nat) (n : B) : nat -> option B :=
  fun y => if Nat.eqb y x then Some n else f y.

(* the place of iterator x, if it has one in the list as it now is *)
Definition place (s : ideal) (x : nat) : option nat :=
  match it_at s x with
  | Some p => if Nat.leb p (length (els s)) then Some p else None
  | None => None
  end.
(* n places on *)
Definition move (s : ideal) (p : nat) (n : Z) : option nat :=
  let q := Z.of_nat p + n in
  if (0 <=? q) && (q <=? Z.of_nat (length (els s))) then Some (Z.to_nat q) else None.
Definition obind {B C} (m : option B) (f : B -> option C) : option C :=
  match m with Some b => f b | None => None end.
Notation "x <? m ;; k" := (obind m (fun x => k)) (at level 61, m at next level, right associativity).

Definition compare (k : cmp) (p q : nat) : bool :=
  match k with
  | CEq => Nat.eqb p q
  | CNe => negb (Nat.eqb p q)
  | CLt => Nat.ltb p q
  | CGt => Nat.ltb q p
  | CGe => Nat.leb q p
  end.

Definition with_it (s : ideal) (x p : nat) : ideal := Ideal (els s) (set (it_at s) x p) (px_at s).
Definition with_els (s : ideal) (l : list A) : ideal := Ideal l (it_at s) (px_at s).
Definition replace (s : ideal) (i : nat) (a : A) : option ideal :=
  if Nat.ltb i (length (els s)) then Some (with_els s (firstn i (els s) ++ a :: skipn (S i) (els s))) else None.
Definition quiet (s : ideal) : option (list obs * ideal) := Some ([], s).
Definition tell (o : obs) (s : ideal) : option (list obs * ideal) := Some ([o], s).

(* None: the statement has no meaning (no such place or element) *)
Definition istep (s : ideal) (c : stm) : option (list obs * ideal) :=
  match c with
  | ItBegin x => quiet (with_it s x 0)
  | ItEnd x => quiet (with_it s x (length (els s)))
  | ItCopy x y => p <? place s y ;; quiet (with_it s x p)
  | ItInc x y => p <? place s y ;; q <? move s p 1 ;; quiet (with_it (with_it s y q) x q)
  | ItDec x y => p <? place s y ;; q <? move s p (-1) ;; quiet (with_it (with_it s y q) x q)
  | ItPostInc x y => p <? place s y ;; q <? move s p 1 ;; quiet (with_it (with_it s y q) x p)
  | ItPostDec x y => p <? place s y ;; q <? move s p (-1) ;; quiet (with_it (with_it s y q) x p)
  | ItPlus x y n => p <? place s y ;; q <? move s p n ;; quiet (with_it s x q)
  | ItMinus x y n => p <? place s y ;; q <? move s p (- n) ;; quiet (with_it s x q)
  | ItAdd x n => p <? place s x ;; q <? move s p n ;; quiet (with_it s x q)
  | ItSub x n => p <? place s x ;; q <? move s p (- n) ;; quiet (with_it s x q)
  | ItDiff x y => p <? place s x ;; q <? place s y ;; tell (ODist (Z.of_nat p - Z.of_nat q)) s
  | ItCmp k x y => p <? place s x ;; q <? place s y ;; tell (OBool (compare k p q)) s
  | ItGet x => p <? place s x ;; a <? nth_error (els s) p ;; tell (OVal a) s
  | ItSet x a => p <? place s x ;; s' <? replace s p a ;; quiet s'
  | ElGet i => a <? nth_error (els s) i ;; tell (OVal a) s
  | ElSet i a => s' <? replace s i a ;; quiet s'
  | ElEq i a => b <? nth_error (els s) i ;; tell (OBool (eqA b a)) s
  | ElNe i a => b <? nth_error (els s) i ;; tell (OBool (negb (eqA b a))) s
  | ElFront => a <? nth_error (els s) 0 ;; tell (OVal a) s
  | ElBack => a <? nth_error (els s) (length (els s) - 1) ;; tell (OVal a) s
  | PxTake p i => _ <? nth_error (els s) i ;; quiet (Ideal (els s) (it_at s) (set (px_at s) p i))
  | PxGet p => i <? px_at s p ;; a <? nth_error (els s) i ;; tell (OVal a) s
  | PxSet p a => i <? px_at s p ;; s' <? replace s i a ;; quiet s'
  | CtErase x y => p <? place s y ;; l <? vstep (els s) (Erase p) ;; quiet (with_it (with_els s l) x p)
  | CtInsert x y a => p <? place s y ;; l <? vstep (els s) (Insert p a) ;; quiet (with_it (with_els s l) x p)
  | CtDo o => l <? vstep (els s) o ;; quiet (with_els s l)
  end.

(* what a statement does to the elements, as an operation on lists *)
Definition effect (s : ideal) (c : stm) (s' : ideal) : vop A :=
  match c with
  | CtErase _ y => match it_at s y with Some p => Erase p | None => Clear end
  | CtInsert _ y a => match it_at s y with Some p => Insert p a | None => Clear end
  | CtDo o => o
  | _ => Assign (els s')
  end.

(* programs whose list never exceeds [cap] elements and satisfies [ok] *)
Inductive irun (cap : nat) (ok : list A -> vop A -> list A -> Prop) : ideal -> list stm -> list obs -> ideal -> Prop :=
| irun_nil s : irun cap ok s [] [] s
| irun_cons s c o s1 cs os s2 :
    istep s c = Some (o, s1) -> (length (els s1) <= cap)%nat -> ok (els s) (effect s c s1) (els s1) ->
    irun cap ok s1 cs os s2 -> irun cap ok s (c :: cs) (o ++ os) s2.

Definition fresh (l : list A) : ideal := Ideal l (fun _ => None) (fun _ => None).
End Spec.
Arguments stm : clear implicits.
Arguments obs : clear implicits.
Arguments ideal : clear implicits.
