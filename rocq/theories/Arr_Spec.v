(* What a user expects of array, of the older array windows, of the small maps and of stack. *)
From Verif Require Import Base.

Definition set {B} (f : nat -> B) (x : nat) (b : B) : nat -> B := fun y => if Nat.eqb y x then b else f y.
Definition put {A} (l : list A) (i : nat) (a : A) : list A := firstn i l ++ a :: skipn (S i) l.

(* ---------- arrays ---------- *)
Section Arrays.
Context {A : Type} (eqA : A -> A -> bool) (len : nat -> nat).
(* x, y are variables of type array<T, len x>, array<T, len y>; w a window *)
Inductive aop :=
| ANew (x : nat) (l : list A)       (* array<T, len x> x { l... } *)
| ACopy (x y : nat)                 (* x = y *)
| AFill (x : nat) (a : A)           (* x.fill(a) *)
| ASet (x i : nat) (a : A)          (* x[i] = a *)
| AGet (x i : nat)                  (* observe x[i] *)
| AFront (x : nat)
| ASize (x : nat)
| AAll (x : nat)                    (* observe the elements seen by for(auto& e : x) *)
| AEq (x y : nat)                   (* observe x == y *)
| ANe (x y : nat)
| WMake (w x n : nat)               (* a layer2 or layer3 array over the first n elements of x *)
| WSet (w i : nat) (a : A)
| WGet (w i : nat)
| WAll (w : nat)
| WBack (w : nat)                   (* layer3 only *)
| WSize (w : nat).
Inductive obs := OVal (a : A) | OAll (l : list A) | ONum (n : nat) | OBool (b : bool).

Record aideal := AIdeal { arrs : nat -> option (list A); wins : nat -> option (nat * nat) }.
Definition obind {B C} (m : option B) (f : B -> option C) : option C :=
  match m with Some b => f b | None => None end.
Notation "x <? m ;; k" := (obind m (fun x => k)) (at level 61, m at next level, right associativity).
Notation "' p <? m ;; k" := (obind m (fun x => match x with p => k end))
  (at level 61, p strict pattern, m at next level, right associativity).
Definition with_arr (s : aideal) (x : nat) (l : list A) : aideal := AIdeal (set (arrs s) x (Some l)) (wins s).
Fixpoint same (l r : list A) : bool :=
  match l, r with
  | [], [] => true
  | a :: l', b :: r' => eqA a b && same l' r'
  | _, _ => false
  end.
(* a window (x, n) shows the first n elements of x *)
Definition window (s : aideal) (w : nat) : option (nat * nat * list A) :=
  match wins s w with
  | Some (x, n) => l <? arrs s x ;; Some (x, n, l)
  | None => None
  end.
Definition guard (b : bool) : option unit := if b then Some tt else None.
Definition aideal_step (s : aideal) (o : aop) : option (list obs * aideal) :=
  match o with
  | ANew x l => _ <? guard (Nat.eqb (length l) (len x)) ;; Some ([], with_arr s x l)
  | ACopy x y => _ <? guard (Nat.eqb (len x) (len y)) ;; l <? arrs s y ;; Some ([], with_arr s x l)
  | AFill x a => Some ([], with_arr s x (repeat a (len x)))
  | ASet x i a => l <? arrs s x ;; _ <? guard (Nat.ltb i (length l)) ;; Some ([], with_arr s x (put l i a))
  | AGet x i => l <? arrs s x ;; a <? nth_error l i ;; Some ([OVal a], s)
  | AFront x => l <? arrs s x ;; a <? nth_error l 0 ;; Some ([OVal a], s)
  | ASize x => Some ([ONum (len x)], s)
  | AAll x => l <? arrs s x ;; Some ([OAll l], s)
  | AEq x y => l <? arrs s x ;; r <? arrs s y ;; Some ([OBool (same l r)], s)
  | ANe x y => l <? arrs s x ;; r <? arrs s y ;; Some ([OBool (negb (same l r))], s)
  | WMake w x n => _ <? guard (Nat.leb n (len x)) ;; Some ([], AIdeal (arrs s) (set (wins s) w (Some (x, n))))
  | WSet w i a => ' (x, n, l) <? window s w ;; _ <? guard (Nat.ltb i n) ;; Some ([], with_arr s x (put l i a))
  | WGet w i => ' (x, n, l) <? window s w ;; _ <? guard (Nat.ltb i n) ;; a <? nth_error l i ;; Some ([OVal a], s)
  | WAll w => ' (x, n, l) <? window s w ;; Some ([OAll (firstn n l)], s)
  | WBack w => ' (x, n, l) <? window s w ;; _ <? guard (Nat.ltb 0 n) ;; a <? nth_error l (n - 1) ;; Some ([OVal a], s)
  | WSize w => ' (x, n) <? wins s w ;; Some ([ONum n], s)
  end.
Fixpoint aideal_run (s : aideal) (os : list aop) : option (list obs * aideal) :=
  match os with
  | [] => Some ([], s)
  | o :: os' => match aideal_step s o with
                | Some (b, s1) => match aideal_run s1 os' with Some (bs, s2) => Some (b ++ bs, s2) | None => None end
                | None => None
                end
  end.
Definition no_arrays : aideal := AIdeal (fun _ => None) (fun _ => None).
End Arrays.
Arguments aop : clear implicits. Arguments obs : clear implicits. Arguments aideal : clear implicits.

(* ---------- maps ---------- *)
Section Maps.
Context {K V : Type} (eqK : K -> K -> bool).
(* a user's buffer of pairs; layer2 and layer3 maps look at it, a layer1 map copied it *)
Inductive layer := L1 | L2 | L3.
Inductive mop :=
| MGet (y : layer) (k : K)              (* observe m[k] and what it points to *)
| MPut (y : layer) (k : K) (v : V)      (* if(T* p = m[k]) *p = v, observe whether *)
| MBuf (i : nat) (k : K) (v : V).       (* buffer[i] = {k, v} *)
(* the value beside the first occurrence of the key *)
Fixpoint first (l : list (K * V)) (k : K) : option V :=
  match l with [] => None | (k1, v) :: t => if eqK k1 k then Some v else first t k end.
Fixpoint store (l : list (K * V)) (k : K) (v : V) : list (K * V) :=
  match l with [] => [] | (k1, v1) :: t => if eqK k1 k then (k1, v) :: t else (k1, v1) :: store t k v end.
Record mideal := MIdeal { own : list (K * V); buffer : list (K * V) }.
Definition pairs (s : mideal) (y : layer) : list (K * V) := match y with L1 => own s | _ => buffer s end.
Definition with_pairs (s : mideal) (y : layer) (l : list (K * V)) : mideal :=
  match y with L1 => MIdeal l (buffer s) | _ => MIdeal (own s) l end.
Definition mideal_step (s : mideal) (o : mop) : option V * mideal :=
  match o with
  | MGet y k => (first (pairs s y) k, s)
  | MPut y k v => (first (pairs s y) k, with_pairs s y (store (pairs s y) k v))
  | MBuf i k v => (None, if Nat.ltb i (length (buffer s)) then MIdeal (own s) (put (buffer s) i (k, v)) else s)
  end.
Fixpoint mideal_run (s : mideal) (os : list mop) : list (option V) * mideal :=
  match os with
  | [] => ([], s)
  | o :: os' => let '(b, s1) := mideal_step s o in let '(bs, s2) := mideal_run s1 os' in (b :: bs, s2)
  end.
(* writes to the buffer are inside it *)
Definition inside (n : nat) (o : mop) : Prop := match o with MBuf i _ _ => i < n | _ => True end.
End Maps.
Arguments mop : clear implicits. Arguments mideal : clear implicits.

(* ---------- stack ---------- *)
Section Stack.
Context {A : Type}.
Inductive sop :=
| SPush (a : A) | SPop | STop | SSetTop (a : A)    (* top() = a *)
| SSize | SEmpty
| SAll.                                            (* for(auto e : s), from the bottom *)
Inductive sobs := SVal (a : A) | SNum (n : nat) | SBool (b : bool) | SList (l : list A).
(* the top is the head *)
Definition sideal_step (cap : nat) (l : list A) (o : sop) : option (list sobs * list A) :=
  match o, l with
  | SPush a, _ => if Nat.ltb (length l) cap then Some ([], a :: l) else None
  | SPop, _ :: t => Some ([], t)
  | STop, a :: _ => Some ([SVal a], l)
  | SSetTop a, _ :: t => Some ([], a :: t)
  | SSize, _ => Some ([SNum (length l)], l)
  | SEmpty, _ => Some ([SBool (match l with [] => true | _ => false end)], l)
  | SAll, _ => Some ([SList (rev l)], l)
  | _, [] => None
  end.
Fixpoint sideal_run (cap : nat) (l : list A) (os : list sop) : option (list sobs * list A) :=
  match os with
  | [] => Some ([], l)
  | o :: os' => match sideal_step cap l o with
                | Some (b, l1) => match sideal_run cap l1 os' with Some (bs, l2) => Some (b ++ bs, l2) | None => None end
                | None => None
                end
  end.
End Stack.
Arguments sop : clear implicits. Arguments sobs : clear implicits.
