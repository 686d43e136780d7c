(* What the users of non-owning functions rely on, said by looking back at the operations so far:
   which callable a function names, and which calls a callable has had. *)
From Coq Require Import List Arith Bool.
Import ListNotations.

(* a callable: a model object, the model inside a thisify_function variable, or the static model of a
   functor type *)
Inductive ident := Made (i : nat) | Inside (k : nat) | Static (ty : nat).
Definition ident_eqb (a b : ident) : bool :=
  match a, b with
  | Made i, Made j | Inside i, Inside j | Static i, Static j => i =? j
  | _, _ => false
  end.

Section Callbacks.
Context {St Obj C A R : Type}.
Inductive kind :=
  | Functor (s : St)          (* a functor with its state *)
  | Method (m o : nat)        (* method m of object o *)
  | Context (f : nat) (c : C) (* a plain function f with a context *)
  | Once (s : St).            (* a functor that is destroyed by the call *)
Inductive cop :=
  | NewModel (i : nat) (d : kind)     (* a model *)
  | EndModel (i : nat)
  | NewFun (k i : nat)                (* function k(&model i) *)
  | NewNull (k : nat)                 (* function k *)
  | CopyFun (k j : nat)               (* function k(j), also if j is a thisify_function *)
  | Assign (k j : nat)                (* k = j *)
  | NewThis (k m o : nat)             (* thisify_function k(model<T, &T::m>(&o)) *)
  | CopyThis (k j : nat)              (* thisify_function k(j) *)
  | NewStatic (k ty : nat) (s : St)   (* static_function k(functor of type ty) *)
  | EndFun (k : nat)
  | Call (k : nat) (x : A)
  | Test (k : nat).                   (* if(k) *)
Inductive reply := Result (r : R) | Is (b : bool) | Nothing.

(* what each variable names after the operations: nothing, null, or a callable *)
Definition put {T} (n : nat -> T) (k : nat) (v : T) : nat -> T := fun j => if j =? k then v else n j.
Definition names_step (n : nat -> option (option ident)) (o : cop) : nat -> option (option ident) :=
  match o with
  | NewFun k i => put n k (Some (Some (Made i)))
  | NewNull k => put n k (Some None)
  | CopyFun k j | Assign k j => put n k (n j)
  | NewThis k _ _ => put n k (Some (Some (Inside k)))
  | NewStatic k ty _ => put n k (Some (Some (Static ty)))
  | EndFun k => put n k None
  | _ => n
  end.
Definition names (h : list cop) : nat -> option (option ident) := fold_left names_step h (fun _ => None).
(* the kind of a callable, if it has been made *)
Definition made (o : cop) (i : ident) : option kind :=
  match o, i with
  | NewModel i' d, Made i => if i' =? i then Some d else None
  | NewThis k m o, Inside i => if k =? i then Some (Method m o) else None
  | NewStatic _ ty s, Static i => if ty =? i then Some (Functor s) else None
  | _, _ => None
  end.
Fixpoint kind_of (h : list cop) (i : ident) : option kind :=
  match h with [] => None | o :: r => match made o i with Some d => Some d | None => kind_of r i end end.
(* the callables and arguments of the calls, oldest first *)
Fixpoint calls_from (n : nat -> option (option ident)) (h : list cop) : list (ident * A) :=
  match h with
  | [] => []
  | o :: r => match o with Call k x => match n k with Some (Some i) => [(i, x)] | _ => [] end | _ => [] end ++ calls_from (names_step n o) r
  end.
Definition calls (h : list cop) : list (ident * A) := calls_from (fun _ => None) h.

Variable step : St -> A -> St * R.          (* a call of a functor *)
Variable meth : nat -> Obj -> A -> Obj * R.  (* a call of a method *)
Variable plain : nat -> A -> C -> R.        (* a call of a plain function with a context *)
(* a functor's state after the calls it has had *)
Definition state_after (i : ident) (s : St) (h : list cop) : St :=
  fold_left (fun s c => if ident_eqb (fst c) i then fst (step s (snd c)) else s) (calls h) s.
(* an object's after the method calls it has had through any function *)
Definition object_after (o : nat) (v : Obj) (h : list cop) : Obj :=
  fold_left (fun v c => match kind_of h (fst c) with
    | Some (Method m o') => if o' =? o then fst (meth m v (snd c)) else v
    | _ => v
    end) (calls h) v.
(* the reply to an operation after the operations h *)
Definition reply_to (init : nat -> Obj) (h : list cop) (o : cop) : reply :=
  match o with
  | Call k x =>
      match names h k with
      | Some (Some i) =>
          match kind_of h i with
          | Some (Functor s) | Some (Once s) => Result (snd (step (state_after i s h) x))
          | Some (Method m o) => Result (snd (meth m (object_after o (init o) h) x))
          | Some (Context f c) => Result (plain f x c)
          | None => Nothing
          end
      | _ => Nothing
      end
  | Test k => Is (match names h k with Some (Some _) => true | _ => false end)
  | _ => Nothing
  end.
Fixpoint replies (init : nat -> Obj) (before h : list cop) : list reply :=
  match h with [] => [] | o :: r => reply_to init before o :: replies init (before ++ [o]) r end.

(* the functors that have been destroyed, oldest first *)
Definition destroys (h : list cop) (o : cop) : list ident :=
  match o with
  | EndModel i => match kind_of h (Made i) with Some (Functor _) | Some (Once _) => [Made i] | _ => [] end
  | Call k _ => match names h k with Some (Some i) => match kind_of h i with Some (Once _) => [i] | _ => [] end | _ => [] end
  | _ => []
  end.
Fixpoint destroyed_from (before h : list cop) : list ident :=
  match h with [] => [] | o :: r => destroys before o ++ destroyed_from (before ++ [o]) r end.
Definition destroyed (h : list cop) : list ident := destroyed_from [] h.

(* the callable exists: made and not ended *)
Definition ends (o : cop) (i : ident) : bool :=
  match o, i with EndModel j, Made i => j =? i | EndFun k, Inside i => k =? i | _, _ => false end.
Definition alive (h : list cop) (i : ident) : bool :=
  fold_left (fun b o => match made o i with Some _ => true | None => if ends o i then false else b end) h false.
(* the operation keeps the rules: identities are used once, what is named exists, a null function is not
   called; thisify_functions are not copied as such, one static_function is made per functor type,
   and a functor that is destroyed by its call is called once and its model not ended *)
Definition legal (h : list cop) (o : cop) : Prop :=
  match o with
  | NewModel i _ => kind_of h (Made i) = None
  | EndModel i => alive h (Made i) = true /\ (forall s, kind_of h (Made i) <> Some (Once s))
  | NewFun k i => names h k = None /\ alive h (Made i) = true
  | NewNull k => names h k = None
  | CopyFun k j => names h k = None /\ names h j <> None
  | Assign k j => names h k <> None /\ names h j <> None
  | NewThis k _ _ => names h k = None /\ kind_of h (Inside k) = None
  | CopyThis _ _ => False
  | NewStatic k ty _ => names h k = None /\ kind_of h (Static ty) = None
  | EndFun k => names h k <> None
  | Call k _ => exists i, names h k = Some (Some i) /\ alive h i = true /\ (forall s, kind_of h i = Some (Once s) -> ~ In i (map fst (calls h)))
  | Test k => names h k <> None
  end.
Fixpoint all_legal (before h : list cop) : Prop :=
  match h with [] => True | o :: r => legal before o /\ all_legal (before ++ [o]) r end.
End Callbacks.
Arguments kind : clear implicits.
Arguments cop : clear implicits.
Arguments reply : clear implicits.
