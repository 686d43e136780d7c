(* Model of the owning estd::experimental::function and of inline_function,
   /repo/src/estd/functional.h:104-298, over detail::function (internal/functional.h:166-229) and
   the models of internal/impl/functional/fnptr2.h:16-105 (the default; fnptr1.h:24-105 runs the same way).
   A callable is a functor with a state of type St; calling it is step.  Moving a callable into a
   function is moving its state.  Function variables are numbered; the heap holds the objects made
   by new model_type.  The deleter stored beside the pointer travels with it on copy and move
   (lines 150, 212, 218), so it always has the type of the object: it is not stored here.
   The allocator, which the code does not use (line 181), and a throwing new are not modelled. *)
From Verif Require Import Base.
Local Open Scope res_scope.

(* internal/impl/functional/fnptr2.h:64-105 model<F>: F is a user's functor, or itself a function,
   of which the pointer m (internal/functional.h:186) is kept. *)
Inductive cell (St : Type) : Type :=
| Leaf (s : St)
| Nest (m : option nat).
Arguments Leaf {St} s.
Arguments Nest {St} m.

Definition heap (St : Type) : Type := list (option (cell St)).   (* None: deleted *)
Record fworld (St : Type) : Type := FWorld {
  f_heap : heap St;
  f_vars : nat -> option (option nat)       (* None: no such variable; Some None: m is null *) }.
Arguments FWorld {St} _ _.
Arguments f_heap {St} _.
Arguments f_vars {St} _ _.

Definition fset {A} (f : nat -> A) (k : nat) (a : A) : nat -> A :=
  fun i => if Nat.eqb i k then a else f i.

Section Fun.
Context {St A R : Type}.
Context (step : St -> A -> St * R).
Context (nullable : bool).

(* functional.h:140-147 deleter: delete destroys the functor - for a function its destructor,
   lines 225-228 - and frees the object.  It must be alive.  The fuel is never used up. *)
Fixpoint del (n : nat) (h : heap St) (a : nat) : result (heap St) :=
  match n with
  | O => Diverge
  | S n' =>
      match nth_error h a with
      | Some (Some c) =>
          h1 <- match c with
                | Nest (Some b) => del n' h b
                | _ => Ok h
                end ;;
          Ok (upd h1 a None)
      | _ => UB
      end
  end.

(* internal/functional.h:204-219 operator(), with fnptr2.h:58-61 and 99-104: m is not checked. *)
Fixpoint invoke (n : nat) (h : heap St) (m : option nat) (x : A) : result (heap St * R) :=
  match n with
  | O => Diverge
  | S n' =>
      match m with
      | None => UB
      | Some a =>
          match nth_error h a with
          | Some (Some (Leaf s)) => let (s', r) := step s x in Ok (upd h a (Some (Leaf s')), r)
          | Some (Some (Nest b)) => invoke n' h b x
          | _ => UB
          end
      end
  end.

Definition get_fun (k : nat) (w : fworld St) : result (option nat) :=
  match f_vars w k with Some m => Ok m | None => UB end.
Definition set_fun (k : nat) (m : option (option nat)) (w : fworld St) : fworld St :=
  FWorld (f_heap w) (fset (f_vars w) k m).
(* functional.h:182 new model_type *)
Definition new_cell (c : cell St) (w : fworld St) : fworld St * nat :=
  (FWorld (f_heap w ++ [Some c]) (f_vars w), length (f_heap w)).

(* functional.h:152-165 reset: m is not cleared; deleting a null pointer does nothing. *)
Definition reset (k : nat) (w : fworld St) : result (fworld St) :=
  m <- get_fun k w ;;
  match m with
  | None => Ok w
  | Some a => h <- del (S (length (f_heap w))) (f_heap w) a ;; Ok (FWorld h (f_vars w))
  end.
(* functional.h:173-184 function(T&&) from a functor. *)
Definition ctor_functor (k : nat) (s : St) (w : fworld St) : fworld St :=
  let (w1, a) := new_cell (Leaf s) w in set_fun k (Some (Some a)) w1.
(* functional.h:216-222 function(function&&) *)
Definition ctor_move (k j : nat) (w : fworld St) : result (fworld St) :=
  m <- get_fun j w ;;
  Ok (set_fun j (Some None) (set_fun k (Some m) w)).
(* functional.h:173-184 function(T&&) with T = function&, the better match for a function that is
   not const: the new object holds a function, moved (line 182) from j by lines 216-222. *)
Definition ctor_lvalue (k j : nat) (w : fworld St) : result (fworld St) :=
  m <- get_fun j w ;;
  let (w1, a) := new_cell (Nest m) (set_fun j (Some None) w) in
  Ok (set_fun k (Some (Some a)) w1).
(* functional.h:212 function(const function&) = default, with internal/functional.h:195 *)
Definition ctor_const (k j : nat) (w : fworld St) : result (fworld St) :=
  m <- get_fun j w ;; Ok (set_fun k (Some m) w).
(* functional.h:230-236 operator=(F&&) from a function, which is moved, *)
Definition assign_fun (k j : nat) (w : fworld St) : result (fworld St) :=
  w1 <- reset k w ;; ctor_move k j w1.
(* and from a functor. *)
Definition assign_functor (k : nat) (s : St) (w : fworld St) : result (fworld St) :=
  w1 <- reset k w ;; Ok (ctor_functor k s w1).
(* functional.h:225-228 *)
Definition dtor (k : nat) (w : fworld St) : result (fworld St) :=
  w1 <- reset k w ;; Ok (set_fun k None w1).
(* internal/functional.h:204-219 *)
Definition call (k : nat) (x : A) (w : fworld St) : result (fworld St * R) :=
  m <- get_fun k w ;;
  '(h, r) <- invoke (S (length (f_heap w))) (f_heap w) m x ;;
  Ok (FWorld h (f_vars w), r).
(* functional.h:244-247 operator bool *)
Definition test (k : nat) (w : fworld St) : result bool :=
  m <- get_fun k w ;;
  Ok (if nullable then match m with Some _ => true | None => false end else true).

(* What a program can do with functions.  A variable is constructed where none exists. *)
Inductive fop : Type :=
| FNew (k : nat) (s : St)
| FMove (k j : nat)
| FCopy (k j : nat)
| FCopyConst (k j : nat)
| FAssign (k j : nat)
| FAssignNew (k : nat) (s : St)
| FDestroy (k : nat)
| FCall (k : nat) (x : A)
| FTest (k : nat).
Inductive fout : Type := FNone | FRet (r : R) | FBool (b : bool).

Definition fresh (k : nat) (w : fworld St) : result unit :=
  match f_vars w k with None => Ok tt | Some _ => UB end.
Definition run_fop (p : fop) (w : fworld St) : result (fworld St * fout) :=
  match p with
  | FNew k s => _ <- fresh k w ;; Ok (ctor_functor k s w, FNone)
  | FMove k j => _ <- fresh k w ;; w1 <- ctor_move k j w ;; Ok (w1, FNone)
  | FCopy k j => _ <- fresh k w ;; w1 <- ctor_lvalue k j w ;; Ok (w1, FNone)
  | FCopyConst k j => _ <- fresh k w ;; w1 <- ctor_const k j w ;; Ok (w1, FNone)
  | FAssign k j => w1 <- assign_fun k j w ;; Ok (w1, FNone)
  | FAssignNew k s => w1 <- assign_functor k s w ;; Ok (w1, FNone)
  | FDestroy k => w1 <- dtor k w ;; Ok (w1, FNone)
  | FCall k x => '(w1, r) <- call k x w ;; Ok (w1, FRet r)
  | FTest k => b <- test k w ;; Ok (w, FBool b)
  end.
Fixpoint run_fops (ps : list fop) (w : fworld St) : result (fworld St * list fout) :=
  match ps with
  | [] => Ok (w, [])
  | p :: t =>
      '(w1, o) <- run_fop p w ;;
      '(w2, os) <- run_fops t w1 ;;
      Ok (w2, o :: os)
  end.
Definition no_functions : fworld St := FWorld [] (fun _ => None).

(* functional.h:274-298 inline_function: the functor is a member, and the base's pointer is the
   address of that member of variable i.  Its implicit copy constructor (the move constructor of
   the base is deleted, internal/functional.h:199) copies pointer and member. *)
Definition inlines : Type := nat -> option (nat * St).
Definition il_new (k : nat) (s : St) (w : inlines) : inlines := fset w k (Some (k, s)).
Definition il_copy (k j : nat) (w : inlines) : result inlines :=
  match w j with Some (i, s) => Ok (fset w k (Some (i, s))) | None => UB end.
Definition il_destroy (k : nat) (w : inlines) : result inlines :=
  match w k with Some _ => Ok (fset w k None) | None => UB end.
Definition il_call (k : nat) (x : A) (w : inlines) : result (inlines * R) :=
  match w k with
  | Some (i, _) =>
      match w i with
      | Some (i', s) => let (s', r) := step s x in Ok (fset w i (Some (i', s')), r)
      | None => UB
      end
  | None => UB
  end.

Inductive iop : Type :=
| INew (k : nat) (s : St)
| ICopy (k j : nat)
| IDestroy (k : nat)
| ICall (k : nat) (x : A).
Definition run_iop (p : iop) (w : inlines) : result (inlines * list R) :=
  match p with
  | INew k s => match w k with None => Ok (il_new k s w, []) | Some _ => UB end
  | ICopy k j => match w k with None => w1 <- il_copy k j w ;; Ok (w1, []) | Some _ => UB end
  | IDestroy k => w1 <- il_destroy k w ;; Ok (w1, [])
  | ICall k x => '(w1, r) <- il_call k x w ;; Ok (w1, [r])
  end.
Fixpoint run_iops (ps : list iop) (w : inlines) : result (inlines * list R) :=
  match ps with
  | [] => Ok (w, [])
  | p :: t => '(w1, a) <- run_iop p w ;; '(w2, b) <- run_iops t w1 ;; Ok (w2, a ++ b)
  end.

End Fun.
Arguments fop : clear implicits.
Arguments iop : clear implicits.
Arguments fout : clear implicits.
