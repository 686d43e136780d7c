(* internal/functional.h detail::function (the function that does not own its model), thisify_function and
   contextify_function, the models of internal/impl/functional/fnptr1.h and fnptr2.h, of
   internal/impl/functional.h and exp/functional.h static_function.
   One call site of the library per definition; a model is an object at an address with the pointer to its
   exec function and its data.  fnptr1 keeps a pointer to a member function and fnptr2 (the default,
   internal/fwd/functional.h:30-31) a pointer to a function with the model as its first argument: both
   are [exec].  Objects whose methods are bound are taken to live as long as they are called. *)
From Coq Require Import List Arith Bool.
From Verif Require Import Base Cb_Spec.
Import ListNotations.

Section Cb.
Context {St Obj C A R : Type}.
Variable step : St -> A -> St * R.
Variable meth : nat -> Obj -> A -> Obj * R.
Variable plain : nat -> A -> C -> R.

(* the function whose address the constructor of a model stores *)
Inductive code := RunFunctor | RunMethod (m : nat) | RunContext (f : nat) | RunOnce.
(* what the model adds to model_base *)
Inductive payload := Holds (s : St) | Foreign (o : nat) | Kept (c : C) | Destructed.
Record cell := { exec : code; data : payload }.
Record world := { cells : ident -> option cell; vars : nat -> option (option ident); objs : nat -> Obj;
  owns : nat -> bool; (* which variables are thisify_functions, with a model of their own inside *)
  dtors : list ident (* the functors whose destructor has run *) }.
Definition start (init : nat -> Obj) : world :=
  {| cells := fun _ => None; vars := fun _ => None; objs := init; owns := fun _ => false; dtors := [] |}.
Definition put_cell (w : world) (a : ident) (c : option cell) : world :=
  {| cells := fun b => if ident_eqb b a then c else cells w b; vars := vars w; objs := objs w; owns := owns w; dtors := dtors w |}.
Definition put_var (w : world) (k : nat) (v : option (option ident)) : world :=
  {| cells := cells w; vars := put (vars w) k v; objs := objs w; owns := owns w; dtors := dtors w |}.
Definition put_obj (w : world) (o : nat) (v : Obj) : world :=
  {| cells := cells w; vars := vars w; objs := put (objs w) o v; owns := owns w; dtors := dtors w |}.
Definition put_owns (w : world) (k : nat) (b : bool) : world :=
  {| cells := cells w; vars := vars w; objs := objs w; owns := put (owns w) k b; dtors := dtors w |}.
Definition dtor (w : world) (a : ident) : world :=
  {| cells := cells w; vars := vars w; objs := objs w; owns := owns w; dtors := dtors w ++ [a] |}.

(* the constructors of the models:
   fnptr1.h:77-89 and fnptr2.h:70-74 model<F>; fnptr1.h:111-114, fnptr2.h:112-115 method_model and
   internal/impl/functional.h:63-69 function_context_provider::model without contexts (with contexts its
   exec does not compile); internal/functional.h:340-345 contextify_function::model;
   fnptr2.h:157-163 and 181-187 model_void and model_nonvoid of function_fnptr2_opt. *)
Definition ctor (d : kind St C) : cell :=
  match d with
  | Functor s => {| exec := RunFunctor; data := Holds s |}
  | Method m o => {| exec := RunMethod m; data := Foreign o |}
  | Context f c => {| exec := RunContext f; data := Kept c |}
  | Once s => {| exec := RunOnce; data := Holds s |}
  end.

(* fnptr1.h:65-68, fnptr2.h:58-61 model_base::operator() at address a, into
   fnptr1.h:101-104, fnptr2.h:99-104 model::exec;
   fnptr1.h:118-121, fnptr2.h:119-128, internal/impl/functional.h:71-76 the bound methods;
   internal/functional.h:348-356 contextify_function::model::exec, which passes copies of the contexts;
   fnptr2.h:167-172, 191-197 function_fnptr2_opt, which runs the functor's destructor after the call.
   A call through an address without a model, of an exec on foreign data, or of a functor that has been
   destroyed is undefined. *)
Definition invoke (w : world) (a : ident) (x : A) : result (world * R) :=
  match cells w a with
  | None => UB
  | Some c =>
      match exec c, data c with
      | RunFunctor, Holds s => let (s', r) := step s x in Ok (put_cell w a (Some {| exec := exec c; data := Holds s' |}), r)
      | RunMethod m, Foreign o => let (v, r) := meth m (objs w o) x in Ok (put_obj w o v, r)
      | RunContext f, Kept c' => Ok (w, plain f x c')
      | RunOnce, Holds s => let (_, r) := step s x in Ok (dtor (put_cell w a (Some {| exec := exec c; data := Destructed |})) a, r)
      | _, _ => UB
      end
  end.
(* internal/functional.h:204-216 function::operator(): m is not checked *)
Definition call (w : world) (k : nat) (x : A) : result (world * R) :=
  match vars w k with
  | Some (Some a) => invoke w a x
  | _ => UB
  end.
(* the destructor of a model that is an object of its own runs the functor's destructor *)
Definition end_model (w : world) (i : nat) : result world :=
  match cells w (Made i) with
  | None => UB
  | Some c =>
      match data c with
      | Holds _ => Ok (dtor (put_cell w (Made i) None) (Made i))
      | Destructed => UB
      | Foreign _ | Kept _ => Ok (put_cell w (Made i) None)
      end
  end.
(* internal/functional.h:268-274 and 308-313 thisify_function(const model<T, f>&): the base points at the
   member m_, which takes the model's exec and its foreign_this *)
Definition new_this (w : world) (k m o : nat) : world :=
  let c := ctor (Method m o) in
  put_owns (put_var (put_cell w (Inside k) (Some {| exec := exec c; data := data c |})) k (Some (Some (Inside k)))) k true.
(* the implicit copy constructor of thisify_function, which also serves for a move, since the base's move
   constructor is deleted (internal/functional.h:193-197): the base's pointer and m_ are copied *)
Definition copy_this (w : world) (k j : nat) : result world :=
  match vars w j with
  | Some p => if owns w j then Ok (put_owns (put_var (put_cell w (Inside k) (cells w (Inside j))) k (Some p)) k true) else UB
  | None => UB
  end.
(* exp/functional.h:24-30 static_function(F&&): the static model of type F is made by the first call *)
Definition new_static (w : world) (k ty : nat) (s : St) : world :=
  let w1 := match cells w (Static ty) with
            | Some _ => w
            | None => put_cell w (Static ty) (Some (ctor (Functor s)))
            end in
  put_owns (put_var w1 k (Some (Some (Static ty)))) k false.
(* the end of a variable, with the model inside it if it is a thisify_function *)
Definition end_fun (w : world) (k : nat) : world :=
  let w1 := if owns w k then put_cell w (Inside k) None else w in
  put_owns (put_var w1 k None) k false.
(* internal/functional.h:190-199 the constructors and the assignment, 218 operator bool.
   A thisify_function can be assigned to only as the function it is derived from. *)
Definition do_op (w : world) (o : cop St C A) : result (world * reply R) :=
  match o with
  | NewModel i d => Ok (put_cell w (Made i) (Some (ctor d)), Nothing)
  | EndModel i => match end_model w i with Ok w' => Ok (w', Nothing) | UB => UB | Diverge => Diverge end
  | NewFun k i => Ok (put_owns (put_var w k (Some (Some (Made i)))) k false, Nothing)
  | NewNull k => Ok (put_owns (put_var w k (Some None)) k false, Nothing)
  | CopyFun k j => match vars w j with Some p => Ok (put_owns (put_var w k (Some p)) k false, Nothing) | None => UB end
  | Assign k j => match vars w j with Some p => Ok (put_var w k (Some p), Nothing) | None => UB end
  | NewThis k m o => Ok (new_this w k m o, Nothing)
  | CopyThis k j => match copy_this w k j with Ok w' => Ok (w', Nothing) | UB => UB | Diverge => Diverge end
  | NewStatic k ty s => Ok (new_static w k ty s, Nothing)
  | EndFun k => Ok (end_fun w k, Nothing)
  | Call k x => match call w k x with Ok (w', r) => Ok (w', Result r) | UB => UB | Diverge => Diverge end
  | Test k => match vars w k with Some p => Ok (w, Is (match p with Some _ => true | None => false end)) | None => UB end
  end.
Fixpoint run (w : world) (h : list (cop St C A)) : result (world * list (reply R)) :=
  match h with
  | [] => Ok (w, [])
  | o :: t => match do_op w o with
      | Ok (w1, a) => match run w1 t with Ok (w2, l) => Ok (w2, a :: l) | UB => UB | Diverge => Diverge end
      | UB => UB | Diverge => Diverge
      end
  end.
End Cb.
