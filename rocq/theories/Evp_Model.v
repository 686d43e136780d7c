(* Model of internal/value_evaporator.h: value_evaporator, struct_evaporator, reference_evaporator,
   instance_provider, instance_from_pointer_provider, global_provider, literal_provider and temporary_provider.
   An object of one of these classes is a cell.  Variables have an address for as long as they live; the
   address of a temporary is dead after the expression.  Simplified: the values are copied and not moved;
   value() of a holder yields a value to read or a place to write, never a pointer that is kept (so
   pointer_from_instance_provider, value_evaporator.h:302-317, is not modelled); one sort of holder per
   class is taken for all that work alike:
   - Own: value_evaporator<T, true> (:38-56), struct_evaporator<T, true> (:84-114), instance_provider<T>
     (:211-247; a copy of one that is not const does not compile, for the constructor from any arguments, :238,
     is chosen);
   - Reference: instance_from_pointer_provider<T> (:286-300), reference_evaporator<T, true> (:144-171; no
     value_ptr), global_provider<T&, v> (:180-191) and global_pointer_provider (:196-202), whose variable never ends;
   - Nothing: value_evaporator<T, false, E, v> (:20-36), struct_evaporator<T, false> (:68-82),
     reference_evaporator<T, false> (:120-142), literal_provider (:204-209) and temporary_provider (:320-326). *)
From Coq Require Import Arith List.
From Verif Require Import Base Evp_Spec.
Import ListNotations.
Local Open Scope res_scope.

Section Evp.
Context {A : Type}.
Inductive cell := CValue (m_value : A) | CAddress (x : nat) | CDead | CEmpty (default_value : A).
Record world := W { cells : nat -> option cell; vars : nat -> option A }.
Definition upd {X} (f : nat -> option X) (k : nat) (x : option X) : nat -> option X :=
  fun j => if Nat.eqb j k then x else f j.
(* value_evaporator.h:34, 54, 79, 102, 138-141, 163, 166-169 (m_value refers to the temporary), 229-232, 299 *)
Definition construct (k : making A) : cell :=
  match k with
  | Keep v => CValue v
  | Refer x => CAddress x
  | Temporary _ => CDead
  | Gone d _ => CEmpty d
  end.
(* value_evaporator.h:30, 50, 75, 97-98, 132-135, 160-161, 185, 201-207, 218-219, 294-295, 325 *)
Definition value (w : world) (h : nat) : result A :=
  match cells w h with
  | Some (CValue v) => Ok v
  | Some (CAddress x) => match vars w x with Some v => Ok v | None => UB end
  | Some (CEmpty d) => Ok d
  | Some CDead | None => UB
  end.
(* value_evaporator.h:24, 44, 97, 160, 186, 221, 294 *)
Definition set_value (w : world) (h : nat) (v : A) : result world :=
  match cells w h with
  | Some (CValue _) => Ok (W (upd (cells w) h (Some (CValue v))) (vars w))
  | Some (CAddress x) => match vars w x with Some _ => Ok (W (cells w) (upd (vars w) x (Some v))) | None => UB end
  | Some (CEmpty _) => Ok w
  | Some CDead | None => UB
  end.
Definition step (w : world) (o : vop A) : result (list A * world) :=
  match o with
  | Make h (Refer x) => match vars w x with Some _ => Ok ([], W (upd (cells w) h (Some (construct (Refer x)))) (vars w)) | None => UB end
  | Make h k => Ok ([], W (upd (cells w) h (Some (construct k))) (vars w))
  (* the implicit copy constructors *)
  | Copy h g => match cells w g with Some c => Ok ([], W (upd (cells w) h (Some c)) (vars w)) | None => UB end
  | Put h v => w' <- set_value w h v ;; Ok ([], w')
  | Get h => v <- value w h ;; Ok ([v], w)
  (* value_evaporator.h:296; taking the address of a variable that has ended is left out *)
  | Point h x => match cells w h, vars w x with
                 | Some (CAddress _), Some _ => Ok ([], W (upd (cells w) h (Some (CAddress x))) (vars w))
                 | _, _ => UB
                 end
  | Assign x v => Ok ([], W (cells w) (upd (vars w) x (Some v)))
  | End x => match vars w x with Some _ => Ok ([], W (cells w) (upd (vars w) x None)) | None => UB end
  end.
Fixpoint run (w : world) (os : list (vop A)) : result (list A * world) :=
  match os with
  | [] => Ok ([], w)
  | o :: r => ' (a, w1) <- step w o ;; ' (b, w2) <- run w1 r ;; Ok (a ++ b, w2)
  end.
Definition nothing : world := W (fun _ => None) (fun _ => None).
End Evp.
Arguments cell : clear implicits. Arguments world : clear implicits.
