(* What the histories of C412-C417 are allowed to do, and how often they make and destroy a
   mapped value.  Nothing here mentions the code. *)
From Coq Require Import List Arith Bool.
From Verif Require Import Unordered_Spec.
Import ListNotations.

Section Plain.
Context {K V : Type} (eqb : K -> K -> bool).

(* insert, emplace, try_emplace with a value, erase, and m[k] = v for a key that is present *)
Definition plain_op (o : mop K V) (l : list (K * V)) : Prop :=
  match o with
  | MInsert _ _ | MTryEmplace _ _ | MErase _ => True
  | MStore k _ => present eqb k l = true
  | _ => False
  end.
Fixpoint plain_history (ops : list (mop K V)) (l : list (K * V)) : Prop :=
  match ops with
  | [] => True
  | o :: ops' => plain_op o l /\ plain_history ops' (mop_step eqb o l)
  end.

(* the calls that put an element in *)
Definition is_adding (o : mop K V) : bool := match o with MInsert _ _ | MTryEmplace _ _ => true | _ => false end.
Definition added (ops : list (mop K V)) : nat := length (filter is_adding ops).
(* the calls that take one out *)
Definition removing (o : mop K V) (l : list (K * V)) : nat :=
  match o with MErase k => if present eqb k l then 1 else 0 | _ => 0 end.
Fixpoint removed (ops : list (mop K V)) (l : list (K * V)) : nat :=
  match ops with [] => 0 | o :: ops' => removing o l + removed ops' (mop_step eqb o l) end.
End Plain.
