(* Specification of optional: a variable does not exist (None), is empty (Some None) or holds
   a value (Some (Some v)). *)
From Verif Require Import Base Vst_Model Opt_Model.

Definition opts (V : Type) := list (option (option V)).
Definition olookup {V} (s : opts V) (k : nat) : option (option V) :=
  match nth_error s k with Some x => x | None => None end.

Section Spec.
Context {V : Type}.
Context (a : alt) (mvd : V -> V).

(* Constructors need a free variable, everything else an existing one; copies need a copy
   constructible T; the source of an assignment is another variable. *)
Definition olegal (s : opts V) (p : oop V) : Prop :=
  match p with
  | ODefault k | ONew k _ => nth_error s k = Some None
  | OCopy k src => nth_error s k = Some None /\ olookup s src <> None /\ a_copyable a = true
  | OMove k src => nth_error s k = Some None /\ olookup s src <> None
  | ODestroy k | OReset k | OAssign k _ | OEmplace k _ => olookup s k <> None
  | OCopyAssign k src =>
      olookup s k <> None /\ olookup s src <> None /\ k <> src /\ a_copyable a = true
  | OMoveAssign k src => olookup s k <> None /\ olookup s src <> None /\ k <> src
  end.

Definition oeffect (s : opts V) (p : oop V) : opts V :=
  match p with
  | ODefault k | OReset k => upd s k (Some None)
  | ONew k v | OAssign k v | OEmplace k v => upd s k (Some (Some v))
  | OCopy k src | OCopyAssign k src => upd s k (olookup s src)
  | OMove k src | OMoveAssign k src =>
      (* a moved-from optional still has a value: the moved-from one *)
      upd (upd s k (olookup s src)) src (option_map (option_map mvd) (olookup s src))
  | ODestroy k => upd s k None
  end.

Fixpoint oall_legal (s : opts V) (l : list (oop V)) : Prop :=
  match l with
  | [] => True
  | p :: r => olegal s p /\ oall_legal (oeffect s p) r
  end.
Fixpoint oeffects (s : opts V) (l : list (oop V)) : opts V :=
  match l with
  | [] => s
  | p :: r => oeffects (oeffect s p) r
  end.
End Spec.

Fixpoint omade {V} (l : list (ev V)) : nat :=
  match l with [] => 0 | Made _ _ :: r => S (omade r) | Dead _ _ :: r => omade r end.
Fixpoint odead {V} (l : list (ev V)) : nat :=
  match l with [] => 0 | Dead _ _ :: r => S (odead r) | Made _ _ :: r => odead r end.
Fixpoint oholding {V} (s : opts V) : nat :=
  match s with [] => 0 | Some (Some _) :: r => S (oholding r) | _ :: r => oholding r end.

(* What the outside sees, and that has_value() is true exactly when an object is alive. *)
Definition oseen {V} (o : option (obj V bool)) : option (option V) :=
  match o with
  | None => None
  | Some x => match o_tag x, o_slot x with
              | true, Live _ v => Some (Some v)
              | _, _ => Some None
              end
  end.
Definition otruthful {V} (o : option (obj V bool)) : Prop :=
  match o with
  | None => True
  | Some x => match o_tag x, o_slot x with
              | true, Live i _ => i = 0
              | false, Raw => True
              | _, _ => False
              end
  end.
Definition oshows {V} (w : world V bool) (s : opts V) : Prop :=
  map oseen (w_objs w) = s /\ Forall otruthful (w_objs w) /\
  omade (w_log w) = odead (w_log w) + oholding s.

Definition othrows {V} (args : prog (world V bool) V) : Prop := forall w, args w = Thrown w.

(* A variable broken by a failed operation: has_value() is still true, and reading, resetting,
   replacing or destroying the value is undefined behaviour. *)
Definition obroken {V} (a : alt) (w : world V bool) (k : nat) : Prop :=
  opt_has_value k w = Val true w /\ opt_value k w = Undef /\ opt_destroy a k w = Undef /\
  opt_reset a k w = Undef /\ forall args, opt_emplace a k args w = Undef.

(* The standard's ordering of an optional against a value: empty is below every value. *)
Definition ocmp {V U} (cmp : V -> U -> comparison) (x : option V) (u : U) : comparison :=
  match x with None => Lt | Some v => cmp v u end.
Definition is_eq (c : comparison) : bool := match c with Eq => true | _ => false end.
Definition is_lt (c : comparison) : bool := match c with Lt => true | _ => false end.
Definition is_gt (c : comparison) : bool := match c with Gt => true | _ => false end.
