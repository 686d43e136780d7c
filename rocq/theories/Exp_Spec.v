(* Specification of expected: a variable does not exist (None), holds a value
   (Some (true, v)) or an error (Some (false, v)). *)
From Verif Require Import Base Vst_Model Exp_Model.

Definition exps (V : Type) := list (option (bool * V)).
Definition elookup {V} (s : exps V) (k : nat) : option (bool * V) :=
  match nth_error s k with Some x => x | None => None end.

Section Spec.
Context {V : Type}.
Context (t e : alt).

(* Constructors need a free variable, the rest an existing one; what is copied (or "moved")
   must be copy constructible. *)
Definition ecan_copy (s : exps V) (src : nat) : Prop :=
  match elookup s src with
  | Some (true, _) => a_copyable t = true
  | Some (false, _) => a_copyable e = true
  | None => False
  end.
Definition elegal (s : exps V) (p : eop V) : Prop :=
  match p with
  | EValue k _ | EError k _ => nth_error s k = Some None
  | ECopy k src | EMove k src => nth_error s k = Some None /\ ecan_copy s src
  | EDestroy k | EAssign k _ | EAssignError k _ | EEmplace k _ => elookup s k <> None
  end.
Definition eeffect (s : exps V) (p : eop V) : exps V :=
  match p with
  | EValue k v | EAssign k v | EEmplace k v => upd s k (Some (true, v))
  | EError k v | EAssignError k v => upd s k (Some (false, v))
  | ECopy k src | EMove k src => upd s k (elookup s src)
  | EDestroy k => upd s k None
  end.
Fixpoint eall_legal (s : exps V) (l : list (eop V)) : Prop :=
  match l with
  | [] => True
  | p :: r => elegal s p /\ eall_legal (eeffect s p) r
  end.
Fixpoint eeffects (s : exps V) (l : list (eop V)) : exps V :=
  match l with
  | [] => s
  | p :: r => eeffects (eeffect s p) r
  end.
End Spec.

(* Constructor and destructor runs of values (true) and errors (false) in a log, and the
   values and errors the variables hold. *)
Definition side (i : nat) : bool := Nat.eqb i 0.
Fixpoint emade {V} (l : list (ev V)) (b : bool) : nat :=
  match l with
  | [] => 0
  | Made i _ :: r => (if Bool.eqb (side i) b then 1 else 0) + emade r b
  | Dead _ _ :: r => emade r b
  end.
Fixpoint edead {V} (l : list (ev V)) (b : bool) : nat :=
  match l with
  | [] => 0
  | Dead i _ :: r => (if Bool.eqb (side i) b then 1 else 0) + edead r b
  | Made _ _ :: r => edead r b
  end.
Fixpoint eholding {V} (s : exps V) (b : bool) : nat :=
  match s with
  | [] => 0
  | Some (c, _) :: r => (if Bool.eqb c b then 1 else 0) + eholding r b
  | None :: r => eholding r b
  end.

(* What the outside sees; has_value() is true exactly when a value is alive and false exactly
   when an error is. *)
Definition eseen {V} (o : option (obj V bool)) : option (bool * V) :=
  match o with
  | Some x => match o_slot x with Live _ v => Some (o_tag x, v) | Raw => None end
  | None => None
  end.
Definition etruthful {V} (o : option (obj V bool)) : Prop :=
  match o with
  | None => True
  | Some x => match o_slot x with
              | Live i _ => i = (if o_tag x then 0 else 1)
              | Raw => False
              end
  end.
Definition eshows {V} (w : world V bool) (s : exps V) : Prop :=
  map eseen (w_objs w) = s /\ Forall etruthful (w_objs w) /\
  forall b, emade (w_log w) b = edead (w_log w) b + eholding s b.

Definition ethrows {V} (args : prog (world V bool) V) : Prop := forall w, args w = Thrown w.

(* A variable broken by a failed operation: it reports b, but what it is said to hold is not
   alive; reading, replacing or destroying it is undefined behaviour. *)
Definition ebroken {V} (t e : alt) (w : world V bool) (k : nat) (b : bool) : Prop :=
  exp_has_value k w = Val b w /\
  (if b then exp_get k w else exp_get_error k w) = Undef /\
  exp_destroy t e k w = Undef /\ forall args, exp_emplace t e k args w = Undef.
