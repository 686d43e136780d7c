(* Specification of variant: what a sequence of operations on variant variables means.
   A variable does not exist (None), is valueless (Some None), or holds value v of
   alternative i (Some (Some (i, v))). *)
From Verif Require Import Base Vst_Model Var_Model.

Definition held (V : Type) := option (nat * V).
Definition vars (V : Type) := list (option (held V)).

Definition lookup {V} (s : vars V) (k : nat) : option (held V) :=
  match nth_error s k with Some x => x | None => None end.

Section Spec.
Context {V : Type}.
Context (alts : list alt) (mvd : nat -> V -> V).

Definition alt_exists (i : nat) : Prop := i < length alts.

(* Is the operation legal here?  Constructors need a free variable, everything else an
   existing one; alternatives must exist; what is copied must be copy constructible; what is
   assigned from or moved from is another variable (self-assignment is treated by C92). *)
Definition can_copy (s : vars V) (src : nat) : Prop :=
  forall i v, lookup s src = Some (Some (i, v)) -> trait alts a_copyable i = true.
Definition legal (s : vars V) (p : vop V) : Prop :=
  match p with
  | VNew k i _ => nth_error s k = Some None /\ alt_exists i
  | VCopy k src => nth_error s k = Some None /\ lookup s src <> None /\ can_copy s src
  | VMove k src => nth_error s k = Some None /\ lookup s src <> None
  | VDestroy k => lookup s k <> None
  | VEmplace k i _ | VAssign k i _ => lookup s k <> None /\ alt_exists i
  | VCopyAssign k src =>
      lookup s k <> None /\ lookup s src <> None /\ k <> src /\ can_copy s src
  | VMoveAssign k src => lookup s k <> None /\ lookup s src <> None /\ k <> src
  end.

(* Its effect. *)
Definition effect (s : vars V) (p : vop V) : vars V :=
  match p with
  | VNew k i v | VEmplace k i v | VAssign k i v => upd s k (Some (Some (i, v)))
  | VCopy k src | VCopyAssign k src => upd s k (lookup s src)
  | VMove k src => upd (upd s k (lookup s src)) src (Some None)
  | VMoveAssign k src =>
      match lookup s src with
      | Some (Some (i, v)) =>
          upd (upd s k (lookup s src)) src
            (Some (if trait alts a_move_assignable i then Some (i, mvd i v) else None))
      | _ => upd s k (Some None)
      end
  | VDestroy k => upd s k None
  end.

Fixpoint all_legal (s : vars V) (l : list (vop V)) : Prop :=
  match l with
  | [] => True
  | p :: r => legal s p /\ all_legal (effect s p) r
  end.
Fixpoint effects (s : vars V) (l : list (vop V)) : vars V :=
  match l with
  | [] => s
  | p :: r => effects (effect s p) r
  end.
End Spec.

(* Constructor and destructor runs of alternative i in a log, and the objects of alternative
   i the variables hold. *)
Fixpoint made {V} (l : list (ev V)) (i : nat) : nat :=
  match l with
  | [] => 0
  | Made j _ :: r => (if Nat.eqb j i then 1 else 0) + made r i
  | Dead _ _ :: r => made r i
  end.
Fixpoint dead {V} (l : list (ev V)) (i : nat) : nat :=
  match l with
  | [] => 0
  | Dead j _ :: r => (if Nat.eqb j i then 1 else 0) + dead r i
  | Made _ _ :: r => dead r i
  end.
Fixpoint holding {V} (s : vars V) (i : nat) : nat :=
  match s with
  | [] => 0
  | Some (Some (j, _)) :: r => (if Nat.eqb j i then 1 else 0) + holding r i
  | _ :: r => holding r i
  end.

(* The variables of a world, as the outside sees them. *)
Definition seen {V} (o : option (obj V (option nat))) : option (held V) :=
  match o with
  | None => None
  | Some x =>
      match o_tag x, o_slot x with
      | Some i, Live j v => Some (Some (i, v))
      | _, _ => Some None
      end
  end.

(* The bookkeeping tells the truth: index_ = i exactly when an object of alternative i is
   alive in the storage; npos exactly when none is. *)
Definition truthful {V} (o : option (obj V (option nat))) : Prop :=
  match o with
  | None => True
  | Some x =>
      match o_tag x, o_slot x with
      | Some i, Live j _ => i = j
      | None, Raw => True
      | _, _ => False
      end
  end.

(* A world that shows the abstract variables s, honestly, with every object ever made either
   destroyed or still held. *)
Definition shows {V} (alts : list alt) (w : world V (option nat)) (s : vars V) : Prop :=
  map seen (w_objs w) = s /\
  Forall truthful (w_objs w) /\
  (forall k i v, lookup s k = Some (Some (i, v)) -> i < length alts) /\
  forall i, made (w_log w) i = dead (w_log w) i + holding s i.

(* No two alternatives have the same type. *)
Definition distinct (alts : list alt) : Prop := NoDup (map a_type alts).

(* A constructor run that throws. *)
Definition throws {V} (args : prog (world V (option nat)) V) : Prop := forall w, args w = Thrown w.
(* A constructor run that makes v. *)
Definition makes {V} (args : prog (world V (option nat)) V) (v : V) : Prop := forall w, args w = Val v w.

(* i is the first number below n with property P. *)
Definition least (P : nat -> Prop) (n i : nat) : Prop := i < n /\ P i /\ forall j, j < i -> ~ P j.

(* A variable broken by a failed operation: it still reports alternative j, and reading,
   replacing or destroying what it is said to hold is undefined behaviour. *)
Definition broken {V} (alts : list alt) (w : world V (option nat)) (k j : nat) : Prop :=
  var_index k w = Val (Some j) w /\ var_get k j w = Undef /\ var_destroy alts k w = Undef /\
  forall i args, i < length alts -> var_emplace alts k i args w = Undef.
