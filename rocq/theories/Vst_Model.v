(* Model of estd::internal::variant_storage_base (/repo/src/estd/internal/variant/storage.h)
   and of the visitor it uses (internal/variadic/visitor.h): raw memory that may hold one
   object of one of several types.  variant, optional and expected are built on it.

   C++ programs are modelled as functions from a world (a numbered table of objects plus a
   log of the constructor and destructor runs) to an outcome:
     Val a w   finished with result a;
     Thrown w  an exception left the call, the world being w;
     Abort     std::abort() was called;
     Undef     undefined behaviour: destroying, reading or assigning an object that is not
               alive, or using a variable that does not exist. *)
From Verif Require Import Base.

Inductive out (W A : Type) : Type :=
| Val (a : A) (w : W)
| Thrown (w : W)
| Abort
| Undef.
Arguments Val {W A}. Arguments Thrown {W A}. Arguments Abort {W A}. Arguments Undef {W A}.

Definition prog (W A : Type) := W -> out W A.
Definition ret {W A} (a : A) : prog W A := fun w => Val a w.
Definition bindp {W A B} (m : prog W A) (f : A -> prog W B) : prog W B :=
  fun w => match m w with
           | Val a w' => f a w'
           | Thrown w' => Thrown w'
           | Abort => Abort
           | Undef => Undef
           end.
Definition throw {W A} : prog W A := fun w => Thrown w.
Definition abort {W A} : prog W A := fun _ => Abort.
Definition undef {W A} : prog W A := fun _ => Undef.

Declare Scope prog_scope.
Delimit Scope prog_scope with prog.
Notation "x <- m ;; k" := (bindp m (fun x => k))
  (at level 61, m at next level, right associativity) : prog_scope.
Notation "m ;;; k" := (bindp m (fun _ => k))
  (at level 61, right associativity) : prog_scope.
Local Open Scope prog_scope.

(* What the raw bytes hold: nothing alive, or a live object of alternative i. *)
Inductive slot (V : Type) : Type := Raw | Live (i : nat) (v : V).
Arguments Raw {V}. Arguments Live {V}.

Inductive ev (V : Type) : Type := Made (i : nat) (v : V) | Dead (i : nat) (v : V).
Arguments Made {V}. Arguments Dead {V}.

(* One variable: its storage and the bookkeeping beside it (variant: index_,
   internal/variant.h:158; optional: initialized_, internal/optional.h:79; expected:
   has_value_, expected.h:60). *)
Record obj (V T : Type) : Type := Obj { o_slot : slot V; o_tag : T }.
Arguments Obj {V T}. Arguments o_slot {V T}. Arguments o_tag {V T}.

Record world (V T : Type) : Type := World { w_objs : list (option (obj V T)); w_log : list (ev V) }.
Arguments World {V T}. Arguments w_objs {V T}. Arguments w_log {V T}.

(* Type traits of one alternative T_i (the ones the code asks for), and an identifier of the
   type: two alternatives with equal a_type are the same type. *)
Record alt : Type := Alt {
  a_type : nat;
  a_trivial : bool;           (* is_trivial *)
  a_copyable : bool;          (* is_copy_constructible *)
  a_copy_assignable : bool;   (* is_copy_assignable *)
  a_move_assignable : bool    (* is_move_assignable *) }.

Section Storage.
Context {V T : Type}.
Context (alts : list alt).
Notation W := (world V T).

Definition trait (p : alt -> bool) (i : nat) : bool :=
  match nth_error alts i with Some a => p a | None => false end.

Definition get_obj (k : nat) : prog W (obj V T) :=
  fun w => match nth_error (w_objs w) k with
           | Some (Some o) => Val o w
           | _ => Undef
           end.
Definition set_obj (k : nat) (o : option (obj V T)) : prog W unit :=
  fun w => Val tt (World (upd (w_objs w) k o) (w_log w)).
Definition note (e : ev V) : prog W unit :=
  fun w => Val tt (World (w_objs w) (w_log w ++ [e])).
Definition set_slot (k : nat) (s : slot V) : prog W unit :=
  o <- get_obj k ;; set_obj k (Some (Obj s (o_tag o))).
Definition set_tag (k : nat) (t : T) : prog W unit :=
  o <- get_obj k ;; set_obj k (Some (Obj (o_slot o) t)).
Definition tag_of (k : nat) : prog W T := o <- get_obj k ;; ret (o_tag o).

(* Reading the object that get<I>() (storage.h:297-307) points to. *)
Definition read_alt (k i : nat) : prog W V :=
  o <- get_obj k ;;
  match o_slot o with
  | Live j v => if Nat.eqb i j then ret v else undef
  | Raw => undef
  end.

(* A value being moved from: the object stays alive with the moved-from value mvd v. *)
Definition move_alt (mvd : V -> V) (k i : nat) : prog W V :=
  v <- read_alt k i ;; set_slot k (Live i (mvd v)) ;;; ret v.

(* storage.h:321-333 emplace: new (storage.raw) T_i(args). args is the constructor's run:
   it may read other objects, and it may throw. *)
Definition construct (k i : nat) (args : prog W V) : prog W unit :=
  v <- args ;; set_slot k (Live i v) ;;; note (Made i v).

(* storage.h:309-314 destroy<I>(): runs ~T_i on the storage.  The destructor of a trivial
   type does nothing, whatever the storage holds. *)
Definition destroy_at (k i : nat) : prog W unit :=
  o <- get_obj k ;;
  match o_slot o with
  | Live j v =>
      if Nat.eqb i j then set_slot k Raw ;;; note (Dead i v)
      else if trait a_trivial i then ret tt else undef
  | Raw => if trait a_trivial i then ret tt else undef
  end.

(* storage.h:316-319 destroy(index): visits the alternatives, destroying the one whose number
   is index; no alternative has number npos. *)
Definition destroy_index (k : nat) (ix : option nat) : prog W unit :=
  match ix with
  | Some i => if Nat.ltb i (length alts) then destroy_at k i else ret tt
  | None => ret tt
  end.

(* *get<I>() = u (storage.h:350, 356, 425, 444).  For a trivial type the assignment also
   starts the lifetime of the object when the storage is empty. *)
Definition assign_at (k i : nat) (args : prog W V) : prog W unit :=
  v <- args ;;
  o <- get_obj k ;;
  match o_slot o with
  | Live j _ =>
      if Nat.eqb i j then set_slot k (Live i v)
      else if trait a_trivial i then set_slot k (Live i v) ;;; note (Made i v) else undef
  | Raw => if trait a_trivial i then set_slot k (Live i v) ;;; note (Made i v) else undef
  end.

(* A source u of some type U seen from alternative T_i: is_constructible<T_i,U>,
   is_convertible<U,T_i>, is_assignable<T_i&,U>, and the value T_i gets from it. *)
Record source : Type := Src {
  c_constructible : bool;
  c_convertible : bool;
  c_assignable : bool;
  c_value : prog W V }.

(* storage.h:387-418 assignment_emplace_helper.  The overload at 410-418 makes a temporary
   first and then moves it in: the temporary is not modelled, its constructor's exception is
   (it leaves before emplace).  Not convertible: std::abort(), feature/variant.h:34
   (FEATURE_ESTD_VARIANT_STRICT_CONVERSION is 1 by default). *)
Definition assignment_emplace_helper (k i : nat) (c : source) : prog W unit :=
  if c_convertible c then construct k i (c_value c) else abort.

(* storage.h:420-436 assignment_helper. *)
Definition assignment_helper (k i : nat) (c : source) : prog W unit :=
  if c_assignable c then assign_at k i (c_value c)
  else destroy_at k i ;;; assignment_emplace_helper k i c.

(* storage.h:438-467 direct_init_helper.  (Not trivial and not convertible does not compile;
   the model aborts.) *)
Definition direct_init_helper (k i : nat) (c : source) : prog W unit :=
  if c_convertible c then
    if trait a_trivial i then assign_at k i (c_value c)
    else assignment_emplace_helper k i c
  else abort.

(* storage.h:477-494 assign_or_init<I, index>(match, u). *)
Definition assign_or_init (k i other : nat) (mtch : bool) (c : source) : prog W unit :=
  if mtch then assignment_helper k i c
  else destroy_at k other ;;; direct_init_helper k i c.

(* internal/variadic/visitor.h:281-300 type_visitor::visit: f on alternatives I, I+1, ...
   until one returns true; its number, or -1 (None). n alternatives are left. *)
Fixpoint visit_from (n i : nat) (f : nat -> prog W bool) : prog W (option nat) :=
  match n with
  | O => ret None
  | S n' =>
      b <- f i ;;
      if b : bool then ret (Some i) else visit_from n' (S i) f
  end.
Definition visit (f : nat -> prog W bool) : prog W (option nat) := visit_from (length alts) 0 f.

(* storage.h:132-153 index_visitor, 187-201 visit_index. *)
Definition visit_index (ix : option nat) (f : nat -> prog W bool) : prog W (option nat) :=
  visit (fun i => match ix with
                  | Some j => if Nat.eqb i j then f i else ret false
                  | None => ret false
                  end).

(* Constructing a variable at k: the variable comes into being with empty storage; if the
   body throws there is no variable. *)
Definition constructor (k : nat) (t0 : T) (body : prog W unit) : prog W unit :=
  fun w =>
    match nth_error (w_objs w) k with
    | Some None =>
        match body (World (upd (w_objs w) k (Some (Obj Raw t0))) (w_log w)) with
        | Thrown w' => Thrown (World (upd (w_objs w') k None) (w_log w'))
        | r => r
        end
    | _ => Undef
    end.

(* storage.h:576-579 with copying_constructor_functor, 232-249: visits the alternatives; the
   one whose number is index is copy constructed if its type can be, and skipped otherwise. *)
Definition copy_storage (k src : nat) (ix : option nat) : prog W unit :=
  visit (fun i =>
    if trait a_copyable i then
      match ix with
      | Some j => if Nat.eqb j i then construct k i (read_alt src i) ;;; ret true else ret false
      | None => ret false
      end
    else ret false) ;;; ret tt.

End Storage.
Arguments source : clear implicits.
