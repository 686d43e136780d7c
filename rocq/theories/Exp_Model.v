(* Model of estd::expected<T, E>, /repo/src/estd/expected.h and /repo/src/estd/internal/expected.h.
   The storage is variant_storage<T, E> (internal/expected.h:114) with VALUE = 0, ERROR = 1; the
   tag of a variable is has_value_ (expected.h:60).  T = void is stored as monostate
   (internal/expected.h:101), an ordinary trivial type.  The copy assignment of expected is
   deleted (a move constructor is declared), so it does not exist here. *)
From Verif Require Import Base Vst_Model.
Local Open Scope prog_scope.

Section Expected.
Context {V : Type}.
Context (t e : alt).              (* the traits of T and E *)
Notation W := (world V bool).
Definition exp_alts : list alt := [t; e].

(* expected.h:85-87 expected(), 131-134 expected(value), 144-148 expected(in_place, args...);
   internal/expected.h:123-132. *)
Definition exp_value (k : nat) (args : prog W V) : prog W unit :=
  constructor k true (construct k 0 args ;;; set_tag k true).
(* expected.h:150-154 expected(unexpect, args...), 164-174 expected(unexpected);
   internal/expected.h:134-137. *)
Definition exp_error (k : nat) (args : prog W V) : prog W unit :=
  constructor k false (construct k 1 args ;;; set_tag k false).

(* expected.h:102-107 copy constructor, internal/expected.h:117-121, storage.h:576-579. *)
Definition exp_copy (k src : nat) : prog W unit :=
  constructor k false
    (h <- tag_of src ;;
     copy_storage exp_alts k src (Some (if h : bool then 0 else 1)) ;;;
     h <- tag_of src ;; set_tag k h).
(* expected.h:136-140 move constructor: the base constructor it selects is the copying one,
   internal/expected.h:117-121; nothing is moved. *)
Definition exp_move (k src : nat) : prog W unit :=
  constructor k false
    (h <- tag_of src ;;
     copy_storage exp_alts k src (Some (if h : bool then 0 else 1)) ;;;
     h <- tag_of src ;; set_tag k h).

(* expected.h:62-68 destroy(), 214-217 ~expected(). *)
Definition exp_destroy_held (k : nat) : prog W unit :=
  h <- tag_of k ;; if h : bool then destroy_at exp_alts k 0 else destroy_at exp_alts k 1.
Definition exp_destroy (k : nat) : prog W unit := exp_destroy_held k ;;; set_obj k None.

(* expected.h:178-189 operator=(value), internal/expected.h:166-172. *)
Definition exp_assign (k : nat) (c : source V bool) : prog W unit :=
  h <- tag_of k ;;
  assign_or_init exp_alts k 0 1 h c ;;;
  h <- tag_of k ;; if h : bool then ret tt else set_tag k true.
(* expected.h:199-212 operator=(unexpected), internal/expected.h:181-185. *)
Definition exp_assign_error (k : nat) (c : source V bool) : prog W unit :=
  h <- tag_of k ;;
  assign_or_init exp_alts k 1 0 (negb h) c ;;;
  h <- tag_of k ;; if h : bool then set_tag k false else ret tt.

(* expected.h:219-227 emplace(args...). *)
Definition exp_emplace (k : nat) (args : prog W V) : prog W unit :=
  exp_destroy_held k ;;; construct k 0 args ;;; set_tag k true.

(* expected.h:244, 275 has_value(), operator bool; 230-242 value() with 70-78; 246-266
   operator*; internal/expected.h:191-192 error(), unchecked; 279-283 value_or. *)
Definition exp_has_value (k : nat) : prog W bool := tag_of k.
Definition exp_get (k : nat) : prog W V :=
  h <- tag_of k ;; if h : bool then read_alt k 0 else (read_alt k 1 ;;; throw).
Definition exp_deref (k : nat) : prog W V := read_alt k 0.
Definition exp_get_error (k : nat) : prog W V := read_alt k 1.
Definition exp_value_or (k : nat) (d : V) : prog W V :=
  h <- tag_of k ;; if h : bool then read_alt k 0 else ret d.

(* A program over numbered expecteds. *)
Inductive eop : Type :=
| EValue (k : nat) (v : V) | EError (k : nat) (v : V) | ECopy (k src : nat) | EMove (k src : nat)
| EDestroy (k : nat) | EAssign (k : nat) (v : V) | EAssignError (k : nat) (v : V)
| EEmplace (k : nat) (v : V).
Definition run_eop (p : eop) : prog W unit :=
  match p with
  | EValue k v => exp_value k (ret v)
  | EError k v => exp_error k (ret v)
  | ECopy k src => exp_copy k src
  | EMove k src => exp_move k src
  | EDestroy k => exp_destroy k
  | EAssign k v => exp_assign k (Src true true (a_copy_assignable t) (ret v))
  | EAssignError k v => exp_assign_error k (Src true true (a_copy_assignable e) (ret v))
  | EEmplace k v => exp_emplace k (ret v)
  end.
Fixpoint run_eops (l : list eop) : prog W unit :=
  match l with
  | [] => ret tt
  | p :: r => run_eop p ;;; run_eops r
  end.
End Expected.
Arguments eop : clear implicits.
