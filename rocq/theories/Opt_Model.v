(* Model of estd::optional, /repo/src/estd/optional.h and /repo/src/estd/internal/optional.h.
   The storage is variant_storage<T, monostate> (internal/optional.h:108), modelled by
   Vst_Model; the tag of a variable is initialized_ (internal/optional.h:79).  optional<T&> and
   optional<void> do not exist.  layer1::optional is at the end. *)
From Verif Require Import Base MachInt Vst_Model.
Local Open Scope prog_scope.

Section Optional.
Context {V : Type}.
Context (a : alt).               (* the traits of T *)
Context (mvd : V -> V).          (* the value an object keeps after a move *)
Notation W := (world V bool).

(* internal/optional.h:108 variant_storage<T, monostate>; monostate is trivial. *)
Definition opt_alts : list alt := [a; Alt (S (a_type a)) true true true true].

(* optional.h:88-90 optional(), optional(nullopt); internal/optional.h:82-83. *)
Definition opt_default (k : nat) : prog W unit := constructor k false (ret tt).

(* optional.h:114-117, 132-135 optional(value), optional(in_place, args...);
   internal/optional.h:195-199, 115-120. *)
Definition opt_in_place (k : nat) (args : prog W V) : prog W unit :=
  constructor k false (construct k 0 args ;;; set_tag k true).

(* optional.h:125-128 copy constructor: internal/optional.h:211-219 (the template overload is
   the better match), storage.h:286-293. *)
Definition opt_copy (k src : nat) : prog W unit :=
  constructor k false
    (h <- tag_of src ;;
     (if h : bool then construct k 0 (read_alt src 0) else ret tt) ;;;
     h <- tag_of src ;; set_tag k h).

(* optional.h:101-104 move constructor: internal/optional.h:221-230.  The source keeps its
   moved-from value. *)
Definition opt_move (k src : nat) : prog W unit :=
  constructor k false
    (h <- tag_of src ;;
     (if h : bool then construct k 0 (move_alt mvd src 0) else ret tt) ;;;
     h <- tag_of src ;; set_tag k h).

(* internal/optional.h:233-237 destroy(). *)
Definition opt_destroy_value (k : nat) : prog W unit :=
  h <- tag_of k ;; if h : bool then destroy_at opt_alts k 0 else ret tt.
(* internal/optional.h:239-242 ~optional_base(). *)
Definition opt_destroy (k : nat) : prog W unit := opt_destroy_value k ;;; set_obj k None.
(* internal/optional.h:244-249 reset(); optional.h:152-156 operator=(nullopt). *)
Definition opt_reset (k : nat) : prog W unit := opt_destroy_value k ;;; set_tag k false.

(* optional.h:50-57 assign_value, internal/optional.h:164-174. *)
Definition opt_assign_value (k : nat) (c : source V bool) : prog W unit :=
  h <- tag_of k ;; assign_or_init opt_alts k 0 1 h c ;;; set_tag k true.

(* optional.h:178-186 operator=(const optional&). *)
Definition opt_copy_assign (k src : nat) : prog W unit :=
  h <- tag_of src ;;
  if h : bool then
    opt_assign_value k (Src (a_copyable a) (a_copyable a) (a_copy_assignable a) (read_alt src 0))
  else opt_reset k.

(* optional.h:188-203 operator=(optional<U>&&), with U = T.  T is taken to be move
   constructible. *)
Definition opt_move_assign (k src : nat) : prog W unit :=
  h <- tag_of src ;;
  if h : bool then
    opt_assign_value k (Src true true (a_move_assignable a) (move_alt mvd src 0))
  else opt_reset k.

(* optional.h:229-239 emplace(args...). *)
Definition opt_emplace (k : nat) (args : prog W V) : prog W unit :=
  opt_destroy_value k ;;; construct k 0 args ;;; set_tag k true.

(* internal/optional.h:90 has_value(), optional.h:302 operator bool. *)
Definition opt_has_value (k : nat) : prog W bool := tag_of k.
(* optional.h:244-254 value() with assert_has_value, 75-82. *)
Definition opt_value (k : nat) : prog W V :=
  h <- tag_of k ;; if h : bool then read_alt k 0 else throw.
(* optional.h:304-305 operator*. *)
Definition opt_deref (k : nat) : prog W V := read_alt k 0.
(* optional.h:276-290 value_or. *)
Definition opt_value_or (k : nat) (d : V) : prog W V :=
  h <- tag_of k ;; if h : bool then read_alt k 0 else ret d.

(* optional.h:389-454 comparison with a value u: op is T's own operator. *)
Definition opt_eq {U} (op : V -> U -> bool) (k : nat) (u : U) : prog W bool :=
  h <- tag_of k ;; if h : bool then v <- opt_deref k ;; ret (op v u) else ret false.
Definition opt_ne {U} (op : V -> U -> bool) (k : nat) (u : U) : prog W bool :=
  h <- tag_of k ;; if h : bool then v <- opt_deref k ;; ret (op v u) else ret true.
(* operator>, operator<, operator<=, operator>= : opt && *opt op value. *)
Definition opt_rel {U} (op : V -> U -> bool) (k : nat) (u : U) : prog W bool :=
  h <- tag_of k ;; if h : bool then v <- opt_deref k ;; ret (op v u) else ret false.
(* optional.h:403-409 operator==(optional, optional). *)
Definition opt_eq_opt (op : V -> V -> bool) (k k2 : nat) : prog W bool :=
  h <- tag_of k ;; h2 <- tag_of k2 ;;
  if h && h2 then v <- opt_deref k ;; v2 <- opt_deref k2 ;; ret (op v v2)
  else ret (negb h && negb h2).
(* optional.h:456-465 hash<optional<T>>. *)
Definition opt_hash {H} (hash : V -> H) (k : nat) : prog W H := v <- opt_deref k ;; ret (hash v).

(* A program over numbered optionals. *)
Inductive oop : Type :=
| ODefault (k : nat) | ONew (k : nat) (v : V) | OCopy (k src : nat) | OMove (k src : nat)
| ODestroy (k : nat) | OReset (k : nat) | OAssign (k : nat) (v : V)
| OCopyAssign (k src : nat) | OMoveAssign (k src : nat) | OEmplace (k : nat) (v : V).

Definition run_oop (p : oop) : prog W unit :=
  match p with
  | ODefault k => opt_default k
  | ONew k v => opt_in_place k (ret v)
  | OCopy k src => opt_copy k src
  | OMove k src => opt_move k src
  | ODestroy k => opt_destroy k
  | OReset k => opt_reset k
  | OAssign k v => opt_assign_value k (Src true true true (ret v))   (* optional.h:206-215 *)
  | OCopyAssign k src => opt_copy_assign k src
  | OMoveAssign k src => opt_move_assign k src
  | OEmplace k v => opt_emplace k (ret v)
  end.
Fixpoint run_oops (l : list oop) : prog W unit :=
  match l with
  | [] => ret tt
  | p :: r => run_oop p ;;; run_oops r
  end.
End Optional.
Arguments oop : clear implicits.

(* ---------- layer1::optional, null value flavor: internal/optional.h:263-310 ---------- *)

Section Null.
Context {T : Type} (eqb : T -> T -> bool) (null : T).    (* T's operator==; null_value_ *)

(* 284 default; 274-282 from a value; 286-288 copy; 290-294 from another optional (y is the
   other's has_value() ? value() : nothing); the state is the stored T. *)
Definition nul_default : T := null.
Definition nul_of (v : T) : T := v.
Definition nul_copy (v : T) : T := v.
Definition nul_from (y : option T) : T := match y with Some v => v | None => null end.
(* 299 has_value. *)
Definition nul_has_value (v : T) : bool := negb (eqb v null).
(* 305 reset, optional.h:152-156 = nullopt. *)
Definition nul_reset (v : T) : T := null.
(* optional.h:50-57, 206-215 = u: stores it (T is trivial, so both branches of assign_or_init
   store); has_value(true), 301, does nothing. *)
Definition nul_assign (v u : T) : T := u.
(* optional.h:178-186 = other optional. *)
Definition nul_assign_opt (v w : T) : T := if nul_has_value w then nul_assign v w else nul_reset v.
(* optional.h:244-254 value(): None is bad_optional_access; 276-290 value_or. *)
Definition nul_value (v : T) : option T := if nul_has_value v then Some v else None.
Definition nul_value_or (v d : T) : T := if nul_has_value v then v else d.
End Null.

(* ---------- layer1::optional, bitwise flavor: internal/optional.h:313-369 ---------- *)

(* The bit-field holds bitsize bits of an unsigned T (or bool, bitsize 1); a value that was
   never stored is None. *)
Record bitopt : Type := BitOpt { b_value : option Z; b_has : bool }.
Section Bits.
Context (bitsize : Z).
Definition bit_store (v : Z) : Z := wrapu bitsize v.      (* 318 value_ : bitsize_ *)
Definition bit_default : bitopt := BitOpt None false.                               (* 348-350 *)
Definition bit_of (v : Z) : bitopt := BitOpt (Some (bit_store v)) true.             (* 352-354 *)
Definition bit_copy (b : bitopt) : bitopt := BitOpt (b_value b) (b_has b).          (* 343-346 *)
Definition bit_assign (b : bitopt) (v : Z) : bitopt := BitOpt (Some (bit_store v)) true. (* 330-340, 324 *)
Definition bit_reset (b : bitopt) : bitopt := BitOpt (b_value b) false.             (* 363 *)
Definition bit_has_value (b : bitopt) : bool := b_has b.                            (* 362 *)
(* optional.h:244-254, 75-82: throws without a value; None is bad_optional_access. *)
Definition bit_value (b : bitopt) : option Z := if b_has b then b_value b else None.
Definition bit_value_or (b : bitopt) (d : Z) : option Z := if b_has b then b_value b else Some d.
End Bits.
