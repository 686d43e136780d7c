(* Model of estd::variant, /repo/src/estd/internal/variant.h and /repo/src/estd/variant.h.
   The tag of a variable is index_ (internal/variant.h:158); None is variant_npos. *)
From Verif Require Import Base Vst_Model.
Local Open Scope prog_scope.

Section Variant.
Context {V : Type}.
Context (alts : list alt).
Context (mvd : nat -> V -> V).      (* the value an object of alternative i keeps after a move *)
Notation W := (world V (option nat)).

(* internal/variant.h:165-169 destroy_if_valid. *)
Definition destroy_if_valid (k : nat) : prog W unit :=
  ix <- tag_of k ;; destroy_index alts k ix.

(* internal/variant.h:219-223 variant(in_place_index_t<I>, args...); 202-205 variant() is
   I = 0 without arguments. *)
Definition var_in_place (k i : nat) (args : prog W V) : prog W unit :=
  constructor k None (construct k i args ;;; set_tag k (Some i)).

(* internal/variadic.h:93-94 select_type<T, Types...>::first::index: the first alternative of
   that type (internal/variadic/selector.h:121-154). *)
Fixpoint first_of_type (l : list alt) (t i : nat) : option nat :=
  match l with
  | [] => None
  | a :: r => if Nat.eqb (a_type a) t then Some i else first_of_type r t (S i)
  end.
Definition select_type (t : nat) : option nat := first_of_type alts t 0.

(* internal/variant.h:225-231 variant(in_place_type_t<T>, args...). A type that is no
   alternative does not compile (the model says undef). *)
Definition var_in_place_type (k t : nat) (args : prog W V) : prog W unit :=
  match select_type t with
  | Some i => var_in_place k i args
  | None => undef
  end.

(* internal/variant.h:207-216 copy constructor. *)
Definition var_copy (k src : nat) : prog W unit :=
  constructor k None (ix <- tag_of src ;; copy_storage alts k src ix ;;; set_tag k ix).

(* internal/variant.h:65-86 moving_constructor_functor and 266-274 move constructor. *)
Definition var_move (k src : nat) : prog W unit :=
  constructor k None
    (visit alts (fun i =>
       ix <- tag_of src ;;
       match ix with
       | Some j =>
           if Nat.eqb j i then
             construct k i (move_alt (mvd i) src i) ;;; destroy_at alts src i ;;; ret true
           else ret false
       | None => ret false
       end) ;;;
     ix <- tag_of src ;; set_tag k ix ;;; set_tag src None).

(* internal/variant.h:233-252 converting constructor with converting_constructor_functor2
   (storage.h:631-643): the first alternative constructible from the argument. u i is the
   argument as seen by alternative i. *)
Definition var_converting (k : nat) (u : nat -> source V (option nat)) : prog W unit :=
  constructor k None
    (sel <- visit alts (fun i =>
       if c_constructible (u i) then construct k i (c_value (u i)) ;;; ret true else ret false) ;;
     set_tag k sel).

(* internal/variant.h:259-264 destructor. *)
Definition var_destroy (k : nat) : prog W unit :=
  destroy_if_valid k ;;; set_obj k None.

(* storage.h:497-520 assign_or_init<I>(&index, u). *)
Definition assign_or_init_ix (k i : nat) (c : source V (option nat)) : prog W unit :=
  ix <- tag_of k ;;
  match ix with
  | Some j =>
      if Nat.eqb j i then assignment_helper alts k i c
      else destroy_index alts k ix ;;; direct_init_helper alts k i c
  | None => destroy_index alts k ix ;;; direct_init_helper alts k i c
  end.

(* storage.h:536-542 with 528-530: operator=(T&&), internal/variant.h:276-284: the first
   alternative constructible from the argument; index_ is updated after the work. No such
   alternative does not compile (undef). *)
Fixpoint first_constructible (n i : nat) (u : nat -> source V (option nat)) : option nat :=
  match n with
  | O => None
  | S n' => if c_constructible (u i) then Some i else first_constructible n' (S i) u
  end.
Definition var_assign_value (k : nat) (u : nat -> source V (option nat)) : prog W unit :=
  match first_constructible (length alts) 0 u with
  | Some i => assign_or_init_ix k i (u i) ;;; set_tag k (Some i)
  | None => undef
  end.

(* internal/variant.h:90-123 assignment_functor for a const variant&. *)
Definition copy_assign_functor (k src i : nat) : prog W bool :=
  if trait alts a_copy_assignable i then
    assign_or_init_ix k i
      (Src (trait alts a_copyable i) (trait alts a_copyable i) true (read_alt src i)) ;;;
    ret true
  else
    destroy_if_valid k ;;; construct k i (read_alt src i) ;;; ret true.

(* internal/variant.h:311-327 operator=(const variant&). *)
Definition var_copy_assign (k src : nat) : prog W unit :=
  ix <- tag_of src ;;
  match ix with
  | None => destroy_if_valid k ;;; set_tag k None
  | Some _ => sel <- visit_index alts ix (copy_assign_functor k src) ;; set_tag k sel
  end.

(* internal/variant.h:102-109 and 126-144 assignment_functor for a variant&&.  The types are
   taken to be move constructible. *)
Definition move_assign_functor (k src i : nat) : prog W bool :=
  if trait alts a_move_assignable i then
    assign_or_init_ix k i (Src true true true (move_alt (mvd i) src i)) ;;;
    ret true
  else
    destroy_if_valid k ;;; construct k i (move_alt (mvd i) src i) ;;;
    destroy_at alts src i ;;; set_tag src None ;;; ret true.

(* internal/variant.h:330-343 operator=(variant&&). *)
Definition var_move_assign (k src : nat) : prog W unit :=
  ix <- tag_of src ;;
  match ix with
  | None => destroy_if_valid k ;;; set_tag k None
  | Some _ => sel <- visit_index alts ix (move_assign_functor k src) ;; set_tag k sel
  end.

(* internal/variant.h:347-361 emplace<T>(args...). *)
Definition var_emplace_type (k t : nat) (args : prog W V) : prog W unit :=
  destroy_if_valid k ;;; set_tag k None ;;;
  match select_type t with
  | Some i => construct k i args ;;; set_tag k (Some i)
  | None => undef
  end.
(* internal/variant.h:363-369 emplace<I>(args...) calls emplace<T_I>(args...). *)
Definition var_emplace (k i : nat) (args : prog W V) : prog W unit :=
  match nth_error alts i with
  | Some a => var_emplace_type k (a_type a) args
  | None => undef
  end.

(* internal/variant.h:345 index(), 254-257 valueless_by_exception(). *)
Definition var_index (k : nat) : prog W (option nat) := tag_of k.
Definition var_valueless (k : nat) : prog W bool :=
  ix <- tag_of k ;; ret (match ix with None => true | Some _ => false end).

(* variant.h:12-36 get_if<I>(&v): a pointer to the object, modelled by reading it. *)
Definition var_get_if (k i : nat) : prog W (option V) :=
  ix <- tag_of k ;;
  match ix with
  | Some j => if Nat.eqb j i then v <- read_alt k i ;; ret (Some v) else ret None
  | None => ret None
  end.
(* variant.h:39-57 get<I>(v) with assert_index_matches, internal/variant.h:47-56. *)
Definition var_get (k i : nat) : prog W V :=
  ix <- tag_of k ;;
  match ix with
  | Some j => if Nat.eqb j i then read_alt k i else throw
  | None => throw
  end.
(* variant.h:66-82 get<T>(v); 85-89 holds_alternative<T>(v). *)
Definition var_get_type (k t : nat) : prog W V :=
  match select_type t with Some i => var_get k i | None => undef end.
Definition var_holds (k t : nat) : prog W bool :=
  ix <- tag_of k ;;
  ret (match ix, select_type t with Some j, Some i => Nat.eqb j i | _, _ => false end).

(* internal/variant.h:193-200 visit: visits every alternative, whatever index_ is
   (storage.h:544-557 with getter_functor2, 168-181); f gets a reference to the storage as
   alternative i. *)
Definition var_visit (k : nat) (f : nat -> prog W bool) : prog W (option nat) :=
  o <- get_obj k ;; visit alts f.
(* internal/variant.h:286-308 visit_index. *)
Definition var_visit_index (k : nat) (f : nat -> prog W bool) : prog W (option nat) :=
  ix <- tag_of k ;; visit_index alts ix f.

(* A program over numbered variants. *)
Inductive vop : Type :=
| VNew (k i : nat) (v : V)              (* variant x(in_place_index<i>, v) *)
| VCopy (k src : nat)                   (* variant x(src) *)
| VMove (k src : nat)                   (* variant x(std::move(src)) *)
| VDestroy (k : nat)                    (* end of x's life *)
| VEmplace (k i : nat) (v : V)          (* x.emplace<i>(v) *)
| VAssign (k i : nat) (v : V)           (* x = v, v of type T_i *)
| VCopyAssign (k src : nat)             (* x = src *)
| VMoveAssign (k src : nat).            (* x = std::move(src) *)

(* x = v for v of exactly the type of alternative i: constructible only from it. *)
Definition exact (i : nat) (v : V) : nat -> source V (option nat) :=
  fun j => Src (Nat.eqb j i) true (trait alts a_copy_assignable j) (ret v).

Definition run_vop (p : vop) : prog W unit :=
  match p with
  | VNew k i v => var_in_place k i (ret v)
  | VCopy k src => var_copy k src
  | VMove k src => var_move k src
  | VDestroy k => var_destroy k
  | VEmplace k i v => var_emplace k i (ret v)
  | VAssign k i v => var_assign_value k (exact i v)
  | VCopyAssign k src => var_copy_assign k src
  | VMoveAssign k src => var_move_assign k src
  end.
Fixpoint run_vops (l : list vop) : prog W unit :=
  match l with
  | [] => ret tt
  | p :: r => run_vop p ;;; run_vops r
  end.
End Variant.
Arguments vop : clear implicits.
