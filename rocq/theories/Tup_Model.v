(* Model of the parameter pack tools, tuple and pair:
   /repo/src/estd/internal/variadic/{type_sequence,integer_sequence,selector,visitor}.h,
   internal/variadic.h, internal/utility/sequence.h, internal/tuple.h, internal/tuple/{get,apply,
   make,sparse}.h and utility.h.
   A type is a number (two types are the same exactly when the numbers are); a parameter pack is a
   list.  A use that does not compile is None. *)
From Verif Require Import Base Swap_Model.

(* ---------- type sequences ---------- *)

(* type_sequence.h:9-18 get_type_at_index<pos, Types...>; integer_sequence.h:20-33
   get_index_finder<pos, T, Is...> is the same recursion over values. *)
Fixpoint at_index {A} (pos : nat) (l : list A) : option A :=
  match l, pos with
  | x :: _, O => Some x
  | _ :: r, S p => at_index p r
  | [], _ => None
  end.

(* type_sequence.h:23-38 detail_get_index_of_type: ::value counts the matches, ::index (absent
   without a match) is the number of types after the first match. *)
Fixpoint match_count (t : nat) (l : list nat) : nat :=
  match l with
  | [] => 0
  | x :: r => if Nat.eqb t x then match_count t r + 1 else match_count t r
  end.
Fixpoint match_rest (t : nat) (l : list nat) : option nat :=
  match l with
  | [] => None
  | x :: r => if Nat.eqb t x then Some (length r) else match_rest t r
  end.
(* type_sequence.h:40-46 first_index_of_type. *)
Definition first_index_of_type (t : nat) (l : list nat) : option nat :=
  match match_rest t l with Some rest => Some (length l - 1 - rest) | None => None end.
(* type_sequence.h:49-53 single_index_of_type: does not compile unless there is one match. *)
Definition single_index_of_type (t : nat) (l : list nat) : option nat :=
  if Nat.eqb (match_count t l) 1 then first_index_of_type t l else None.

(* selector.h:108-150 detail::selector<size, Eval, Types...>; eval is Eval::evaluator<T, index>,
   proj the type projected for T.  The four lists are built by the same recursion. *)
Record selection (A : Type) : Type := Selection {
  sel_indices : list nat; sel_types : list A; sel_projected : list A; sel_selected : list (nat * A) }.
Arguments Selection {A}. Arguments sel_indices {A}. Arguments sel_types {A}.
Arguments sel_projected {A}. Arguments sel_selected {A}.
Fixpoint selector {A} (size : nat) (eval : A -> nat -> bool) (proj : A -> A) (l : list A) : selection A :=
  match l with
  | [] => Selection [] [] [] []
  | x :: r =>
      let up := selector size eval proj r in
      let index := (size - 1) - length r in
      let p := proj x in
      if eval x index
      then Selection (index :: sel_indices up) (x :: sel_types up) (p :: sel_projected up)
                     ((index, p) :: sel_selected up)
      else up
  end.
(* selector.h:149 all *)
Definition sel_all {A} (eval : A -> nat -> bool) (proj : A -> A) (l : list A) : bool :=
  Nat.eqb (length (sel_selected (selector (length l) eval proj l))) (length l).
(* type_sequence.h:114-115 where. *)
Definition where_types {A} (eval : A -> nat -> bool) (l : list A) : list A :=
  sel_types (selector (length l) eval (fun x => x) l).
(* variadic.h:108-113 select_type, contains_type, with selector.h:37-42 is_same_selector. *)
Definition contains_type (t : nat) (l : list nat) : bool :=
  negb (Nat.eqb (length (sel_selected (selector (length l) (fun x _ => Nat.eqb x t) (fun x => x) l))) 0).

(* variadic.h:86-97 are_trivial. *)
Fixpoint are_trivial (trivial : nat -> bool) (l : list nat) : bool :=
  match l with
  | [] => true
  | x :: r => andb (trivial x) (are_trivial trivial r)
  end.
(* variadic.h:102-104 are_same: the conjunction of the projected is_same<T_j, T>; every item is
   kept, since projected_result's value is true (fwd.h:120). *)
Definition are_same (t : nat) (l : list nat) : bool :=
  forallb (fun b : bool => b) (map (fun x => Nat.eqb x t) l).
(* variadic.h:64-82 largest_type. *)
Fixpoint largest_from (size : nat -> nat) (t : nat) (l : list nat) : nat :=
  match l with
  | [] => t
  | u :: r => largest_from size (if Nat.leb (size u) (size t) then t else u) r
  end.
Definition largest_type (size : nat -> nat) (l : list nat) : option nat :=
  match l with [] => None | t :: r => Some (largest_from size t r) end.

(* ---------- value sequences ---------- *)

(* integer_sequence.h:65-104 values: prepend, append, first, where, contains;
   selector.h:153-178 value_selector. *)
Definition prepend {A} (v : A) (l : list A) : list A := v :: l.
Definition append {A} (v : A) (l : list A) : list A := l ++ [v].
Definition first {A} (l : list A) : option A := at_index 0 l.
Fixpoint value_selector {A} (size : nat) (eval : A -> nat -> bool) (l : list A) : list A :=
  match l with
  | [] => []
  | v :: r => let index := (size - 1) - length r in
              if eval v index then prepend v (value_selector size eval r) else value_selector size eval r
  end.
Definition where_values {A} (eval : A -> nat -> bool) (l : list A) : list A := value_selector (length l) eval l.
Definition values_contains {A} (eqb : A -> A -> bool) (v : A) (l : list A) : bool :=
  Nat.eqb (length (where_values (fun j _ => eqb v j) l)) 1.

(* sequence.h:10-14 make_integer_sequence<T, N, Is...>, 16-17 make_index_sequence. *)
Fixpoint make_integer_sequence (n : nat) (is : list nat) : list nat :=
  match n with O => is | S m => make_integer_sequence m (m :: is) end.
Definition make_index_sequence (n : nat) : list nat := make_integer_sequence n [].
(* sequence.h:23-30 make_reverse_integer_sequence<T, NN, N, Is...>. *)
Fixpoint make_reverse_integer_sequence (nn n : nat) (is : list nat) : list nat :=
  match n with O => is | S m => make_reverse_integer_sequence nn m ((nn - n) :: is) end.
Definition make_reverse_index_sequence (n : nat) : list nat := make_reverse_integer_sequence n n [].
(* variadic.h:20-38 indices_reverser. *)
Fixpoint indices_reverser {A} (l : list A) : list A :=
  match l with [] => [] | i :: r => append i (indices_reverser r) end.

(* ---------- visitors ---------- *)

(* A functor called with an index, the item there, and the state of the caller. *)
Definition functor (A S : Type) : Type := nat -> A -> S -> bool * S.

(* visitor.h:268-291 type_visitor::visit<I>, the same recursion as 231-251 value_visitor::visit<I>;
   -1 is returned when no call gives true.  fuel is size - I. *)
Fixpoint visit_from {A S} (f : functor A S) (l : list A) (fuel i : nat) (s : S) : Z * S :=
  match fuel with
  | O => ((-1)%Z, s)
  | Datatypes.S n =>
      match at_index i l with
      | Some x => let '(b, s') := f i x s in
                  if b : bool then (Z.of_nat i, s') else visit_from f l n (i + 1) s'
      | None => ((-1)%Z, s)
      end
  end.
Definition visit {A S} (f : functor A S) (l : list A) (s : S) : Z * S := visit_from f l (length l) 0 s.
(* visitor.h:293-309 visit_reverse<I>. *)
Fixpoint visit_reverse_from {A S} (f : functor A S) (l : list A) (i : nat) (s : S) : Z * S :=
  match i with
  | O => ((-1)%Z, s)
  | Datatypes.S j =>
      match at_index j l with
      | Some x => let '(b, s') := f j x s in
                  if b : bool then (Z.of_nat j, s') else visit_reverse_from f l j s'
      | None => ((-1)%Z, s)
      end
  end.
Definition visit_reverse {A S} (f : functor A S) (l : list A) (s : S) : Z * S :=
  visit_reverse_from f l (length l) s.
(* visitor.h:118-143 functor_mover: the index it passes is the number of types that follow. *)
Fixpoint functor_mover {A S} (f : functor A S) (l : list A) (s : S) : bool * S :=
  match l with
  | [] => (false, s)
  | x :: r => let '(b, s') := f (length r) x s in if b : bool then (true, s') else functor_mover f r s'
  end.
(* visitor.h:145-171 forward_invoker: turns the index around and remembers the selected one. *)
Definition forward_call {A S} (size : nat) (f : functor A S) : functor A (Z * S) :=
  fun i x st =>
    let '(selected, s) := st in
    let index := size - (i + 1) in
    let '(b, s') := f index x s in
    if b : bool then (true, (Z.of_nat index, s')) else (false, (selected, s')).
Definition forward_invoke {A S} (f : functor A S) (l : list A) (s : S) : Z * S :=
  snd (functor_mover (forward_call (length l) f) l ((-1)%Z, s)).

(* ---------- tuple ---------- *)

Section Tuple.
Context {V : Type}.
Context (is_empty : nat -> bool).       (* is_empty<T> *)
Context (init : nat -> V).              (* T() *)

(* sparse.h:13-27 the storage of an empty type in a sparse tuple: nothing is stored;
   sparse.h:30-57 any other: the value is. *)
Inductive cell : Type := Stored (v : V) | Absent.
Definition store (sparse : bool) (t : nat) (v : V) : cell :=
  if andb sparse (is_empty t) then Absent else Stored v.
Definition first_of (t : nat) (c : cell) : V := match c with Stored v => v | Absent => init t end.

(* internal/tuple.h:32-58 tuple<sparse, T, Args...>: its own storage and the tuple of the rest as a
   base, constructed from the same arguments. *)
Definition tuple : Type := list (nat * cell).
Fixpoint make_tuple (sparse : bool) (types : list nat) (args : list V) : option tuple :=
  match types, args with
  | [], [] => Some []
  | t :: ts, v :: vs =>
      match make_tuple sparse ts vs with Some b => Some ((t, store sparse t v) :: b) | None => None end
  | _, _ => None
  end.
Definition types_of (tu : tuple) : list nat := map fst tu.

(* get.h:14-28, 33-56 GetImpl<sparse, index, ...>, 59-64 get<index>. *)
Fixpoint get (index : nat) (tu : tuple) : option V :=
  match tu, index with
  | (t, c) :: _, O => Some (first_of t c)
  | _ :: base, S i => get i base
  | [], _ => None
  end.
(* get.h:46-49, 66-71: assignment through the reference get<index> returns.  The value an empty
   type of a sparse tuple gives is a temporary: what is assigned to it is lost. *)
Fixpoint put (index : nat) (v : V) (tu : tuple) : option tuple :=
  match tu, index with
  | (t, c) :: base, O => Some ((t, match c with Stored _ => Stored v | Absent => Absent end) :: base)
  | x :: base, S i => match put i v base with Some b => Some (x :: b) | None => None end
  | [], _ => None
  end.
(* get.h:87-98 get<T>. *)
Definition get_type (t : nat) (tu : tuple) : option V :=
  match single_index_of_type t (types_of tu) with Some i => get i tu | None => None end.
(* tuple.h:13-29 tuple_element: recursion on the index. *)
Fixpoint tuple_element (index : nat) (types : list nat) : option nat :=
  match types, index with
  | t :: _, O => Some t
  | _ :: r, S i => tuple_element i r
  | [], _ => None
  end.

(* apply.h:10-15, 20-32 apply: f(get<Is>(t)...) with Is = make_index_sequence<tuple_size>;
   make.h:11-18 make_from_tuple is apply with the constructor of T. *)
Fixpoint gets (tu : tuple) (is : list nat) : option (list V) :=
  match is with
  | [] => Some []
  | i :: r => match get i tu, gets tu r with Some v, Some vs => Some (v :: vs) | _, _ => None end
  end.
Definition apply {R} (f : list V -> R) (tu : tuple) : option R :=
  match gets tu (make_index_sequence (length tu)) with Some vs => Some (f vs) | None => None end.

(* internal/tuple.h:66-79 tuple::visit with visitor.h:32-50 visit_tuple_functor; 22-29 the empty
   tuple.  The int the visitor gives is returned as a bool. *)
Definition tuple_visit {S} (f : functor (nat * V) S) (tu : tuple) (s : S) : bool * S :=
  match tu with
  | [] => (false, s)
  | _ =>
      let '(i, s') :=
        visit (fun i (tc : nat * cell) st =>
                 match get i tu with Some v => f i (fst tc, v) st | None => (false, st) end) tu s in
      (negb (Z.eqb i 0), s')
  end.
End Tuple.
Arguments cell : clear implicits.
Arguments tuple : clear implicits.

(* ---------- pair ---------- *)

Section Pair.
Context {A B : Type}.
Context (eqa lta : A -> A -> bool) (eqb ltb : B -> B -> bool).   (* T1's and T2's == and < *)
(* utility.h:80-90 == and !=; != of the members is the negation of their ==. *)
Definition pair_eq (l r : A * B) : bool := andb (eqa (fst l) (fst r)) (eqb (snd l) (snd r)).
Definition pair_ne (l r : A * B) : bool := orb (negb (eqa (fst l) (fst r))) (negb (eqb (snd l) (snd r))).
(* utility.h:92-110 < and >; x > y of the members is y < x. *)
Definition pair_lt (l r : A * B) : bool :=
  if lta (fst l) (fst r) then true else if lta (fst r) (fst l) then false else ltb (snd l) (snd r).
Definition pair_gt (l r : A * B) : bool :=
  if lta (fst r) (fst l) then true else if lta (fst l) (fst r) then false else ltb (snd r) (snd l).
(* utility.h:50-60 piecewise construction. *)
Definition pair_piecewise {V} (init : nat -> V) (ca : list V -> A) (cb : list V -> B)
    (x y : tuple V) : option (A * B) :=
  match apply init ca x, apply init cb y with Some a, Some b => Some (a, b) | _, _ => None end.
End Pair.

(* utility.h:64-68, 71-75 swap of two pairs of integers, members exchanged by xor_swap; the pairs are
   positions of two arrays, one of first and one of second members. *)
Definition pair_swap_int (firsts seconds : list Z) (x y : nat) : result (list Z * list Z) :=
  (f <- xor_swap firsts x y ;; s <- xor_swap seconds x y ;; Ok (f, s))%res.
Definition pair_swap {A B} (firsts : list A) (seconds : list B) (x y : nat) : result (list A * list B) :=
  (f <- temp_swap firsts x y ;; s <- temp_swap seconds x y ;; Ok (f, s))%res.
