(* Model of the general algorithms of /repo/src/estd/algorithm.h and
   /repo/src/estd/internal/algorithm/raw.h (the branch taken when
   FEATURE_ESTD_ALGORITHM_OPT is undefined, its state in this commit:
   internal/feature/algorithm.h:21-23).
   Memory is an array (a list); iterators are indices.  Accesses outside the array
   are UB, and so is a range whose end precedes its beginning (the C++ loop then
   runs away through memory). *)
From Verif Require Import Base Swap_Model.
Local Open Scope res_scope.

Section Algo.
Context {A : Type}.

(* The length of [first,last), UB if reversed. *)
Definition range_len (first last : nat) : result nat :=
  if Nat.ltb last first then UB else Ok (last - first).

(* algorithm.h:26-37  fill_n: for(; count != 0; --count) *first++ = value; return first; *)
Fixpoint fill_n (m : list A) (first count : nat) (value : A) : result (list A * nat) :=
  match count with
  | O => Ok (m, first)
  | S count' => m' <- wr m first value ;; fill_n m' (S first) count' value
  end.

(* algorithm.h:40-50  fill *)
Definition fill (m : list A) (first last : nat) (value : A) : result (list A) :=
  n <- range_len first last ;;
  r <- fill_n m first n value ;;
  Ok (fst r).

(* algorithm.h:109-119  copy_n: while(count--) *result++ = *first++; return result;
   source and destination live in the same memory, so they may overlap *)
Fixpoint copy_n (m : list A) (first count d : nat) : result (list A * nat) :=
  match count with
  | O => Ok (m, d)
  | S count' =>
      x <- rd m first ;;
      m' <- wr m d x ;;
      copy_n m' (S first) count' (S d)
  end.

(* algorithm.h:92-103  copy: while(first != last) *d_first++ = *first++; return d_first; *)
Definition copy (m : list A) (first last d : nat) : result (list A * nat) :=
  n <- range_len first last ;; copy_n m first n d.

(* algorithm.h:123-134  copy_backward: while(first != last) *--d_last = *--last;
   return d_last;  [n] iterations are left.  --d_last below index 0 is UB. *)
Fixpoint copy_backward_loop (n : nat) (m : list A) (last d_last : nat) : result (list A * nat) :=
  match n with
  | O => Ok (m, d_last)
  | S n' =>
      match last, d_last with
      | S last', S d' =>
          x <- rd m last' ;;
          m' <- wr m d' x ;;
          copy_backward_loop n' m' last' d'
      | _, _ => UB
      end
  end.
Definition copy_backward (m : list A) (first last d_last : nat) : result (list A * nat) :=
  n <- range_len first last ;; copy_backward_loop n m last d_last.

(* algorithm.h:157-165  find_if over [first,last), [n] elements left *)
Fixpoint find_if_loop (n : nat) (m : list A) (first last : nat) (p : A -> bool) : result nat :=
  match n with
  | O => Ok last
  | S n' =>
      x <- rd m first ;;
      if p x then Ok first else find_if_loop n' m (S first) last p
  end.
Definition find_if (m : list A) (first last : nat) (p : A -> bool) : result nat :=
  n <- range_len first last ;; find_if_loop n m first last p.

(* algorithm.h:261-271  find_first_of; the second range is a whole list [s].
   The inner loop :267-269 asks whether some element of [s] matches. *)
Fixpoint inner_of (p : A -> A -> bool) (x : A) (s : list A) : bool :=
  match s with
  | [] => false
  | y :: s' => if p x y then true else inner_of p x s'
  end.
Definition find_first_of (p : A -> A -> bool) (m : list A) (first last : nat) (s : list A)
  : result nat :=
  find_if m first last (fun x => inner_of p x s).

(* algorithm.h:238-247  internal::find_last_of: for(; last != first; --last) looks at
   *last, from last down to first + 1; returns first when nothing matches *)
Fixpoint find_last_of_loop (n : nat) (p : A -> A -> bool) (m : list A) (first last : nat)
  (s : list A) : result nat :=
  match n with
  | O => Ok first
  | S n' =>
      x <- rd m last ;;
      if inner_of p x s then Ok last else find_last_of_loop n' p m first (last - 1) s
  end.
Definition find_last_of (p : A -> A -> bool) (m : list A) (first last : nat) (s : list A)
  : result nat :=
  n <- range_len first last ;; find_last_of_loop n p m first last s.

(* algorithm.h:291-299  the inner loop of search, started at [it]; the needle is a
   whole list [s] of which a suffix remains *)
Inductive search_step := Found | TextEnd | Mismatch.
Fixpoint search_at (p : A -> A -> bool) (m : list A) (it last : nat) (s : list A)
  : result search_step :=
  match s with
  | [] => Ok Found                                        (* :293 s_it == s_last *)
  | y :: s' =>
      if Nat.eqb it last then Ok TextEnd                  (* :295 *)
      else x <- rd m it ;;
           if p x y then search_at p m (S it) last s'     (* :297 *)
           else Ok Mismatch
  end.

(* algorithm.h:285-302  search; [fuel] bounds the outer while(true) *)
Fixpoint search_loop (fuel : nat) (p : A -> A -> bool) (m : list A) (first last : nat)
  (s : list A) : result nat :=
  match fuel with
  | O => Diverge
  | S fuel' =>
      r <- search_at p m first last s ;;
      match r with
      | Found => Ok first                                 (* :294 *)
      | TextEnd => Ok last                                (* :296 *)
      | Mismatch => search_loop fuel' p m (S first) last s (* :300 *)
      end
  end.
Definition search (p : A -> A -> bool) (m : list A) (first last : nat) (s : list A)
  : result nat :=
  n <- range_len first last ;; search_loop (S n) p m first last s.

(* algorithm.h:54-63  equal(first1, last1, first2) over two arrays, [n] elements left *)
Fixpoint equal_loop (n : nat) (eqb : A -> A -> bool) (m1 : list A) (i1 : nat)
  (m2 : list A) (i2 : nat) : result bool :=
  match n with
  | O => Ok true
  | S n' =>
      x <- rd m1 i1 ;;
      y <- rd m2 i2 ;;
      if eqb x y then equal_loop n' eqb m1 (S i1) m2 (S i2) else Ok false
  end.
Definition equal (eqb : A -> A -> bool) (m1 : list A) (first1 last1 : nat)
  (m2 : list A) (first2 : nat) : result bool :=
  n <- range_len first1 last1 ;; equal_loop n eqb m1 first1 m2 first2.

(* algorithm.h:186-192  mismatch(first1, last1, first2) *)
Fixpoint mismatch_loop (n : nat) (eqb : A -> A -> bool) (m1 : list A) (i1 : nat)
  (m2 : list A) (i2 : nat) : result (nat * nat) :=
  match n with
  | O => Ok (i1, i2)
  | S n' =>
      x <- rd m1 i1 ;;
      y <- rd m2 i2 ;;
      if eqb x y then mismatch_loop n' eqb m1 (S i1) m2 (S i2) else Ok (i1, i2)
  end.
Definition mismatch (eqb : A -> A -> bool) (m1 : list A) (first1 last1 : nat)
  (m2 : list A) (first2 : nat) : result (nat * nat) :=
  n <- range_len first1 last1 ;; mismatch_loop n eqb m1 first1 m2 first2.

(* algorithm.h:76-80  loop of min_element *)
Fixpoint min_element_loop (n : nat) (comp : A -> A -> bool) (m : list A) (smallest first : nat)
  : result nat :=
  match n with
  | O => Ok smallest
  | S n' =>
      x <- rd m first ;;
      y <- rd m smallest ;;
      min_element_loop n' comp m (if comp x y then first else smallest) (S first)
  end.
(* algorithm.h:69-82  min_element *)
Definition min_element (comp : A -> A -> bool) (m : list A) (first last : nat) : result nat :=
  if Nat.eqb first last then Ok last
  else n <- range_len first last ;; min_element_loop (n - 1) comp m first (S first).

(* algorithm.h:168-172  clamp; a failing assert is UB here (it aborts, or with
   NDEBUG the range is meaningless) *)
Definition clamp (comp : A -> A -> bool) (v lo hi : A) : result A :=
  if comp hi lo then UB
  else Ok (if comp v lo then lo else if comp hi v then hi else v).

(* algorithm/raw.h:11-18 min, comp is <; :20-27 min with a comparator *)
Definition min2 (comp : A -> A -> bool) (a b : A) : A := if comp b a then b else a.
(* algorithm/raw.h:29-36 max: (b > a), comp is < *)
Definition max2 (comp : A -> A -> bool) (a b : A) : A := if comp a b then b else a.

(* algorithm.h:203-211  reverse: while((first != last) && (first != --last))
   iter_swap(first++, last); [fuel] bounds the loop.  last = 0 with first <> last
   is a reversed range. *)
Fixpoint reverse_loop (fuel : nat) (swp : swapper A) (m : list A) (first last : nat)
  : result (list A) :=
  match fuel with
  | O => Diverge
  | S fuel' =>
      if Nat.eqb first last then Ok m
      else match last with
           | O => UB
           | S last' =>
               if Nat.eqb first last' then Ok m
               else m' <- swp m first last' ;; reverse_loop fuel' swp m' (S first) last'
           end
  end.
Definition reverse (swp : swapper A) (m : list A) (first last : nat) : result (list A) :=
  n <- range_len first last ;; reverse_loop (S n) swp m first last.

End Algo.

(* numeric.h:19-35  accumulate(first, last, init, op) *)
Fixpoint accumulate_loop {A B} (n : nat) (op : B -> A -> B) (m : list A) (first : nat) (init : B)
  : result B :=
  match n with
  | O => Ok init
  | S n' => x <- rd m first ;; accumulate_loop n' op m (S first) (op init x)
  end.
Definition accumulate {A B} (op : B -> A -> B) (m : list A) (first last : nat) (init : B)
  : result B :=
  n <- range_len first last ;; accumulate_loop n op m first init.
