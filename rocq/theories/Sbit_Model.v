(* Model of the stream buffer iterators: /repo/src/estd/internal/istreambuf_iterator.h with the
   comparisons of iterator.h:22-56, ostreambuf_iterator (iterator.h:66-126), filter_iterator
   (iterator.h:130-169) and distance (internal/iterator_standalone.h:36-51), over the span stream
   buffers of Streambuf_Model.v.  The buffer is shared by all iterators on it and is passed along;
   an iterator itself is whether its rdbuf_ is not null. *)
From Coq Require Import List ZArith Bool.
From Verif Require Import Base MachInt Streambuf_Model.
Import ListNotations.
Local Open Scope Z_scope.
Local Open Scope res_scope.

(* ---- istreambuf_iterator ---- *)
Definition sit := bool.
(* istreambuf_iterator.h:59-66; :68-81 from a buffer *)
Definition it_null : sit := false.
Definition it_of_buffer : sit := true.
(* :43 end *)
Definition it_end (it : sit) : bool := negb it.
(* :49-57, on what end() says of the two *)
Definition equal_ends (l r : bool) : bool :=
  if l && r then true else if negb l && negb r then true else false.
(* iterator.h:22-38 *)
Definition it_eq (a b : sit) : bool := equal_ends (it_end a) (it_end b).
Definition it_ne (a b : sit) : bool := negb (it_eq a b).
(* :87-101 ++it *)
Definition it_incr (tr : traits) (it : sit) (b : isb) : result (sit * isb) :=
  if negb (it_end it) then
    ' p <- isbi_next tr b ;;
    let (b', e) := p in Ok (if e : bool then it_null else it, b')
  else Ok (it, b).
(* :103-112 a proxy is its character (and a reference to the iterator) *)
Definition proxy := Z.
Definition proxy_end (p : proxy) : bool := p =? eof.
(* :115-118 *)
Definition proxy_deref (p : proxy) : Z := to_char_type p.
(* :123-126, :159-162; iterator.h:41-56 *)
Definition proxy_eq (p : proxy) (it : sit) : bool := equal_ends (proxy_end p) (it_end it).
(* :129-145 it++ *)
Definition it_post (tr : traits) (it : sit) (b : isb) : result (proxy * sit * isb) :=
  if negb (it_end it) then
    ch <- sgetc tr b ;;
    ' q <- it_incr tr it b ;;
    let (it', b') := q in Ok (ch, it', b')
  else Ok (eof, it, b).
(* :148-151 *it *)
Definition it_deref (tr : traits) (it : sit) (b : isb) : result Z :=
  if it then sgetc tr b else UB.

(* for(; it != end; ++it) use( *it ) *)
Fixpoint for_each (tr : traits) (fuel : nat) (it : sit) (b : isb) : result (list Z * isb) :=
  if it_ne it it_null then
    match fuel with
    | O => Diverge
    | S f => c <- it_deref tr it b ;;
             ' q <- it_incr tr it b ;;
             let (it', b') := q in
             ' r <- for_each tr f it' b' ;;
             let (cs, b2) := r in Ok (c :: cs, b2)
    end
  else Ok ([], b).
(* while(it != end) use( *it++ ) *)
Fixpoint post_each (tr : traits) (fuel : nat) (it : sit) (b : isb) : result (list Z * isb) :=
  if it_ne it it_null then
    match fuel with
    | O => Diverge
    | S f => ' q <- it_post tr it b ;;
             let (pi, b') := q in let (p, it') := pi : proxy * sit in
             ' r <- post_each tr f it' b' ;;
             let (cs, b2) := r in Ok (proxy_deref p :: cs, b2)
    end
  else Ok ([], b).
(* iterator_standalone.h:36-51 distance(it, end); count is an int *)
Fixpoint dist_loop (tr : traits) (fuel : nat) (it : sit) (b : isb) (count : Z) : result (Z * isb) :=
  if it_ne it it_null then
    match fuel with
    | O => Diverge
    | S f => if 2147483647 <=? count then UB
             else ' q <- it_incr tr it b ;; let (it', b') := q in dist_loop tr f it' b' (count + 1)
    end
  else Ok (count, b).
Definition dist (tr : traits) (fuel : nat) (it : sit) (b : isb) : result (Z * isb) := dist_loop tr fuel it b 0.
(* ++ n times *)
Fixpoint incr_n (tr : traits) (n : nat) (it : sit) (b : isb) : result (sit * isb) :=
  match n with
  | O => Ok (it, b)
  | S n' => ' q <- it_incr tr it b ;; let (it', b') := q in incr_n tr n' it' b'
  end.

(* ---- ostreambuf_iterator ---- *)
(* iterator.h:78-79; None: never written *)
Record oit := Oit { o_rdbuf : bool; last_written : option Z }.
(* :81-86 *)
Definition oit_null : oit := Oit false (Some eof).
(* :88-99; last_written is not initialised *)
Definition oit_of_buffer : oit := Oit true None.
(* :101-107 it = c *)
Definition oit_assign (tr : traits) (it : oit) (b : osb) (c : Z) : result (oit * osb) :=
  if o_rdbuf it then
    ' p <- sputc tr b c ;; let (r, b') := p in Ok (Oit true (Some r), b')
  else Ok (it, b).
(* :109-119 ++it, it++ *)
Definition oit_incr (it : oit) : oit := it.
(* :122-125 *)
Definition oit_failed (it : oit) : result bool :=
  match last_written it with Some w => Ok (negb (w =? eof)) | None => UB end.
(* for each character: it = c; ++it *)
Fixpoint oit_write (tr : traits) (it : oit) (b : osb) (s : list Z) : result (oit * osb) :=
  match s with
  | [] => Ok (it, b)
  | c :: t => ' p <- oit_assign tr it b c ;; let (it', b') := p in oit_write tr (oit_incr it') b' t
  end.

(* ---- filter_iterator over a pointer into an array ---- *)
Section Filter.
Context {A : Type}.
Variable predicate : A -> A.             (* its answer, converted to the value type *)
(* iterator.h:133-146 the base iterator is an index *)
Definition fit := nat.
(* :148-154 *)
Definition fit_incr (i : fit) : fit := S i.
(* :156-163 the old iterator *)
Definition fit_post (i : fit) : fit * fit := let temp := i in (temp, fit_incr i).
(* :165-168 *)
Definition fit_deref (data : list A) (i : fit) : result A := x <- rd data i ;; Ok (predicate x).
(* n elements from i on *)
Fixpoint fit_take (data : list A) (n : nat) (i : fit) : result (list A) :=
  match n with
  | O => Ok []
  | S n' => x <- fit_deref data i ;; xs <- fit_take data n' (fit_incr i) ;; Ok (x :: xs)
  end.
End Filter.
