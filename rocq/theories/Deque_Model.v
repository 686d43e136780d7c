(* Model of layer1::deque<T, N> and the queue adaptor on it: /repo/src/estd/queue.h.
   Pointers into m_array are indices; one past the end is N.  Each slot keeps whether its
   object is alive: pop_* destroys the object, push_back(const&) assigns to it, which is
   undefined for a destroyed object unless T is trivial ([triv]).  The array's objects are
   alive at first (array<T, N> default-initialises them; [d] is their value).
   The move constructor: Dmv_Model.v. *)
From Verif Require Import Base Deque_Spec.
Local Open Scope res_scope.

Record slot (A : Type) := Slot { sval : A; alive : bool }.
Arguments Slot {A}. Arguments sval {A}. Arguments alive {A}.
(* queue.h:99-117 *)
Record deque (A : Type) := Deque { arr : list (slot A); mfront : nat; mback : nat; mempty : bool }.
Arguments Deque {A}. Arguments arr {A}. Arguments mfront {A}. Arguments mback {A}. Arguments mempty {A}.

Section Deque.
Context {A : Type} (triv : bool).

Definition cap (q : deque A) : nat := length (arr q).

(* queue.h:184-189 *)
Definition dq_init (N : nat) (d : A) : deque A := Deque (repeat (Slot d true) N) 0 0 true.

(* what *i means: the object must be alive *)
Definition load (m : list (slot A)) (i : nat) : result A :=
  s <- rd m i ;; if alive s || triv then Ok (sval s) else UB.
(* *i = v *)
Definition assign (m : list (slot A)) (i : nat) (v : A) : result (list (slot A)) :=
  s <- rd m i ;; if alive s || triv then wr m i (Slot v true) else UB.
(* new (i) T(v) *)
Definition construct (m : list (slot A)) (i : nat) (v : A) : result (list (slot A)) := wr m i (Slot v true).
(* i->~T() *)
Definition destroy (m : list (slot A)) (i : nat) : result (list (slot A)) :=
  s <- rd m i ;;
  if triv then Ok m else if alive s then wr m i (Slot (sval s) false) else UB.

(* queue.h:121-125 *)
Definition rollover (q : deque A) (i : nat) : nat := if Nat.eqb i (cap q) then 0 else i.
(* queue.h:131-151 evaluate_rollunder, then -- *)
Definition decrement (q : deque A) (i : nat) : nat := (if Nat.eqb i 0 then cap q else i) - 1.
(* queue.h:159-164 *)
Definition increment (q : deque A) (i : nat) : nat := rollover q (i + 1).

(* queue.h:175-181 *)
Definition raw_size (q : deque A) : nat :=
  if Nat.ltb (mback q) (mfront q) then cap q - (mfront q - mback q) else mback q - mfront q.
(* queue.h:269-282 *)
Definition dq_empty (q : deque A) : bool := mempty q.
Definition dq_size (q : deque A) : nat :=
  if dq_empty q then 0
  else let s := raw_size q in if Nat.eqb s 0 then cap q else s.

(* queue.h:284-292 *)
Definition push_back (q : deque A) (v : A) : result (bool * deque A) :=
  m <- assign (arr q) (mback q) v ;;
  Ok (true, Deque m (mfront q) (rollover q (mback q + 1)) false).
(* queue.h:407-417 *)
Definition push_back_move (q : deque A) (v : A) : result (bool * deque A) :=
  m <- construct (arr q) (mback q) v ;;
  Ok (true, Deque m (mfront q) (rollover q (mback q + 1)) false).
(* queue.h:303-314 *)
Definition push_front (q : deque A) (v : A) : result (bool * deque A) :=
  let f := decrement q (mfront q) in
  m <- assign (arr q) f v ;;
  Ok (true, Deque m f (mback q) false).
(* queue.h:359-366 the element back() refers to; 317-326 *)
Definition pop_back (q : deque A) : result (bool * deque A) :=
  let b := decrement q (mback q) in
  m <- destroy (arr q) b ;;                                                   (* :319 *)
  Ok (true, Deque m (mfront q) b (if Nat.eqb (mfront q) b then true else mempty q)).
(* queue.h:328-339 *)
Definition pop_front (q : deque A) : result (bool * deque A) :=
  m <- destroy (arr q) (mfront q) ;;                                          (* :330 *)
  let f := rollover q (mfront q + 1) in
  Ok (true, Deque m f (mback q) (if Nat.eqb f (mback q) then true else mempty q)).
(* queue.h:341-357 *)
Definition dq_front (q : deque A) : result A := load (arr q) (mfront q).
(* queue.h:359-375 *)
Definition dq_back (q : deque A) : result A := load (arr q) (decrement q (mback q)).
(* queue.h:379-390 *)
Definition emplace_front (q : deque A) (v : A) : result (deque A) :=
  m <- construct (arr q) (mfront q) v ;;
  Ok (Deque m (decrement q (mfront q)) (mback q) false).
(* queue.h:393-403 *)
Definition emplace_back (q : deque A) (v : A) : result (deque A) :=
  m <- construct (arr q) (mback q) v ;;
  Ok (Deque m (mfront q) (increment q (mback q)) false).

(* queue.h:214-267 begin(), end(): for(i = begin(); i != end(); ++i) visit *i.
   [fuel] bounds the passes *)
Fixpoint visit (fuel : nat) (q : deque A) (i : nat) : result (list A) :=
  match fuel with
  | O => Diverge
  | S f =>
      if Nat.eqb i (mback q) then Ok []
      else v <- load (arr q) i ;; l <- visit f q (increment q i) ;; Ok (v :: l)
  end.
Definition iterate (q : deque A) : result (list A) := visit (S (cap q)) q (mfront q).
(* the same backwards: i = end(); while(i != begin()) visit *--i *)
Fixpoint visit_back (fuel : nat) (q : deque A) (i : nat) : result (list A) :=
  match fuel with
  | O => Diverge
  | S f =>
      if Nat.eqb i (mfront q) then Ok []
      else let j := decrement q i in
           v <- load (arr q) j ;; l <- visit_back f q j ;; Ok (v :: l)
  end.
Definition iterate_back (q : deque A) : result (list A) := visit_back (S (cap q)) q (mback q).

(* queue.h:446-478  the adaptor *)
Definition q_push := push_back.
Definition q_push_move := push_back_move.
Definition q_emplace := emplace_back.
Definition q_pop := pop_front.
End Deque.

(* running the operations of a history; the bool answers are dropped *)
Definition do_op {A} (triv : bool) (o : dop A) (q : deque A) : result (deque A) :=
  match o with
  | PushBack v => ' p <- push_back triv q v ;; Ok (snd p)
  | PushBackMove v => ' p <- push_back_move q v ;; Ok (snd p)
  | EmplaceBack v => emplace_back q v
  | PushFront v => ' p <- push_front triv q v ;; Ok (snd p)
  | PopBack => ' p <- pop_back triv q ;; Ok (snd p)
  | PopFront => ' p <- pop_front triv q ;; Ok (snd p)
  end.
Fixpoint do_ops {A} (triv : bool) (ops : list (dop A)) (q : deque A) : result (deque A) :=
  match ops with [] => Ok q | o :: ops' => q' <- do_op triv o q ;; do_ops triv ops' q' end.

(* a history of a queue (queue.h:446-478), with the values of front() before each pop *)
Fixpoint q_run {A} (triv : bool) (ops : list (qop A)) (q : deque A) : result (list A * deque A) :=
  match ops with
  | [] => Ok ([], q)
  | QPush v :: t => ' p <- q_push triv q v ;; q_run triv t (snd p)
  | QPushMove v :: t => ' p <- q_push_move q v ;; q_run triv t (snd p)
  | QEmplace v :: t => q1 <- q_emplace q v ;; q_run triv t q1
  | QPop :: t => x <- dq_front triv q ;; ' p <- q_pop triv q ;; ' (xs, q2) <- q_run triv t (snd p) ;; Ok (x :: xs, q2)
  end.
