(* Model of a layer1::deque, or the queue on it, made by its move constructor:
   /repo/src/estd/queue.h.  m_front and m_back are pointers (internal/array.h:135), so a pointer
   says in whose array it points.  [left v]: the value a move leaves in an object holding v (v
   itself for types without a move constructor).  The two arrays are not adjacent: a pointer into
   one never equals a pointer into the other. *)
From Verif Require Import Base Deque_Model.
Local Open Scope res_scope.

(* a pointer into the deque's own array or into that of the deque moved from; one past the end is N *)
Inductive place := Own (i : nat) | Theirs (i : nat).
Definition place_eq (p q : place) : bool :=
  match p, q with Own i, Own j | Theirs i, Theirs j => Nat.eqb i j | _, _ => false end.

(* queue.h:99-117; [theirs]: the array of the deque moved from, None once that deque is gone *)
Record moved (A : Type) := Moved {
  own : list (slot A); theirs : option (list (slot A)); mv_front : place; mv_back : place; mv_empty : bool }.
Arguments Moved {A}. Arguments own {A}. Arguments theirs {A}.
Arguments mv_front {A}. Arguments mv_back {A}. Arguments mv_empty {A}.

Section Dmv.
Context {A : Type} (triv : bool) (left : A -> A).

(* queue.h:192-197 deque(deque&&): the array is moved element by element, all N of them, and the
   pointers are copied *)
Definition move_deque (q : deque A) : result (moved A) :=
  if triv || forallb alive (arr q) then
    Ok (Moved (arr q) (Some (map (fun s => Slot (left (sval s)) (alive s)) (arr q)))
              (Theirs (mfront q)) (Theirs (mback q)) (mempty q))
  else UB.
(* the deque moved from is destroyed; queue.h:201-204 *)
Definition source_gone (m : moved A) : moved A := Moved (own m) None (mv_front m) (mv_back m) (mv_empty m).

(* what a pointer points into *)
Definition array_at (m : moved A) (p : place) : result (list (slot A)) :=
  match p, theirs m with Own _, _ => Ok (own m) | Theirs _, Some a => Ok a | Theirs _, None => UB end.
Definition index (p : place) : nat := match p with Own i | Theirs i => i end.
Definition with_array (m : moved A) (p : place) (a : list (slot A)) : moved A :=
  match p with
  | Own _ => Moved a (theirs m) (mv_front m) (mv_back m) (mv_empty m)
  | Theirs _ => Moved (own m) (Some a) (mv_front m) (mv_back m) (mv_empty m)
  end.
(* p + 1: at most one past the end *)
Definition step (m : moved A) (p : place) : result place :=
  a <- array_at m p ;;
  if Nat.ltb (index p) (length a)
  then Ok (match p with Own i => Own (i + 1) | Theirs i => Theirs (i + 1) end) else UB.
(* queue.h:121-125 m_array is the deque's own *)
Definition roll (m : moved A) (p : place) : place := if place_eq p (Own (length (own m))) then Own 0 else p.

(* queue.h:341-357 *)
Definition mv_front_value (m : moved A) : result A :=
  a <- array_at m (mv_front m) ;; load triv a (index (mv_front m)).
(* queue.h:175-181, 269-282; both pointers point into the same array *)
Definition mv_size (m : moved A) : nat :=
  if mv_empty m then 0
  else
    let f := index (mv_front m) in let b := index (mv_back m) in
    let s := if Nat.ltb b f then length (own m) - (f - b) else b - f in
    if Nat.eqb s 0 then length (own m) else s.
(* queue.h:407-417 *)
Definition mv_push (m : moved A) (v : A) : result (moved A) :=
  n <- step m (mv_back m) ;;
  a <- array_at m (mv_back m) ;;
  a1 <- construct a (index (mv_back m)) v ;;
  let m1 := with_array m (mv_back m) a1 in
  Ok (Moved (own m1) (theirs m1) (mv_front m1) (roll m1 n) false).
(* queue.h:328-339 *)
Definition mv_pop (m : moved A) : result (moved A) :=
  a <- array_at m (mv_front m) ;;
  a1 <- destroy triv a (index (mv_front m)) ;;
  let m1 := with_array m (mv_front m) a1 in
  n <- step m1 (mv_front m1) ;;
  let f := roll m1 n in
  Ok (Moved (own m1) (theirs m1) f (mv_back m1) (if place_eq f (mv_back m1) then true else mv_empty m1)).

(* k times a push, then a pop *)
Fixpoint mv_rounds (k : nat) (v : A) (m : moved A) : result (moved A) :=
  match k with O => Ok m | S k' => m1 <- mv_push m v ;; m2 <- mv_pop m1 ;; mv_rounds k' v m2 end.
End Dmv.
