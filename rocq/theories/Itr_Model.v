(* Model of the iterators and element proxies of vector and string:
   /repo/src/estd/internal/container/iterator.h (locking_iterator),
   internal/container/traditional_accessor.h, internal/container/locking_accessor.h,
   internal/runtime_array.h:213-347 (begin, end, operator[], at, front, back) and
   internal/dynamic_array.h:646-698 (erase and insert through an iterator), over the
   containers of Dyn_Model.v.  fixed.h:86-88 makes the iterator of these containers a
   locking_iterator over a traditional_accessor, that is over a pointer to the element.
   Simplifications: as in Dyn_Model.v; a pointer is an index into the buffer, and one past
   its end is a pointer too. *)
From Verif Require Import Base Dyn_Spec Dyn_Model Itr_Spec.
Local Open Scope res_scope.

(* a pointer into a buffer of [n] elements; arithmetic that leaves the buffer is undefined *)
Definition ptr := Z.
Definition padd (n : nat) (p : ptr) (d : Z) : result ptr :=
  if ((0 <=? p + d) && (p + d <=? Z.of_nat n))%Z then Ok (p + d)%Z else UB.
Definition pget {A} (m : list A) (p : ptr) : result A := if (p <? 0)%Z then UB else rd m (Z.to_nat p).
Definition pset {A} (m : list A) (p : ptr) (a : A) : result (list A) :=
  if (p <? 0)%Z then UB else wr m (Z.to_nat p) a.

Section Itr.
Context {A : Type} (eqA : A -> A -> bool) (c : cfg A).

(* traditional_accessor.h:30-35 from an allocator and an offset; runtime_array.h:239-246 *)
Definition create_accessor (v : arr A) (o : nat) : ptr := Z.of_nat o.
(* runtime_array.h:274-277; iterator.h:70-74 *)
Definition create_iterator (v : arr A) (o : nat) : ptr := create_accessor v o.
(* runtime_array.h:282-285 *)
Definition begin_ (v : arr A) : ptr := create_iterator v 0.
(* runtime_array.h:297-304 *)
Definition end_ (v : arr A) : result ptr := s <- size c v ;; Ok (create_iterator v s).

(* iterator.h:88-92 *)
Definition it_inc (v : arr A) (p : ptr) : result ptr := padd (length (buf v)) p 1.
(* iterator.h:95-99 *)
Definition it_dec (v : arr A) (p : ptr) : result ptr := padd (length (buf v)) p (-1).
(* iterator.h:102-107; the copy returned, and the iterator *)
Definition it_post_inc (v : arr A) (p : ptr) : result (ptr * ptr) :=
  let temp := p in p' <- it_inc v p ;; Ok (temp, p').
(* iterator.h:110-115 *)
Definition it_post_dec (v : arr A) (p : ptr) : result (ptr * ptr) :=
  let temp := p in p' <- it_dec v p ;; Ok (temp, p').
(* iterator.h:117-120 *)
Definition it_diff (p q : ptr) : Z := (p - q)%Z.
(* iterator.h:122-126 *)
Definition it_add (v : arr A) (p : ptr) (n : Z) : result ptr := padd (length (buf v)) p n.
(* iterator.h:128-132 *)
Definition it_sub (v : arr A) (p : ptr) (n : Z) : result ptr := padd (length (buf v)) p (- n).
(* iterator.h:134-141 *)
Definition it_plus (v : arr A) (p : ptr) (n : Z) : result ptr := it_add v p n.
(* iterator.h:143-150 *)
Definition it_minus (v : arr A) (p : ptr) (n : Z) : result ptr := padd (length (buf v)) p (- n).
(* iterator.h:152-186 *)
Definition it_eq (p q : ptr) : bool := Z.eqb p q.
Definition it_cmp (k : cmp) (p q : ptr) : bool :=
  match k with
  | CEq => it_eq p q
  | CNe => negb (it_eq p q)
  | CLt => Z.ltb p q
  | CGt => Z.ltb q p
  | CGe => Z.leb q p
  end.
(* iterator.h:204-205; traditional_accessor.h:40-41 lock() is *p *)
Definition it_get (v : arr A) (p : ptr) : result A := pget (buf v) p.
Definition it_set (v : arr A) (p : ptr) (a : A) : result (arr A) :=
  m <- pset (buf v) p a ;; Ok (Arr m (msize v)).

(* locking_accessor.h:47-52 conversion to the element *)
Definition px_get (v : arr A) (p : ptr) : result A := pget (buf v) p.
(* traditional_accessor.h:64-68; locking_accessor.h:54-59  p = value *)
Definition px_set (v : arr A) (p : ptr) (a : A) : result (arr A) :=
  m <- pset (buf v) p a ;; Ok (Arr m (msize v)).
(* locking_accessor.h:61-73  p == value, p != value *)
Definition px_eq (v : arr A) (p : ptr) (a : A) : result bool := b <- pget (buf v) p ;; Ok (eqA b a).
Definition px_ne (v : arr A) (p : ptr) (a : A) : result bool := b <- pget (buf v) p ;; Ok (negb (eqA b a)).
(* the implicit copy assignment of traditional_accessor, chosen for p = q when q is a
   proxy too: it copies the pointer.  Answers the proxy p after it, and the container. *)
Definition px_copy (v : arr A) (p q : ptr) : ptr * arr A := (q, v).

(* runtime_array.h:333-347 *)
Definition index_ (v : arr A) (i : nat) : ptr := create_accessor v i.
Definition front_ (v : arr A) : ptr := create_accessor v 0.
Definition back_ (v : arr A) : result ptr := s <- size c v ;; Ok (create_accessor v (sub c s 1)).

(* v[i] = v[j] *)
Definition el_copy (v : arr A) (i j : nat) : arr A := snd (px_copy v (index_ v i) (index_ v j)).

(* dynamic_array.h:646-654 *)
Definition erase_it (v : arr A) (p : ptr) : vres (ptr * arr A) :=
  let index := Z.to_nat (it_diff p (begin_ v) mod Z.of_nat (smod c)) in
  v' <~ raw_erase c v index 1 ;;
  vret (create_iterator v' index, v').
(* dynamic_array.h:693-698; the place is passed as an unsigned *)
Definition insert_it (v : arr A) (p : ptr) (a : A) : vres (ptr * arr A) :=
  let d := it_diff p (begin_ v) in
  v' <~ (if (d <? 0)%Z then UB else insert_move c v (Z.to_nat d) a) ;;
  vret (p, v').

(* ---------- programs (Itr_Spec.v) ---------- *)
Record st := St { cont : arr A; its : nat -> option ptr; pxs : nat -> option ptr }.
(* an unset variable holds no iterator *)
Definition var (f : nat -> option ptr) (x : nat) : vres ptr :=
  match f x with Some p => vret p | None => UB end.
Definition put_it (s : st) (x : nat) (p : ptr) : vres (list (obs A) * st) :=
  vret ([], St (cont s) (set (its s) x p) (pxs s)).
Definition put_it2 (s : st) (y : nat) (q : ptr) (x : nat) (p : ptr) : vres (list (obs A) * st) :=
  vret ([], St (cont s) (set (set (its s) y q) x p) (pxs s)).
Definition put_v (s : st) (v : arr A) : vres (list (obs A) * st) := vret ([], St v (its s) (pxs s)).
Definition say (s : st) (o : obs A) : vres (list (obs A) * st) := vret ([o], s).

Definition mstep (s : st) (i : stm A) : vres (list (obs A) * st) :=
  let v := cont s in
  match i with
  | ItBegin x => put_it s x (begin_ v)
  | ItEnd x => p <~ lift (end_ v) ;; put_it s x p
  | ItCopy x y => p <~ var (its s) y ;; put_it s x p
  | ItInc x y => p <~ var (its s) y ;; q <~ lift (it_inc v p) ;; put_it2 s y q x q
  | ItDec x y => p <~ var (its s) y ;; q <~ lift (it_dec v p) ;; put_it2 s y q x q
  | ItPostInc x y => p <~ var (its s) y ;; ' (t, q) <~ lift (it_post_inc v p) ;; put_it2 s y q x t
  | ItPostDec x y => p <~ var (its s) y ;; ' (t, q) <~ lift (it_post_dec v p) ;; put_it2 s y q x t
  | ItPlus x y n => p <~ var (its s) y ;; q <~ lift (it_plus v p n) ;; put_it s x q
  | ItMinus x y n => p <~ var (its s) y ;; q <~ lift (it_minus v p n) ;; put_it s x q
  | ItAdd x n => p <~ var (its s) x ;; q <~ lift (it_add v p n) ;; put_it s x q
  | ItSub x n => p <~ var (its s) x ;; q <~ lift (it_sub v p n) ;; put_it s x q
  | ItDiff x y => p <~ var (its s) x ;; q <~ var (its s) y ;; say s (ODist (it_diff p q))
  | ItCmp k x y => p <~ var (its s) x ;; q <~ var (its s) y ;; say s (OBool (it_cmp k p q))
  | ItGet x => p <~ var (its s) x ;; a <~ lift (it_get v p) ;; say s (OVal a)
  | ItSet x a => p <~ var (its s) x ;; v' <~ lift (it_set v p a) ;; put_v s v'
  | ElGet i => a <~ lift (px_get v (index_ v i)) ;; say s (OVal a)
  | ElSet i a => v' <~ lift (px_set v (index_ v i) a) ;; put_v s v'
  | ElEq i a => b <~ lift (px_eq v (index_ v i) a) ;; say s (OBool b)
  | ElNe i a => b <~ lift (px_ne v (index_ v i) a) ;; say s (OBool b)
  | ElFront => a <~ lift (px_get v (front_ v)) ;; say s (OVal a)
  | ElBack => p <~ lift (back_ v) ;; a <~ lift (px_get v p) ;; say s (OVal a)
  | PxTake p i => vret ([], St v (its s) (set (pxs s) p (index_ v i)))
  | PxGet p => q <~ var (pxs s) p ;; a <~ lift (px_get v q) ;; say s (OVal a)
  | PxSet p a => q <~ var (pxs s) p ;; v' <~ lift (px_set v q a) ;; put_v s v'
  | CtErase x y => p <~ var (its s) y ;; ' (q, v') <~ erase_it v p ;;
                   vret ([], St v' (set (its s) x q) (pxs s))
  | CtInsert x y a => p <~ var (its s) y ;; ' (q, v') <~ insert_it v p a ;;
                      vret ([], St v' (set (its s) x q) (pxs s))
  | CtDo o => v' <~ step c v o ;; put_v s v'
  end.
Fixpoint mrun (s : st) (cs : list (stm A)) : vres (list (obs A) * st) :=
  match cs with
  | [] => vret ([], s)
  | i :: cs' => ' (o, s1) <~ mstep s i ;; ' (os, s2) <~ mrun s1 cs' ;; vret (o ++ os, s2)
  end.
Definition start (v : arr A) : st := St v (fun _ => None) (fun _ => None).

(* ---------- loops ----------
   for(auto& x : v) x = f(x): end() is asked once; answers the elements seen and the
   container left.  [fuel] bounds the turns, out of it is Diverge. *)
Fixpoint for_loop (f : A -> A) (fuel : nat) (v : arr A) (p e : ptr) : result (list A * arr A) :=
  match fuel with
  | O => Diverge
  | S n =>
      if it_cmp CNe p e then
        a <- it_get v p ;;
        v' <- it_set v p (f a) ;;
        p' <- it_inc v' p ;;
        ' (seen, v2) <- for_loop f n v' p' e ;;
        Ok (a :: seen, v2)
      else Ok ([], v)
  end.
Definition for_each (f : A -> A) (fuel : nat) (v : arr A) : result (list A * arr A) :=
  e <- end_ v ;; for_loop f fuel v (begin_ v) e.
(* for(it = v.end(); it != v.begin();) see( *--it) *)
Fixpoint back_loop (fuel : nat) (v : arr A) (p : ptr) : result (list A) :=
  match fuel with
  | O => Diverge
  | S n =>
      if it_cmp CNe p (begin_ v) then
        p' <- it_dec v p ;; a <- it_get v p' ;; seen <- back_loop n v p' ;; Ok (a :: seen)
      else Ok []
  end.
Definition walk_back (fuel : nat) (v : arr A) : result (list A) := e <- end_ v ;; back_loop fuel v e.
(* for(it = v.begin(); it != v.end();) if(bad( *it)) it = v.erase(it); else ++it; *)
Fixpoint erase_loop (bad : A -> bool) (fuel : nat) (v : arr A) (p : ptr) : vres (arr A) :=
  match fuel with
  | O => Diverge
  | S n =>
      e <~ lift (end_ v) ;;
      if it_cmp CNe p e then
        a <~ lift (it_get v p) ;;
        if bad a then ' (p', v') <~ erase_it v p ;; erase_loop bad n v' p'
        else p' <~ lift (it_inc v p) ;; erase_loop bad n v p'
      else vret v
  end.
Definition erase_if (bad : A -> bool) (fuel : nat) (v : arr A) : vres (arr A) :=
  erase_loop bad fuel v (begin_ v).
End Itr.
