(* Model of array, of the older array windows, of the small maps and of stack:
   /repo/src/estd/internal/array.h, array.h, internal/fwd/array.h,
   internal/legacy/array.h (layer2 and layer3 arrays), map.h (layer1 to layer3), stack.h.
   Simplifications: a cell of an array that was never given a value is None, reading it is
   undefined; the begin() .. end() loops are loops over indices. *)
From Verif Require Import Base Arr_Spec Dyn_Spec Dyn_Model Dyn_View.
Local Open Scope res_scope.

Section Arrays.
Context {A : Type} (eqA : A -> A -> bool) (len : nat -> nat).
Notation cells := (list (option A)).

Definition load (m : cells) (i : nat) : result A :=
  c <- rd m i ;; match c with Some a => Ok a | None => UB end.
(* algorithm.h:91-103 copy(first, last, out): writes l from cell i on *)
Fixpoint copy_list (m : cells) (i : nat) (l : list A) : result cells :=
  match l with
  | [] => Ok m
  | a :: l' => m' <- wr m i (Some a) ;; copy_list m' (S i) l'
  end.
(* internal/array.h:101-106 from an initializer list; the elements start without value
   (:85 T data_[N], no initializer) *)
Definition array_init (n : nat) (l : list A) : result cells := copy_list (repeat None n) 0 l.
(* algorithm.h:25-37 fill_n, internal/array.h:163-166 *)
Fixpoint fill_n (m : cells) (i count : nat) (a : A) : result cells :=
  match count with
  | O => Ok m
  | S n => m' <- wr m i (Some a) ;; fill_n m' (S i) n a
  end.
(* the elements seen between indices i and i + n *)
Fixpoint sweep (m : cells) (i n : nat) : result (list A) :=
  match n with
  | O => Ok []
  | S n' => a <- load m i ;; l <- sweep m (S i) n' ;; Ok (a :: l)
  end.
(* algorithm.h:52-64 equal(first1, last1, first2) *)
Fixpoint equal_loop (m1 m2 : cells) (i n : nat) : result bool :=
  match n with
  | O => Ok true
  | S n' => a <- load m1 i ;; b <- load m2 i ;;
            if negb (eqA a b) then Ok false else equal_loop m1 m2 (S i) n'
  end.
(* internal/array.h:111-121 operator==, operator!= *)
Definition array_eq (n1 n2 : nat) (m1 m2 : cells) : result bool :=
  if Nat.eqb n1 n2 then equal_loop m1 m2 0 n1 else Ok false.
Definition array_ne (n1 n2 : nat) (m1 m2 : cells) : result bool :=
  if Nat.eqb n1 n2 then b <- equal_loop m1 m2 0 n1 ;; Ok (negb b) else Ok true.

(* the variables of a program: the arrays, and the windows as (array, size) *)
Record ast := ASt { mem : nat -> cells; win : nat -> option (nat * nat) }.
Definition with_mem (s : ast) (x : nat) (m : cells) : ast := ASt (set (mem s) x m) (win s).
Definition the_win (s : ast) (w : nat) : result (nat * nat) := match win s w with Some p => Ok p | None => UB end.

Definition astep (s : ast) (o : aop A) : result (list (obs A) * ast) :=
  match o with
  | ANew x l => m <- array_init (len x) l ;; Ok ([], with_mem s x m)
  (* the implicit copy assignment copies cell by cell; only of one type *)
  | ACopy x y => if Nat.eqb (len x) (len y) then Ok ([], with_mem s x (mem s y)) else UB
  | AFill x a => m <- fill_n (mem s x) 0 (len x) a ;; Ok ([], with_mem s x m)
  (* internal/array.h:157-161 *)
  | ASet x i a => m <- wr (mem s x) i (Some a) ;; Ok ([], with_mem s x m)
  | AGet x i => a <- load (mem s x) i ;; Ok ([OVal a], s)
  (* :151-152 *)
  | AFront x => a <- load (mem s x) 0 ;; Ok ([OVal a], s)
  (* :19-26 *)
  | ASize x => Ok ([ONum (len x)], s)
  (* :142-148 *)
  | AAll x => l <- sweep (mem s x) 0 (len x) ;; Ok ([OAll l], s)
  | AEq x y => b <- array_eq (len x) (len y) (mem s x) (mem s y) ;; Ok ([OBool b], s)
  | ANe x y => b <- array_ne (len x) (len y) (mem s x) (mem s y) ;; Ok ([OBool b], s)
  (* legacy/array.h:250-280, 300-337; a window is a pointer and a size *)
  | WMake w x n => Ok ([], ASt (mem s) (set (win s) w (Some (x, n))))
  | WSet w i a => ' (x, _) <- the_win s w ;; m <- wr (mem s x) i (Some a) ;; Ok ([], with_mem s x m)
  | WGet w i => ' (x, _) <- the_win s w ;; a <- load (mem s x) i ;; Ok ([OVal a], s)
  | WAll w => ' (x, n) <- the_win s w ;; l <- sweep (mem s x) 0 n ;; Ok ([OAll l], s)
  (* legacy/array.h:330-331 *)
  | WBack w => ' (x, n) <- the_win s w ;; a <- load (mem s x) (n - 1) ;; Ok ([OVal a], s)
  (* legacy/array.h:279, 328 *)
  | WSize w => ' (_, n) <- the_win s w ;; Ok ([ONum n], s)
  end.
Fixpoint arun (s : ast) (os : list (aop A)) : result (list (obs A) * ast) :=
  match os with
  | [] => Ok ([], s)
  | o :: os' => ' (b, s1) <- astep s o ;; ' (bs, s2) <- arun s1 os' ;; Ok (b ++ bs, s2)
  end.
(* all variables declared, none with a value *)
Definition astart : ast := ASt (fun x => repeat None (len x)) (fun _ => None).
End Arrays.

(* ---------- maps ---------- *)
Section Maps.
Context {K V : Type} (eqK : K -> K -> bool).
Notation cells := (list (option (K * V))).

(* map.h:156-170, 205-219, 260-274: the index of the first pair with the key *)
Fixpoint find_from (m : cells) (i n : nat) (k : K) : result (option nat) :=
  match n with
  | O => Ok None
  | S n' => ' (k1, _) <- load m i ;; if eqK k1 k then Ok (Some i) else find_from m (S i) n' k
  end.
Definition index (m : cells) (k : K) : result (option nat) := find_from m 0 (length m) k.

(* the buffer, which layer2 and layer3 maps point to, and the array of a layer1 map *)
Record mst := MSt { m_own : cells; m_buf : cells }.
Definition m_of (s : mst) (y : layer) : cells := match y with L1 => m_own s | _ => m_buf s end.
Definition m_with (s : mst) (y : layer) (m : cells) : mst :=
  match y with L1 => MSt m (m_buf s) | _ => MSt (m_own s) m end.
(* map.h:148 map(array&) copies *)
Definition map_make (b : cells) : mst := MSt b b.
(* map.h:151, 60-70 from an initializer list *)
Definition map_init (n : nat) (l : list (K * V)) : result mst := m <- array_init n l ;; Ok (MSt m []).
Definition mstep (s : mst) (o : mop K V) : result (option V * mst) :=
  match o with
  | MGet y k =>
      p <- index (m_of s y) k ;;
      match p with
      | Some i => ' (_, v) <- load (m_of s y) i ;; Ok (Some v, s)
      | None => Ok (None, s)
      end
  | MPut y k v =>
      p <- index (m_of s y) k ;;
      match p with
      | Some i => ' (k1, v1) <- load (m_of s y) i ;;
                  m <- wr (m_of s y) i (Some (k1, v)) ;; Ok (Some v1, m_with s y m)
      | None => Ok (None, s)
      end
  | MBuf i k v => m <- wr (m_buf s) i (Some (k, v)) ;; Ok (None, MSt (m_own s) m)
  end.
Fixpoint mrun (s : mst) (os : list (mop K V)) : result (list (option V) * mst) :=
  match os with
  | [] => Ok ([], s)
  | o :: os' => ' (b, s1) <- mstep s o ;; ' (bs, s2) <- mrun s1 os' ;; Ok (b :: bs, s2)
  end.
End Maps.

(* ---------- stack over a fixed-capacity vector (stack.h:12-46, layer1 :58-74) ---------- *)
Section Stack.
Context {A : Type} (c : cfg A).
Definition sstep (v : arr A) (o : sop A) : vres (list (sobs A) * arr A) :=
  match o with
  | SPush a => v' <~ push_back c v a ;; vret ([], v')
  | SPop => v' <~ pop_back c v ;; vret ([], v')
  | STop => a <~ lift (back c v) ;; vret ([SVal a], v)
  (* top() is the element proxy back(); Itr_Model.px_set *)
  | SSetTop a => s <~ lift (size c v) ;; m <~ lift (wr (buf v) (sub c s 1) a) ;; vret ([], Arr m (msize v))
  | SSize => s <~ lift (size c v) ;; vret ([SNum s], v)
  | SEmpty => b <~ lift (empty c v) ;; vret ([SBool b], v)
  (* stack.h:72-73 *)
  | SAll => l <~ lift (iterate c v) ;; vret ([SList l], v)
  end.
(* stack.h:38 top() const: the result is a reference to the proxy that back() (runtime_array.h:344)
   returned by value; the proxy is a local of top() and gone when the caller reads it.
   None stands for a destroyed object. *)
Definition const_top (v : arr A) : vres A :=
  a <~ lift (back c v) ;;
  let local := [Some a] in          (* the frame of top() *)
  let after_return := map (fun _ => None) local in
  lift (load after_return 0).
Fixpoint srun (v : arr A) (os : list (sop A)) : vres (list (sobs A) * arr A) :=
  match os with
  | [] => vret ([], v)
  | o :: os' => ' (b, v1) <~ sstep v o ;; ' (bs, v2) <~ srun v1 os' ;; vret (b ++ bs, v2)
  end.
End Stack.
