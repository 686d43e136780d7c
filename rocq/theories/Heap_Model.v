(* Model of the k-ary heap algorithms and of the priority queue.
     /repo/src/estd/internal/algorithm/heap.h
     /repo/src/estd/internal/algorithm/raw.h
     /repo/src/estd/internal/priority_queue.h
   The range [first_, last_) is the first [n] elements of an array (a list);
   iterators are indices into it.  Dereferencing outside the array is UB.
   Simplification (all definitions): the C++ computes indices in [int]; here they
   are unbounded naturals, so overflow of [int] for ranges of 2^31 elements or
   more is not modelled. *)
From Verif Require Import Base Swap_Model.
Local Open Scope res_scope.

Section Heap.
Context {A : Type}.
Variable swp : swapper A.         (* heap.h:46-49  estd::swap of two elements, see Swap_Model.v *)
Variable comp : A -> A -> bool.   (* heap.h:33  Compare comp *)
Variable k : nat.                 (* heap.h:36  const int k; negative k not modelled *)

(* heap.h:66-85  the while loop of restore_up; [cur] is current_idx.
   Returns the array and the final current_idx. *)
Fixpoint restore_up_loop (fuel : nat) (l : list A) (cur : nat) : result (list A * nat) :=
  match fuel with
  | O => Diverge
  | S fuel' =>
      if Nat.eqb cur 0 then Ok (l, cur)            (* :66 while(current != first_) *)
      else if Nat.eqb k 0 then UB                  (* :68 division by k *)
      else
        let parent := (cur - 1) / k in             (* :68 *)
        p <- rd l parent ;;                        (* :72 *)
        c <- rd l cur ;;                           (* :73 *)
        if comp p c                                (* :76 *)
        then l' <- swp l cur parent ;;         (* :78 *)
             restore_up_loop fuel' l' parent       (* :79-80 *)
        else Ok (l, cur)                           (* :84 *)
  end.

(* heap.h:57-89  restore_up on the range of the first [n] elements.
   With n = 0 the C++ starts at index -1 (before the array): UB. *)
Definition restore_up (l : list A) (n : nat) : result (list A * bool) :=
  match n with
  | O => UB
  | S last =>
      r <- restore_up_loop n l last ;;
      Ok (fst r, Nat.eqb (snd r) last)             (* :88 *)
  end.

(* raw.h:260-262  loop of max_element, [m] elements left to examine *)
Fixpoint max_element_loop (m : nat) (l : list A) (largest first : nat) : result nat :=
  match m with
  | O => Ok largest
  | S m' =>
      x <- rd l largest ;;
      y <- rd l first ;;
      max_element_loop m' l (if comp x y then first else largest) (S first)
  end.

(* raw.h:252-265  max_element(first, last, comp); a reversed range is UB *)
Definition max_element (l : list A) (first last : nat) : result nat :=
  if Nat.eqb first last then Ok last
  else if Nat.ltb last first then UB
  else max_element_loop (last - first - 1) l first (S first).

(* heap.h:96-125  restore_down(current); [n] is last_ - first_ *)
Fixpoint restore_down (fuel : nat) (l : list A) (n cur : nat) : result (list A) :=
  match fuel with
  | O => Diverge
  | S fuel' =>
      let first_child := cur * k + 1 in                              (* :101 *)
      if Nat.leb n first_child then Ok l                             (* :105 *)
      else
        let last_child := Nat.min (first_child + k) n in             (* :109 *)
        chosen <- max_element l first_child last_child ;;            (* :111 *)
        c <- rd l cur ;;
        d <- rd l chosen ;;
        if comp c d                                                  (* :114 *)
        then l' <- swp l chosen cur ;;                           (* :117 *)
             restore_down fuel' l' n chosen                          (* :119 *)
        else Ok l                                                    (* :123 *)
  end.

(* heap.h:135-139  pop: swap(first_, --last_); restore_down().
   On an empty range --last_ precedes the array: UB. *)
Definition heap_pop (l : list A) (n : nat) : result (list A) :=
  match n with
  | O => UB
  | S n' =>
      l1 <- swp l 0 n' ;;
      restore_down (S n) l1 n' 0
  end.

(* heap.h:168-173  loop of make: restore_down(i); if(i-- == first_) break; *)
Fixpoint make_loop (l : list A) (n : nat) (i : nat) : result (list A) :=
  l' <- restore_down (S n) l n i ;;
  match i with
  | O => Ok l'
  | S i' => make_loop l' n i'
  end.

(* heap.h:163-174  make.  With size() == 0, size() - 1 wraps around (size_t) and
   the loop starts outside the range: UB.  k == 0 divides by zero: UB. *)
Definition heap_make (l : list A) (n : nat) : result (list A) :=
  if Nat.eqb n 0 then UB
  else if Nat.eqb k 0 then UB
  else make_loop l n ((n - 1) / k).                                  (* :165 *)

End Heap.

(* heap.h:183-188  make_heap(first, last, comp, k = 2) *)
Definition make_heap {A} (swp : swapper A) (comp : A -> A -> bool) (k : nat) (l : list A) : result (list A) :=
  heap_make swp comp k l (length l).

(* heap.h:191-196  push_heap(first, last, comp): always binary *)
Definition push_heap {A} (swp : swapper A) (comp : A -> A -> bool) (l : list A) : result (list A) :=
  r <- restore_up swp comp 2 l (length l) ;; Ok (fst r).

(* heap.h:199-204  pop_heap(first, last, comp): always binary *)
Definition pop_heap {A} (swp : swapper A) (comp : A -> A -> bool) (l : list A) : result (list A) :=
  heap_pop swp comp 2 l (length l).

(* ------------------------------------------------------------------ *)
(* internal/priority_queue.h:41-196, Container = layer1::vector<T, cap>.
   The container is modelled by its contents; pushing beyond [cap] writes past
   the fixed storage (vector growth failure is ignored): UB. *)

(* priority_queue.h:99-103 push / :134-139 emplace share
   c.push_back(value); push_heap(); *)
Definition pq_push {A} (swp : swapper A) (comp : A -> A -> bool) (cap : nat) (c : list A) (v : A)
  : result (list A) :=
  if Nat.leb cap (length c) then UB
  else push_heap swp comp (c ++ [v]).

(* priority_queue.h:125-129  pop: pop_heap(); c.pop_back(); *)
Definition pq_pop {A} (swp : swapper A) (comp : A -> A -> bool) (c : list A) : result (list A) :=
  c' <- pop_heap swp comp c ;;
  match c' with
  | [] => UB
  | _ :: _ => Ok (removelast c')
  end.

(* priority_queue.h:94-97  top: c.front() *)
Definition pq_top {A} (c : list A) : result A := rd c 0.

(* priority_queue.h:87,89 *)
Definition pq_empty {A} (c : list A) : bool := Nat.eqb (length c) 0.
Definition pq_size {A} (c : list A) : nat := length c.

(* priority_queue.h:134-139  emplace: emplace_back; push_heap; return c.back().
   The returned accessor is modelled by the value it refers to. *)
Definition pq_emplace {A} (swp : swapper A) (comp : A -> A -> bool) (cap : nat) (c : list A) (v : A)
  : result (list A * A) :=
  c' <- pq_push swp comp cap c v ;;
  r <- (match c' with [] => UB | _ => rd c' (length c' - 1) end) ;;
  Ok (c', r).

(* priority_queue.h:165-182  erase(reference v); [i] is the index v refers to *)
Definition pq_erase {A} (swp : swapper A) (comp : A -> A -> bool) (c : list A) (i : nat) : result (list A) :=
  match c with
  | [] => UB
  | _ =>
      b <- rd c (length c - 1) ;;          (* c.back() *)
      c1 <- wr c i b ;;                    (* :169 *)
      make_heap swp comp 2 (removelast c1)     (* :172-178 *)
  end.

(* algorithm.h find_if: index of the first element satisfying f, or the length *)
Fixpoint find_if_idx {A} (f : A -> bool) (l : list A) : nat :=
  match l with
  | [] => 0
  | x :: t => if f x then 0 else S (find_if_idx f t)
  end.

(* priority_queue.h:186-194  erase_if *)
Definition pq_erase_if {A} (swp : swapper A) (comp : A -> A -> bool) (c : list A) (f : A -> bool)
  : result (list A * bool) :=
  let i := find_if_idx f c in
  if Nat.eqb i (length c) then Ok (c, false)
  else c' <- pq_erase swp comp c i ;; Ok (c', true).

(* Histories of calls on one queue. *)
Inductive pq_op (A : Type) := Push (v : A) | Pop.
Arguments Push {A} v.
Arguments Pop {A}.

Definition pq_step {A} (swp : swapper A) (comp : A -> A -> bool) (cap : nat) (c : list A) (o : pq_op A)
  : result (list A) :=
  match o with
  | Push v => pq_push swp comp cap c v
  | Pop => pq_pop swp comp c
  end.

Fixpoint pq_run {A} (swp : swapper A) (comp : A -> A -> bool) (cap : nat) (c : list A) (os : list (pq_op A))
  : result (list A) :=
  match os with
  | [] => Ok c
  | o :: os' => c' <- pq_step swp comp cap c o ;; pq_run swp comp cap c' os'
  end.

(* The client loop  while(!q.empty()) { out.push_back(q.top()); q.pop(); }  for
   [n] rounds, collecting what top() returned. *)
Fixpoint pq_drain {A} (swp : swapper A) (comp : A -> A -> bool) (n : nat) (c : list A) : result (list A) :=
  match n with
  | O => if pq_empty c then Ok [] else Diverge
  | S n' =>
      if pq_empty c then Ok []
      else t <- pq_top c ;;
           c' <- pq_pop swp comp c ;;
           r <- pq_drain swp comp n' c' ;;
           Ok (t :: r)
  end.
