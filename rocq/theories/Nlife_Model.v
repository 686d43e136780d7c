(* Model of the values of the linked lists that allocate their nodes:
   /repo/src/estd/traits/list_node.h ValueNode (39-67) and the node traits (142-305) under
   forward_list.h and list.h, whose links are modelled in Lnk_Model.v.
   A node's storage holds an object, numbered in the order in which they are made, with a value;
   the destructors run are recorded.  Elements cannot be assigned to: operator* of the iterators
   gives a const reference (nv_ref_t, traits/list_node.h:229). *)
From Verif Require Import Base Lnk_Spec Lnk_Model Nlife_Spec.
Local Open Scope res_scope.

Section Values.
Context {L O V : Type}.
Variable step : L -> O -> result L.      (* what the operation does to the links *)
Variable adds : O -> option nat.         (* the node it puts in *)
Variable mem_of : L -> mem.
Variable front_of_ : L -> ptr.

Record nst := Nst { lk : L; obj : nat -> option (nat * V); made : nat; died : list nat }.

(* traits/list_node.h:254-265, 272-286, 289-303: allocate, alloc_emplace, alloc_move construct
   the node in new storage; whatever object was there is not looked at *)
Definition construct (s : nst) (a : nat) (v : V) : nst :=
  Nst (lk s) (at_ (obj s) a (Some (made s, v))) (S (made s)) (died s).
(* An operation of the list.  pop_front (forward_list.h:117-127) deallocates its node, by
   traits/list_node.h:267-270, without the destructor; erase_after (:156-165) does neither *)
Definition n_step (s : nst) (p : O * V) : result nst :=
  l <- step (lk s) (fst p) ;;
  Ok (let s' := match adds (fst p) with Some a => construct s a (snd p) | None => s end in
      Nst l (obj s') (made s') (died s')).
Fixpoint n_run (s : nst) (h : list (O * V)) : result nst :=
  match h with
  | [] => Ok s
  | p :: t => s' <- n_step s p ;; n_run s' t
  end.
Definition n_init (l : L) : nst := Nst l (fun _ => None) 0 [].
(* The end of the list's life: no list class has a destructor (forward_list.h, list.h,
   internal/list_node.h), and those of the base classes and of the traits do nothing *)
Definition n_end (s : nst) : nst := s.

(* *it: iterators/list.h:99-121; the node has been looked at by the traversal *)
Definition value_at (s : nst) (a : nat) : result V :=
  match obj s a with Some (_, v) => Ok v | None => UB end.
Fixpoint values_at (s : nst) (l : list nat) : result (list V) :=
  match l with
  | [] => Ok []
  | a :: t => v <- value_at s a ;; r <- values_at s t ;; Ok (v :: r)
  end.
(* for(it = begin(); it != end(); ++it) *it *)
Definition n_values (fuel : nat) (s : nst) : result (list V) :=
  l <- walk fuel (mem_of (lk s)) (front_of_ (lk s)) ;; values_at s l.
End Values.
Arguments nst : clear implicits.

(* forward_list with nodes of its own, and list *)
Definition fnst (V : Type) := nst (mem * ptr) V.
Definition f_run {V} : fnst V -> list (lop * V) -> result (fnst V) := n_run (fl_step true) adds.
Definition f_values {V} (fuel : nat) (s : fnst V) : result (list V) := n_values fst snd fuel s.
Definition dnst (V : Type) := nst wback V.
Definition l_run {V} : dnst V -> list (dop * V) -> result (dnst V) := n_run d_step dadds.
Definition l_values {V} (fuel : nat) (s : dnst V) : result (list V) := n_values w_mem w_front fuel s.

(* The copy constructor of forward_list is the implicit one: the front is copied.  Two lists over
   the same nodes: pop_front on one of them *)
Definition pop_on {V} (s : fnst V) (front : ptr) : result (fnst V * ptr) :=
  ' (m, f) <- fl_pop_front true (fst (lk s)) front ;;
  Ok (Nst (m, snd (lk s)) (obj s) (made s) (died s), f).
