(* Properties C01-C06: heap algorithms and priority_queue. *)
From Verif Require Import Base Swap_Model Swap_Spec Swap_Proofs Heap_Model Heap_Spec Heap_Proofs.

(* A comparator that is a strict weak order but not a total one. *)
Definition by_fst (a b : nat * nat) : bool := Nat.ltb (fst a) (fst b).
Example by_fst_swo : strict_weak_order by_fst.
Proof.
  split; unfold by_fst; intros;
    repeat match goal with
           | H : _ = true |- _ => apply Nat.ltb_lt in H
           | H : _ = false |- _ => apply Nat.ltb_ge in H
           end;
    [apply Nat.ltb_ge | apply Nat.ltb_lt | split; apply Nat.ltb_ge]; lia.
Qed.
Ltac small_heap := apply is_heapb_sound; vm_compute; reflexivity.

(* C01, binary push_heap as exported. *)
Theorem C01_push_heap_restores_heap :
  forall (A : Type) (swp : swapper A) (comp : A -> A -> bool) (l : list A),
    exchanges swp -> strict_weak_order comp -> l <> [] -> is_heap comp 2 (length l - 1) l ->
    exists l', push_heap swp comp l = Ok l' /\
      is_heap comp 2 (length l') l' /\ Permutation l l'.
Proof. exact @push_heap_correct. Qed.
Print Assumptions C01_push_heap_restores_heap.

(* C01, the underlying class for every branching factor; elements past the range
   are untouched, and the returned flag means "nothing moved". *)
Theorem C01_restore_up_every_k :
  forall (A : Type) (swp : swapper A) (comp : A -> A -> bool) (k n : nat) (l : list A),
    exchanges swp -> strict_weak_order comp -> 1 <= k -> 0 < n <= length l -> is_heap comp k (n - 1) l ->
    exists l' unmoved, restore_up swp comp k l n = Ok (l', unmoved) /\
      is_heap comp k n l' /\ Permutation l l' /\ (unmoved = true -> l' = l) /\
      (forall i, n <= i -> nth_error l' i = nth_error l i).
Proof. exact @push_heap_correct_k. Qed.
Print Assumptions C01_restore_up_every_k.

Example C01_case :
  let l := [(9,0); (5,1); (8,2); (5,3); (1,4); (9,5)] in
  is_heap by_fst 2 (length l - 1) l /\
  push_heap temp_swap by_fst l = Ok [(9,0); (5,1); (9,5); (5,3); (1,4); (8,2)] /\
  is_heap by_fst 3 (length l - 1) l /\
  restore_up temp_swap by_fst 3 l 6 = Ok ([(9,0); (9,5); (8,2); (5,3); (1,4); (5,1)], false).
Proof.
  split; [small_heap|]. split; [vm_compute; reflexivity|].
  split; [small_heap|vm_compute; reflexivity].
Qed.

(* C02.  For element types swapped through a temporary (every class type) this is
   the full property; for built-in integers, whose swap is xor_swap, it needs at
   least two elements. *)
Theorem C02_pop_heap_moves_greatest_last :
  forall (A : Type) (swp : swapper A) (comp : A -> A -> bool) (l : list A),
    exchanges swp -> strict_weak_order comp ->
    2 <= length l \/ (l <> [] /\ keeps_self swp) -> is_heap comp 2 (length l) l ->
    exists m rest, pop_heap swp comp l = Ok (rest ++ [m]) /\ nth_error l 0 = Some m /\
      greatest comp m l /\ is_heap comp 2 (length rest) rest /\
      Permutation l (rest ++ [m]).
Proof. exact @pop_heap_correct. Qed.
Print Assumptions C02_pop_heap_moves_greatest_last.

Theorem C02_heap_pop_every_k :
  forall (A : Type) (swp : swapper A) (comp : A -> A -> bool) (k n : nat) (l : list A),
    exchanges swp -> strict_weak_order comp -> 2 <= n \/ keeps_self swp ->
    1 <= k -> 0 < n <= length l -> is_heap comp k n l ->
    exists m l', nth_error l 0 = Some m /\ heap_pop swp comp k l n = Ok l' /\
      nth_error l' (n - 1) = Some m /\
      (forall i x, i < n -> nth_error l i = Some x -> comp m x = false) /\
      is_heap comp k (n - 1) l' /\ Permutation l l' /\
      (forall i, n <= i -> nth_error l' i = nth_error l i).
Proof. exact @pop_heap_correct_k. Qed.
Print Assumptions C02_heap_pop_every_k.

(* C02 for class types, without exception. *)
Theorem C02_pop_heap_class_types :
  forall (A : Type) (comp : A -> A -> bool) (l : list A),
    strict_weak_order comp -> l <> [] -> is_heap comp 2 (length l) l ->
    exists m rest, pop_heap temp_swap comp l = Ok (rest ++ [m]) /\ nth_error l 0 = Some m /\
      greatest comp m l /\ is_heap comp 2 (length rest) rest /\
      Permutation l (rest ++ [m]).
Proof. exact @pop_heap_class_types. Qed.
Print Assumptions C02_pop_heap_class_types.

(* C02 is false for built-in integers: popping a heap of one int overwrites it
   with zero, because the element is xor-swapped with itself. *)
Theorem C164_pop_heap_single_int_refuted :
  forall (comp : Z -> Z -> bool) (x : Z), pop_heap xor_swap comp [x] = Ok [0%Z].
Proof. exact pop_heap_single_int. Qed.
Print Assumptions C164_pop_heap_single_int_refuted.

Example C02_case :
  let l := [(9,0); (5,1); (9,5); (5,3); (1,4); (8,2)] in
  is_heap by_fst 2 (length l) l /\
  pop_heap temp_swap by_fst l = Ok [(9,5); (5,1); (8,2); (5,3); (1,4); (9,0)] /\
  pop_heap xor_swap Z.ltb [9; 5; 8; 5]%Z = Ok [8; 5; 5; 9]%Z.
Proof. split; [small_heap|split; vm_compute; reflexivity]. Qed.

(* Both ways of swapping satisfy the hypothesis of the theorems of this file. *)
Example swappers_case :
  exchanges (@temp_swap (nat * nat)) /\ keeps_self (@temp_swap (nat * nat)) /\ exchanges xor_swap.
Proof. exact (conj temp_swap_exchanges (conj temp_swap_keeps_self xor_swap_exchanges)). Qed.

(* C03.  The empty range, which std::make_heap accepts, is excluded. *)
Theorem C03_make_heap :
  forall (A : Type) (swp : swapper A) (comp : A -> A -> bool) (k : nat) (l : list A),
    exchanges swp -> strict_weak_order comp -> 1 <= k -> l <> [] ->
    exists l', make_heap swp comp k l = Ok l' /\
      is_heap comp k (length l') l' /\ Permutation l l'.
Proof. exact @make_heap_correct. Qed.
Print Assumptions C03_make_heap.

(* C03, the excluded case: make_heap on an empty range is undefined behaviour. *)
Theorem C165_make_heap_empty_refuted :
  forall (A : Type) (swp : swapper A) (comp : A -> A -> bool) (k : nat), make_heap swp comp k [] = UB.
Proof. intros; reflexivity. Qed.
Print Assumptions C165_make_heap_empty_refuted.

Example C03_case :
  make_heap temp_swap by_fst 3 [(1,0); (5,1); (9,5); (5,3); (1,4); (8,2); (7,7)] =
    Ok [(9,5); (8,2); (1,0); (5,3); (1,4); (5,1); (7,7)].
Proof. vm_compute; reflexivity. Qed.

(* C04 *)
Theorem C04_priority_queue_history :
  forall (A : Type) (swp : swapper A) (comp : A -> A -> bool) (cap : nat) (os : list (pq_op A)),
    exchanges swp -> strict_weak_order comp -> pq_legal cap 0 os = true ->
    exists c, pq_run swp comp cap [] os = Ok c /\
      bag_run comp [] (map op_to_bag os) c /\
      pq_size c + pops os = pushes os /\
      (pq_empty c = false -> exists t, pq_top c = Ok t /\ greatest comp t c) /\
      (exists out, pq_drain swp comp (pq_size c) c = Ok out /\ Permutation c out /\
         priority_sorted comp out).
Proof. exact @pq_history_correct. Qed.
Print Assumptions C04_priority_queue_history.

(* C04, one pop: what leaves the queue is exactly what top() showed. *)
Theorem C04_pop_removes_top :
  forall (A : Type) (swp : swapper A) (comp : A -> A -> bool) (c : list A),
    exchanges swp -> strict_weak_order comp -> is_heap comp 2 (length c) c -> c <> [] ->
    exists t c', pq_top c = Ok t /\ pq_pop swp comp c = Ok c' /\
      is_heap comp 2 (length c') c' /\ Permutation c (t :: c') /\ greatest comp t c.
Proof. exact @pq_pop_correct. Qed.
Print Assumptions C04_pop_removes_top.

Example C04_case :
  let os := [Push (3,0); Push (7,1); Push (5,2); Pop; Push (7,3); Push (5,4)] in
  pq_legal 4 0 os = true /\
  pq_run temp_swap by_fst 4 [] os = Ok [(7,3); (5,4); (5,2); (3,0)] /\
  pq_drain temp_swap by_fst 4 [(7,3); (5,4); (5,2); (3,0)] = Ok [(7,3); (5,4); (5,2); (3,0)].
Proof. repeat split; vm_compute; reflexivity. Qed.

(* C05.  A queue holding exactly one element is excluded. *)
Theorem C05_erase_if :
  forall (A : Type) (swp : swapper A) (comp : A -> A -> bool) (c : list A) (f : A -> bool),
    exchanges swp -> strict_weak_order comp -> length c <> 1 -> is_heap comp 2 (length c) c ->
    exists c' r, pq_erase_if swp comp c f = Ok (c', r) /\ is_heap comp 2 (length c') c' /\
      (r = true <-> exists x, In x c /\ f x = true) /\
      (r = false -> c' = c) /\
      (r = true -> exists v, f v = true /\ Permutation c (v :: c')).
Proof. exact @pq_erase_if_correct. Qed.
Print Assumptions C05_erase_if.

(* C05, the excluded case: erasing the only element is undefined behaviour. *)
Theorem C166_erase_only_element_refuted :
  forall (A : Type) (swp : swapper A) (comp : A -> A -> bool) (x : A) (f : A -> bool),
    f x = true -> pq_erase_if swp comp [x] f = UB.
Proof. exact @pq_erase_last_ub. Qed.
Print Assumptions C166_erase_only_element_refuted.

Example C05_case :
  let c := [(7,3); (5,4); (5,2); (3,0)] in
  is_heap by_fst 2 (length c) c /\
  pq_erase_if temp_swap by_fst c (fun x => Nat.eqb (snd x) 4) = Ok ([(7,3); (3,0); (5,2)], true).
Proof. split; [small_heap|vm_compute; reflexivity]. Qed.

(* C06.  emplace returns the new element when it does not rise above its
   parent (it then stays last). *)
Theorem C06_emplace_returns_element :
  forall (A : Type) (swp : swapper A) (comp : A -> A -> bool) (cap : nat) (c : list A) (v : A),
    exchanges swp -> strict_weak_order comp -> is_heap comp 2 (length c) c -> length c < cap ->
    (forall y, nth_error c ((length c - 1) / 2) = Some y -> comp y v = false) ->
    exists c', pq_emplace swp comp cap c v = Ok (c', v) /\ c' = c ++ [v].
Proof. exact @pq_emplace_value. Qed.
Print Assumptions C06_emplace_returns_element.

(* C06 is false of every element that rises: the accessor shows the element it passed first,
   which is another one (the new one beats it). *)
Theorem C167_emplace_returns_other_element_refuted :
  forall (A : Type) (swp : swapper A) (comp : A -> A -> bool) (cap : nat) (c : list A) (v y : A),
    exchanges swp -> strict_weak_order comp -> is_heap comp 2 (length c) c -> length c < cap ->
    nth_error c ((length c - 1) / 2) = Some y -> comp y v = true ->
    exists c', pq_emplace swp comp cap c v = Ok (c', y) /\ y <> v.
Proof.
  intros A swp comp cap c v y EX SWO Hh Hc Hy Hr.
  destruct (pq_emplace_rises swp comp cap c v y EX SWO Hh Hc Hy Hr) as (c' & E).
  exists c'. split; auto. intros ->. destruct SWO as [Irr _]. congruence.
Qed.
Print Assumptions C167_emplace_returns_other_element_refuted.

Example C167_case :
  pq_emplace temp_swap by_fst 4 [(5,0); (4,1); (3,2)] (9,3) = Ok ([(9,3); (5,0); (3,2); (4,1)], (4,1)).
Proof. vm_compute; reflexivity. Qed.

Example C06_case :
  pq_emplace temp_swap by_fst 4 [(5,0); (4,1)] (5,2) = Ok ([(5,0); (4,1); (5,2)], (5,2)).
Proof. vm_compute; reflexivity. Qed.
