(* Properties C34-C36, C60, C61: general algorithms and swap. *)
From Verif Require Import Base Swap_Model Swap_Spec Swap_Proofs Heap_Model Heap_Spec
  Algo_Model Algo_Spec Algo_Proofs.

Example ltb_swo : strict_weak_order Nat.ltb.
Proof.
  split; intros;
    repeat match goal with
           | H : _ = true |- _ => apply Nat.ltb_lt in H
           | H : _ = false |- _ => apply Nat.ltb_ge in H
           end;
    [apply Nat.ltb_ge | apply Nat.ltb_lt | split; apply Nat.ltb_ge]; lia.
Qed.

(* C34: destination before the source, or beyond it, or no overlap. *)
Theorem C34_copy :
  forall (A : Type) (m : list A) (first last d : nat),
    first <= last -> last <= length m -> d + (last - first) <= length m ->
    d <= first \/ last <= d ->
    exists m', copy m first last d = Ok (m', d + (last - first)) /\
      moved m m' first (last - first) d.
Proof. exact @copy_spec. Qed.
Print Assumptions C34_copy.

Theorem C34_copy_n :
  forall (A : Type) (n : nat) (m : list A) (first d : nat),
    first + n <= length m -> d + n <= length m -> d <= first \/ first + n <= d ->
    exists m', copy_n m first n d = Ok (m', d + n) /\ moved m m' first n d.
Proof. exact @copy_n_spec. Qed.
Print Assumptions C34_copy_n.

Theorem C34_copy_backward :
  forall (A : Type) (m : list A) (first last d_last : nat),
    first <= last -> last <= length m -> last - first <= d_last <= length m ->
    last <= d_last \/ d_last <= first ->
    exists m', copy_backward m first last d_last = Ok (m', d_last - (last - first)) /\
      moved m m' first (last - first) (d_last - (last - first)).
Proof. exact @copy_backward_spec. Qed.
Print Assumptions C34_copy_backward.

Example C34_case :
  copy [1;2;3;4;5;6] 2 6 1 = Ok ([1;3;4;5;6;6], 5) /\
  copy_n [1;2;3;4;5;6] 2 4 1 = Ok ([1;3;4;5;6;6], 5) /\
  copy_backward [1;2;3;4;5;6] 0 4 5 = Ok ([1;1;2;3;4;6], 1).
Proof. repeat split; vm_compute; reflexivity. Qed.

(* C35 *)
Theorem C35_find_if :
  forall (A : Type) (p : A -> bool) (m : list A) (first last : nat),
    first <= last -> last <= length m ->
    exists r, find_if m first last p = Ok r /\
      first_such m first last (fun x => p x = true) r.
Proof. exact @find_if_spec. Qed.
Print Assumptions C35_find_if.

Theorem C35_find_first_of :
  forall (A : Type) (p : A -> A -> bool) (m : list A) (first last : nat) (s : list A),
    first <= last -> last <= length m ->
    exists r, find_first_of p m first last s = Ok r /\
      first_such m first last (fun x => exists y, In y s /\ p x y = true) r.
Proof. exact @find_first_of_spec. Qed.
Print Assumptions C35_find_first_of.

(* The internal find_last_of works on (first,last]: last itself is examined. *)
Theorem C35_find_last_of :
  forall (A : Type) (p : A -> A -> bool) (m : list A) (first last : nat) (s : list A),
    first <= last -> last < length m ->
    exists r, find_last_of p m first last s = Ok r /\ first <= r <= last /\
      (forall j x, r < j <= last -> nth_error m j = Some x ->
         forall y, In y s -> p x y = false) /\
      (first < r -> exists x y, nth_error m r = Some x /\ In y s /\ p x y = true).
Proof. exact @find_last_of_spec. Qed.
Print Assumptions C35_find_last_of.

Theorem C35_search :
  forall (A : Type) (p : A -> A -> bool) (m : list A) (first last : nat) (s : list A),
    first <= last -> last <= length m ->
    exists r, search p m first last s = Ok r /\ first <= r <= last /\
      (forall j, first <= j < r -> ~ occurs_at (fun x y => p x y = true) m last s j) /\
      (r < last \/ s = [] -> occurs_at (fun x y => p x y = true) m last s r).
Proof. exact @search_spec. Qed.
Print Assumptions C35_search.

Theorem C35_mismatch :
  forall (A : Type) (eqb : A -> A -> bool), (forall x y, eqb x y = true <-> x = y) ->
  forall (m1 : list A) (first1 last1 : nat) (m2 : list A) (first2 : nat),
    first1 <= last1 -> last1 <= length m1 -> first2 + (last1 - first1) <= length m2 ->
    exists k, mismatch eqb m1 first1 last1 m2 first2 = Ok (first1 + k, first2 + k) /\
      k <= last1 - first1 /\
      (forall j, j < k -> agree m1 first1 m2 first2 j) /\
      (k < last1 - first1 -> ~ agree m1 first1 m2 first2 k).
Proof. exact @mismatch_spec. Qed.
Print Assumptions C35_mismatch.

Theorem C35_equal :
  forall (A : Type) (eqb : A -> A -> bool), (forall x y, eqb x y = true <-> x = y) ->
  forall (m1 : list A) (first1 last1 : nat) (m2 : list A) (first2 : nat),
    first1 <= last1 -> last1 <= length m1 -> first2 + (last1 - first1) <= length m2 ->
    exists b, equal eqb m1 first1 last1 m2 first2 = Ok b /\
      (b = true <-> forall j, j < last1 - first1 -> agree m1 first1 m2 first2 j).
Proof. exact @equal_spec. Qed.
Print Assumptions C35_equal.

Example C35_case :
  find_if [5;6;7;8;7] 1 5 (fun x => Nat.eqb x 7) = Ok 2 /\
  find_first_of Nat.eqb [5;6;7;8;7] 0 5 [9;8;7] = Ok 2 /\
  find_last_of Nat.eqb [5;6;7;8;5] 0 4 [6;7] = Ok 2 /\
  search Nat.eqb [1;1;2;1;1;3] 0 6 [1;1;3] = Ok 3 /\
  search Nat.eqb [1;1;2;1;1;3] 0 5 [1;1;3] = Ok 5 /\
  mismatch Nat.eqb [1;2;3] 0 3 [9;1;2;4] 1 = Ok (2, 3) /\
  equal Nat.eqb [1;2;3] 0 3 [9;1;2;3] 1 = Ok true.
Proof. repeat split; vm_compute; reflexivity. Qed.

(* C36 *)
Theorem C36_min_element :
  forall (A : Type) (comp : A -> A -> bool), strict_weak_order comp ->
  forall (m : list A) (first last : nat),
    first < last -> last <= length m ->
    exists r, min_element comp m first last = Ok r /\ first_least comp m first last r.
Proof. exact @min_element_spec. Qed.
Print Assumptions C36_min_element.

(* first_least for the flipped order: the first greatest element *)
Theorem C36_max_element :
  forall (A : Type) (comp : A -> A -> bool) (m : list A) (first last : nat),
    strict_weak_order comp -> first < last -> last <= length m ->
    exists r, max_element comp m first last = Ok r /\
      first_least (fun a b => comp b a) m first last r.
Proof. exact @max_element_spec_full. Qed.
Print Assumptions C36_max_element.

Theorem C36_empty_range :
  forall (A : Type) (comp : A -> A -> bool) (m : list A) (i : nat),
    min_element comp m i i = Ok i /\ max_element comp m i i = Ok i.
Proof. exact @minmax_empty. Qed.
Print Assumptions C36_empty_range.

Theorem C36_clamp :
  forall (A : Type) (comp : A -> A -> bool) (v lo hi : A),
    strict_weak_order comp -> comp hi lo = false ->
    exists r, clamp comp v lo hi = Ok r /\ comp r lo = false /\ comp hi r = false /\
      (comp v lo = false -> comp hi v = false -> r = v) /\
      (comp v lo = true -> r = lo) /\ (comp hi v = true -> r = hi).
Proof. exact @clamp_spec. Qed.
Print Assumptions C36_clamp.

(* min and max of two: one of them, with nothing before (after) it; the first of equivalent ones. *)
Theorem C36_min_max :
  forall (A : Type) (comp : A -> A -> bool) (a b : A), strict_weak_order comp ->
    (comp a (min2 comp a b) = false /\ comp b (min2 comp a b) = false /\
     comp (max2 comp a b) a = false /\ comp (max2 comp a b) b = false) /\
    (comp b a = true -> min2 comp a b = b /\ max2 comp a b = a) /\
    (comp a b = true -> min2 comp a b = a /\ max2 comp a b = b) /\
    (comp a b = false -> comp b a = false -> min2 comp a b = a /\ max2 comp a b = a).
Proof.
  intros A comp a b S. pose proof S as [I T _].
  assert (AS : comp a b = true -> comp b a = true -> False).
  { intros X Y. pose proof (T _ _ _ X Y) as Q. rewrite I in Q. discriminate. }
  unfold min2, max2. pose proof (I a). pose proof (I b).
  destruct (comp a b) eqn:E; destruct (comp b a) eqn:F; try (now exfalso; auto);
    repeat split; try assumption; try reflexivity; try discriminate.
Qed.
Print Assumptions C36_min_max.

Theorem C36_reverse :
  forall (A : Type) (swp : swapper A) (m : list A) (first last : nat),
    exchanges swp -> first <= last -> last <= length m ->
    exists m', reverse swp m first last = Ok m' /\ length m' = length m /\
      forall i, nth_error m' i = if Nat.leb first i && Nat.ltb i last
                                 then nth_error m (first + last - 1 - i) else nth_error m i.
Proof. exact @reverse_spec. Qed.
Print Assumptions C36_reverse.

Theorem C36_reverse_whole_array :
  forall (A : Type) (swp : swapper A) (m : list A),
    exchanges swp -> reverse swp m 0 (length m) = Ok (rev m).
Proof. exact @reverse_whole. Qed.
Print Assumptions C36_reverse_whole_array.

Example C36_case :
  min_element Nat.ltb [4;2;7;2] 0 4 = Ok 1 /\ max_element Nat.ltb [4;7;2;7] 0 4 = Ok 1 /\
  clamp Nat.ltb 9 2 5 = Ok 5 /\ min2 Nat.ltb 9 2 = 2 /\ max2 Nat.ltb 9 2 = 9 /\ reverse xor_swap [1;2;3;4;5]%Z 1 5 = Ok [1;5;4;3;2]%Z.
Proof. repeat split; vm_compute; reflexivity. Qed.

(* C60: swap exchanges two objects, for class types and for built-in integers. *)
Theorem C60_swap_class_types :
  forall (A : Type), exchanges (@temp_swap A) /\ keeps_self (@temp_swap A).
Proof. exact (fun A => conj temp_swap_exchanges temp_swap_keeps_self). Qed.
Print Assumptions C60_swap_class_types.

(* Built-in integers, two different objects. *)
Theorem C60_swap_integers : exchanges xor_swap.
Proof. exact xor_swap_exchanges. Qed.
Print Assumptions C60_swap_integers.

(* Swapping a built-in integer with itself sets it to zero. *)
Theorem C204_self_swap_integer_refuted :
  forall (l : list Z) (a : nat) (x : Z),
    nth_error l a = Some x -> xor_swap l a a = Ok (upd l a 0%Z).
Proof. exact xor_swap_self. Qed.
Print Assumptions C204_self_swap_integer_refuted.

Example C60_case :
  temp_swap [3;4] 0 1 = Ok [4;3] /\ temp_swap [3;4] 1 1 = Ok [3;4] /\
  xor_swap [3;-4]%Z 0 1 = Ok [-4;3]%Z /\ xor_swap [3;4]%Z 1 1 = Ok [3;0]%Z.
Proof. repeat split; vm_compute; reflexivity. Qed.

(* C61 *)
Theorem C61_fill_n :
  forall (A : Type) (v : A) (n : nat) (m : list A) (first : nat),
    first + n <= length m ->
    exists m', fill_n m first n v = Ok (m', first + n) /\ length m' = length m /\
      forall i, nth_error m' i = if Nat.leb first i && Nat.ltb i (first + n)
                                 then Some v else nth_error m i.
Proof. exact @fill_n_spec. Qed.
Print Assumptions C61_fill_n.

Theorem C61_fill :
  forall (A : Type) (m : list A) (first last : nat) (v : A),
    first <= last -> last <= length m ->
    exists m', fill m first last v = Ok m' /\ length m' = length m /\
      forall i, nth_error m' i = if Nat.leb first i && Nat.ltb i last
                                 then Some v else nth_error m i.
Proof. exact @fill_spec. Qed.
Print Assumptions C61_fill.

Theorem C61_accumulate :
  forall (A B : Type) (op : B -> A -> B) (m : list A) (first last : nat) (init : B),
    first <= last -> last <= length m ->
    accumulate op m first last init =
      Ok (fold_left op (firstn (last - first) (skipn first m)) init).
Proof. exact @accumulate_spec. Qed.
Print Assumptions C61_accumulate.

Example C61_case :
  fill_n [1;2;3;4] 1 2 9 = Ok ([1;9;9;4], 3) /\ fill [1;2;3;4] 1 4 9 = Ok [1;9;9;9] /\
  accumulate Nat.sub [1;2;3;4] 1 3 20 = Ok 15.
Proof. repeat split; vm_compute; reflexivity. Qed.
