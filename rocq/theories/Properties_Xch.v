(* C483, C484: exchange, and what making a pair does to its arguments. *)
From Coq Require Import List Arith Lia.
From Verif Require Import Base Xch_Spec Xch_Model Xch_Proofs.
Import ListNotations.

(* C483.  [old] is the returned object. *)
Theorem C483_exchange : forall V (husk : V -> V) (m : objects V) obj new rvalue old, NoDup [obj; new; old] ->
  let m' := exchange husk m obj new rvalue old in
  value m' old = value m obj /\ value m' obj = value m new /\
  value m' new = (if rvalue then husk (value m new) else value m new) /\ same_but [obj; new; old] m m'.
Proof. exact (fun V husk => exchange_ok husk). Qed.
Print Assumptions C483_exchange.

(* the pair (p, q) made of the objects a and b *)
Theorem C483_pair : forall V (m : objects V) p q a b rvalue_a rvalue_b, p <> q -> ~ In p [a; b] -> ~ In q [a; b] ->
  let m' := pair_of m p q a b rvalue_a rvalue_b in
  value m' p = value m a /\ value m' q = value m b /\ same_but [p; q] m m'.
Proof.
  intros V m p q a b ra rb N Hp Hq. destruct (pair_ok m p q a b ra rb N Hp Hq) as (A & B & C & _). auto.
Qed.
Print Assumptions C483_pair.
Theorem C483_make_pair : forall V (husk : V -> V) (m : objects V) p q a b rvalue_a rvalue_b t u, NoDup [p; q; a; b; t; u] ->
  let m' := make_pair husk m p q a b rvalue_a rvalue_b t u in
  value m' p = value m a /\ value m' q = value m b.
Proof.
  intros V husk m p q a b ra rb t u N. destruct (make_pair_ok husk m p q a b ra rb t u N) as (A & B & _). auto.
Qed.
Print Assumptions C483_make_pair.

(* copying, moving, assigning and exchanging whole pairs: (p, q) is made from, or assigned, the pair (a, b) *)
Theorem C483_copy_and_move : forall V (husk : V -> V) (m : objects V) p q a b rvalue, NoDup [p; q; a; b] ->
  let m' := pair_from husk m p q a b rvalue in
  value m' p = value m a /\ value m' q = value m b /\
  value m' a = (if rvalue then husk (value m a) else value m a) /\ value m' b = (if rvalue then husk (value m b) else value m b) /\
  same_but [p; q; a; b] m m' /\ (rvalue = true -> copies m' = copies m) /\ (rvalue = false -> moves m' = moves m).
Proof. exact (fun V husk => pair_from_ok husk). Qed.
Print Assumptions C483_copy_and_move.
Theorem C483_assign : forall V (m : objects V) p q a b rvalue, NoDup [p; q; a; b] ->
  let m' := pair_assign m p q a b rvalue in
  value m' p = value m a /\ value m' q = value m b /\ same_but [p; q] m m'.
Proof. intros V m p q a b rv N. destruct (pair_assign_ok m p q a b rv N) as (A & B & C & _). auto. Qed.
Print Assumptions C483_assign.
Theorem C483_swap : forall V (m : objects V) p q p' q' temp1 temp2, NoDup [p; q; p'; q'; temp1; temp2] ->
  let m' := pair_swap m p q p' q' temp1 temp2 in
  value m' p = value m p' /\ value m' q = value m q' /\ value m' p' = value m p /\ value m' q' = value m q /\
  same_but [p; q; p'; q'; temp1; temp2] m m'.
Proof. intros V m p q p' q' t u N. destruct (pair_swap_ok m p q p' q' t u N) as (A & B & C & D & E & _). auto. Qed.
Print Assumptions C483_swap.
(* get<0> and get<1> are first and second, and there is no other *)
Theorem C483_get : forall index first second o, get index first second = Some o <->
  (index = 0 /\ o = first) \/ (index = 1 /\ o = second).
Proof.
  intros [|[|k]] f s o; cbn; split; intros H; try discriminate; intuition (congruence || discriminate).
Qed.
Print Assumptions C483_get.

(* C484: temporaries are copied into a pair, never moved *)
Theorem C484_pair_refuted : forall V (m : objects V) p q a b, p <> q -> ~ In p [a; b] -> ~ In q [a; b] ->
  let m' := pair_of m p q a b true true in copies m' = copies m + 2 /\ moves m' = moves m.
Proof. intros V m p q a b N Hp Hq. apply (pair_ok m p q a b true true N Hp Hq). Qed.
Print Assumptions C484_pair_refuted.
Theorem C484_make_pair_refuted : forall V (husk : V -> V) (m : objects V) p q a b t u, NoDup [p; q; a; b; t; u] ->
  let m' := make_pair husk m p q a b true true t u in copies m' = copies m + 2.
Proof. intros V husk m p q a b t u _. cbn. lia. Qed.
Print Assumptions C484_make_pair_refuted.
(* and so are the elements of a temporary pair that is assigned, and those of two pairs that are swapped *)
Theorem C484_assign_refuted : forall V (m : objects V) p q a b, NoDup [p; q; a; b] ->
  let m' := pair_assign m p q a b true in copies m' = copies m + 2 /\ moves m' = moves m.
Proof. intros V m p q a b N. apply (pair_assign_ok m p q a b true N). Qed.
Print Assumptions C484_assign_refuted.
Theorem C484_swap_refuted : forall V (m : objects V) p q p' q' temp1 temp2, NoDup [p; q; p'; q'; temp1; temp2] ->
  let m' := pair_swap m p q p' q' temp1 temp2 in copies m' = copies m + 6 /\ moves m' = moves m.
Proof. intros V m p q p' q' t u N. apply (pair_swap_ok m p q p' q' t u N). Qed.
Print Assumptions C484_swap_refuted.

Example C483_case :
  let m := Objects (fun i => 10 * i) 0 0 in let m' := exchange (fun _ => 0) m 1 2 true 3 in
  NoDup [1; 2; 3] /\ value m' 3 = 10 /\ value m' 1 = 20 /\ value m' 2 = 0 /\ copies m' = 0 /\ moves m' = 2.
Proof.
  split; [|repeat split; reflexivity].
  constructor; [cbn; lia|]. constructor; [cbn; lia|]. constructor; [cbn; lia|constructor].
Qed.
Example C484_case :
  let m' := pair_of (Objects (fun i => 10 * i) 0 0) 1 2 3 4 true true in
  value m' 1 = 30 /\ value m' 2 = 40 /\ value m' 3 = 30 /\ copies m' = 2 /\
  let s := pair_swap (Objects (fun i => 10 * i) 0 0) 1 2 3 4 5 6 in value s 1 = 30 /\ value s 4 = 20 /\ copies s = 6.
Proof. repeat split; reflexivity. Qed.
