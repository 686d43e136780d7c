(* What lock users rely on, over the events of an execution, oldest first: a thread has taken or
   given back a mutex, or has completed an update of a shared variable. *)
From Coq Require Import List Arith Bool ZArith.
Import ListNotations.

Inductive event := Acquired (t m : nat) | Released (t m : nat) | Updated (t v : nat).

Definition acquired (tr : list event) (t m : nat) : nat :=
  length (filter (fun e => match e with Acquired t' m' => (t' =? t) && (m' =? m) | _ => false end) tr).
Definition released (tr : list event) (t m : nat) : nat :=
  length (filter (fun e => match e with Released t' m' => (t' =? t) && (m' =? m) | _ => false end) tr).
Definition updates (tr : list event) (v : nat) : nat :=
  length (filter (fun e => match e with Updated _ v' => v' =? v | _ => false end) tr).

(* after the events tr, t holds m *)
Definition holds (tr : list event) (t m : nat) : Prop := released tr t m < acquired tr t m.
(* at no time do two threads hold the same mutex *)
Definition exclusive (tr : list event) : Prop :=
  forall p q, tr = p ++ q -> forall m t1 t2, holds p t1 m -> holds p t2 m -> t1 = t2.

(* a schedule that lets each of n threads try at least once per round *)
Definition fair_rounds (n : nat) (rounds : list (list nat)) : Prop := Forall (fun r => forall t, t < n -> In t r) rounds.

(* semaphores: the operations that completed, with their results (acquire and release: true) *)
Inductive sop := Acquire | TryAcquire | Release.
Definition passed (o : sop) : bool := match o with Release => false | _ => true end.
(* the acquisitions that succeeded, and the releases *)
Definition through (l : list (sop * bool)) : nat := length (filter (fun x => passed (fst x) && snd x) l).
Definition releases (l : list (sop * bool)) : nat := length (filter (fun x => negb (passed (fst x))) l).
