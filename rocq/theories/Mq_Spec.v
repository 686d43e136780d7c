(* What the users of a message queue rely on: the operations that completed, with their answers,
   oldest first, are those of one ideal queue, used by one task at a time. *)
From Coq Require Import List Arith Bool.
Import ListNotations.

Inductive qop (V : Type) :=
  | Send (v : V)                (* send(v): waits for room *)
  | SendFor (v : V) (n : nat)   (* send(v, n ticks) *)
  | SendIsr (v : V)             (* send_from_isr(v): never waits *)
  | Receive                     (* receive(&x): waits for a message *)
  | ReceiveFor (n : nat)        (* receive(&x, n ticks) *)
  | Waiting.                    (* messages_waiting() *)
Arguments Send {V} v. Arguments SendFor {V} v n. Arguments SendIsr {V} v.
Arguments Receive {V}. Arguments ReceiveFor {V} n. Arguments Waiting {V}.
Inductive answer (V : Type) := Sent (b : bool) | Received (o : option V) | Count (n : nat).
Arguments Sent {V} b. Arguments Received {V} o. Arguments Count {V} n.
Definition history V := list (nat * qop V * answer V).

(* one operation on an ideal queue of the given capacity *)
Inductive allowed {V} (cap : nat) : list V -> qop V -> answer V -> list V -> Prop :=
  | send_room q v : length q < cap -> allowed cap q (Send v) (Sent true) (q ++ [v])
  | send_for_room q v n : length q < cap -> allowed cap q (SendFor v n) (Sent true) (q ++ [v])
  | send_for_full q v n : length q = cap -> allowed cap q (SendFor v n) (Sent false) q
  | send_isr_room q v : length q < cap -> allowed cap q (SendIsr v) (Sent true) (q ++ [v])
  | send_isr_full q v : length q = cap -> allowed cap q (SendIsr v) (Sent false) q
  | receive_oldest q v : allowed cap (v :: q) Receive (Received (Some v)) q
  | receive_for_oldest q v n : allowed cap (v :: q) (ReceiveFor n) (Received (Some v)) q
  | receive_for_none n : allowed cap [] (ReceiveFor n) (Received None) []
  | count_all q : allowed cap q Waiting (Count (length q)) q.
Inductive ideal {V} (cap : nat) : list V -> history V -> list V -> Prop :=
  | ideal_nil q : ideal cap q [] q
  | ideal_next q t o a q1 h q2 : allowed cap q o a q1 -> ideal cap q1 h q2 -> ideal cap q ((t, o, a) :: h) q2.

Definition value {V} (o : qop V) : list V := match o with Send v | SendFor v _ | SendIsr v => [v] | _ => [] end.
(* the messages that were accepted, and those that were delivered *)
Definition sent {V} (h : history V) : list V :=
  flat_map (fun e => match e with (_, o, Sent true) => value o | _ => [] end) h.
Definition received {V} (h : history V) : list V :=
  flat_map (fun e => match e with (_, _, Received (Some v)) => [v] | _ => [] end) h.
(* the part of task t *)
Definition by_task {V} (t : nat) (h : history V) : history V := filter (fun e => fst (fst e) =? t) h.
Definition ops {V} (h : history V) : list (qop V) := map (fun e => snd (fst e)) h.

Definition is_send {V} (o : qop V) : bool := match o with Send _ => true | _ => false end.
Definition is_receive {V} (o : qop V) : bool := match o with Receive => true | _ => false end.
Definition sends {V} (ps : list (list (qop V))) : nat := length (filter is_send (concat ps)).
Definition receives {V} (ps : list (list (qop V))) : nat := length (filter is_receive (concat ps)).
(* each task only sends, or only receives, and without a timeout *)
Definition one_way {V} (p : list (qop V)) : Prop :=
  (forall o, In o p -> is_send o = true) \/ (forall o, In o p -> is_receive o = true).
(* a schedule in which each of n tasks has a turn in every round *)
Definition all_served {B} (n : nat) (rounds : list (list (nat * B))) : Prop :=
  Forall (fun r => forall t, t < n -> exists b, In (t, b) r) rounds.
