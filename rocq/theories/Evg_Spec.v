(* What the users of an event group rely on.  The flags are the bits of a number. *)
From Coq Require Import List Arith Bool ZArith.
Import ListNotations.

(* a time to wait: so many ticks, or for ever (max_delay()) *)
Definition patience := option nat.
Inductive eop :=
  | SetBits (b : Z)                                   (* set_bits(b) *)
  | ClearBits (b : Z)                                 (* clear_bits(b) *)
  | WaitBits (want : Z) (clear all : bool) (d : patience)   (* wait_bits(want, clear, all, d) *)
  | Sync (set want : Z) (d : patience).               (* sync(set, want, d) *)

(* the flags waited for are there: all of them, or one *)
Definition met (all : bool) (want bits : Z) : Prop :=
  if all then forall k, (0 <= k)%Z -> Z.testbit want k = true -> Z.testbit bits k = true
  else exists k, (0 <= k)%Z /\ Z.testbit want k = true /\ Z.testbit bits k = true.
Definition waits_for (o : eop) : option (bool * Z) :=
  match o with WaitBits want _ all _ => Some (all, want) | Sync _ want _ => Some (true, want) | _ => None end.
Definition clears (o : eop) : bool := match o with WaitBits _ c _ _ => c | Sync _ _ _ => true | _ => false end.

(* a completed operation: task, operation, the flags it answered, and whether its time ran out *)
Definition history := list (nat * eop * Z * bool).
Definition by_task (t : nat) (h : history) : history := filter (fun e => fst (fst (fst e)) =? t) h.

(* n tasks meet: task i sets own i and waits for [all].  Each has a flag of its own in [all],
   and together they set all of it. *)
Definition rendezvous (n : nat) (own : nat -> Z) (all : Z) : Prop :=
  (forall k, (0 <= k)%Z -> Z.testbit all k = true -> exists i, i < n /\ Z.testbit (own i) k = true) /\
  (forall i, i < n -> exists k, (0 <= k)%Z /\ Z.testbit all k = true /\ Z.testbit (own i) k = true /\
      forall j, j < n -> j <> i -> Z.testbit (own j) k = false).

(* flag k is set by an operation that starts; flag k is taken away by one that completes *)
Definition sets (o : eop) (k : Z) : bool :=
  match o with SetBits b | Sync b _ _ => Z.testbit b k | _ => false end.
Definition takes (k : Z) (e : nat * eop * Z * bool) : bool :=
  match e with
  | (_, ClearBits b, _, _) => Z.testbit b k
  | (_, WaitBits want true _ _, _, false) => Z.testbit want k
  | (_, Sync _ want _, _, false) => Z.testbit want k
  | _ => false
  end.

(* the life of event_group objects *)
Inductive gop :=
  | GNew (x : nat) (ok : bool)   (* event_group x; ok: there was memory for it *)
  | GCopy (x y : nat)            (* event_group x(y) *)
  | GUse (x : nat)               (* any operation of x *)
  | GEnd (x : nat).              (* the end of x's life *)
(* a program that C++ scoping allows: only live objects are used *)
Fixpoint scoped (live : nat -> bool) (l : list gop) : bool :=
  match l with
  | [] => true
  | GNew x _ :: r => negb (live x) && scoped (fun i => if i =? x then true else live i) r
  | GCopy x y :: r => negb (live x) && live y && scoped (fun i => if i =? x then true else live i) r
  | GUse x :: r => live x && scoped live r
  | GEnd x :: r => live x && scoped (fun i => if i =? x then false else live i) r
  end.
Definition plain (o : gop) : bool := match o with GNew _ ok => ok | GCopy _ _ => false | _ => true end.
