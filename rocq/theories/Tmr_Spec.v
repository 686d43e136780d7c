(* What the users of FreeRTOS timers rely on.  Time is counted in ticks. *)
From Coq Require Import List Arith Bool.
Import ListNotations.

Inductive ucmd := UStart | UReset | UStop | UPeriod (p : nat).
(* what can happen next: a step of the program, of the operating system's timer task, or of time *)
Inductive act :=
  | New (o p : nat) (rel st : bool) (ok : bool) (* timer<st> o(name, p ticks, rel, ...); ok: there was memory *)
  | Copy (o o' : nat)                          (* timer o(o') *)
  | Post (o : nat) (u : ucmd) (ok : bool)      (* o.start(..) ..; ok: there was room in the command queue in time *)
  | EndPost (o : nat) (ok : bool)              (* the body of o's destructor *)
  | EndMem (o : nat)                           (* the end of o's storage *)
  | Daemon                                     (* the timer task takes the next command *)
  | Fire (t : nat)                             (* the timer task runs the callback of timer t, if it is due *)
  | Tick.                                      (* a tick passes *)

(* an object: not there, live, or its destructor has run *)
Inductive phase := Out | Live (st : bool) | Dying (st : bool).
Definition put {A} (f : nat -> A) (x : nat) (a : A) : nat -> A := fun i => if i =? x then a else f i.
(* programs in which the timers are usable: objects are used while they live and not copied, their
   creation succeeded, their destructor's command found room, and a timer<true> keeps its storage
   until the timer task has worked off the q commands it was given *)
Fixpoint careful (ph : nat -> phase) (q : nat) (l : list act) : Prop :=
  match l with
  | [] => True
  | New o p _ st ok :: r => ph o = Out /\ 0 < p /\ ok = true /\ careful (put ph o (Live st)) q r
  | Copy _ _ :: _ => False
  | Post o u ok :: r => (exists st, ph o = Live st) /\ (forall p, u = UPeriod p -> 0 < p) /\ careful ph (if ok then S q else q) r
  | EndPost o ok :: r => ok = true /\ exists st, ph o = Live st /\ careful (put ph o (Dying st)) (S q) r
  | EndMem o :: r => exists st, ph o = Dying st /\ (st = true -> q = 0) /\ careful (put ph o Out) q r
  | Daemon :: r => careful ph (pred q) r
  | Fire _ :: r | Tick :: r => careful ph q r
  end.
(* acts that say nothing to object o *)
Definition quiet (o : nat) (a : act) : bool :=
  match a with Post x _ _ | EndPost x _ | EndMem x => negb (x =? o) | New x _ _ _ _ => negb (x =? o) | Copy x y => negb (x =? o) && negb (y =? o) | _ => true end.
(* the number of callbacks due d ticks after the start of a timer of period p *)
Definition due (rel : bool) (p d : nat) : nat := if rel then d / p else if p <=? d then 1 else 0.
Definition only_time (a : act) : bool := match a with Fire _ | Tick => true | _ => false end.
(* the period and the kind (auto-reload?) the program has given to its objects *)
Definition given1 (g : nat -> option (nat * bool)) (a : act) : nat -> option (nat * bool) :=
  match a with
  | New o p rel _ _ => put g o (Some (p, rel))
  | Post o (UPeriod p) true => put g o (match g o with Some (_, rel) => Some (p, rel) | None => None end)
  | _ => g
  end.
Definition given (l : list act) : nat -> option (nat * bool) := fold_left given1 l (fun _ => None).
