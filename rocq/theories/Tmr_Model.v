(* Model of the FreeRTOS timers: port/freertos/timer.h and wrapper/timer.h.

   The operating system's timer service is modelled by its documentation (timers.c of FreeRTOS 10):
   the calls only put a command into a queue, a task of the operating system takes the commands in
   order and runs the callbacks of the timers that are due.  The tick count is a number that does
   not wrap around; a call that finds the queue full for all of its block time says so (ok = false
   in the act).  Names, ids, the calls from interrupts and pend_function_call are not modelled. *)
From Coq Require Import List Arith Bool.
From Verif Require Import Base Tmr_Spec.
Import ListNotations.

Inductive cmd := CStart (at_ : nat) | CStop | CPeriod (p : nat) | CDelete.
(* mem: its memory is valid; home: the object whose storage it is (timer<true>), or None: on the heap *)
Record tmr := Tmr { mem : bool; home : option nat; listed : bool; expiry : nat; period : nat; reload : bool }.
Record world := World {
  now : nat; tms : nat -> tmr; fresh : nat; queue : list (nat * cmd);
  objs : nat -> option (option nat);        (* the handles in the objects; None inside: null *)
  ran : list (nat * nat) }.                 (* the callbacks that ran: timer, time *)

Definition set_tmr (w : world) (t : nat) (x : tmr) : world :=
  World (now w) (put (tms w) t x) (fresh w) (queue w) (objs w) (ran w).
Definition send (w : world) (t : nat) (c : cmd) : world :=
  World (now w) (tms w) (fresh w) (queue w ++ [(t, c)]) (objs w) (ran w).
Definition set_obj (w : world) (o : nat) (h : option (option nat)) : world :=
  World (now w) (tms w) (fresh w) (queue w) (put (objs w) o h) (ran w).

(* wrapper/timer.h:58-61 start, :69-72 stop, :94-97 change_period, :109-112 reset; each over
   internal::timer, :170-190 *)
Definition command (w : world) (u : ucmd) : cmd :=
  match u with
  | UStart => CStart (now w)
  | UReset => CStart (now w)
  | UStop => CStop
  | UPeriod p => CPeriod p
  end.
(* the timer task takes a command *)
Definition obey (w : world) (x : tmr) (c : cmd) : tmr :=
  match c with
  | CStart a => Tmr (mem x) (home x) true (a + period x) (period x) (reload x)
  | CStop => Tmr (mem x) (home x) false (expiry x) (period x) (reload x)
  | CPeriod p => Tmr (mem x) (home x) true (now w + p) p (reload x)
  | CDelete => Tmr (match home x with None => false | Some _ => mem x end) (home x) false (expiry x) (period x) (reload x)
  end.
(* a null handle reaches the operating system, which reads through it or stops *)
Definition with_handle (w : world) (o : nat) (k : nat -> result world) : result world :=
  match objs w o with Some (Some t) => k t | _ => UB end.

Definition step (w : world) (a : act) : result world :=
  match a with
  | New o p rl st ok =>                     (* timer.h:16-21 and :43-48 *)
      if ok then
        Ok (World (now w) (put (tms w) (fresh w) (Tmr true (if st then Some o else None) false 0 p rl)) (S (fresh w))
                  (queue w) (put (objs w) o (Some (Some (fresh w)))) (ran w))
      else Ok (set_obj w o (Some None))
  | Copy o o' =>                            (* the copy constructor the compiler adds *)
      match objs w o' with Some h => Ok (set_obj w o (Some h)) | None => UB end
  | Post o u ok => with_handle w o (fun t => Ok (if ok then send w t (command w u) else w))
  | EndPost o ok =>                         (* timer.h:23-27 and :50-54, wrapper/timer.h:53-56: the result of free is ignored *)
      with_handle w o (fun t => Ok (if ok then send w t CDelete else w))
  | EndMem o =>
      match objs w o with
      | Some (Some t) =>
          let x := tms w t in
          let w1 := match home x with
                    | Some o' => if o' =? o then set_tmr w t (Tmr false (home x) (listed x) (expiry x) (period x) (reload x)) else w
                    | None => w
                    end in
          Ok (set_obj w1 o None)
      | _ => Ok (set_obj w o None)
      end
  | Daemon =>
      match queue w with
      | [] => Ok w
      | (t, c) :: r =>
          if mem (tms w t) then
            Ok (World (now w) (put (tms w) t (obey w (tms w t) c)) (fresh w) r (objs w) (ran w))
          else UB
      end
  | Fire t =>
      let x := tms w t in
      if listed x && (expiry x <=? now w) then
        if mem x then
          Ok (World (now w)
                (put (tms w) t (Tmr true (home x) (reload x) (if reload x then expiry x + period x else expiry x) (period x) (reload x)))
                (fresh w) (queue w) (objs w) (ran w ++ [(t, now w)]))
        else UB
      else Ok w
  | Tick => Ok (World (S (now w)) (tms w) (fresh w) (queue w) (objs w) (ran w))
  end.
Fixpoint run (w : world) (l : list act) : result world :=
  match l with
  | [] => Ok w
  | a :: r => match step w a with Ok w' => run w' r | UB => UB | Diverge => Diverge end
  end.
Definition begin : world := World 0 (fun _ => Tmr false None false 0 0 false) 0 [] (fun _ => None) [].
Definition times (t : nat) (w : world) : list nat := map snd (filter (fun e => fst e =? t) (ran w)).
(* wrapper/timer.h:157-158 active, from is_timer_active *)
Definition active (w : world) (t : nat) : bool := listed (tms w t).
(* the timer task has nothing to do *)
Definition idle (w : world) : Prop :=
  queue w = [] /\ forall t, listed (tms w t) = true -> now w < expiry (tms w t).
