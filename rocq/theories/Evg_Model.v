(* Model of the FreeRTOS event groups: port/freertos/event_groups.h and wrapper/event_groups.h.

   A task is a list of operations; a schedule is any list of turns.  The operating system's event
   group is modelled by its documentation (and event_groups.c of FreeRTOS 10): an operation takes
   effect in one atomic step, a task that has to wait is woken by the operation that sets the flags
   it waits for, or its turn says that its time is over.  Priorities are left open.  The calls from
   interrupts (wrapper/event_groups.h:50-53, 69-73), which event_groups.h does not change, and the
   limit of 8 or 24 flags are not modelled. *)
From Coq Require Import List Arith Bool ZArith.
From Verif Require Import Base Evg_Spec.
Import ListNotations.

Record waiter := Waiter { who : nat; want : Z; wclear : bool; wall : bool }.
Record world := World { bits : Z; waiting : list waiter; todo : nat -> list eop; hist : history }.

(* the test of xEventGroupWaitBits and xEventGroupSetBits *)
Definition ready (all : bool) (want bits : Z) : bool :=
  if all then (Z.land bits want =? want)%Z else negb (Z.land bits want =? 0)%Z.

Definition pop (w : nat -> list eop) (t : nat) : nat -> list eop :=
  fun i => if i =? t then tl (w i) else w i.
(* task t has its answer r *)
Definition complete (w : world) (t : nat) (r : Z) (expired : bool) : world :=
  match todo w t with
  | [] => w
  | o :: _ => World (bits w) (waiting w) (pop (todo w) t) (hist w ++ [(t, o, r, expired)])
  end.
Fixpoint complete_all (w : world) (ws : list waiter) (r : Z) : world :=
  match ws with [] => w | x :: ws' => complete_all (complete w (who x) r false) ws' r end.

Definition unset (b c : Z) : Z := Z.land b (Z.lnot c).
Definition to_clear (ws : list waiter) : Z :=
  fold_right (fun x a => Z.lor (if wclear x then want x else 0) a)%Z 0%Z ws.
(* wrapper/event_groups.h:64-67 xEventGroupSetBits: the tasks that see their flags are woken with
   the flags as they are then; the flags they clear on exit are cleared after that *)
Definition set_bits (w : world) (b : Z) : world :=
  let nb := Z.lor (bits w) b in
  let woken := filter (fun x => ready (wall x) (want x) nb) (waiting w) in
  let rest := filter (fun x => negb (ready (wall x) (want x) nb)) (waiting w) in
  complete_all (World (unset nb (to_clear woken)) rest (todo w) (hist w)) woken nb.
(* wrapper/event_groups.h:45-48 xEventGroupClearBits *)
Definition clear_bits (w : world) (b : Z) : world :=
  World (unset (bits w) b) (waiting w) (todo w) (hist w).

Definition no_wait (d : patience) : bool := match d with Some 0 => true | _ => false end.
(* event_groups.h:21-28 over wrapper/event_groups.h:55-62 xEventGroupWaitBits *)
Definition wait_bits (w : world) (t : nat) (wnt : Z) (clear all : bool) (d : patience) : world :=
  if ready all wnt (bits w) then
    complete (World (if clear then unset (bits w) wnt else bits w) (waiting w) (todo w) (hist w)) t (bits w) false
  else if no_wait d then complete w t (bits w) true
  else World (bits w) (waiting w ++ [Waiter t wnt clear all]) (todo w) (hist w).
(* event_groups.h:30-35 over wrapper/event_groups.h:75-80 xEventGroupSync *)
Definition sync (w : world) (t : nat) (set wnt : Z) (d : patience) : world :=
  let r := Z.lor (bits w) set in
  let w1 := set_bits w set in
  if ready true wnt r then
    complete (World (unset (bits w1) wnt) (waiting w1) (todo w1) (hist w1)) t r false
  else if no_wait d then complete w1 t (bits w1) true
  else World (bits w1) (waiting w1 ++ [Waiter t wnt true true]) (todo w1) (hist w1).

Definition patient (o : eop) : bool :=
  match o with WaitBits _ _ _ None | Sync _ _ None => true | _ => false end.
Definition is_waiting (w : world) (t : nat) : bool := existsb (fun x => who x =? t) (waiting w).
(* a turn of task t; expired: the time of its wait is over.  None: it waits, or is done *)
Definition turn (w : world) (t : nat) (expired : bool) : option world :=
  match todo w t with
  | [] => None
  | o :: _ =>
      if is_waiting w t then
        if expired && negb (patient o) then
          Some (complete (World (bits w) (filter (fun x => negb (who x =? t)) (waiting w)) (todo w) (hist w))
                         t (bits w) true)
        else None
      else
        Some (match o with
              | SetBits b => let w1 := set_bits w b in complete w1 t (bits w1) false
              | ClearBits b => complete (clear_bits w b) t (bits w) false
              | WaitBits wnt clear all d => wait_bits w t wnt clear all d
              | Sync set wnt d => sync w t set wnt d
              end)
  end.
Fixpoint run (w : world) (sched : list (nat * bool)) : world :=
  match sched with
  | [] => w
  | (t, e) :: r => run (match turn w t e with Some w' => w' | None => w end) r
  end.
(* event_groups.h:48 a new group has no flag set; task t runs the t-th list *)
Definition start (ps : list (list eop)) : world := World 0 [] (fun t => nth t ps []) [].
Definition finished (w : world) : Prop := forall t, todo w t = [].

(* ---- the objects.  handle_of x: the handle in object x, None inside for the null handle;
   made h: the operating system's group h exists. *)
Record groups := Groups { handle_of : nat -> option (option nat); made : nat -> bool; fresh : nat }.
Definition with_handle (s : groups) (x : nat) (k : nat -> result groups) : result groups :=
  match handle_of s x with
  | Some (Some h) => if made s h then k h else UB
  | _ => UB                               (* the null handle: FreeRTOS reads through it *)
  end.
Definition gop_run1 (s : groups) (o : gop) : result groups :=
  match o with
  | GNew x ok =>                          (* event_groups.h:48 over wrapper/event_groups.h:28-31; :61 *)
      if ok then Ok (Groups (fun i => if i =? x then Some (Some (fresh s)) else handle_of s i)
                            (fun i => if i =? fresh s then true else made s i) (S (fresh s)))
      else Ok (Groups (fun i => if i =? x then Some None else handle_of s i) (made s) (fresh s))
  | GCopy x y =>                          (* the copy constructor the compiler adds: event_groups.h:39-51 has none *)
      match handle_of s y with
      | Some h => Ok (Groups (fun i => if i =? x then Some h else handle_of s i) (made s) (fresh s))
      | None => UB
      end
  | GUse x => with_handle s x (fun _ => Ok s)
  | GEnd x =>                             (* event_groups.h:49, wrapper/event_groups.h:40-43 *)
      with_handle s x (fun h => Ok (Groups (fun i => if i =? x then None else handle_of s i)
                                           (fun i => if i =? h then false else made s i) (fresh s)))
  end.
Fixpoint gop_run (s : groups) (l : list gop) : result groups :=
  match l with
  | [] => Ok s
  | o :: r => match gop_run1 s o with Ok s' => gop_run s' r | UB => UB | Diverge => Diverge end
  end.
Definition no_groups : groups := Groups (fun _ => None) (fun _ => false) 0.
