(* Model of the FreeRTOS message queues: port/freertos/queue.h and wrapper/queue.h, and of
   this_thread::sleep_for, port/freertos/thread.h.

   A task is a list of operations; a schedule is any list of turns.  The operating system's queue is
   modelled by its documentation: an operation takes effect in one atomic step, messages are copied
   byte by byte, a task that has to wait tries again at each of its turns until its time is over;
   a turn says whether it is.  Priorities and the order in which waiting tasks are woken are left
   open, so the theorems hold for all of them.  peek, overwrite, reset and the queue registry of the
   wrapper, which queue.h does not use, are not modelled; xHigherPriorityTaskWoken is not
   modelled. *)
From Coq Require Import List Arith Bool ZArith QArith.
From Verif Require Import Base MachInt Ratio_Model Chrono_Model Lock_Model Mq_Spec.
Import ListNotations.

Local Open Scope nat_scope.
Section Queue.
Context {V : Type}.
Variable cap : nat.   (* queue.h:71, 91, 121: queue_length *)

(* one attempt at an operation; expired: the time to wait is over.  None: waits.
   queue.h:29-57; wrapper/queue.h:52-55, 78-81, 83-86, 93-96 *)
Definition attempt (q : list V) (o : qop V) (expired : bool) : option (answer V * list V) :=
  match o with
  | Send v =>                                                        (* queue.h:39-42, portMAX_DELAY *)
      if length q <? cap then Some (Sent true, q ++ [v]) else None
  | SendFor v n =>                                                   (* queue.h:34-37 *)
      if length q <? cap then Some (Sent true, q ++ [v])
      else if (n =? 0) || expired then Some (Sent false, q) else None
  | SendIsr v =>                                                     (* queue.h:54-57 *)
      if length q <? cap then Some (Sent true, q ++ [v]) else Some (Sent false, q)
  | Receive =>                                                       (* queue.h:49-52 *)
      match q with v :: r => Some (Received (Some v), r) | [] => None end
  | ReceiveFor n =>                                                  (* queue.h:44-47 *)
      match q with
      | v :: r => Some (Received (Some v), r)
      | [] => if (n =? 0) || expired then Some (Received None, []) else None
      end
  | Waiting => Some (Count (length q), q)                            (* queue.h:29-32 *)
  end.

Record world := World {
  buffer : list V;
  todo : nat -> list (qop V);
  hist : history V     (* the operations completed so far *)
}.
(* a turn of task t *)
Definition turn (w : world) (t : nat) (expired : bool) : option world :=
  match todo w t with
  | [] => None
  | o :: r =>
      match attempt (buffer w) o expired with
      | Some (a, q) => Some (World q (set_at (todo w) t r) (hist w ++ [(t, o, a)]))
      | None => None
      end
  end.
Fixpoint run (w : world) (sched : list (nat * bool)) : world :=
  match sched with
  | [] => w
  | (t, e) :: r => run (match turn w t e with Some w' => w' | None => w end) r
  end.
(* task t runs the t-th list; a new queue is empty: queue.h:71-76, 91-99 *)
Definition start (ps : list (list (qop V))) : world :=
  World [] (fun t => nth t ps []) [].
Definition finished (w : world) : Prop := forall t, todo w t = [].
End Queue.

(* ---- messages that own something.  Each object of class T owns a resource from its construction
   to its destruction, and its destructor gives the resource back.  The queue copies bytes, so the
   copy in the queue names the same resource: queue.h:34-52, 72-76 (sizeof(value_type)). *)
Record objects := Objects {
  vars : nat -> option nat;   (* the objects that exist, with their resources *)
  bytes : list nat;           (* the messages in the queue *)
  held : nat -> bool          (* the resources not given back *)
}.
Inductive oop :=
  | QSend (x : nat)           (* q.send(x) *)
  | QReceive (x : nat)        (* q.receive(&x): no destructor or assignment of T is called *)
  | End (x : nat)             (* ~T() of x: the resource is given back; twice is undefined *)
  | Use (x : nat).            (* a call that needs the resource *)
Definition oop_run1 (o : oop) (s : objects) : result objects :=
  match o with
  | QSend x => match vars s x with Some r => Ok (Objects (vars s) (bytes s ++ [r]) (held s)) | None => UB end
  | QReceive x =>
      match vars s x, bytes s with
      | Some _, r :: q => Ok (Objects (set_at (vars s) x (Some r)) q (held s))
      | _, _ => UB
      end
  | End x =>
      match vars s x with
      | Some r => if held s r then Ok (Objects (set_at (vars s) x None) (bytes s) (set_at (held s) r false)) else UB
      | None => UB
      end
  | Use x => match vars s x with Some r => if held s r then Ok s else UB | None => UB end
  end.
Fixpoint oop_run (l : list oop) (s : objects) : result objects :=
  match l with
  | [] => Ok s
  | o :: r => match oop_run1 o s with Ok s' => oop_run r s' | UB => UB | Diverge => Diverge end
  end.

(* ---- the queue objects themselves.  queue.h:13-58 declares a destructor and no copy constructor:
   a copy has the same handle. *)
Record handles := Handles { owners : nat -> option nat; exists_q : nat -> bool }.
Inductive hop := HCopy (x y : nat) (* queue x(y) *) | HEnd (x : nat) (* ~queue(): vQueueDelete *) | HUse (x : nat).
Definition hop_run1 (o : hop) (s : handles) : result handles :=
  match o with
  | HCopy x y => match owners s y with Some h => Ok (Handles (set_at (owners s) x (Some h)) (exists_q s)) | None => UB end
  | HEnd x =>                                                        (* queue.h:23-26 *)
      match owners s x with
      | Some h => if exists_q s h then Ok (Handles (set_at (owners s) x None) (set_at (exists_q s) h false)) else UB
      | None => UB
      end
  | HUse x => match owners s x with Some h => if exists_q s h then Ok s else UB | None => UB end
  end.
Fixpoint hop_run (l : list hop) (s : handles) : result handles :=
  match l with
  | [] => Ok s
  | o :: r => match hop_run1 o s with Ok s' => hop_run r s' | UB => UB | Diverge => Diverge end
  end.

(* ---- port/freertos/thread.h:106-114 sleep_for: the duration in whole ticks, as for timeouts;
   vTaskDelay(n) returns at the n-th tick from now, so after n ticks less the part (phase) of the
   current tick that is already over.  vTaskDelay(0) returns at once. *)
Definition sleeps (hz : Z) (n : Z) (phase : Q) : Q :=
  if (n =? 0)%Z then 0%Q else ((inject_Z n - phase) / inject_Z hz)%Q.
