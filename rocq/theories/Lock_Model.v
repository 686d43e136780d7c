(* Model of the locks: mutex.h (lock_guard, unique_lock) over the mutexes of port/std/mutex.h
   (std::mutex) and port/freertos/mutex.h, and the semaphores of port/freertos/semaphore.h.

   A thread is a block of C++ code, its scopes and exceptions included; a schedule is any list of
   thread numbers, and each turn of a thread is one atomic step.  An update of a shared variable
   (v = v + 1) takes two steps, a read and a write.  The operating system's mutexes are modelled
   by their documentation: lock() of a mutex another thread holds waits; std::mutex may not be
   locked again by its owner, nor unlocked by anyone else.  Priorities, time and interrupts are
   not modelled. *)
From Coq Require Import List Arith Bool ZArith.
From Verif Require Import Base MachInt Ratio_Model Chrono_Model Lock_Spec.
Import ListNotations.

(* port/std/mutex.h:7; port/freertos/mutex.h:63-73 mutex(false), mutex(true); 112-118 *)
Inductive kind := KStd | KMutex | KBinary | KRec.
(* free, held so many times by a thread, or taken without an owner (a binary semaphore) *)
Inductive lstate := Free | Held (t d : nat) | Empty.
(* port/freertos/mutex.h:66-70: xSemaphoreCreateBinary creates the semaphore empty *)
Definition fresh (k : kind) : lstate := match k with KBinary => Empty | _ => Free end.

Inductive attempt := Got (s : lstate) | Busy | Undefined.
(* lock() and try_lock(): port/freertos/mutex.h:17-25, 41-49 *)
Definition take (k : kind) (s : lstate) (t : nat) : attempt :=
  match s with
  | Free => Got (match k with KBinary => Empty | _ => Held t 1 end)
  | Empty => Busy
  | Held o d =>
      if o =? t then match k with KStd => Undefined | KRec => Got (Held t (S d)) | _ => Busy end else Busy
  end.
(* unlock(): port/freertos/mutex.h:27-30, 51-54; None where undefined *)
Definition give (k : kind) (s : lstate) (t : nat) : option lstate :=
  match s with
  | Free => match k with KStd => None | _ => Some Free end
  | Empty => Some Free
  | Held o d =>
      if o =? t then Some (match d with S (S d') => Held t (S d') | _ => Free end)
      else match k with KRec => Some s | _ => None end
  end.

(* mutex.h:72-97: which constructor of unique_lock *)
Inductive how := Locking | Deferred | Adopted | Trying.
(* a block of code *)
Inductive prog :=
  | Skip
  | Seq (a b : prog)
  | Guard (m : nat) (a : prog)              (* { lock_guard<mutex> g(m); a } *)
  | Unique (m : nat) (h : how) (a : prog)   (* { unique_lock<mutex> g(m, h); a } *)
  | Lock (m : nat)                          (* m.lock(), or g.lock() of a unique_lock of m: mutex.h:62 *)
  | Unlock (m : nat)                        (* m.unlock(), g.unlock(): mutex.h:64 *)
  | Incr (v : nat)                          (* v = v + 1 *)
  | Throw
  | Catch (a h : prog).                     (* try { a } catch(...) { h } *)

(* what a thread has still to do, innermost first *)
Inductive item :=
  | Do (p : prog)
  | Leave (m : nat)          (* ~lock_guard, mutex.h:123-126 *)
  | LeaveUnique (m : nat)    (* ~unique_lock: there is none, mutex.h:46-98 *)
  | Store (v : nat)          (* the second half of v = v + 1 *)
  | Handler (h : prog).
(* an exception: the destructors up to the handler run.  One that nothing catches ends the thread
   (in C++ it ends the program: std::terminate is not modelled). *)
Fixpoint unwind (k : list item) : list item :=
  match k with
  | [] => []
  | Leave m :: r => Leave m :: unwind r
  | LeaveUnique m :: r => LeaveUnique m :: unwind r
  | Handler h :: r => Do h :: r
  | _ :: r => unwind r
  end.

Record world := World {
  locks : nat -> lstate;
  vals : nat -> Z;             (* the shared variables *)
  regs : nat -> Z;             (* what each thread has read *)
  items : nat -> list item;
  trace : list event
}.
Definition set_at {A} (f : nat -> A) (k : nat) (x : A) : nat -> A := fun i => if i =? k then x else f i.
Definition goes (w : world) (t : nat) (k : list item) : world := World (locks w) (vals w) (regs w) (set_at (items w) t k) (trace w).
Definition locked (w : world) (m : nat) (s : lstate) (e : list event) : world :=
  World (set_at (locks w) m s) (vals w) (regs w) (items w) (trace w ++ e).

(* m.lock() by t, then k; None: waits *)
Definition do_lock (K : nat -> kind) (w : world) (t m : nat) (k : list item) : option (result world) :=
  match take (K m) (locks w m) t with
  | Got s => Some (Ok (goes (locked w m s [Acquired t m]) t k))
  | Busy => None
  | Undefined => Some UB
  end.
(* m.try_lock() by t with the result ignored, then k *)
Definition do_try (K : nat -> kind) (w : world) (t m : nat) (k : list item) : option (result world) :=
  match take (K m) (locks w m) t with
  | Got s => Some (Ok (goes (locked w m s [Acquired t m]) t k))
  | Busy => Some (Ok (goes w t k))
  | Undefined => Some UB
  end.
Definition do_unlock (K : nat -> kind) (w : world) (t m : nat) (k : list item) : option (result world) :=
  match give (K m) (locks w m) t with
  | Some s => Some (Ok (goes (locked w m s [Released t m]) t k))
  | None => Some UB
  end.

(* one step of thread t; None if it waits or has finished *)
Definition step (K : nat -> kind) (w : world) (t : nat) : option (result world) :=
  match items w t with
  | [] => None
  | Do p :: k =>
      match p with
      | Skip => Some (Ok (goes w t k))
      | Seq a b => Some (Ok (goes w t (Do a :: Do b :: k)))
      | Guard m a => do_lock K w t m (Do a :: Leave m :: k)                     (* mutex.h:118-121 *)
      | Unique m h a =>
          let k' := Do a :: LeaveUnique m :: k in
          match h with
          | Locking => do_lock K w t m k'                                       (* mutex.h:74-77 *)
          | Deferred | Adopted => Some (Ok (goes w t k'))                       (* mutex.h:79-80 *)
          | Trying => do_try K w t m k'                                         (* mutex.h:82-85 *)
          end
      | Lock m => do_lock K w t m k
      | Unlock m => do_unlock K w t m k
      | Incr v => Some (Ok (goes (World (locks w) (vals w) (set_at (regs w) t (vals w v)) (items w) (trace w)) t (Store v :: k)))
      | Throw => Some (Ok (goes w t (unwind k)))
      | Catch a h => Some (Ok (goes w t (Do a :: Handler h :: k)))
      end
  | Leave m :: k => do_unlock K w t m k                                         (* mutex.h:123-126 *)
  | LeaveUnique _ :: k | Handler _ :: k => Some (Ok (goes w t k))
  | Store v :: k =>
      Some (Ok (goes (World (locks w) (set_at (vals w) v (regs w t + 1)%Z) (regs w) (items w) (trace w ++ [Updated t v])) t k))
  end.

(* the turns of a schedule; a thread that cannot go on passes *)
Fixpoint run (K : nat -> kind) (w : world) (sched : list nat) : result world :=
  match sched with
  | [] => Ok w
  | t :: r => match step K w t with
              | None => run K w r
              | Some (Ok w') => run K w' r
              | Some UB => UB
              | Some Diverge => Diverge
              end
  end.
(* thread t runs the t-th program; the mutexes are fresh *)
Definition start (K : nat -> kind) (vs : nat -> Z) (ps : list prog) : world :=
  World (fun m => fresh (K m)) vs (fun _ => 0%Z) (fun t => match nth_error ps t with Some p => [Do p] | None => [] end) [].
Definition finished (w : world) (t : nat) : Prop := items w t = [].

(* ---- what a program may do.  All these are checks of the text: held are the mutexes of the
   enclosing lock_guards, innermost first. *)
(* mutexes are locked by lock_guards alone, and one that is held already only if recursive *)
Fixpoint guarded (K : nat -> kind) (held : list nat) (p : prog) : Prop :=
  match p with
  | Guard m a => K m <> KBinary /\ (K m = KRec \/ ~ In m held) /\ guarded K (m :: held) a
  | Unique _ _ _ | Lock _ | Unlock _ => False
  | Seq a b | Catch a b => guarded K held a /\ guarded K held b
  | Skip | Incr _ | Throw => True
  end.
(* variable v is updated only under mutex (prot v) *)
Fixpoint protected (prot : nat -> nat) (held : list nat) (p : prog) : Prop :=
  match p with
  | Guard m a => protected prot (m :: held) a
  | Unique _ _ a => protected prot held a
  | Seq a b | Catch a b => protected prot held a /\ protected prot held b
  | Incr v => In (prot v) held
  | Skip | Throw | Lock _ | Unlock _ => True
  end.
(* mutexes are locked in increasing order *)
Fixpoint ordered (held : list nat) (p : prog) : Prop :=
  match p with
  | Guard m a => (In m held \/ Forall (fun h => h < m) held) /\ ordered (m :: held) a
  | Unique _ _ a => ordered held a
  | Seq a b | Catch a b => ordered held a /\ ordered held b
  | Skip | Throw | Incr _ | Lock _ | Unlock _ => True
  end.
(* neither locked nor unlocked *)
Fixpoint ignores (m : nat) (p : prog) : Prop :=
  match p with
  | Guard m' a | Unique m' _ a => m' <> m /\ ignores m a
  | Lock m' | Unlock m' => m' <> m
  | Seq a b | Catch a b => ignores m a /\ ignores m b
  | Skip | Throw | Incr _ => True
  end.
(* never unlocked explicitly *)
Fixpoint never_unlocks (m : nat) (p : prog) : Prop :=
  match p with
  | Unlock m' => m' <> m
  | Guard _ a | Unique _ _ a => never_unlocks m a
  | Seq a b | Catch a b => never_unlocks m a /\ never_unlocks m b
  | Skip | Throw | Incr _ | Lock _ => True
  end.
(* the number of steps of a program at most *)
Fixpoint size (p : prog) : nat :=
  match p with
  | Skip | Throw | Lock _ | Unlock _ => 1
  | Incr _ => 2
  | Seq a b => S (size a + size b)
  | Catch a b => S (S (size a + size b))
  | Guard _ a | Unique _ _ a => S (S (size a))
  end.

(* ---- semaphores: port/freertos/semaphore.h:52-88, 120-170 *)
Record sem := Sem { available : nat; maximum : nat }.
(* the result: of acquire() and release() unit (true), of try_acquire() a bool; None: waits *)
Definition sem_op (s : sem) (o : sop) : option (sem * bool) :=
  match o with
  | Acquire => match available s with 0 => None | S n => Some (Sem n (maximum s), true) end
  | TryAcquire => match available s with 0 => Some (s, false) | S n => Some (Sem n (maximum s), true) end
  | Release => Some (if available s <? maximum s then Sem (S (available s)) (maximum s) else s, true)   (* :84-87: the result of give() is dropped *)
  end.
(* all tasks' operations in the order they take effect, those that wait passing; with the
   operations that went through and their results *)
Fixpoint sem_run (s : sem) (ops : list sop) : sem * list (sop * bool) :=
  match ops with
  | [] => (s, [])
  | o :: r => match sem_op s o with
              | None => sem_run s r
              | Some (s', b) => let (s2, l) := sem_run s' r in (s2, (o, b) :: l)
              end
  end.
(* :120-128 counting_semaphore(desired), 130-137: a binary semaphore starts at 0 *)
Definition counting (max desired : nat) : sem := Sem desired max.

(* port/freertos/mutex.h:99-111 try_lock_for, semaphore.h:66-72 try_acquire_for: the timeout in
   ticks of a clock of hz ticks per second (port/freertos/chrono.h:31-42), by the converting
   constructor of duration.  TickType_t has 32 bits, the usual configuration. *)
Definition wait_ticks (hz : Z) (d : dty) (timeout : Z) : option (result Z) := convert d (Dty (Ity 32 false) (1, hz)%Z) timeout.
