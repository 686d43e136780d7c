(* What the platforms document of their delays.  Times are in seconds. *)
From Coq Require Import ZArith QArith Qround.
Local Open Scope Q_scope.

(* FreeRTOS, vTaskDelay(n): "the actual time that the task remains blocked depends on the tick
   rate"; the task is made ready by the n-th tick interrupt that follows the call, and 0 does not
   block.  Tick interrupts come at the multiples of 1/hz of a second; the call is made at time t. *)
Definition vTaskDelay_returns (hz : Z) (n : Z) (t : Q) : Q :=
  if (n =? 0)%Z then t else inject_Z (Qfloor (t * inject_Z hz) + n) / inject_Z hz.
(* Arduino, delay(ms): "pauses the program for the amount of time (in milliseconds)": it returns
   at t' if no less than that has passed since the call at t. *)
Definition delay_may_return (ms : Z) (t t' : Q) : Prop := t + inject_Z ms / inject_Z 1000 <= t'.
(* Pico SDK, sleep_us(us): "wait for at least the given number of microseconds before returning". *)
Definition sleep_us_may_return (us : Z) (t t' : Q) : Prop := t + inject_Z us / inject_Z 1000000 <= t'.
(* Pico SDK, delayed_by_us(nil_time, us): us after boot, but no later than the end of time, 2^63 - 1
   microseconds after boot. *)
Definition delayed_by_us (us : Z) : Z := Z.min us (2 ^ 63 - 1).
(* Pico SDK, sleep_until(target): "wait until after the given time to return"; called at t it
   returns at t', in seconds after boot. *)
Definition sleep_until_may_return (target : Z) (t t' : Q) : Prop :=
  t <= t' /\ inject_Z target / inject_Z 1000000 <= t'.
