(* Model of estd::this_thread::sleep_for of the FreeRTOS and Arduino ports: the count that is
   handed to the platform's own delay.  The platform's delay itself is in Slp_Spec.v. *)
From Coq Require Import ZArith.
From Verif Require Import Base MachInt Ratio_Model Chrono_Model.
Local Open Scope Z_scope.

(* port/freertos/chrono.h:30-39 freertos_clock::duration: TickType_t, of 32 bits as usual, in ticks
   of a clock of hz ticks per second *)
Definition freertos_duration (hz : Z) : dty := Dty (Ity 32 false) (1, hz).
(* port/arduino/chrono.h:14-21 arduino_clock::duration: unsigned long, of 32 bits on the boards of
   that port, in milliseconds *)
Definition arduino_duration : dty := Dty (Ity 32 false) (1, 1000).

(* port/freertos/thread.h:106-115 sleep_for with internal/chrono/duration.hpp:57-61 duration_cast:
   the ticks that vTaskDelay is called with.  None: the ratios do not compile. *)
Definition freertos_sleep_for (hz : Z) (d : dty) (v : Z) : option (result Z) := convert d (freertos_duration hz) v.
(* port/arduino/thread.h:10-19: the milliseconds that delay is called with *)
Definition arduino_sleep_for (d : dty) (v : Z) : option (result Z) := convert d arduino_duration v.

(* port/rpi/pico/chrono.h:27 pico_duration_us *)
Definition pico_duration : dty := Dty (Ity 64 false) (1, 1000000).
(* port/rpi/pico/chrono.h:73-76 this_core::sleep_for: the argument is converted to the type of the
   parameter (internal/chrono/duration.h:60-63); the count is what sleep_us is called with *)
Definition pico_sleep_for (d : dty) (v : Z) : option (result Z) := convert d pico_duration v.
(* port/rpi/pico/chrono.h:79-85 this_core::sleep_until of a time point of duration type d, v since
   the epoch of pico_clock: what delayed_by_us(nil_time, ...) is called with *)
Definition pico_sleep_until (d : dty) (v : Z) : option (result Z) := convert d pico_duration v.
