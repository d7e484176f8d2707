(** Model of the functions of cnc/hal_raspberry/hal.py that drive outputs through the PWM.
    Log messages are left out. *)
From Coq Require Import ZArith Bool List.
From Verif Require Import PyBase PyNum Dma Gpio Pwm PwmSpec Hal.
Local Open Scope Z_scope.

Section Outputs.
Context {N : PyNum}.
Variable h : hal_config.
(** The call of [pwm] they make. spindle_control, cnc/hal_raspberry/hal.py:48-56. *)
Definition spindle_control (percent : N) : call N :=
  if ltb (ofZ 0) percent then CallAdd (spindle_pin h) percent else CallRemove (spindle_pin h).
(** extruder_heater_control, cnc/hal_raspberry/hal.py:72-79. *)
Definition extruder_heater_control (percent : N) : call N :=
  if ltb (ofZ 0) percent then CallAdd (extruder_pin h) percent else CallRemove (extruder_pin h).
(** bed_heater_control, cnc/hal_raspberry/hal.py:82-89. *)
Definition bed_heater_control (percent : N) : call N :=
  if ltb (ofZ 0) percent then CallAdd (bed_pin h) percent else CallRemove (bed_pin h).
End Outputs.
