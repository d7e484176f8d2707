(** Model of the way from a heater thread to its pin: the control method given to Heater in
    cnc/gmachine.py:72-95, and what the log of Heater.v says about one of the two heaters. *)
From Coq Require Import ZArith Bool List PeanoNat.
From Verif Require Import PyBase PyNum Config Coordinates GMachine Pid Heater Pwm PwmSpec Hal Outputs.
From Verif Require Import GMachine.
Import ListNotations.

Section HeatOutput.
Context {N : PyNum}.
(** [control], cnc/gmachine.py:76 and 80: the method that the Heater object calls with a
    percentage (cnc/heater.py:59, 70, 81). *)
Definition control (hc : hal_config) (h : heater_id) : N -> PwmSpec.call N :=
  match h with HeaterExtruder => extruder_heater_control hc | HeaterBed => bed_heater_control hc end.
(** EXTRUDER_HEATER_PIN and BED_HEATER_PIN, cnc/config.py:69-70. *)
Definition heater_pin (hc : hal_config) (h : heater_id) : Z :=
  match h with HeaterExtruder => extruder_pin hc | HeaterBed => bed_pin hc end.

(** Specification: which heater the k-th Heater object was made for, by the log. *)
Definition same (a b : heater_id) : bool :=
  match a, b with HeaterExtruder, HeaterExtruder | HeaterBed, HeaterBed => true | _, _ => false end.
Definition made_for (log : list (happening N)) (h : heater_id) (k : nat) : bool :=
  existsb (fun e => match e with Created j h' => Nat.eqb j k && same h' h | _ => false end) log.
(** The percentages in [l] sent by objects made for heater [h], newest first. *)
Definition sent (log : list (happening N)) (h : heater_id) (l : list (happening N)) : list N :=
  flat_map (fun e => match e with Power k _ p => if made_for log h k then [p] else [] | _ => [] end) l.
End HeatOutput.
