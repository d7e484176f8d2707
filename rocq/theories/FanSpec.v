(** What the fan should do after some commands, and the level of its pin while the calls of
    the hardware layer are carried out. *)
From Coq Require Import String Ascii ZArith Bool List.
From Verif Require Import PyBase PyNum GCode Config Coordinates GMachine OutputsSpec Gpio Hal.
From Verif Require Import GMachine.
From Coq Require Import List.
Import ListNotations.

Section Fan.
Context {N : PyNum}.
(** Does the command give a value other than zero for S? Without S: [d]. *)
Definition nonzero_S (g : gcode) (d : N) : bool := match get (N:=N) g "S"%char d (ofZ 1) with Ok s => negb (eqb s zero) | Raise _ => false end.
(** On after M106 unless its S is 0, and after the start of heating of the extruder if the
    fan is automatic; off at the beginning and after M107. *)
Fixpoint fan_on (auto : bool) (h : list (gcode * bool)) : bool :=
  match h with
  | [] => false
  | (g, ok) :: r =>
    if ok && is_command g "M106" then nonzero_S g (ofZ 1)
    else if ok && is_command g "M107" then false
    else if ok && auto && (is_command g "M104" || is_command g "M109") && nonzero_S g zero then true
    else fan_on auto r
  end.
(** The calls [es] of the machine are carried out from state [g] of the registers to [g'];
    the calls for the fan by fan_control of cnc/hal_raspberry/hal.py:59-69, and between them
    anything that leaves the level of the fan's pin alone. *)
Inductive carried_out (hc : hal_config) : gpio -> list (event N) -> gpio -> Prop :=
| co_none g : carried_out hc g [] g
| co_fan g b es g' : carried_out hc (fan_control hc g b) es g' -> carried_out hc g (EFan b :: es) g'
| co_other g e es g' : (forall b, e <> EFan b) -> carried_out hc g es g' -> carried_out hc g (e :: es) g'
| co_else g g1 es g' : g_latch g1 (fan_pin hc) = g_latch g (fan_pin hc) -> carried_out hc g1 es g' -> carried_out hc g es g'.
End Fan.
