(** Model of cnc/config.py (lines 1-50 and 81-94) and cnc/enums.py.

    config.py is meant to be edited by the user, so the configuration is a
    record and most theorems quantify over it; [default_config] has the values
    in the repository. Pin numbers are in the files about the hardware layer. *)
From Coq Require Import ZArith.

(** One value per axis X, Y, Z, E (cnc/coordinates.py:5-18). *)
Record quad (A : Type) : Type := Quad { qx : A; qy : A; qz : A; qe : A }.
Arguments Quad {A}. Arguments qx {A}. Arguments qy {A}. Arguments qz {A}. Arguments qe {A}.

Definition qmap {A B : Type} (f : A -> B) (q : quad A) : quad B :=
  Quad (f (qx q)) (f (qy q)) (f (qz q)) (f (qe q)).

Record config : Type := {
  max_velocity_min : quad Z;       (* config.py:5-8, mm per min *)
  min_velocity_min : Z;            (* config.py:9 *)
  ppm : quad Z;                    (* config.py:14-17, pulses per mm *)
  inverted : quad bool;            (* config.py:21-24 *)
  table_x : Z; table_y : Z; table_z : Z;   (* config.py:34-36 *)
  max_acceleration : Z;            (* config.py:40 *)
  spindle_max_rpm : Z;             (* config.py:41 *)
  extruder_max_t : Z;              (* config.py:42 *)
  bed_max_t : Z;                   (* config.py:43 *)
  min_t : Z;                       (* config.py:44 *)
  auto_velocity : bool;            (* config.py:91 *)
  auto_fan : bool                  (* config.py:94 *)
}.

(** config.py:5-94 as shipped. *)
Definition default_config : config := {|
  max_velocity_min := Quad 24000 12000 600 1500;
  min_velocity_min := 1;
  ppm := Quad 100 100 400 150;
  inverted := Quad true false false true;
  table_x := 200; table_y := 200; table_z := 220;
  max_acceleration := 3000;
  spindle_max_rpm := 10000;
  extruder_max_t := 250; bed_max_t := 100; min_t := 40;
  auto_velocity := true;
  auto_fan := true |}%Z.

(** cnc/enums.py:18-45. *)
Inductive plane := PlaneXY | PlaneYZ | PlaneZX.
Inductive rotation := CW | CCW.
Inductive heater_id := HeaterExtruder | HeaterBed.
