(** Vocabulary of the statements about outputs: commands with their results, and what the
    spindle should do after them. *)
From Coq Require Import String Ascii ZArith Bool List Reals.
From Verif Require Import PyBase PyNum GCode Config GMachine.
From Coq Require Import List.
Import ListNotations.

(** Commands, newest first, and whether they succeeded; machine and all events afterwards. *)
Definition succeeded {A} (r : res A) : bool := match r with Ok _ => true | Raise _ => false end.
Inductive commands {N : PyNum} (P : hw_oracle N -> Prop) (cfg : config) : list (gcode * bool) -> machine N -> list (event N) -> Prop :=
| commands_none : commands P cfg [] (init_machine cfg) []
| commands_more h hw g m es m' es' r : commands P cfg h m es -> P hw -> run_command cfg hw (Some g) m = (m', es', r) ->
    commands P cfg ((g, succeeded r) :: h) m' (es ++ es').

Section Speed.
Variable acos : f64 -> f64.
Definition is_command (g : gcode) (w : string) : bool :=
  match effective_command g with Some t => text_eqb t (tx w) | None => false end.
(** The word S of a command, or [d]. *)
Definition word_S (g : gcode) (d : f64) : f64 := match get (N:=F64 acos) g "S"%char d (f_ofZ 1) with Ok s => s | Raise _ => d end.
(** Speed for the next M3 without S: that of the newest M3, 1000 at the beginning and after
    the end of a program. *)
Fixpoint setting (h : list (gcode * bool)) : f64 :=
  match h with
  | [] => f_ofZ 1000
  | (g, ok) :: r =>
    if ok && is_command g "M3" then word_S g (setting r)
    else if ok && (is_command g "M2" || is_command g "M30") then f_ofZ 1000
    else setting r
  end.
(** Speed after the commands: that of the newest M3, 0 at the beginning, after M5 and after
    the end of a program. *)
Fixpoint speed (h : list (gcode * bool)) : f64 :=
  match h with
  | [] => f_ofZ 0
  | (g, ok) :: r =>
    if ok && is_command g "M3" then word_S g (setting r)
    else if ok && (is_command g "M5" || is_command g "M2" || is_command g "M30") then f_ofZ 0
    else speed r
  end.
(** Programs end with the spindle at rest. *)
Fixpoint stopped_first (h : list (gcode * bool)) : Prop :=
  match h with
  | [] => True
  | (g, ok) :: r => (ok && (is_command g "M2" || is_command g "M30") = true -> speed r = f_ofZ 0) /\ stopped_first r
  end.
End Speed.
