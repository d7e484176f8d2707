(** Model of the answers of the machine and of what is printed for a line: the answers to
    M105 and M114, cnc/gmachine.py:450 and 463, and do_line, cnc/main.py:30-41, with the
    printed text (MainLoop.v reduces it to OK and ERROR). *)
From Coq Require Import String Ascii ZArith Bool List.
From Verif Require Import PyBase PyNum Config Coordinates Pulses GCode GMachine MainLoop.
From Verif Require Import GMachine.
From Coq Require Import List.
Import ListNotations.

Section Answer.
Context {N : PyNum}.
(** Text of a float in str.format; any function. *)
Variable show : N -> text.
(** What the measurements of a line return if they do not raise. *)
Variable temp : heater_id -> N.
Variable hw : hw_oracle N.

(** et and bt, cnc/gmachine.py:440-447: None after IOError or OSError. *)
Definition reading (l : list (event N)) (h : heater_id) : text :=
  match hw l (EMeasure h) with HReturn _ => show (temp h) | HRaise _ => tx "None" end.
(** "E:{} B:{}".format(et, bt), cnc/gmachine.py:450. *)
Definition answer_M105 : text :=
  tx "E:" ++ reading [] HeaterExtruder ++ tx " B:" ++ reading [EMeasure HeaterExtruder] HeaterBed.
(** "X:{} Y:{} Z:{} E:{}".format(p.x, p.y, p.z, p.e), cnc/gmachine.py:463. *)
Definition answer_M114 (p : quad N) : text :=
  tx "X:" ++ show (qx p) ++ tx " Y:" ++ show (qy p) ++ tx " Z:" ++ show (qz p) ++ tx " E:" ++ show (qe p).
(** answer of do_command, cnc/gmachine.py:314, 450, 463, 478, when it returns in state [m'].
    Simplification: the position is taken at the end; after line 463 only the velocity
    changes (line 476). *)
Definition answer_text (gc : option gcode) (m' : machine N) : option text :=
  match gc with
  | Some g =>
    match effective_command g with
    | Some t => match assoc_text t command_table with
                | Some M105 => Some answer_M105
                | Some M114 => Some (answer_M114 (m_position m'))
                | _ => None
                end
    | None => None
    end
  | None => None
  end.
(** str(e) of the two exceptions that do_line catches, cnc/main.py:34-35. *)
Definition message (e : exn) : text := match e with GCodeException s | GMachineException s => tx s | _ => [] end.
End Answer.

(** What do_line prints, cnc/main.py:30-41; nothing if an exception leaves it. *)
Definition printed {N : PyNum} (show : N -> text) (temp : heater_id -> N) (cfg : config) (hw : hw_oracle N) (line : text) (s : session N) : option text :=
  match parse_line line with
  | Raise e => if caught e then Some (tx "ERROR " ++ message e) else None
  | Ok g =>
    match run_command cfg (hw_now hw s) g (s_machine s) with
    | (m', _, Ok _) =>
      Some (match answer_text show temp (hw_now hw s) g m' with Some a => tx "OK " ++ a | None => tx "OK" end)
    | (_, _, Raise e) => if caught e then Some (tx "ERROR " ++ message e) else None
    end
  end.
