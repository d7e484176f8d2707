(** Model of cnc/main.py: answering lines, running a file, the interactive
    session, and the end of the program.

    What reading the next line gives is arbitrary: a line, or an exception
    (KeyboardInterrupt, EOFError, IOError, ...). Exceptions inside of hardware
    calls, including KeyboardInterrupt, come from the oracle [hw], which sees all
    calls made since the start of the program. Simplifications: a keyboard
    interrupt arrives only while a line is read or inside of a hardware call;
    printed text is reduced to the sequence of OK (true) and ERROR (false)
    answers; the history file and logging are not modelled. *)
From Coq Require Import String Ascii ZArith Bool List.
From Verif Require Import PyBase PyNum Config Coordinates Pulses GCode GMachine.
Import ListNotations.

Section MainLoop.
Context {N : PyNum}.
Variable cfg : config.
Variable hw : hw_oracle N.

(** The machine, the calls made so far, and the answers printed so far. *)
Record session : Type := {
  s_machine : machine N;
  s_log : list (event N);
  s_out : list bool
}.

(** The hardware as seen by the next call of a GMachine method. *)
Definition hw_now (s : session) : hw_oracle N := fun l ev => hw (s_log s ++ l) ev.

(** except (GCodeException, GMachineException), cnc/main.py:34. *)
Definition caught (e : exn) : bool :=
  match e with GCodeException _ | GMachineException _ => true | _ => false end.

Definition answer (m : machine N) (log : list (event N)) (out : list bool) (r : res unit) : session * res bool :=
  match r with
  | Ok _ => ({| s_machine := m; s_log := log; s_out := out ++ [true] |}, Ok true)
  | Raise e =>
    if caught e then ({| s_machine := m; s_log := log; s_out := out ++ [false] |}, Ok false)
    else ({| s_machine := m; s_log := log; s_out := out |}, Raise e)
  end.

(** do_line, cnc/main.py:30-41. *)
Definition do_line (line : text) (s : session) : session * res bool :=
  match parse_line line with
  | Raise e => answer (s_machine s) (s_log s) (s_out s) (Raise e)
  | Ok g =>
    let '(m', es, r) := run_command cfg (hw_now s) g (s_machine s) in
    answer m' (s_log s ++ es) (s_out s) r
  end.

(** str.strip(), cnc/main.py:51. *)
Fixpoint lstrip (s : text) : text :=
  match s with
  | [] => []
  | c :: r => if is_blank c then lstrip r else s
  end.
Definition strip (s : text) : text := rev (lstrip (rev (lstrip s))).

(** What reading the next line does. *)
Inductive input : Type :=
| Line (s : text)
| Err (e : exn).

(** The loop over the lines of a file, cnc/main.py:50-54. *)
Fixpoint file_loop (ls : list input) (s : session) : session * res unit :=
  match ls with
  | [] => (s, Ok tt)
  | Err e :: _ => (s, Raise e)
  | Line l :: r =>
    match do_line (strip l) s with
    | (s', Ok true) => file_loop r s'
    | (s', Ok false) => (s', Ok tt)
    | (s', Raise e) => (s', Raise e)
    end
  end.

(** line == 'quit' or line == 'exit', cnc/main.py:62. *)
Definition is_quit (l : text) : bool := text_eqb l (tx "quit") || text_eqb l (tx "exit").

(** The interactive loop, cnc/main.py:60-64. [None]: all given input is used up,
    the program waits for more. *)
Fixpoint interactive (ls : list input) (s : session) : session * option (res unit) :=
  match ls with
  | [] => (s, None)
  | Err e :: _ => (s, Some (Raise e))
  | Line l :: r =>
    if is_quit l then (s, Some (Ok tt))
    else
      match do_line l s with
      | (s', Ok _) => interactive r s'
      | (s', Raise e) => (s', Some (Raise e))
      end
  end.

(** What the program was started with: a file name, for a file that can or can
    not be opened, or nothing, cnc/main.py:47-49. *)
Inductive start : Type :=
| NoFile (i : list input)
| File (lines : list input)
| CannotOpen (e : exn).

Definition body (a : start) (s : session) : session * option (res unit) :=
  match a with
  | NoFile i => interactive i s
  | File l => let '(s', r) := file_loop l s in (s', Some r)
  | CannotOpen e => (s, Some (Raise e))
  end.

(** machine.release(), cnc/main.py:68. *)
Definition finish (s : session) : session * option (res unit) :=
  let '(m', es, r) := release cfg (hw_now s) (s_machine s) [] in
  ({| s_machine := m'; s_log := s_log s ++ es; s_out := s_out s |}, Some r).

(** main, cnc/main.py:44-68. [None]: still running. *)
Definition main (a : start) (s : session) : session * option (res unit) :=
  match body a s with
  | (s', Some (Ok _)) => finish s'
  | (s', Some (Raise KeyboardInterrupt)) => finish s'
  | (s', Some (Raise e)) => (s', Some (Raise e))
  | (s', None) => (s', None)
  end.

(** The session at program start, cnc/main.py:27. *)
Definition session0 : session :=
  {| s_machine := init_machine cfg; s_log := []; s_out := [] |}.

End MainLoop.
Arguments session : clear implicits.
