(** Python exceptions as values.

    Simplifications: an exception is its class and, for the two exception
    classes defined by PyCNC, the message text; tracebacks do not exist.
    [OSError] and [IOError] are one class, as in Python 3. *)
From Coq Require Import String.

(** Exception classes that code in /repo raises or lets through:
    cnc/gcode.py:11 (GCodeException), cnc/gmachine.py:12 (GMachineException),
    cnc/hal_virtual.py:86-177 (assert), cnc/hal_raspberry/rpgpio.py:209,223,242,287
    (MemoryError), cnc/sensors (IOError/OSError), and the built-in errors of
    float arithmetic. *)
Inductive exn : Type :=
| GCodeException (msg : string)
| GMachineException (msg : string)
| ValueError
| OverflowError
| ZeroDivisionError
| AssertionError
| MemoryError
| IOErr
| RuntimeError
| StructError
| KeyboardInterrupt
| EOFError
| TypeError.

(** Result of running a piece of Python code: it returns or raises. *)
Inductive res (A : Type) : Type :=
| Ok (a : A)
| Raise (e : exn).
Arguments Ok {A} a.
Arguments Raise {A} e.

(** Sequencing; an exception skips the rest. *)
Definition rbind {A B : Type} (m : res A) (f : A -> res B) : res B :=
  match m with
  | Ok a => f a
  | Raise e => Raise e
  end.

Notation "'do!' x <- m ; k" := (rbind m (fun x => k))
  (at level 200, x pattern, m at level 100, k at level 200, right associativity).

(** [assert cond] / [if cond: raise e]. *)
Definition guard (b : bool) (e : exn) : res unit :=
  if b then Ok tt else Raise e.
