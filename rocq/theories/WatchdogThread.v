(** Model of class HardwareWatchdog in cnc/watchdog.py:7-18 (the thread that gmachine.py:39
    starts) beside the watchdog channel of Watchdog.v, with times in microseconds. *)
From Coq Require Import ZArith List.
From Verif Require Import Watchdog.
Import ListNotations.
Local Open Scope Z_scope.

(** run, cnc/watchdog.py:15-18: the times at which hal.watchdog_feed() is called when the
    thread starts at [t] and its calls of time.sleep(3) last [sleeps] (each at least three
    seconds; longer when the thread waits for the processor or for the interpreter lock).
    The thread looks at nothing else: no state of the machine, of the heaters or of the
    main thread appears here because none appears in lines 15-18. *)
Fixpoint feed_times (t : Z) (sleeps : list Z) : list Z :=
  t :: match sleeps with [] => [] | s :: r => feed_times (t + s) r end.
(** time.sleep(3), cnc/watchdog.py:18. *)
Definition sleep_us : Z := 3000000.

(** What happens to the watchdog channel (Watchdog.v: completed blocks, feed of
    cnc/hal_raspberry/hal.py:336-339, uses of the other GPIO registers), with the time of
    each event. The time a block takes is a matter of the hardware and is a parameter of
    the theorems. *)
Definition timed : Type := list (Z * op).
Definition events (l : timed) : list op := map snd l.
