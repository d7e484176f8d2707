(** The DMA channels at the end of the process: cnc/hal_raspberry/hal.py:313-333 for all
    three of them. Their control blocks are in the buffers of Mailbox.v, which the
    functions registered with atexit give back. *)
From Coq Require Import ZArith Bool List.
From Verif Require Import PyBase Dma Gpio Pwm Watchdog Hal.
Import ListNotations.
Local Open Scope Z_scope.

(** The channels of [dma], [pwm] and [watchdog], hal.py:11-13. *)
Record channels : Type := {
  ch_steps : engine;
  ch_pwm : shared;
  ch_watchdog : engine
}.
Definition any_active (c : channels) : bool :=
  e_active (ch_steps c) || e_active (w_eng (ch_pwm c)) || e_active (ch_watchdog c).
(** deinit, hal.py:323-333, from the moment when join() (line 326) returns: the channel of
    the steps was seen inactive; watchdog.stop() is line 333. [Hal.deinit] has the rest. *)
Definition deinit_channels (h : hal_config) (base : Z) (keys : list Z) (c : channels) : channels * res unit :=
  let '(s, stop, r) := deinit h base keys (ch_pwm c) in
  ({| ch_steps := ch_steps c; ch_pwm := s; ch_watchdog := if stop then stop_dma else ch_watchdog c |}, r).
