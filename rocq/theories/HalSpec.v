(** Vocabulary of the statements about hal.py. *)
From Coq Require Import ZArith Bool List.
From Verif Require Import PyBase PyNum Config Coordinates Pulses PulseSpec Dma Gpio DmaGpio DmaSpec Pwm Hal.
From Coq Require Import List.
Import ListNotations.
Local Open Scope Z_scope.

Section Move.
Context {N : PyNum}.
Variable h : hal_config.
Variable base size : Z.
Variable extra : bool.

(** Thread and DMA engine, in any order. *)
Inductive hstep (x : machine N) : machine N -> Prop :=
| by_thread slow : hstep x (mstep h base size slow x)
| by_engine : hstep x (dstep extra x).
Inductive reach (x0 : machine N) : machine N -> Prop :=
| reach_refl : reach x0 x0
| reach_step x y : reach x0 x -> hstep x y -> reach x0 y.

(** The program started the engine with the new movement. *)
Definition restarted (x : machine N) : Prop := m_ran (x_move x) = true \/ m_pc (x_move x) = MDone.

(** [l] was put into the buffer with the methods of DMAGPIO and finalised. *)
Definition loaded (d : dma) (l : list req) : Prop :=
  exists d0 d1, adds base size (clear d0) l = (d1, Ok tt) /\ run base size d1 false = (d, Ok tt).
(** [cb] is in the chain of control blocks that starts at [a]. *)
Inductive on_chain (m : mem) (a : Z) : Z -> Prop :=
| chain_first : on_chain m a a
| chain_next cb : on_chain m a cb -> next_cb m cb <> 0 -> on_chain m a (next_cb m cb).
(** The engine is somewhere in the program in the buffer, or has finished it. *)
Definition playing (m : mem) (e : engine) : Prop :=
  e = stopped \/ (e_active e = true /\ on_chain m base (e_cb e) /\ e_next e = next_cb m (e_cb e)).
(** What it has still to do. *)
Definition remains (m : mem) (e : engine) (tr : list action) : Prop :=
  if e_active e then plays extra m (e_cb e) tr else tr = [].

(** While it streams, the engine completes a block only when the block it loads next is
    followed by another one which is already written. *)
Definition in_time (x : machine N) : Prop :=
  m_ran (x_move x) = true -> m_pc (x_move x) <> MDone -> e_active (x_eng x) = true ->
  e_next (x_eng x) + 32 < base + d_addr (x_dma x).
Inductive reach_in_time (x0 : machine N) : machine N -> Prop :=
| rit_refl : reach_in_time x0 x0
| rit_thread slow x : reach_in_time x0 x -> reach_in_time x0 (mstep h base size slow x)
| rit_engine x : reach_in_time x0 x -> in_time x -> reach_in_time x0 (dstep extra x).

(** Begin of hal.move with this generator; the engine may still play an earlier movement. *)
Definition begin_move (l : list (item N)) (e : option exn) (d : dma) (en : engine) : machine N :=
  {| x_move := move_start h l e; x_dma := clear d; x_eng := en; x_done := [] |}.

(** The calls for all items. *)
Fixpoint plan (k prev : Z) (l : list (item N)) : res (list req) :=
  match l with
  | [] => Ok []
  | it :: r => do! (a, (k, prev)) <- plan_item h k prev it; do! b <- plan k prev r; Ok (a ++ b)
  end.

(** Time of a pulse in whole microseconds. *)
Definition stamp (t : N) (k : Z) : Prop := rnd (mul t (ofZ 1000000)) = Ok k.
(** Pins of the motors for which [f] holds. *)
Definition mask_of (pins : quad Z) (f : motor -> bool) : Z :=
  fold_right (fun m v => if f m then Z.lor (bit (qat m pins)) v else v) 0 [MX; MY; MZ; ME].
Definition moves (q : quad (option N)) (m : motor) : bool := match qat m q with Some _ => true | None => false end.

(** Items with the microsecond each one is due (direction messages: none). *)
Inductive timed : list (item N) -> list (item N * Z) -> Prop :=
| timed_nil : timed [] []
| timed_dir d l l' : timed l l' -> timed (Pulses.Dir d :: l) ((Pulses.Dir d, 0) :: l')
| timed_pulse q t k l l' : pulse_at t (Pulses.Pulse q) -> stamp t k -> timed l l' ->
    timed (Pulses.Pulse q :: l) ((Pulses.Pulse q, k) :: l').

(** What the motor drivers should see: a pulse of the step pins of the motors that move,
    at its time; before it, when the last pulse has ended (time [last]), direction pins
    of motors going up are cleared and of motors going down are set. *)
Fixpoint ideal (last : Z) (l : list (item N * Z)) : list event :=
  match l with
  | [] => []
  | (Pulses.Dir d, _) :: r =>
      rise last (mask_of (dir_pin h) (fun m => qat m d <? 0)) ++ fall last (mask_of (dir_pin h) (fun m => 0 <? qat m d)) ++ ideal last r
  | (Pulses.Pulse q, k) :: r =>
      rise k (mask_of (step_pin h) (moves q)) ++ fall (k + pulse_us h) (mask_of (step_pin h) (moves q)) ++ ideal (k + pulse_us h) r
  end.
(** Consecutive pulses do not overlap. *)
Fixpoint spaced (last : Z) (l : list (item N * Z)) : Prop :=
  match l with
  | [] => True
  | (Pulses.Dir _, _) :: r => spaced last r
  | (Pulses.Pulse _, k) :: r => last <= k /\ spaced (k + pulse_us h) r
  end.
(** Times do not decrease. *)
Fixpoint ordered (last : Z) (l : list (item N * Z)) : Prop :=
  match l with
  | [] => True
  | (Pulses.Dir _, _) :: r => ordered last r
  | (Pulses.Pulse _, k) :: r => last <= k /\ ordered k r
  end.

(** The same with every pulse late by what the earlier ones overlapped: [last] is the
    nominal end of the last pulse, [lag] the delay so far. *)
Fixpoint delayed (last lag : Z) (l : list (item N * Z)) : list (item N * Z) :=
  match l with
  | [] => []
  | (Pulses.Dir d, k) :: r => (Pulses.Dir d, k) :: delayed last lag r
  | (Pulses.Pulse q, k) :: r =>
      let lag := lag + Z.max 0 (last - k) in (Pulses.Pulse q, k + lag) :: delayed (k + pulse_us h) lag r
  end.
(** What was wanted: at its time, or right after the previous pulse. *)
Fixpoint queued (last : Z) (l : list (item N * Z)) : list (item N * Z) :=
  match l with
  | [] => []
  | (Pulses.Dir d, k) :: r => (Pulses.Dir d, k) :: queued last r
  | (Pulses.Pulse q, k) :: r => let s := Z.max last k in (Pulses.Pulse q, s) :: queued (s + pulse_us h) r
  end.

End Move.

(** Pins of the Raspberry Pi that set and clear registers 0 reach. *)
Definition pin_ok (p : Z) : Prop := 0 <= p < 32.
Record pins_ok (h : hal_config) : Prop := {
  ok_enable : pin_ok (enable_pin h);
  ok_step : forall m, pin_ok (qat m (step_pin h));
  ok_dir : forall m, pin_ok (qat m (dir_pin h));
  ok_spindle : pin_ok (spindle_pin h);
  ok_fan : pin_ok (fan_pin h);
  ok_extruder : pin_ok (extruder_pin h);
  ok_bed : pin_ok (bed_pin h);
  ok_stop_x : pin_ok (stop_pin_x h); ok_stop_y : pin_ok (stop_pin_y h); ok_stop_z : pin_ok (stop_pin_z h)
}.
(** All pins in use. *)
Definition used_pins (h : hal_config) : list Z := map fst (init_pins h).

(** Pauses between pulses are shorter than 2^26 microseconds (about 67 seconds). *)
Fixpoint gaps {N : PyNum} (h : hal_config) (last : Z) (l : list (item N * Z)) : Prop :=
  match l with
  | [] => True
  | (Pulses.Dir _, _) :: r => gaps h last r
  | (Pulses.Pulse _, k) :: r => k - last < 2 ^ 26 /\ gaps h (k + pulse_us h) r
  end.

(* ------------------------------------------------------------------ *)
(** ** Calibration *)
(** The axes with an end stop. *)
Definition axes3 : list motor := [MX; MY; MZ].
(** Readings of the end stop of an axis in a round (only X, Y, Z have one). *)
Definition readings (k : look) (m : motor) : list Z :=
  let '(a, b, c) := match m with MX => k_x k | MY => k_y k | _ => k_z k end in [a; b; c].
(** All readings show the level [high]. *)
Definition all_read (high : bool) (l : list Z) : Prop := Forall (fun v => (v = 1 <-> high = true)) l.
(** Level of the end stop of an axis at the zero position. *)
Definition zero_level (h : hal_config) (m : motor) : bool :=
  match m with MX => stop_inv_x h | MY => stop_inv_y h | _ => stop_inv_z h end.
(** Pins of motors the DMA engine can be pulsing after these events: [prog] is the
    prepared program, [on] the running one. *)
Definition cal_effect (st : Z * Z) (e : cal_event) : Z * Z :=
  match e with
  | CStop => (fst st, 0)
  | CProgram p _ => (p, snd st)
  | CRun => (fst st, fst st)
  | _ => st
  end.
Definition driven (st : Z * Z) (l : list cal_event) : Z := snd (fold_left cal_effect l st).
(** Different axes have different step pins. *)
Definition separate (h : hal_config) : Prop :=
  (forall m, pin_ok (qat m (step_pin h))) /\
  (forall m m', qat m (step_pin h) = qat m' (step_pin h) -> m = m').
