(** Model of cnc/heater.py together with the calls made by cnc/gmachine.py
    (_heat, release, M105) and the lock of cnc/sensors/ads111x.py: the main thread
    and any number of heater threads as one transition system. One step is the
    work of one thread between two points at which other threads matter.

    Measured and target temperatures and the system clock are arbitrary values
    satisfying [reading] and [clock]. A measurement can fail in three ways: the thermistor
    module refuses the voltage (IOError, after the ADC lock is released), the I2C
    transfer fails (OSError, with the ADC lock held), or something else is raised
    while the ADC lock is held (struct.error for a short read).
    Simplifications: the control method does not raise; is_fixed() and wait() only
    read; an exception in the main thread ends the call it occurred in, after
    which the main thread may do anything it could do before. *)
From Coq Require Import ZArith Bool List.
From Verif Require Import PyBase PyNum Config Coordinates GMachine Pid.
Import ListNotations.

Section Heater.
Context {N : PyNum}.
(** EXTRUDER_PID and BED_PID, cnc/config.py:45-50: P, I and D of a heater. *)
Variable gains : heater_id -> N * N * N.
Variable reading : N -> Prop.
Variable clock : N -> Prop.

(** Threads: the main thread and the thread of the k-th Heater object. *)
Inductive tid : Type := TMain | THeat (k : nat).

(** Where a heater thread is. *)
Inductive hpc : Type :=
| HNone                 (* not created *)
| HAcquire              (* cnc/heater.py:53 *)
| HCheck                (* cnc/heater.py:54 *)
| HMeasure              (* cnc/heater.py:57, cnc/sensors/ads111x.py:52 *)
| HAdc                  (* cnc/sensors/ads111x.py:53-69, cnc/sensors/thermistor.py:62-68 *)
| HFail                 (* cnc/heater.py:59 *)
| HFailTime             (* cnc/heater.py:60-67 *)
| HControl (p : N)      (* cnc/heater.py:70 *)
| HRelease              (* cnc/heater.py:71 *)
| HSleep                (* cnc/heater.py:72 *)
| HDead.                (* run() has ended *)

(** A Heater object, cnc/heater.py:24-31, and the local variable last_error. *)
Record heater : Type := {
  h_pc : hpc;
  h_id : heater_id;
  h_lock : option tid;      (* owner of _mutex *)
  h_run : bool;             (* _is_run *)
  h_pid : pid N;
  h_err : option N          (* last_error *)
}.

(** Where the main thread is. [Some k] marks the measurement in the constructor
    of heater k, cnc/heater.py:33-34. *)
Inductive mpc : Type :=
| MIdle
| MMeasure (c : option nat)    (* cnc/sensors/ads111x.py:52 *)
| MAdc (c : option nat)        (* cnc/sensors/ads111x.py:53-69 *)
| MStopAcq (k : nat)           (* cnc/heater.py:78 *)
| MStopSet (k : nat)           (* cnc/heater.py:79 *)
| MStopRel (k : nat)           (* cnc/heater.py:80 *)
| MStopOff (k : nat).          (* cnc/heater.py:81 *)

(** How a measurement can fail: voltage refused (IOError), I2C transfer failed
    (OSError), or another exception. *)
Inductive failure : Type := Refused | I2cError | OtherError.

(** What can be seen from outside. *)
Inductive happening : Type :=
| Power (k : nat) (by_main : bool) (p : N)   (* control method of heater k called *)
| MeasOk (t : tid)
| MeasErr (t : tid) (f : failure)
| Created (k : nat) (h : heater_id)
| Constructed (k : nat)
| NewRaised (k : nat)                        (* Heater() raised after its thread was started *)
| StopCalled (k : nat)
| StopReturned (k : nat).

Record sys : Type := {
  s_adc : option tid;                   (* owner of lock, cnc/sensors/ads111x.py:38 *)
  s_heaters : nat -> heater;
  s_next : nat;                         (* number of heaters created so far *)
  s_rec : heater_id -> option nat;      (* GMachine._heaters, cnc/gmachine.py:36 *)
  s_main : mpc;
  s_log : list happening                (* newest first *)
}.

Definition upd (f : nat -> heater) (k : nat) (h : heater) : nat -> heater :=
  fun j => if Nat.eqb j k then h else f j.
Definition upd_rec (f : heater_id -> option nat) (h : heater_id) (v : option nat) : heater_id -> option nat :=
  fun j => match h, j with
           | HeaterExtruder, HeaterExtruder | HeaterBed, HeaterBed => v
           | _, _ => f j
           end.

Definition set_pc (h : heater) (p : hpc) : heater :=
  {| h_pc := p; h_id := h_id h; h_lock := h_lock h; h_run := h_run h; h_pid := h_pid h; h_err := h_err h |}.
Definition set_lock (h : heater) (l : option tid) : heater :=
  {| h_pc := h_pc h; h_id := h_id h; h_lock := l; h_run := h_run h; h_pid := h_pid h; h_err := h_err h |}.
Definition set_stop (h : heater) : heater :=
  {| h_pc := h_pc h; h_id := h_id h; h_lock := h_lock h; h_run := false; h_pid := h_pid h; h_err := h_err h |}.
Definition set_err (h : heater) (e : option N) : heater :=
  {| h_pc := h_pc h; h_id := h_id h; h_lock := h_lock h; h_run := h_run h; h_pid := h_pid h; h_err := e |}.
Definition set_pid (h : heater) (p : pid N) : heater :=
  {| h_pc := h_pc h; h_id := h_id h; h_lock := h_lock h; h_run := h_run h; h_pid := p; h_err := h_err h |}.

(** Heater.__init__, cnc/heater.py:24-32: the thread starts at line 53. *)
Definition new_heater (h : heater_id) (p : pid N) : heater :=
  {| h_pc := HAcquire; h_id := h; h_lock := None; h_run := true; h_pid := p; h_err := None |}.

(** Changes of one component of the system. *)
Definition with_heater (s : sys) (k : nat) (h : heater) (l : list happening) : sys :=
  {| s_adc := s_adc s; s_heaters := upd (s_heaters s) k h; s_next := s_next s; s_rec := s_rec s;
     s_main := s_main s; s_log := l ++ s_log s |}.
Definition with_adc (s : sys) (a : option tid) : sys :=
  {| s_adc := a; s_heaters := s_heaters s; s_next := s_next s; s_rec := s_rec s;
     s_main := s_main s; s_log := s_log s |}.
Definition with_main (s : sys) (m : mpc) (l : list happening) : sys :=
  {| s_adc := s_adc s; s_heaters := s_heaters s; s_next := s_next s; s_rec := s_rec s;
     s_main := m; s_log := l ++ s_log s |}.
Definition with_rec (s : sys) (h : heater_id) (v : option nat) : sys :=
  {| s_adc := s_adc s; s_heaters := s_heaters s; s_next := s_next s; s_rec := upd_rec (s_rec s) h v;
     s_main := s_main s; s_log := s_log s |}.

(** Steps of heater thread k. *)
Inductive hstep (k : nat) (s : sys) : sys -> Prop :=
| h_acquire :                                    (* cnc/heater.py:53 *)
    h_pc (s_heaters s k) = HAcquire -> h_lock (s_heaters s k) = None ->
    hstep k s (with_heater s k (set_pc (set_lock (s_heaters s k) (Some (THeat k))) HCheck) [])
| h_check_run :                                  (* cnc/heater.py:54 *)
    h_pc (s_heaters s k) = HCheck -> h_run (s_heaters s k) = true ->
    hstep k s (with_heater s k (set_pc (s_heaters s k) HMeasure) [])
| h_check_stop :                                 (* cnc/heater.py:54-55: the mutex stays locked *)
    h_pc (s_heaters s k) = HCheck -> h_run (s_heaters s k) = false ->
    hstep k s (with_heater s k (set_pc (s_heaters s k) HDead) [])
| h_adc :                                        (* cnc/sensors/ads111x.py:52 *)
    h_pc (s_heaters s k) = HMeasure -> s_adc s = None ->
    hstep k s (with_heater (with_adc s (Some (THeat k))) k (set_pc (s_heaters s k) HAdc) [])
| h_measured v now p' o :                        (* cnc/sensors/ads111x.py:69, cnc/heater.py:68-69 *)
    h_pc (s_heaters s k) = HAdc -> reading v -> clock now ->
    pid_update (h_pid (s_heaters s k)) v now = (p', o) ->
    hstep k s (with_heater (with_adc s None) k
                 (set_pc (set_pid (set_err (s_heaters s k) None) p') (HControl (mul o (ofZ 100)))) [MeasOk (THeat k)])
| h_refused :                                    (* cnc/sensors/thermistor.py:63-66, cnc/heater.py:58 *)
    h_pc (s_heaters s k) = HAdc ->
    hstep k s (with_heater (with_adc s None) k (set_pc (s_heaters s k) HFail) [MeasErr (THeat k) Refused])
| h_i2c_error :                                  (* cnc/sensors/ads111x.py:59-68, cnc/heater.py:58 *)
    h_pc (s_heaters s k) = HAdc ->
    hstep k s (with_heater s k (set_pc (s_heaters s k) HFail) [MeasErr (THeat k) I2cError])
| h_other_error :                                (* cnc/sensors/ads111x.py:63,68: struct.error *)
    h_pc (s_heaters s k) = HAdc ->
    hstep k s (with_heater s k (set_pc (s_heaters s k) HDead) [MeasErr (THeat k) OtherError])
| h_off :                                        (* cnc/heater.py:59 *)
    h_pc (s_heaters s k) = HFail ->
    hstep k s (with_heater s k (set_pc (s_heaters s k) HFailTime) [Power k false zero])
| h_first_error now :                            (* cnc/heater.py:60-61,67: continue with the mutex locked *)
    h_pc (s_heaters s k) = HFailTime -> h_err (s_heaters s k) = None -> clock now ->
    hstep k s (with_heater s k (set_pc (set_err (s_heaters s k) (Some now)) HAcquire) [])
| h_next_error t now :                           (* cnc/heater.py:62-67; SENSOR_TIMEOUT_S = 1, line 10 *)
    h_pc (s_heaters s k) = HFailTime -> h_err (s_heaters s k) = Some t -> clock now ->
    hstep k s (with_heater s k (set_pc (s_heaters s k) (if ltb (ofZ 1) (sub now t) then HDead else HAcquire)) [])
| h_control p :                                  (* cnc/heater.py:70 *)
    h_pc (s_heaters s k) = HControl p ->
    hstep k s (with_heater s k (set_pc (s_heaters s k) HRelease) [Power k false p])
| h_release :                                    (* cnc/heater.py:71 *)
    h_pc (s_heaters s k) = HRelease ->
    hstep k s (with_heater s k (set_pc (set_lock (s_heaters s k) None) HSleep) [])
| h_wake :                                       (* cnc/heater.py:72 *)
    h_pc (s_heaters s k) = HSleep ->
    hstep k s (with_heater s k (set_pc (s_heaters s k) HAcquire) []).

(** What the main thread notes when a measurement ended, in general and in the
    constructor of heater k (cnc/gmachine.py:94-95, cnc/heater.py:34). *)
Definition measured (s : sys) (c : option nat) : sys :=
  match c with
  | None => with_main s MIdle [MeasOk TMain]
  | Some k => with_main (with_rec s (h_id (s_heaters s k)) (Some k)) MIdle [Constructed k; MeasOk TMain]
  end.
Definition not_measured (s : sys) (c : option nat) (f : failure) : sys :=
  with_main s MIdle (match c with None => [] | Some k => [NewRaised k] end ++ [MeasErr TMain f]).

(** Steps of the main thread. *)
Inductive mstep (s : sys) : sys -> Prop :=
| m_new h target now p :                         (* cnc/gmachine.py:94, cnc/heater.py:24-32 *)
    s_main s = MIdle -> s_rec s h = None -> reading target -> clock now ->
    (let '(kp, ki, kd) := gains h in pid_new target kp ki kd now) = Ok p ->
    mstep s {| s_adc := s_adc s; s_heaters := upd (s_heaters s) (s_next s) (new_heater h p);
               s_next := S (s_next s); s_rec := s_rec s; s_main := MMeasure (Some (s_next s));
               s_log := Created (s_next s) h :: s_log s |}
| m_measure :                                    (* cnc/gmachine.py:85,440,444, cnc/heater.py:91 *)
    s_main s = MIdle -> mstep s (with_main s (MMeasure None) [])
| m_adc c :                                      (* cnc/sensors/ads111x.py:52 *)
    s_main s = MMeasure c -> s_adc s = None ->
    mstep s (with_main (with_adc s (Some TMain)) (MAdc c) [])
| m_measured c :                                 (* cnc/sensors/ads111x.py:69 *)
    s_main s = MAdc c -> mstep s (measured (with_adc s None) c)
| m_refused c :                                  (* cnc/sensors/thermistor.py:63-66 *)
    s_main s = MAdc c -> mstep s (not_measured (with_adc s None) c Refused)
| m_i2c_error c :                                (* cnc/sensors/ads111x.py:59-68 *)
    s_main s = MAdc c -> mstep s (not_measured s c I2cError)
| m_other_error c :                              (* cnc/sensors/ads111x.py:63,68 *)
    s_main s = MAdc c -> mstep s (not_measured s c OtherError)
| m_stop h k :                                   (* cnc/gmachine.py:46,89 *)
    s_main s = MIdle -> s_rec s h = Some k -> mstep s (with_main s (MStopAcq k) [StopCalled k])
| m_stop_acquire k :                             (* cnc/heater.py:78 *)
    s_main s = MStopAcq k -> h_lock (s_heaters s k) = None ->
    mstep s (with_main (with_heater s k (set_lock (s_heaters s k) (Some TMain)) []) (MStopSet k) [])
| m_stop_set k :                                 (* cnc/heater.py:79 *)
    s_main s = MStopSet k ->
    mstep s (with_main (with_heater s k (set_stop (s_heaters s k)) []) (MStopRel k) [])
| m_stop_release k :                             (* cnc/heater.py:80 *)
    s_main s = MStopRel k ->
    mstep s (with_main (with_heater s k (set_lock (s_heaters s k) None) []) (MStopOff k) [])
| m_stop_off k :                                 (* cnc/heater.py:81, cnc/gmachine.py:90 *)
    s_main s = MStopOff k ->
    mstep s (with_main (with_rec s (h_id (s_heaters s k)) None) MIdle [StopReturned k; Power k true zero]).

Inductive step (s : sys) : sys -> Prop :=
| step_main s' : mstep s s' -> step s s'
| step_heater k s' : hstep k s s' -> step s s'.

Inductive steps (s : sys) : sys -> Prop :=
| steps_refl : steps s s
| steps_more s1 s2 : steps s s1 -> step s1 s2 -> steps s s2.

(** The system at program start; [p] fills the slots of heaters not created yet. *)
Definition sys0 (p : pid N) : sys :=
  {| s_adc := None;
     s_heaters := fun _ => {| h_pc := HNone; h_id := HeaterBed; h_lock := None; h_run := true; h_pid := p; h_err := None |};
     s_next := 0; s_rec := fun _ => None; s_main := MIdle; s_log := [] |}.

Definition reachable (s : sys) : Prop := exists p, steps (sys0 p) s.
End Heater.

(** The coefficients of cnc/config.py:45-50. *)
Definition default_gains {N : PyNum} (h : heater_id) : N * N * N :=
  match h with
  | HeaterExtruder => (ofdec false 59161177519 12, ofdec false 206217171374 14, ofdec false 206217171374 12)
  | HeaterBed => (ofdec false 226740848076 12, ofdec false 323956215053 14, ofdec false 323956215053 12)
  end.
Arguments heater : clear implicits.
Arguments sys : clear implicits.
Arguments happening : clear implicits.
Arguments hpc : clear implicits.
