(** Model of cnc/pid.py over an arbitrary number structure. The system time is
    always an argument; the integers 0 stored by the constructor are numbers. *)
From Coq Require Import ZArith Bool List.
From Verif Require Import PyBase PyNum Config Coordinates.
Import ListNotations.

Section Pid.
Context {N : PyNum}.
Local Open Scope num_scope.

(** FIX_ACCURACY and FIX_TIME_S, cnc/pid.py:6-7. *)
Definition fix_accuracy : N := ofdec false 1 2.
Definition fix_time : N := ofdec false 25 1.

(** Fields of a Pid object, cnc/pid.py:16-28. *)
Record pid : Type := {
  p_time : N;              (* _last_time *)
  p_target : N;            (* _target_value *)
  p_P : N; p_I : N; p_D : N;
  p_windup : N;            (* WINDUP_LIMIT *)
  p_integral : N;          (* _integral *)
  p_last : N;              (* _last_error *)
  p_fixed : bool;          (* _is_target_fixed *)
  p_timer : option N       (* _target_fix_timer *)
}.

(** Pid.__init__, cnc/pid.py:9-28. *)
Definition pid_new (target kp ki kd now : N) : res pid :=
  do! w <- div (ofZ 1) ki;
  Ok {| p_time := now; p_target := target; p_P := kp; p_I := ki; p_D := kd; p_windup := w;
        p_integral := zero; p_last := zero; p_fixed := false; p_timer := None |}.

(** The new _integral, cnc/pid.py:43-46. *)
Definition pid_integral (p : pid) (error delta_time : N) : N :=
  let i := p_integral p + error * delta_time in
  if p_windup p <? absn i then copysign (p_windup p) i else i.

(** The output, cnc/pid.py:50-54. *)
Definition pid_output (p : pid) (error integral delta_error : N) : N :=
  let res := p_P p * error + p_I p * integral + p_D p * delta_error in
  let res := if ofZ 1 <? res then ofZ 1 else res in
  if res <? zero then zero else res.

(** abs(error) < target * FIX_ACCURACY and res < 1.0, cnc/pid.py:57-58. *)
Definition pid_near (p : pid) (error res : N) : bool :=
  (absn error <? p_target p * fix_accuracy) && (res <? ofZ 1).

(** _is_target_fixed and _target_fix_timer, cnc/pid.py:56-64. *)
Definition pid_fix (p : pid) (error res now : N) : bool * option N :=
  if p_fixed p then (true, p_timer p)
  else if pid_near p error res then
    match p_timer p with
    | None => (false, Some now)
    | Some t => if fix_time <? now - t then (true, Some t) else (false, Some t)
    end
  else (false, None).

(** Pid.update, cnc/pid.py:30-65. *)
Definition pid_update (p : pid) (value now : N) : pid * N :=
  let delta_time := now - p_time p in
  let error := p_target p - value in
  let integral := pid_integral p error delta_time in
  let delta_error := error - p_last p in
  let res := pid_output p error integral delta_error in
  let '(fixed, timer) := pid_fix p error res now in
  ({| p_time := now; p_target := p_target p; p_P := p_P p; p_I := p_I p; p_D := p_D p; p_windup := p_windup p;
      p_integral := integral; p_last := error; p_fixed := fixed; p_timer := timer |}, res).

(** A sequence of updates (value, time), oldest first, and their outputs. *)
Fixpoint pid_run (p : pid) (ups : list (N * N)) : pid * list N :=
  match ups with
  | [] => (p, [])
  | (v, t) :: r =>
    let '(p1, o) := pid_update p v t in
    let '(p2, os) := pid_run p1 r in
    (p2, o :: os)
  end.
End Pid.
Arguments pid : clear implicits.
