(** Properties C22, C30-C34 of straight moves (cnc/pulses.py). [RN] is exact
    arithmetic, [F64] the arithmetic of the interpreter. Every theorem is
    followed by its assumptions and by an Example in which its hypotheses hold. *)
From Coq Require Import String ZArith Bool List Lia Reals Lra Sorted.
From Flocq Require Import Core BinarySingleNaN.
From Verif Require Import PyBase PyNum PyFloatFacts Config Coordinates Pulses GMachine PulseSpec LinearGen LinearReal LinearRun LinearLaw.
From Coq Require Import List.
From Flocq Require Import Core.
Import ListNotations.
Local Open Scope R_scope.

(** A movement used in the Examples: 10 mm along X and 5 mm back along Y. *)
Definition ex_delta : quad R := Quad 10 (-5) 0 0.
Lemma ex_moves : exists m, qat m ex_delta <> 0.
Proof. exists MX. cbn. lra. Qed.
Lemma ex_emits : exists g l, emits (N:=RN) default_config ex_delta 1800 g l.
Proof. apply emits_exists; [apply default_sane|apply ex_moves|lra]. Qed.

(* ---------- C22 ---------- *)
(** In exact arithmetic, with automatic velocity adjustment: every generator of a
    straight move passes the velocity check, and its axis velocities are the
    requested ones times one common factor. *)
Theorem C22_adjusted_exact : forall cfg delta v,
  sane_cfg cfg -> auto_velocity cfg = true -> (exists m, qat m delta <> 0) -> 0 < v ->
  exists g k, make_linear (N:=RN) cfg delta v = Ok g /\
    too_fast (N:=RN) cfg (gen_max_velocity (GLinear g)) = false /\
    0 < k <= 1 /\ forall m, (qat m (l_vel g) : R) = k * (v / 60 * (Rabs (qat m delta) / len delta)).
Proof. exact adjusted_acceptable. Qed.
Print Assumptions C22_adjusted_exact.
Example C22_adjusted_exact_ex : sane_cfg default_config /\ auto_velocity default_config = true /\
  (exists m, qat m ex_delta <> 0) /\ 0 < 1000000.
Proof. split; [apply default_sane|]. split; [reflexivity|]. split; [apply ex_moves|lra]. Qed.

(** With rounding it depends on the configured limits: a limit of 1000 mm per
    minute on X makes a move requested with 2000 be rejected. *)
Definition slow_x : config := {|
  max_velocity_min := Quad 1000%Z 12000%Z 600%Z 1500%Z;
  min_velocity_min := min_velocity_min default_config; ppm := ppm default_config; inverted := inverted default_config;
  table_x := table_x default_config; table_y := table_y default_config; table_z := table_z default_config;
  max_acceleration := max_acceleration default_config; spindle_max_rpm := spindle_max_rpm default_config;
  extruder_max_t := extruder_max_t default_config; bed_max_t := bed_max_t default_config; min_t := min_t default_config;
  auto_velocity := true; auto_fan := auto_fan default_config |}.
Theorem C22_adjusted_refuted : exists cfg (delta : quad f64) (v : f64), forall acos,
  sane_cfg cfg /\ auto_velocity cfg = true /\
  exists g, make_linear (N:=F64 acos) cfg delta v = Ok g /\ too_fast (N:=F64 acos) cfg (gen_max_velocity (GLinear g)) = true.
Proof.
  exists slow_x, (Quad (f_ofZ 10) (f_ofZ 0) (f_ofZ 0) (f_ofZ 0)), (f_ofZ 2000). intros acos.
  split; [split; try (intros []); reflexivity|]. split; [reflexivity|].
  destruct (make_linear (N:=F64 acos) slow_x _ _) as [g|e] eqn:E.
  - exists g. split; [reflexivity|].
    assert (H: match make_linear (N:=F64 acos) slow_x (Quad (f_ofZ 10) (f_ofZ 0) (f_ofZ 0) (f_ofZ 0)) (f_ofZ 2000) with
               | Ok g => too_fast (N:=F64 acos) slow_x (gen_max_velocity (GLinear g)) | Raise _ => false end = true) by (vm_compute; reflexivity).
    rewrite E in H. exact H.
  - exfalso.
    assert (H: match make_linear (N:=F64 acos) slow_x (Quad (f_ofZ 10) (f_ofZ 0) (f_ofZ 0) (f_ofZ 0)) (f_ofZ 2000) with
               | Ok _ => true | Raise _ => false end = true) by (vm_compute; reflexivity).
    rewrite E in H. discriminate H.
Qed.
Print Assumptions C22_adjusted_refuted.

(* ---------- C30 ---------- *)
(** In exact arithmetic. *)
Theorem C30_pulses_exact : forall cfg delta v,
  sane_cfg cfg -> (exists m, qat m delta <> 0) -> 0 < v ->
  exists g l, emits (N:=RN) cfg delta v g (Dir (invert_dirs cfg (qmap (fun x => if Rlt_dec x 0 then -1 else 1)%Z delta)) :: l) /\
    (forall m, steps m l = ZnearestE (Rabs (qat m delta) * IZR (qat m (ppm cfg)))) /\
    Forall (fun it => exists t, pulse_at t it) l.
Proof. exact pulses_exact. Qed.
Print Assumptions C30_pulses_exact.
Example C30_pulses_exact_ex : sane_cfg default_config /\ (exists m, qat m ex_delta <> 0) /\ 0 < 1800 /\
  ZnearestE (Rabs (qat MY ex_delta) * IZR (qat MY (ppm default_config))) = 500%Z.
Proof.
  split; [apply default_sane|]. split; [apply ex_moves|]. split; [lra|]. cbn [qat ex_delta qy ppm default_config].
  rewrite Rabs_left by lra. replace (- -5 * 100) with (IZR 500) by (cbn; lra). apply ZnearestE_IZR.
Qed.

(** In the arithmetic of the interpreter: the iteration always ends. If it ends
    normally it has yielded one direction message and then on each axis
    round(|delta| * pulses per mm) pulses; if it ends with an exception it has
    yielded no more than that. *)
Theorem C30_pulses_float : forall acos cfg (delta : quad f64) (v : f64) g,
  (forall m, 0 <= qat m (ppm cfg))%Z -> make_linear (N:=F64 acos) cfg delta v = Ok g ->
  exists n, forall fuel, (n <= fuel)%nat ->
  match run_gen (N:=F64 acos) cfg fuel (GLinear g) with
  | Finished l => exists l', l = Dir (invert_dirs cfg (qmap f_copysign1 delta)) :: l' /\
      (forall m, f_rnd (f_mul (f_rnd10 (Babs (qat m delta))) (f_ofZ (qat m (ppm cfg)))) = Ok (steps m l')) /\
      Forall (fun it => exists t, pulse_at t it) l'
  | Failed l e => l = [] \/ exists l', l = Dir (invert_dirs cfg (qmap f_copysign1 delta)) :: l' /\
      (forall m, exists n, f_rnd (f_mul (f_rnd10 (Babs (qat m delta))) (f_ofZ (qat m (ppm cfg)))) = Ok n /\ (steps m l' <= n)%Z) /\
      Forall (fun it => exists t, pulse_at t it) l'
  | OutOfFuel => False
  end.
Proof. exact pulses_float. Qed.
Print Assumptions C30_pulses_float.
Example C30_pulses_float_ex :
  match make_linear (N:=F64 (fun x => x)) default_config (Quad (f_ofZ 1) (f_ofZ 0) (Bopp (f_ofZ 1)) (f_ofZ 0)) (f_ofZ 600) with
  | Ok g => match run_gen (N:=F64 (fun x => x)) default_config 1000 (GLinear g) with
            | Finished l => (steps MX l =? 100)%Z && (steps MZ l =? 400)%Z | _ => false end
  | Raise _ => false end = true.
Proof. vm_compute. reflexivity. Qed.

(** It can end with an exception: a velocity that is rounded to 0. *)
Theorem C30_pulses_float_refuted : exists (delta : quad f64) (v : f64), forall acos,
  exists g, make_linear (N:=F64 acos) default_config delta v = Ok g /\
    forall fuel, (2 <= fuel)%nat -> run_gen (N:=F64 acos) default_config fuel (GLinear g) = Failed [] ZeroDivisionError.
Proof. exact zero_velocity. Qed.
Print Assumptions C30_pulses_float_refuted.

(* ---------- C31 ---------- *)
(** In exact arithmetic: strictly increasing times (one time per item), the first
    one 0, none after total_time_s(). *)
Theorem C31_times_exact : forall cfg delta v g l,
  sane_cfg cfg -> (exists m, qat m delta <> 0) -> 0 < v -> emits (N:=RN) cfg delta v g l ->
  exists d l' ts, l = Dir d :: l' /\ Forall2 (fun it t => pulse_at (N:=RN) t it) l' ts /\ StronglySorted Rlt ts /\
    Forall (fun t => 0 <= t <= total_time_s (GLinear g)) ts /\ (forall t ts', ts = t :: ts' -> t = 0).
Proof. intros cfg delta v g l Hc Hd Hv. exact (emits_times cfg Hc delta Hd v Hv g l). Qed.
Print Assumptions C31_times_exact.
Example C31_times_exact_ex : sane_cfg default_config /\ (exists m, qat m ex_delta <> 0) /\ 0 < 1800 /\
  exists g l, emits (N:=RN) default_config ex_delta 1800 g l.
Proof. split; [apply default_sane|]. split; [apply ex_moves|]. split; [lra|apply ex_emits]. Qed.

(* ---------- C32 ---------- *)
Theorem C32_straight_exact : forall cfg delta v g l,
  sane_cfg cfg -> (exists m, qat m delta <> 0) -> 0 < v -> emits (N:=RN) cfg delta v g l ->
  forall l1 q l2, l = l1 ++ Pulse q :: l2 ->
  exists a, 0 <= a <= 1 /\
    forall m, Rabs (IZR (steps m (l1 ++ [Pulse q])) - a * Rabs (qat m delta) * IZR (qat m (ppm cfg))) <= 1.
Proof. intros cfg delta v g l Hc Hd Hv. exact (emits_straight cfg Hc delta Hd v Hv g l). Qed.
Print Assumptions C32_straight_exact.
Example C32_straight_exact_ex : exists g l l1 q l2, emits (N:=RN) default_config ex_delta 1800 g l /\ l = l1 ++ Pulse q :: l2.
Proof.
  destruct ex_emits as (g & l & H). destruct (emits_steps _ default_sane _ ex_moves 1800 ltac:(lra) _ _ H) as (l' & -> & F & S).
  specialize (S MX). cbn [qat ex_delta qx ppm default_config] in S. rewrite Rabs_pos_eq in S by lra.
  replace (10 * 100) with (IZR 1000) in S by (cbn; lra). rewrite ZnearestE_IZR in S.
  destruct l' as [|it l']; [discriminate S|]. inversion F as [|? ? (t & q & -> & _) _]; subst.
  exists g. eexists. exists [Dir (invert_dirs default_config (qmap (fun x => if Rlt_dec x 0 then -1 else 1)%Z ex_delta))], q, l'.
  split; [exact H|reflexivity].
Qed.

(* ---------- C33 ---------- *)
(** The pulses are those of a continuous motion along the segment in which no
    axis is faster than requested (nor than its limit if velocities are
    adjusted) and no axis changes its speed faster than the configured
    acceleration. *)
Theorem C33_limits_exact : forall cfg delta v g l,
  sane_cfg cfg -> (exists m, qat m delta <> 0) -> 0 < v -> emits (N:=RN) cfg delta v g l ->
  exists s s', motion cfg delta l s s' /\
    (forall t m, 0 <= s' t * Rabs (qat m delta) <= v / 60 * (Rabs (qat m delta) / len delta)) /\
    (auto_velocity cfg = true -> forall t m, s' t * Rabs (qat m delta) <= IZR (qat m (max_velocity_min cfg)) / 60) /\
    (forall t u m, Rabs (s' t * Rabs (qat m delta) - s' u * Rabs (qat m delta)) <= IZR (max_acceleration cfg) * Rabs (t - u)).
Proof. exact motion_limits. Qed.
Print Assumptions C33_limits_exact.
Example C33_limits_exact_ex : sane_cfg default_config /\ (exists m, qat m ex_delta <> 0) /\ 0 < 1800 /\
  exists g l, emits (N:=RN) default_config ex_delta 1800 g l.
Proof. exact C31_times_exact_ex. Qed.

(* ---------- C34 ---------- *)
(** Moves of one axis: the motion ends at the announced time, at the end of the
    segment, with speed 0, and slows down as it sped up. Missing: moves of
    several axes, see below. *)
Theorem C34_brakes_partial : forall cfg delta v g l m,
  sane_cfg cfg -> qat m delta <> 0 -> (forall m', m' <> m -> qat m' delta = 0) -> 0 < v -> emits (N:=RN) cfg delta v g l ->
  exists s s', motion cfg delta l s s' /\
    let T := total_time_s (GLinear g) : R in
    s T = 1 /\ s' T = 0 /\ forall t, 0 <= t <= T -> s' (T - t) = s' t.
Proof. exact brakes_single. Qed.
Print Assumptions C34_brakes_partial.
Example C34_brakes_partial_ex : exists g l, emits (N:=RN) default_config (Quad 0 0 (-3) 0) 300 g l.
Proof. apply emits_exists; [apply default_sane| |lra]. exists MZ. cbn. lra. Qed.

(** Moves of several axes never brake to standstill: the end of the segment is
    reached with the part sqrt(2 (1 - D / L)) of the highest speed of the move,
    where D is the largest displacement and L the length. *)
Theorem C34_brakes_refuted : forall cfg delta v g l m1 m2,
  sane_cfg cfg -> m1 <> m2 -> qat m1 delta <> 0 -> qat m2 delta <> 0 -> 0 < v -> emits (N:=RN) cfg delta v g l ->
  exists s s' t0 te D, motion cfg delta l s s' /\
    0 <= te <= total_time_s (GLinear g) /\ s te = 1 /\
    (forall t, s' t <= s' t0) /\ 0 < s' t0 /\
    (forall m, Rabs (qat m delta) <= D) /\ D < len delta /\
    0 < s' te /\ s' te = s' t0 * sqrt (2 * (1 - D / len delta)).
Proof. exact brakes_not. Qed.
Print Assumptions C34_brakes_refuted.
Example C34_brakes_refuted_ex : MX <> MY /\ qat MX ex_delta <> 0 /\ qat MY ex_delta <> 0 /\
  exists g l, emits (N:=RN) default_config ex_delta 1800 g l.
Proof. split; [discriminate|]. split; [cbn; lra|]. split; [cbn; lra|apply ex_emits]. Qed.

(** The pulses themselves in one case: 0.01 mm on all axes with F1200. The four
    steps of Z come at a, 0 1 sqrt 2 sqrt 3 times some a, every interval shorter
    than the one before: Z is never slowed down. *)
Theorem C34_no_braking_refuted : exists g l,
  emits (N:=RN) default_config (Quad (1/100) (1/100) (1/100) (1/100)) 1200 g l /\ steps MZ l = 4%Z /\
  exists a, 0 < a /\ forall l1 q l2 t, l = l1 ++ Pulse q :: l2 -> qat MZ q = Some t -> t = a * sqrt (IZR (steps MZ l1)).
Proof. exact no_braking. Qed.
Print Assumptions C34_no_braking_refuted.
