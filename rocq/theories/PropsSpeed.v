(** Property C78: the speed at which the motors are really stepped on straight
    moves, in binary64. *)
From Coq Require Import ZArith Bool Reals Lra Lia List Sorted.
From Flocq Require Import Core BinarySingleNaN.
From Verif Require Import PyBase PyNum PyFloatFacts Config Coordinates Pulses PulseSpec LinearGen FloatRel LinearFloat LinearFloatRun LinearFloatTime GMachine LinearFloatLimit LinearFloatSpeed PropsLinFloat.
From Coq Require Import List.
From Flocq Require Import Core.
Import ListNotations.
Local Open Scope R_scope.

(** The requested feed. Two consecutive pulses of a motor are one step apart, so at
    the speed of the feed they are 1/(steps per mm * mm/s) seconds apart. They are
    never closer than that, up to 2 in a million and one in 25 million for every
    pulse of the motor in the move (0.36 percent for the longest move on the machine
    of config.py). [motor_times m l] are the times of the pulses of the motor. *)
Theorem C78_feed : forall acos cfg delta v g l m ts1 (t u : f64) ts2,
  lin_cfg cfg -> fit_move cfg delta v -> emits (N:=F64 acos) cfg delta v g l -> motor_times m l = ts1 ++ t :: u :: ts2 ->
  1 - / 500000 - IZR (steps m l) / 25000000 <= (val u - val t) * (IZR (qat m (ppm cfg)) * (val v / 60)).
Proof. intros acos cfg delta v g l m ts1 t u ts2 Hc Hm He Et. exact (proj1 (speed_float acos cfg delta v g l m ts1 t u ts2 Hc Hm He Et)). Qed.
Print Assumptions C78_feed.

(** The limit of the axis, if velocities are adjusted. Missing: configurations where
    they are not adjusted, for which it is false (C78_unadjusted_refuted). *)
Theorem C78_limit_partial : forall acos cfg delta v g l m ts1 (t u : f64) ts2,
  lin_cfg cfg -> auto_velocity cfg = true -> fit_move cfg delta v -> emits (N:=F64 acos) cfg delta v g l -> motor_times m l = ts1 ++ t :: u :: ts2 ->
  1 - / 500000 - IZR (steps m l) / 25000000 <= (val u - val t) * (IZR (qat m (ppm cfg)) * (IZR (qat m (max_velocity_min cfg)) / 60)).
Proof. intros acos cfg delta v g l m ts1 t u ts2 Hc Ha Hm He Et. exact (proj2 (speed_float acos cfg delta v g l m ts1 t u ts2 Hc Hm He Et) Ha). Qed.
Print Assumptions C78_limit_partial.

(** The two first pulses of X in a move of (1, -1, 0, 0) mm. *)
Definition small : quad f64 := Quad (f_ofZ 1) (f_ofZ (-1)) (f_ofZ 0) (f_ofZ 0).
Lemma small_fit : fit_move default_config small (f_ofZ 1800).
Proof.
  assert (V: forall n, (Z.abs n <= 4096)%Z -> fin (f_ofZ n) /\ val (f_ofZ n) = IZR n) by (intros n H; apply f_ofZ_val; lia).
  split.
  - intros m. destruct (V 1%Z ltac:(lia)) as [F1 E1]. destruct (V (-1)%Z ltac:(lia)) as [F2 E2]. destruct (V 0%Z ltac:(lia)) as [F4 E4].
    destruct m; cbn [qat small qx qy qz qe]; rewrite ?E1, ?E2, ?E4; (split; [assumption|]); apply Rabs_le; lra.
  - exists MX. destruct (V 1%Z ltac:(lia)) as [F1 E1]. cbn [qat small qx ppm default_config]. rewrite E1, Rabs_pos_eq; lra.
  - destruct (V 1800%Z ltac:(lia)) as [F1 E1]. split; [exact F1|]. rewrite E1. change (bpow radix2 60) with (IZR (2 ^ 60)). split; [lra|]. apply IZR_le. lia.
Qed.
Definition two (l : list f64) : bool := match l with _ :: _ :: _ => true | _ => false end.
Example C78_limit_partial_ex : lin_cfg default_config /\ auto_velocity default_config = true /\ fit_move default_config small (f_ofZ 1800) /\
  exists g l t u ts, emits (N:=F64 (fun x => x)) default_config small (f_ofZ 1800) g l /\ motor_times MX l = [] ++ t :: u :: ts.
Proof.
  split; [exact default_lin|]. split; [reflexivity|]. split; [exact small_fit|].
  assert (H: match make_linear (N:=F64 (fun x => x)) default_config small (f_ofZ 1800) with
             | Ok g => match run_gen (N:=F64 (fun x => x)) default_config 300 (GLinear g) with Finished l => two (motor_times (N:=F64 (fun x => x)) MX l) | _ => false end
             | Raise _ => false end = true) by (vm_compute; reflexivity).
  destruct (make_linear (N:=F64 (fun x => x)) default_config small (f_ofZ 1800)) as [g|e] eqn:E; [|discriminate H].
  destruct (run_gen (N:=F64 (fun x => x)) default_config 300 (GLinear g)) as [l| |] eqn:Er; try discriminate H.
  exists g, l. destruct (motor_times (N:=F64 (fun x => x)) MX l) as [|t [|u ts]]; try discriminate H. exists t, u, ts.
  split; [|reflexivity]. split; [exact E|]. exists 300%nat. exact Er.
Qed.
Example C78_feed_ex : lin_cfg default_config /\ fit_move default_config small (f_ofZ 1800) /\
  exists g l t u ts, emits (N:=F64 (fun x => x)) default_config small (f_ofZ 1800) g l /\ motor_times MX l = [] ++ t :: u :: ts.
Proof. destruct C78_limit_partial_ex as (A & _ & B & C). exact (conj A (conj B C)). Qed.

(** Without the adjustment the check on the velocities (cnc/gmachine.py:107-112) does
    not keep the motors below their limits: a move of (3, 4) mm at 600 mm/min with an
    acceleration of 5 mm/s^2 passes the check against limits of 180 and 240 mm/min,
    and the Y motor is then stepped at more than 279 mm/min. *)
Definition unadjusted : config := {|
  max_velocity_min := Quad 180%Z 240%Z 600%Z 1500%Z;
  min_velocity_min := min_velocity_min default_config; ppm := Quad 10%Z 10%Z 10%Z 10%Z; inverted := inverted default_config;
  table_x := table_x default_config; table_y := table_y default_config; table_z := table_z default_config;
  max_acceleration := 5; spindle_max_rpm := spindle_max_rpm default_config;
  extruder_max_t := extruder_max_t default_config; bed_max_t := bed_max_t default_config; min_t := min_t default_config;
  auto_velocity := false; auto_fan := auto_fan default_config |}.
Definition diagonal : quad f64 := Quad (f_ofZ 3) (f_ofZ 4) (f_ofZ 0) (f_ofZ 0).
Lemma unadjusted_lin : lin_cfg unadjusted.
Proof. split; [intros []|cbn|intros []]; cbn; lia. Qed.
Lemma diagonal_fit : fit_move unadjusted diagonal (f_ofZ 600).
Proof.
  assert (V: forall n, (Z.abs n <= 4096)%Z -> fin (f_ofZ n) /\ val (f_ofZ n) = IZR n) by (intros n H; apply f_ofZ_val; lia).
  split.
  - intros m. destruct (V 3%Z ltac:(lia)) as [F1 E1]. destruct (V 4%Z ltac:(lia)) as [F2 E2]. destruct (V 0%Z ltac:(lia)) as [F4 E4].
    destruct m; cbn [qat diagonal qx qy qz qe]; rewrite ?E1, ?E2, ?E4; (split; [assumption|]); apply Rabs_le; lra.
  - exists MX. destruct (V 3%Z ltac:(lia)) as [F1 E1]. cbn [qat diagonal qx ppm unadjusted]. rewrite E1, Rabs_pos_eq; lra.
  - destruct (V 600%Z ltac:(lia)) as [F1 E1]. split; [exact F1|]. rewrite E1. change (bpow radix2 60) with (IZR (2 ^ 60)). split; [lra|]. apply IZR_le. lia.
Qed.
(** Two consecutive times between the bounds. *)
Fixpoint close (lo hi : f64) (l : list f64) : bool :=
  match l with
  | t :: (u :: _) as l' => f_lt lo t && f_lt u hi && f_lt t hi && is_finite t && is_finite u || close lo hi l'
  | _ => false
  end.
Lemma close_true lo hi l : fin lo -> fin hi -> close lo hi l = true -> exists l1 t u l2, l = l1 ++ t :: u :: l2 /\ val u - val t < val hi - val lo.
Proof.
  intros F1 F2. induction l as [|t [|u l] IH]; [discriminate|discriminate|]. intros H. cbn [close] in H. apply orb_prop in H. destruct H as [H|H].
  - repeat (apply andb_prop in H; destruct H as [H ?]). exists [], t, u, l. split; [reflexivity|].
    assert (val lo < val t) by now apply f_lt_true. assert (val u < val hi) by now apply f_lt_true. lra.
  - destruct (IH H) as (l1 & t' & u' & l2 & E & L). exists (t :: l1), t', u', l2. rewrite E. split; [reflexivity|exact L].
Qed.
Definition lo : f64 := f_ratio false 1003 1024.
Definition hi : f64 := f_ratio false 1025 1024.
Lemma lo_val : fin lo /\ val lo = 1003 / 1024.
Proof.
  split; [vm_compute; reflexivity|]. transitivity (SF2R radix2 (B2SF lo)); [symmetry; apply SF2R_B2SF|]. replace (B2SF lo) with (SpecFloat.S754_finite false 8822481301274624 (-53)) by (vm_compute; reflexivity).
  cbv [SF2R F2R Fnum Fexp SpecFloat.cond_Zopp cond_Zopp]. change (bpow radix2 (-53)) with (/ 9007199254740992). lra.
Qed.
Lemma hi_val : fin hi /\ val hi = 1025 / 1024.
Proof.
  split; [vm_compute; reflexivity|]. transitivity (SF2R radix2 (B2SF hi)); [symmetry; apply SF2R_B2SF|]. replace (B2SF hi) with (SpecFloat.S754_finite false 4507997673881600 (-52)) by (vm_compute; reflexivity).
  cbv [SF2R F2R Fnum Fexp SpecFloat.cond_Zopp cond_Zopp]. change (bpow radix2 (-52)) with (/ 4503599627370496). lra.
Qed.
Theorem C78_unadjusted_refuted : exists cfg (delta : quad f64) (v : f64), forall acos,
  lin_cfg cfg /\ auto_velocity cfg = false /\ fit_move cfg delta v /\
  exists g l m ts1 (t u : f64) ts2, emits (N:=F64 acos) cfg delta v g l /\
    too_fast (N:=F64 acos) cfg (gen_max_velocity (N:=F64 acos) (GLinear g)) = false /\
    motor_times m l = ts1 ++ t :: u :: ts2 /\ 
    (val u - val t) * (IZR (qat m (ppm cfg)) * (IZR (qat m (max_velocity_min cfg)) / 60)) < 86 / 100.
Proof.
  exists unadjusted, diagonal, (f_ofZ 600). intros acos. split; [exact unadjusted_lin|]. split; [reflexivity|]. split; [exact diagonal_fit|].
  assert (H: match make_linear (N:=F64 acos) unadjusted diagonal (f_ofZ 600) with
             | Ok g => match run_gen (N:=F64 acos) unadjusted 100 (GLinear g) with
                       | Finished l => negb (too_fast (N:=F64 acos) unadjusted (gen_max_velocity (N:=F64 acos) (GLinear g))) && close lo hi (motor_times (N:=F64 acos) MY l)
                       | _ => false end
             | Raise _ => false end = true) by (vm_compute; reflexivity).
  destruct (make_linear (N:=F64 acos) unadjusted diagonal (f_ofZ 600)) as [g|e] eqn:E; [|discriminate H].
  destruct (run_gen (N:=F64 acos) unadjusted 100 (GLinear g)) as [l| |] eqn:Er; try discriminate H.
  apply andb_prop in H. destruct H as [H1 H2]. apply negb_true_iff in H1.
  destruct lo_val as [F1 V1], hi_val as [F2 V2]. destruct (close_true lo hi _ F1 F2 H2) as (l1 & t & u & l2 & El & D).
  exists g, l, MY, l1, t, u, l2. split; [split; [exact E|exists 100%nat; exact Er]|]. split; [exact H1|]. split; [exact El|].
  rewrite V1, V2 in D. cbn [qat ppm max_velocity_min unadjusted qy]. lra.
Qed.
Print Assumptions C78_unadjusted_refuted.
