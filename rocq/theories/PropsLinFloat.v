(** Properties C22 and C30 to C32 of straight moves in binary64. *)
From Coq Require Import ZArith Bool Reals Lra Lia List Sorted.
From Flocq Require Import Core BinarySingleNaN.
From Verif Require Import PyBase PyNum PyFloatFacts Config Coordinates Pulses PulseSpec LinearGen FloatRel LinearFloat LinearFloatRun LinearFloatTime GMachine LinearFloatLimit.
From Coq Require Import List.
Import ListNotations.
Local Open Scope R_scope.

(** A move of (10, -5, 2, 0) mm at 1800 mm/min on the machine of config.py. *)
Definition exf_delta : quad f64 := Quad (f_ofZ 10) (f_ofZ (-5)) (f_ofZ 2) (f_ofZ 0).
Lemma default_lin : lin_cfg default_config.
Proof. split; [intros []|cbn|intros []]; cbn; lia. Qed.
Lemma exf_fit : fit_move default_config exf_delta (f_ofZ 1800).
Proof.
  assert (V: forall n, (Z.abs n <= 4096)%Z -> fin (f_ofZ n) /\ val (f_ofZ n) = IZR n) by (intros n H; apply f_ofZ_val; lia).
  split.
  - intros m. destruct (V 10%Z ltac:(lia)) as [F1 E1]. destruct (V (-5)%Z ltac:(lia)) as [F2 E2]. destruct (V 2%Z ltac:(lia)) as [F3 E3]. destruct (V 0%Z ltac:(lia)) as [F4 E4].
    destruct m; cbn [qat exf_delta qx qy qz qe]; rewrite ?E1, ?E2, ?E3, ?E4; (split; [assumption|]); apply Rabs_le; lra.
  - exists MX. destruct (V 10%Z ltac:(lia)) as [F1 E1]. cbn [qat exf_delta qx ppm default_config]. rewrite E1, Rabs_pos_eq; lra.
  - destruct (V 1800%Z ltac:(lia)) as [F1 E1]. split; [exact F1|]. rewrite E1. change (bpow radix2 60) with (IZR (2 ^ 60)). split; [lra|]. apply IZR_le. lia.
Qed.

(* ---------- C22 ---------- *)
(** In binary64, with automatic velocity adjustment and limits of a whole number of
    mm/s up to 1000 mm/s, as in config.py: every move passes the velocity check, no
    axis is faster than its limit, and the velocities are proportional to the
    displacements of the axes (rounded to ten decimals, as the velocities are) with
    one factor that is not above the requested feed.
    Missing: other limits, where it is false (C22_adjusted_refuted). *)
Theorem C22_adjusted_float_partial : forall acos cfg delta v,
  lin_cfg cfg -> sec_limits cfg -> auto_velocity cfg = true -> fit_move cfg delta v ->
  exists g kap, make_linear (N:=F64 acos) cfg delta v = Ok g /\
    too_fast (N:=F64 acos) cfg (gen_max_velocity (N:=F64 acos) (GLinear g)) = false /\
    (forall m, val (qat m (l_vel g : quad f64)) <= IZR (qat m (max_velocity_min cfg)) / 60) /\
    0 < kap /\ kap * len10 delta <= val v / 60 * (1 + / 10000000) /\
    forall m, Rabs (val (qat m (l_vel g : quad f64)) - kap * dist10 delta m) <= 12 / 100000000000.
Proof. exact adjusted_float. Qed.
Print Assumptions C22_adjusted_float_partial.
Lemma default_sec : sec_limits default_config.
Proof. intros []; [exists 400%Z|exists 200%Z|exists 10%Z|exists 25%Z]; (split; [reflexivity|lia]). Qed.
Example C22_adjusted_float_partial_ex : lin_cfg default_config /\ sec_limits default_config /\ auto_velocity default_config = true /\
  fit_move default_config exf_delta (f_ofZ 1800).
Proof. exact (conj default_lin (conj default_sec (conj eq_refl exf_fit))). Qed.

(* ---------- C30 ---------- *)
(** In binary64: a move of at least one step and at most 4096 mm per axis at a feed
    of at least 1 mm/min always runs to its end, without ZeroDivisionError or any
    other exception: one direction message, first, with the signs of the
    displacements, then items with at least one pulse each, on each axis as many
    pulses as there are steps in the displacement, rounded to the nearest one. *)
Theorem C30_completes_float : forall acos cfg delta v, lin_cfg cfg -> fit_move cfg delta v ->
  exists g l, emits (N:=F64 acos) cfg delta v g (Dir (invert_dirs cfg (qmap f_copysign1 delta)) :: l) /\ Forall is_pulse l /\
  forall m, Rabs (IZR (steps m l) - Rabs (val (qat m delta)) * IZR (qat m (ppm cfg))) <= / 2 + / 10000000.
Proof. exact emits_float_counts. Qed.
Print Assumptions C30_completes_float.
Example C30_completes_float_ex : lin_cfg default_config /\ fit_move default_config exf_delta (f_ofZ 1800).
Proof. exact (conj default_lin exf_fit). Qed.

(* ---------- C31 ---------- *)
(** In binary64: every item has one time, the first time is 0, no time is negative
    or after total_time_s(), the times of each motor strictly increase, and no time
    is followed by one that is smaller by more than 80 units of 2^-52 of it.
    Missing: that the times of different motors never decrease at all, which is
    false (C31_times_float_refuted). *)
Theorem C31_times_float_partial : forall acos cfg delta v g l, lin_cfg cfg -> fit_move cfg delta v ->
  emits (N:=F64 acos) cfg delta v g l ->
  exists d l' (ts : list f64), l = Dir d :: l' /\ Forall2 (fun it t => pulse_at (N:=F64 acos) t it) l' ts /\
    (forall t ts', ts = t :: ts' -> val t = 0) /\ Forall (fun t => 0 <= val t <= val (total_time_s (N:=F64 acos) (GLinear g))) ts /\
    (forall m, StronglySorted (fun t u : f64 => val t < val u) (motor_times m l')) /\
    StronglySorted (fun t u => val t <= val u * (1 + 80 * / 4503599627370496)) ts.
Proof. exact times_float. Qed.
Print Assumptions C31_times_float_partial.
Example C31_times_float_partial_ex : lin_cfg default_config /\ fit_move default_config exf_delta (f_ofZ 1800) /\
  exists g l, emits (N:=F64 (fun x => x)) default_config exf_delta (f_ofZ 1800) g l /\ l <> [].
Proof.
  split; [exact default_lin|]. split; [exact exf_fit|].
  destruct (emits_float_counts (fun x => x) _ _ _ default_lin exf_fit) as (g & l & E & _). exists g. eexists. split; [exact E|discriminate].
Qed.

(** The times of two motors can decrease by one unit in the last place, where the
    acceleration ends: the move (0.51, 0.288, 0, 0.192) at 3081.833869630224 mm/min
    on the machine of config.py. *)
Definition back_delta : quad f64 := Quad (f_ratio false 51 100) (f_ratio false 288 1000) (f_ofZ 0) (f_ratio false 192 1000).
Definition back_feed : f64 := f_ratio false 3081833869630224 1000000000000.
Fixpoint back (l : list (option f64)) : bool :=
  match l with
  | Some t1 :: (Some t2 :: _) as l' => f_lt t2 t1 && is_finite t1 && is_finite t2 || back l'
  | _ :: l' => back l'
  | [] => false
  end.
Definition item_time {acos} (it : item (F64 acos)) : option (F64 acos) :=
  match it with Dir _ => None | Pulse q => match qx q with Some t => Some t | None => match qy q with Some t => Some t | None => match qz q with Some t => Some t | None => qe q end end end end.
Lemma item_time_some acos (it : item (F64 acos)) (t : F64 acos) : item_time it = Some t -> exists q m, it = Pulse q /\ qat m q = Some t.
Proof.
  destruct it as [d|[[x|] y z e]]; [discriminate| |].
  - intros H. eexists. exists MX. split; [reflexivity|exact H].
  - destruct y as [y|]; [intros H; eexists; exists MY; split; [reflexivity|exact H]|].
    destruct z as [z|]; [intros H; eexists; exists MZ; split; [reflexivity|exact H]|].
    intros H. eexists. exists ME. split; [reflexivity|exact H].
Qed.
Lemma back_true acos (l : list (item (F64 acos))) : back (map (item_time (acos:=acos)) l) = true ->
  exists l1 q1 q2 l2 m1 m2 (t1 t2 : f64), l = l1 ++ Pulse q1 :: Pulse q2 :: l2 /\ qat m1 q1 = Some t1 /\ qat m2 q2 = Some t2 /\ val t2 < val t1.
Proof.
  induction l as [|i1 [|i2 l] IH]; [discriminate|cbn; destruct (item_time i1); discriminate|]. intros H.
  destruct (item_time i1) as [t1|] eqn:E1, (item_time i2) as [t2|] eqn:E2.
  - cbn [map back] in H. rewrite E1, E2 in H. apply orb_prop in H. destruct H as [H|H].
    + apply andb_prop in H. destruct H as [H F2]. apply andb_prop in H. destruct H as [H F1].
      destruct (item_time_some _ _ _ E1) as (q1 & m1 & -> & Q1). destruct (item_time_some _ _ _ E2) as (q2 & m2 & -> & Q2).
      exists [], q1, q2, l, m1, m2, t1, t2. split; [reflexivity|]. split; [exact Q1|]. split; [exact Q2|]. now apply f_lt_true.
    + destruct IH as (l1 & R); [cbn [map]; rewrite E2; exact H|]. exists (i1 :: l1). destruct R as (q1 & q2 & l2 & m1 & m2 & u1 & u2 & El & R). exists q1, q2, l2, m1, m2, u1, u2. rewrite El. split; [reflexivity|exact R].
  - cbn [map back] in H. rewrite E1, E2 in H. destruct IH as (l1 & R); [cbn [map]; rewrite E2; exact H|]. exists (i1 :: l1). destruct R as (q1 & q2 & l2 & m1 & m2 & u1 & u2 & El & R). exists q1, q2, l2, m1, m2, u1, u2. rewrite El. split; [reflexivity|exact R].
  - cbn [map back] in H. rewrite E1, E2 in H. destruct IH as (l1 & R); [cbn [map]; rewrite E2; exact H|]. exists (i1 :: l1). destruct R as (q1 & q2 & l2 & m1 & m2 & u1 & u2 & El & R). exists q1, q2, l2, m1, m2, u1, u2. rewrite El. split; [reflexivity|exact R].
  - cbn [map back] in H. rewrite E1, E2 in H. destruct IH as (l1 & R); [cbn [map]; rewrite E2; exact H|]. exists (i1 :: l1). destruct R as (q1 & q2 & l2 & m1 & m2 & u1 & u2 & El & R). exists q1, q2, l2, m1, m2, u1, u2. rewrite El. split; [reflexivity|exact R].
Qed.
Theorem C31_times_float_refuted : exists (delta : quad f64) (v : f64), forall acos,
  exists g l l1 q1 q2 l2 m1 m2 (t1 t2 : f64), emits (N:=F64 acos) default_config delta v g l /\
    l = l1 ++ Pulse q1 :: Pulse q2 :: l2 /\ qat m1 q1 = Some t1 /\ qat m2 q2 = Some t2 /\ val t2 < val t1.
Proof.
  exists back_delta, back_feed. intros acos.
  assert (H: match make_linear (N:=F64 acos) default_config back_delta back_feed with
             | Ok g => match run_gen (N:=F64 acos) default_config 200 (GLinear g) with Finished l => back (map (item_time (acos:=acos)) l) | _ => false end
             | Raise _ => false end = true) by (vm_compute; reflexivity).
  destruct (make_linear (N:=F64 acos) default_config back_delta back_feed) as [g|e] eqn:E; [|discriminate H].
  destruct (run_gen (N:=F64 acos) default_config 200 (GLinear g)) as [l| |] eqn:Er; try discriminate H.
  destruct (back_true _ l H) as (l1 & q1 & q2 & l2 & m1 & m2 & t1 & t2 & R). exists g, l, l1, q1, q2, l2, m1, m2, t1, t2.
  split; [|exact R]. split; [exact E|]. exists 200%nat. exact Er.
Qed.
Print Assumptions C31_times_float_refuted.

(* ---------- C32 ---------- *)
(** In binary64 the distance from the line stays below 1.07 pulses. Missing: one
    pulse exactly; the velocities are rounded to ten decimals, which may move an
    axis away by up to 0.06 pulses at the slowest feeds. *)
Theorem C32_straight_float_partial : forall acos cfg delta v g l, lin_cfg cfg -> fit_move cfg delta v ->
  emits (N:=F64 acos) cfg delta v g l ->
  forall l1 q l2, l = l1 ++ Pulse q :: l2 ->
  exists a, 0 <= a <= 1 /\
    forall m, Rabs (IZR (steps m (l1 ++ [Pulse q])) - a * Rabs (val (qat m delta)) * IZR (qat m (ppm cfg))) <= 107 / 100.
Proof. intros acos cfg delta v g l Hc Hm He l1 q l2. exact (straight_float acos cfg Hc delta v Hm g l l1 q l2 He). Qed.
Print Assumptions C32_straight_float_partial.
Example C32_straight_float_partial_ex : lin_cfg default_config /\ fit_move default_config exf_delta (f_ofZ 1800) /\
  exists g l l1 q l2, emits (N:=F64 (fun x => x)) default_config exf_delta (f_ofZ 1800) g l /\ l = l1 ++ Pulse q :: l2.
Proof.
  split; [exact default_lin|]. split; [exact exf_fit|].
  destruct (emits_float_counts (fun x => x) _ _ _ default_lin exf_fit) as (g & l & E & F & S). exists g. eexists.
  destruct l as [|it l].
  - exfalso. specialize (S MX). destruct (f_ofZ_val 10) as [_ E1]; [lia|]. cbn [qat exf_delta qx ppm default_config steps fold_right] in S. rewrite E1 in S.
    rewrite (Rabs_pos_eq 10) in S by lra. apply Rabs_le_inv in S. lra.
  - inversion F as [|? ? (t & q & -> & _) _]; subst. eexists [_], q, l. split; [exact E|reflexivity].
Qed.
