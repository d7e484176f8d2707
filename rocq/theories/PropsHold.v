(** Property C93: waiting for a heater (Heater.wait, cnc/heater.py:84-94, waits for
    Pid.is_fixed) and a temperature that is held within one percent. Every theorem is followed
    by its assumptions and by an Example in which its hypotheses hold. *)
From Coq Require Import ZArith Bool Reals Lra Lia List Sorted.
From Verif Require Import PyBase PyNum Config Coordinates Pid PidProofs.
From Coq Require Import List.
Import ListNotations.
Local Open Scope R_scope.

Section Hold.
Variable target kp ki kd : R.
Hypothesis Ki : 0 < ki.
(** A controller with these settings. *)
Definition set_up (p : pid RN) : Prop := p_target p = target /\ p_P p = kp /\ p_I p = ki /\ p_D p = kd /\ p_windup p = / ki.
Lemma set_up_update p v t : set_up p -> set_up (fst (pid_update p v t)).
Proof. intros (A & B & C & D & E). unfold pid_update. destruct (pid_fix _ _ _ _). repeat split; assumption. Qed.
Lemma run_cons p v t r : fst (pid_run (N:=RN) p ((v, t) :: r)) = fst (pid_run (fst (pid_update p v t)) r).
Proof. cbn [pid_run]. destruct (pid_update p v t) as [q o]. cbn [fst]. destruct (pid_run q r). reflexivity. Qed.
Lemma set_up_run ups : forall p, set_up p -> set_up (fst (pid_run p ups)).
Proof. induction ups as [|[v t] r IH]; intros p H; [exact H|]. rewrite run_cons. apply IH, set_up_update, H. Qed.
Lemma set_up_new now p : pid_new (N:=RN) target kp ki kd now = Ok p -> set_up p /\ p_time p = now /\ p_timer p = None.
Proof.
  unfold pid_new. cbn [div RN ofZ]. destruct (Req_EM_T ki 0); intros H; [discriminate|]. injection H as <-. repeat split. cbn. unfold Rdiv. ring.
Qed.

Lemma windup_le p e dt : set_up p -> ki * pid_integral p e dt <= 1.
Proof.
  intros (A & B & C & D & E). unfold pid_integral. rewrite E. cbn [add mul ltb absn copysign RN]. change (num RN) with R. set (i := p_integral p + e * dt).
  assert (W: 0 < / ki) by (apply Rinv_0_lt_compat, Ki). unfold Rltb. destruct (Rlt_dec (/ ki) (Rabs i)) as [L|L].
  - destruct (Rlt_dec i 0); rewrite (Rabs_right (/ ki)) by lra; [|rewrite Rinv_r; lra]. assert (0 < ki * / ki) by (rewrite Rinv_r; lra). lra.
  - assert (i <= / ki) by (pose proof (Rle_abs i); lra). replace 1 with (ki * / ki) by (field; lra). apply Rmult_le_compat_l; lra.
Qed.
(** A timer is a time that has passed. *)
Definition past (p : pid RN) : Prop := forall s, p_timer p = Some s -> s <= p_time p.
Lemma past_update p v t : past p -> p_time p <= t -> past (fst (pid_update p v t)).
Proof.
  intros H T. unfold pid_update. destruct (pid_fix _ _ _ _) as [f m] eqn:E. cbn [fst]. intros s. cbn [p_timer p_time]. intros ->. unfold pid_fix in E.
  destruct (p_fixed p); [injection E as _ E; specialize (H s E); lra|].
  destruct (pid_near _ _ _); [|discriminate]. destruct (p_timer p) as [s'|] eqn:M; [|injection E as _ <-; lra].
  assert (s' = s) by (match type of E with (if ?b then _ else _) = _ => destruct b end; injection E as _ <-; reflexivity). subst s'. specialize (H s M). lra.
Qed.
Lemma time_update p v t : p_time (fst (pid_update (N:=RN) p v t)) = t.
Proof. unfold pid_update. destruct (pid_fix _ _ _ _). reflexivity. Qed.
Lemma last_update p v t : p_last (fst (pid_update (N:=RN) p v t)) = p_target p - v.
Proof. unfold pid_update. destruct (pid_fix _ _ _ _). reflexivity. Qed.
Lemma past_run ups : forall p, past p -> StronglySorted Rle (p_time p :: map snd ups) -> past (fst (pid_run p ups)).
Proof.
  induction ups as [|[v t] r IH]; intros p H S; [exact H|]. rewrite run_cons. cbn [map snd] in S. inversion S as [|? ? S1 S2]; subst.
  apply IH; [apply past_update; [exact H|now inversion S2]|]. now rewrite time_update.
Qed.
Lemma time_run (ups : list (R * R)) : forall (p : pid RN) (t r : R), StronglySorted Rle (p_time p :: map snd (ups ++ (r, t) :: nil)) -> p_time (fst (pid_run p ups)) <= t.
Proof.
  induction ups as [|[v u] l IH]; intros p t r S; cbn [app map snd] in S; inversion S as [|? ? S1 S2]; subst.
  - cbn. now inversion S2.
  - rewrite run_cons. apply (IH _ t r). now rewrite time_update.
Qed.

(** Updates after a reading [prev]: above the target by less than one percent, and not falling
    so fast that the differential part makes up for the proportional one. *)
Fixpoint held (prev : R) (ups : list (R * R)) : Prop :=
  match ups with
  | [] => True
  | (v, _) :: l => target < v < target * (1 + / 100) /\ kd * (prev - v) < kp * (v - target) /\ held v l
  end.
Lemma near_above p v t prev : set_up p -> p_last p = target - prev -> target < v < target * (1 + / 100) -> kd * (prev - v) < kp * (v - target) ->
  pid_near (N:=RN) p (sub (p:=RN) (p_target p) v) (pid_output p (sub (p:=RN) (p_target p) v) (pid_integral p (sub (p:=RN) (p_target p) v) (sub (p:=RN) t (p_time p))) (sub (p:=RN) (sub (p:=RN) (p_target p) v) (p_last p))) = true.
Proof.
  intros U L Above Q. pose proof (windup_le p (target - v) (t - p_time p) U) as W. destruct U as (A & B & C & D & E).
  unfold pid_near, pid_output. rewrite A, B, C, D, L. cbn [sub add mul ltb absn ofZ RN zero] in *. change (num RN) with R in *.
  set (i := pid_integral p (target - v) (t - p_time p)) in *. clearbody i.
  assert (X: kp * (target - v) + ki * i + kd * (target - v - (target - prev)) < 1). { replace (target - v - (target - prev)) with (prev - v) by ring. lra. }
  set (o := kp * (target - v) + ki * i + kd * (target - v - (target - prev))) in *. clearbody o. unfold Rltb.
  destruct (Rlt_dec 1 o); [lra|]. rewrite Rabs_left by lra.
  assert (F: fix_accuracy (N:=RN) = / 100) by (unfold fix_accuracy; cbn; lra). rewrite F.
  destruct (Rlt_dec (- (target - v)) (target * / 100)); [|lra]. cbn [andb]. unfold zero. cbn [ofZ RN].
  destruct (Rlt_dec o 0); [destruct (Rlt_dec 0 1); [reflexivity|lra]|]. destruct (Rlt_dec o 1); [reflexivity|lra].
Qed.
(** Fixed, or a timer that was started not after t1. *)
Definition timed (t1 : R) (p : pid RN) : Prop := p_fixed p = true \/ exists s, p_timer p = Some s /\ s <= t1.
Lemma timed_update t1 p v t prev : set_up p -> p_last p = target - prev -> target < v < target * (1 + / 100) -> kd * (prev - v) < kp * (v - target) -> timed t1 p ->
  timed t1 (fst (pid_update p v t)) /\ (5 / 2 < t - t1 -> p_fixed (fst (pid_update p v t)) = true).
Proof.
  intros U L Above Q T. pose proof (near_above p v t prev U L Above Q) as K. unfold pid_update. cbv zeta. unfold pid_fix. destruct T as [T|(s & T & X)].
  - rewrite T. cbn [fst p_fixed]. split; [now left|reflexivity].
  - destruct (p_fixed p); [cbn [fst p_fixed]; split; [now left|reflexivity]|]. rewrite K, T.
    assert (F: fix_time (N:=RN) = 5 / 2) by (unfold fix_time; cbn; lra). rewrite F. cbn [ltb sub RN]. unfold Rltb. destruct (Rlt_dec (5 / 2) (t - s)) as [Y|Y]; cbn [fst p_fixed].
    + split; [now left|reflexivity].
    + split; [right; exists s; auto|intros; lra].
Qed.
Lemma timed_first p v t prev : set_up p -> p_last p = target - prev -> target < v < target * (1 + / 100) -> kd * (prev - v) < kp * (v - target) ->
  past p -> p_time p <= t -> timed t (fst (pid_update p v t)).
Proof.
  intros U L Above Q P T. pose proof (near_above p v t prev U L Above Q) as K. unfold pid_update. cbv zeta. unfold pid_fix, timed.
  destruct (p_fixed p); [now left|]. rewrite K. destruct (p_timer p) as [s|] eqn:M; [specialize (P s M)|].
  - destruct (ltb _ _); [now left|]. right. exists s. split; [reflexivity|lra].
  - right. exists t. split; [reflexivity|lra].
Qed.
(** The last update comes more than 2.5 seconds after t1. *)
Lemma timed_run t1 v2 t2 mid : forall p prev, set_up p -> p_last p = target - prev -> timed t1 p -> held prev (mid ++ [(v2, t2)]) -> 5 / 2 < t2 - t1 ->
  p_fixed (fst (pid_run p (mid ++ [(v2, t2)]))) = true.
Proof.
  induction mid as [|[v t] l IH]; intros p prev U L T F Y; cbn [app held] in *; destruct F as (Above & Q & F).
  - rewrite run_cons. exact (proj2 (timed_update t1 p v2 t2 prev U L Above Q T) Y).
  - rewrite run_cons. apply (IH _ v); auto; [now apply set_up_update|rewrite last_update; now rewrite (proj1 U)|exact (proj1 (timed_update t1 p v t prev U L Above Q T))].
Qed.
End Hold.

(** C93. Temperatures held above the target, by less than one percent and without a fall that
    is too fast, end the waiting: every update more than 2.5 seconds after the first of them
    finds the target reached, whatever was before (the reading before them is v0). In
    particular a constant temperature does. Exact arithmetic. Missing: temperatures below the
    target, see C93_below_refuted. *)
Theorem C93_above_partial target kp ki kd now p pre v0 t0 v1 t1 mid v2 t2 : 0 < ki ->
  pid_new (N:=RN) target kp ki kd now = Ok p -> held target kp kd v0 ((v1, t1) :: mid ++ [(v2, t2)]) ->
  StronglySorted Rle (now :: map snd (pre ++ (v0, t0) :: (v1, t1) :: mid ++ [(v2, t2)])) -> 5 / 2 < t2 - t1 ->
  p_fixed (fst (pid_run p (pre ++ (v0, t0) :: (v1, t1) :: mid ++ [(v2, t2)]))) = true.
Proof.
  intros Ki H F S T. destruct (set_up_new target kp ki kd now p H) as (U & N0 & M).
  assert (Sub: forall w l a, fst (pid_run (N:=RN) w (l ++ a)) = fst (pid_run (fst (pid_run w l)) a)).
  { intros w l a. rewrite run_app. destruct (pid_run w l) as [q o]. cbn [fst]. destruct (pid_run q a). reflexivity. }
  rewrite <- N0 in S.
  replace (pre ++ (v0, t0) :: (v1, t1) :: mid ++ [(v2, t2)]) with ((pre ++ [(v0, t0)]) ++ (v1, t1) :: mid ++ [(v2, t2)]) in * by (rewrite <- app_assoc; reflexivity).
  rewrite Sub. set (q := fst (pid_run p (pre ++ [(v0, t0)]))).
  assert (SS: forall (a b : list R), StronglySorted Rle (a ++ b) -> StronglySorted Rle a).
  { clear. induction a as [|x a IH]; intros b S; [constructor|]. cbn in S. inversion S as [|? ? S1 S2]; subst. constructor; [exact (IH _ S1)|]. apply Forall_app in S2. tauto. }
  assert (P: past q /\ p_time q <= t1).
  { split.
    - apply past_run; [intros s K; rewrite M in K; discriminate|]. rewrite map_app in S. rewrite app_comm_cons in S. exact (SS _ _ S).
    - apply (time_run _ p t1 v1). replace ((pre ++ [(v0, t0)]) ++ (v1, t1) :: mid ++ [(v2, t2)]) with (((pre ++ [(v0, t0)]) ++ [(v1, t1)]) ++ mid ++ [(v2, t2)]) in S by (rewrite <- app_assoc; reflexivity).
      rewrite map_app in S. rewrite app_comm_cons in S. exact (SS _ _ S). }
  assert (Uq: set_up target kp ki kd q) by (apply set_up_run, U).
  assert (Lq: p_last q = target - v0). { unfold q. rewrite Sub, run_cons. cbn [pid_run fst]. rewrite last_update. now rewrite (proj1 (set_up_run target kp ki kd pre p U)). }
  cbn [held] in F. destruct F as (Above & Q & F). rewrite run_cons.
  apply (timed_run target kp ki kd Ki t1 v2 t2 mid _ v1); auto.
  - apply set_up_update, Uq.
  - rewrite last_update. now rewrite (proj1 Uq).
  - apply (timed_first target kp ki kd Ki q v1 t1 v0); tauto.
Qed.
Print Assumptions C93_above_partial.
Example C93_above_partial_ex : (exists p, pid_new (N:=RN) 200 (1 / 10) (1 / 40) (1 / 5) 0 = Ok p) /\
  held 200 (1 / 10) (1 / 5) 201 ((201, 201) :: [(2011 / 10, 202)] ++ [(201, 204)]) /\
  StronglySorted Rle (0 :: map snd ([(20, 100)] ++ (201, 200) :: (201, 201) :: [(2011 / 10, 202)] ++ [(201, 204)])) /\ 5 / 2 < 204 - 201.
Proof.
  split; [unfold pid_new; cbn; destruct (Req_EM_T (1 / 40) 0); [lra|eexists; reflexivity]|]. split; [cbn; repeat split; lra|]. split; [|lra].
  cbn. repeat (constructor; try lra).
Qed.

(** The controller with a full integral. *)
Definition full (target kp ki kd r : R) (p : pid RN) : Prop :=
  set_up target kp ki kd p /\ p_integral p = / ki /\ p_last p = target - r /\ p_fixed p = false.
Lemma integral_full target kp ki kd p e dt : 0 < ki -> set_up target kp ki kd p -> / ki <= p_integral p + e * dt -> pid_integral p e dt = / ki.
Proof.
  intros Ki (A & B & C & D & E) H. unfold pid_integral. rewrite E. cbn [add mul ltb absn copysign RN]. change (num RN) with R in *.
  assert (W: 0 < / ki) by (apply Rinv_0_lt_compat, Ki). set (i := p_integral p + e * dt) in *. clearbody i. rewrite (Rabs_right i) by lra. unfold Rltb.
  destruct (Rlt_dec (/ ki) i); [|lra]. destruct (Rlt_dec i 0); [lra|]. apply Rabs_right. lra.
Qed.
Lemma full_update target kp ki kd r p t : 0 <= kp -> 0 < ki -> r < target -> full target kp ki kd r p -> p_time p <= t ->
  full target kp ki kd r (fst (pid_update p r t)).
Proof.
  intros Kp Ki Rt (U & I & L & F) T. pose proof (set_up_update target kp ki kd p r t U) as U'. split; [exact U'|]. pose proof (last_update p r t) as L'. rewrite (proj1 U) in L'.
  assert (G: pid_integral p (sub (p:=RN) (p_target p) r) (sub (p:=RN) t (p_time p)) = / ki).
  { apply (integral_full target kp ki kd); auto. rewrite I, (proj1 U). cbn [sub RN]. change (num RN) with R in *. assert (0 <= (target - r) * (t - p_time p)) by (apply Rmult_le_pos; lra). lra. }
  assert (O: pid_near (N:=RN) p (sub (p:=RN) (p_target p) r) (pid_output p (sub (p:=RN) (p_target p) r) (pid_integral p (sub (p:=RN) (p_target p) r) (sub (p:=RN) t (p_time p))) (sub (p:=RN) (sub (p:=RN) (p_target p) r) (p_last p))) = false).
  { rewrite G. destruct U as (A & B & C & D & E). unfold pid_near, pid_output. rewrite A, B, C, D, L. unfold zero. cbn [sub add mul ltb absn ofZ RN]. change (num RN) with R.
    replace (ki * / ki) with 1 by (field; lra). assert (X: 1 <= kp * (target - r) + 1 + kd * (target - r - (target - r))). { assert (0 <= kp * (target - r)) by (apply Rmult_le_pos; lra). lra. }
    set (o := kp * (target - r) + 1 + kd * (target - r - (target - r))) in *. clearbody o. unfold Rltb. apply andb_false_iff. right.
    destruct (Rlt_dec 1 o); [destruct (Rlt_dec 1 0); [lra|]; destruct (Rlt_dec 1 1); [lra|reflexivity]|]. destruct (Rlt_dec o 0); [lra|]. destruct (Rlt_dec o 1); [lra|reflexivity]. }
  split; [|split; [exact L'|]]; unfold pid_update; cbv zeta; unfold pid_fix; rewrite F, O; cbn [fst p_integral p_fixed]; [exact G|reflexivity].
Qed.
Lemma full_run target kp ki kd r ups : 0 <= kp -> 0 < ki -> r < target -> forall p, full target kp ki kd r p -> Forall (fun u => fst u = r) ups ->
  StronglySorted Rle (p_time p :: map snd ups) -> p_fixed (fst (pid_run p ups)) = false.
Proof.
  intros Kp Ki Rt. induction ups as [|[v t] l IH]; intros p U F S; [exact (proj2 (proj2 (proj2 U)))|].
  apply Forall_cons_iff in F. destruct F as [F1 F2]. cbn [fst] in F1. rewrite F1, run_cons. cbn [map snd] in S. apply StronglySorted_inv in S. destruct S as [S1 S2].
  apply Forall_cons_iff in S2. apply IH; [apply full_update; auto; tauto|exact F2|]. now rewrite time_update.
Qed.
(** A temperature below the target, however near, can be held for ever without ending the
    wait: for all settings there is a heating up (one long interval) after which a constant
    temperature r, the output being 1, is never accepted. A heater which is just too weak for
    its target does this. *)
Theorem C93_below_refuted target kp ki kd now : 0 < target -> 0 <= kp -> 0 < ki ->
  exists p t, pid_new (N:=RN) target kp ki kd now = Ok p /\ now <= t /\
  forall r, 0 < target - r < target / 100 -> forall ups, Forall (fun u => fst u = r) ups -> StronglySorted Rle (now :: t :: t :: map snd ups) ->
  p_fixed (fst (pid_run p ((0, t) :: (r, t) :: ups))) = false.
Proof.
  intros T Kp Ki. assert (W: 0 < / (ki * target)) by (apply Rinv_0_lt_compat, Rmult_lt_0_compat; assumption).
  eexists. exists (now + / (ki * target)). split; [|split; [lra|]].
  { unfold pid_new. cbn [div RN ofZ]. destruct (Req_EM_T ki 0); [exfalso; lra|]. reflexivity. }
  match goal with |- context [pid_run ?x _] => set (p := x) end. intros r Rt ups F S. set (t := now + / (ki * target)) in *.
  assert (U: set_up target kp ki kd p). { apply (set_up_new target kp ki kd now). unfold pid_new. cbn [div RN ofZ]. destruct (Req_EM_T ki 0); [exfalso; lra|]. reflexivity. }
  rewrite !run_cons. set (p1 := fst (pid_update p 0 t)). assert (U1: set_up target kp ki kd p1) by apply set_up_update, U.
  assert (A1: p_time p1 = t) by apply time_update.
  assert (G: p_integral p1 = / ki).
  { assert (G: pid_integral p (sub (p:=RN) (p_target p) 0) (sub (p:=RN) t (p_time p)) = / ki).
    { apply (integral_full target kp ki kd); auto. cbn. right. unfold t. field. lra. }
    unfold p1, pid_update. destruct (pid_fix _ _ _ _). exact G. }
  assert (B: p_fixed p1 = false /\ p_timer p1 = None).
  { unfold p1, pid_update. cbv zeta. unfold pid_fix at 1 2. cbn [p_fixed p].
    match goal with |- context [pid_near ?a ?b ?c] => assert (X: pid_near a b c = false) end.
    { unfold pid_near. apply andb_false_iff. left. cbn. unfold Rltb. rewrite Rabs_right by lra. destruct (Rlt_dec _ _) as [Y|]; [|reflexivity]. exfalso.
      assert (target * (1 * (1 / (10 * (10 * 1)))) = target / 100) by field. lra. }
    rewrite X. split; reflexivity. }
  apply (full_run target kp ki kd r); auto; [lra| |].
  - split; [apply set_up_update, U1|]. split; [|split].
    + assert (K: pid_integral p1 (sub (p:=RN) (p_target p1) r) (sub (p:=RN) t (p_time p1)) = / ki).
      { apply (integral_full target kp ki kd); auto. rewrite G, A1, (proj1 U1). cbn [sub RN]. change (num RN) with R. right. ring. }
      unfold pid_update. destruct (pid_fix _ _ _ _). exact K.
    + rewrite last_update. now rewrite (proj1 U1).
    + unfold pid_update. cbv zeta. unfold pid_fix. destruct B as [B1 B2]. rewrite B1, B2. destruct (pid_near _ _ _); reflexivity.
  - rewrite time_update. apply StronglySorted_inv in S. destruct S as [S _]. apply StronglySorted_inv in S. tauto.
Qed.
Print Assumptions C93_below_refuted.
Example C93_below_refuted_ex : 0 < 200 - 199 < 200 / 100 /\ Forall (fun u : R * R => fst u = 199) [(199, 900); (199, 1000)] /\ StronglySorted Rle (0 :: 1 :: 1 :: map snd [(199, 900); (199, 1000)]).
Proof. split; [lra|]. split; [repeat constructor|]. cbn. repeat (constructor; try lra). Qed.
