(** Properties C39-C45 and C63: the temperature controller (cnc/pid.py), the heater
    threads (cnc/heater.py) and the lock of the sensor chip
    (cnc/sensors/ads111x.py). Every theorem is followed by its assumptions and by an
    Example in which its hypotheses hold. *)
From Coq Require Import ZArith Bool Lia List Reals Lra.
From Flocq Require Import Core BinarySingleNaN.
From Verif Require Import PyBase PyNum PyFloatFacts FloatBound Config Coordinates GMachine Pid PidProofs Heater HeaterProofs.
From Coq Require Import List.
From Flocq Require Import Core.
Import ListNotations.
Local Open Scope R_scope.

(** A percentage. *)
Definition percent (x : f64) : Prop := fin x /\ 0 <= val x <= 100.
(** Finite binary64 numbers of magnitude at most 2^64: every temperature and time. *)
Definition tame (x : f64) : Prop := fb x 64.

(* ---------- used in Examples ---------- *)
Definition pid_any {N : PyNum} : pid N :=
  {| p_time := zero; p_target := zero; p_P := zero; p_I := zero; p_D := zero; p_windup := zero;
     p_integral := zero; p_last := zero; p_fixed := false; p_timer := None |}.
Definition the_pid {N : PyNum} (r : res (pid N)) : pid N := match r with Ok p => p | Raise _ => pid_any end.
Lemma the_pid_ok {N : PyNum} (r : res (pid N)) : (match r with Ok _ => true | Raise _ => false end) = true -> r = Ok (the_pid r).
Proof. destruct r; [reflexivity|discriminate]. Qed.
Lemma tame_Z n : (Z.abs n <= 2 ^ 53)%Z -> tame (f_ofZ n).
Proof. intros H. destruct (fb_ofZ n 53 H ltac:(lia)) as [B _]. eapply fb_weak; [exact B|lia]. Qed.

Lemma tame_dec n d : (0 < n <= 10 ^ 12)%Z -> (d <= 14)%nat -> tame (f_ofdec false n d) /\ bpow radix2 (-64) <= val (f_ofdec false n d).
Proof.
  intros Hn Hd. unfold f_ofdec.
  assert (P: (1 <= 10 ^ Z.of_nat d <= 10 ^ 14)%Z) by (split; [apply (Z.pow_le_mono_r 10 0)|apply Z.pow_le_mono_r]; lia).
  set (q := Z.to_pos (10 ^ Z.of_nat d)). assert (Q: Zpos q = (10 ^ Z.of_nat d)%Z) by (unfold q; rewrite Z2Pos.id; lia).
  assert (D: 1 <= IZR (Zpos q) <= 100000000000000). { rewrite Q. split; apply IZR_le; lia. }
  assert (M: 1 <= IZR n <= 1000000000000). { split; apply IZR_le; lia. }
  assert (L: bpow radix2 (-64) <= IZR n / IZR (Zpos q)).
  { apply Rle_trans with (1 / 100000000000000).
    - change (bpow radix2 (-64)) with (/ IZR (2 ^ 64)). unfold Rdiv. rewrite Rmult_1_l. apply Rinv_le; [lra|]. change (2 ^ 64)%Z with 18446744073709551616%Z. lra.
    - apply Rle_trans with (1 / IZR (Zpos q)); unfold Rdiv; rewrite ?Rmult_1_l; [apply Rinv_le; lra|].
      rewrite <- (Rmult_1_l (/ IZR (Zpos q))) at 1. apply Rmult_le_compat_r; [apply Rlt_le, Rinv_0_lt_compat|]; lra. }
  assert (U: IZR n / IZR (Zpos q) <= bpow radix2 64).
  { apply Rle_trans with 1000000000000; [|change (bpow radix2 64) with (IZR (2 ^ 64)); change (2 ^ 64)%Z with 18446744073709551616%Z; lra].
    apply Rle_trans with (IZR n / 1); [|lra]. unfold Rdiv. apply Rmult_le_compat_l; [lra|]. apply Rinv_le; lra. }
  pose proof (bpow_gt_0 radix2 (-64)) as Z64.
  destruct (f_ratio_val false n q) as (F & V & _); [lia|rewrite Rabs_pos_eq by lra; eapply Rle_trans; [exact U|apply bpow_le; lia]|].
  rewrite Rmult_1_l in V. split.
  - eapply fb_rd; [exact F|exact V|lia|]. rewrite Rabs_pos_eq by lra. exact U.
  - rewrite V. rewrite <- (rd_bpow (-64)) by lia. now apply rd_le.
Qed.
Lemma default_tame (acos : f64 -> f64) h : let '(kp, ki, kd) := @default_gains (F64 acos) h in tame_gains kp ki kd.
Proof.
  destruct h; cbn -[f_ofdec]; split; apply tame_dec; lia.
Qed.

Lemma system_power_F (acos : f64 -> f64) gains (s : sys (F64 acos)) k b x :
  (forall h, let '(kp, ki, kd) := gains h in tame_gains kp ki kd) ->
  reachable (N:=F64 acos) gains tame tame s -> In (Power (N:=F64 acos) k b x) (s_log s) -> percent x.
Proof.
  intros Hg H.
  set (okpid := fun p : pid (F64 acos) => exists target kp ki kd, tame_gains kp ki kd /\ fb target 64 /\ ok_pid acos target kp ki kd p).
  destruct (powers_ok (N:=F64 acos) gains tame tame okpid percent) with (s := s) as [_ (_ & _ & K)]; [| | |exact H|exact (K k b x)].
  - intros h target now p Ht Hn. specialize (Hg h). destruct (gains h) as [[kp ki] kd]. intros E.
    destruct (new_F acos target kp ki kd Hg now Hn) as (p0 & E0 & Hp). rewrite E in E0. injection E0 as ->.
    exists target, kp, ki, kd. auto.
  - intros p v now p' o (target & kp & ki & kd & G & T & Hp) Hv Hn E.
    destruct (update_F acos target kp ki kd G T p v now Hp Hv Hn) as [P O]. rewrite E in P, O. cbn in P, O.
    split; [exists target, kp, ki, kd; auto|]. now apply power_F.
  - split; [reflexivity|]. change (val (@zero (F64 acos))) with 0. lra.
Qed.

(** A heater at 200 degrees whose first measurement was 20. *)
Section EX.
Variable acos : f64 -> f64.
Notation N := (F64 acos).
Definition pid200 : pid N := the_pid (let '(kp, ki, kd) := @default_gains N HeaterExtruder in pid_new (N:=N) (f_ofZ 200) kp ki kd (f_ofZ 0)).
Lemma pid200_ok : (let '(kp, ki, kd) := @default_gains N HeaterExtruder in pid_new (N:=N) (f_ofZ 200) kp ki kd (f_ofZ 0)) = Ok pid200.
Proof. unfold pid200. apply the_pid_ok. vm_compute. reflexivity. Qed.
Definition power200 : f64 := f_mul (snd (pid_update pid200 (f_ofZ 20) (f_ofZ 0))) (f_ofZ 100).
Lemma power200_pos : f_lt (f_ofZ 0) power200 = true.
Proof. vm_compute. reflexivity. Qed.
Lemma start200 : exists (s : sys N) (x : N), f_lt (f_ofZ 0) x = true /\ reachable (N:=N) default_gains tame tame s /\
  s_main s = MIdle /\ s_adc s = None /\ s_rec s HeaterExtruder = Some 0%nat /\ h_pc (s_heaters s 0%nat) = HMeasure /\
  s_log s = [Power 0 false x; MeasOk (THeat 0); Constructed 0; MeasOk TMain; Created 0 HeaterExtruder].
Proof.
  destruct (warm (N:=N) default_gains tame tame HeaterExtruder (f_ofZ 200) (f_ofZ 0) (f_ofZ 20) pid200
    (fst (pid_update pid200 (f_ofZ 20) (f_ofZ 0))) (snd (pid_update pid200 (f_ofZ 20) (f_ofZ 0)))
    pid200_ok (surjective_pairing _) (tame_Z 200 ltac:(cbn; lia)) (tame_Z 20 ltac:(cbn; lia)) (tame_Z 0 ltac:(cbn; lia))) as (s & H).
  exists s, power200. split; [exact power200_pos|exact H].
Qed.
Lemma lost200 : exists (s : sys N) (x : N), f_lt (f_ofZ 0) x = true /\ reachable (N:=N) default_gains tame tame s /\
  s_main s = MIdle /\ s_rec s HeaterExtruder = None /\
  s_log s = [NewRaised 0; MeasErr TMain Refused; Power 0 false x; MeasOk (THeat 0); Created 0 HeaterExtruder].
Proof.
  destruct (warm_lost (N:=N) default_gains tame tame HeaterExtruder (f_ofZ 200) (f_ofZ 0) (f_ofZ 20) pid200
    (fst (pid_update pid200 (f_ofZ 20) (f_ofZ 0))) (snd (pid_update pid200 (f_ofZ 20) (f_ofZ 0)))
    pid200_ok (surjective_pairing _) (tame_Z 200 ltac:(cbn; lia)) (tame_Z 20 ltac:(cbn; lia)) (tame_Z 0 ltac:(cbn; lia))) as (s & H).
  exists s, power200. split; [exact power200_pos|exact H].
Qed.
End EX.

(* ---------- C39 ---------- *)
(** C39. With exact arithmetic every output is in [0, 1], for all coefficients and
    all sequences of measurements and times. *)
Theorem C39_output_exact (target kp ki kd now : R) (p p' : pid RN) (ups : list (R * R)) (outs : list R) :
  pid_new (N:=RN) target kp ki kd now = Ok p -> pid_run p ups = (p', outs) ->
  Forall (fun o => 0 <= o <= 1) outs.
Proof. intros H1 H2. exact (proj1 (exact_bounds target kp ki kd now p ups p' outs H1 H2)). Qed.
Print Assumptions C39_output_exact.
Example C39_output_exact_ex : exists p, pid_new (N:=RN) 200 1 (1/2) 1 0 = Ok p /\ snd (pid_run p [(20, 1)]) = [1].
Proof.
  unfold pid_new. cbn. destruct (Req_EM_T (1 / 2) 0); [lra|]. eexists. split; [reflexivity|].
  unfold pid_run, pid_update. destruct (pid_fix _ _ _ _). cbn [snd]. f_equal.
  match goal with |- pid_output ?p ?e (pid_integral ?q ?e ?d) ?f = _ => pose proof (integral_R q e d) as B; set (i := pid_integral q e d) in * end.
  cbn in B. rewrite (Rabs_pos_eq (1 / (1 / 2))) in B by lra. apply Rabs_le_inv in B.
  unfold pid_output. cbn. unfold Rltb. repeat (destruct (Rlt_dec _ _); cbn in *); lra.
Qed.


(** Binary64, partial: what is missing are targets, measurements, times or
    coefficients beyond 2^64, for which the property is false (below). *)
Theorem C39_output_partial (acos : f64 -> f64) (target kp ki kd now : f64) (ups : list (f64 * f64)) :
  tame target -> tame_gains kp ki kd -> tame now -> Forall (fun u => tame (fst u) /\ tame (snd u)) ups ->
  exists p p' outs, pid_new (N:=F64 acos) target kp ki kd now = Ok p /\ pid_run p ups = (p', outs) /\
    Forall (fun o => fin o /\ 0 <= val o <= 1) outs /\ Forall (fun o => percent (f_mul o (f_ofZ 100))) outs.
Proof.
  intros H1 H2 H3 H4. destruct (new_F acos target kp ki kd H2 now H3) as (p & E & Hp).
  destruct (run_F acos target kp ki kd H2 H1 p ups Hp H4) as [_ H].
  exists p, (fst (pid_run (N:=F64 acos) p ups)), (snd (pid_run (N:=F64 acos) p ups)).
  split; [exact E|]. split; [apply surjective_pairing|]. split; [exact H|].
  eapply Forall_impl; [|exact H]. intros o Ho. now apply power_F.
Qed.
Print Assumptions C39_output_partial.
Example C39_output_partial_ex (acos : f64 -> f64) :
  let '(kp, ki, kd) := @default_gains (F64 acos) HeaterExtruder in
  tame (f_ofZ 200) /\ tame_gains kp ki kd /\ Forall (fun u => tame (fst u) /\ tame (snd u)) [(f_ofZ 20, f_ofZ 1); (f_ofZ 199, f_ofZ 2)] /\
  map (fun o => f_lt (f_ofZ 0) o) (snd (pid_run (N:=F64 acos) (the_pid (pid_new (N:=F64 acos) (f_ofZ 200) kp ki kd (f_ofZ 0))) [(f_ofZ 20, f_ofZ 1); (f_ofZ 199, f_ofZ 2)])) = [true; false].
Proof.
  pose proof (default_tame acos HeaterExtruder) as H. cbn [default_gains] in H |- *. split; [apply tame_Z; lia|]. split; [exact H|].
  split; [apply Forall_cons; [|apply Forall_cons; [|apply Forall_nil]]; split; apply tame_Z; lia|]. vm_compute. reflexivity.
Qed.

Theorem C39_output_refuted (acos : f64 -> f64) :
  exists target kp ki kd now v,
    fin target /\ fin kp /\ fin ki /\ fin kd /\ fin now /\ fin v /\
    exists p, pid_new (N:=F64 acos) target kp ki kd now = Ok p /\ ~ fin (snd (pid_update p v now)).
Proof.
  exists (f_ofZ (10 ^ 308)), (f_ofZ 1), (f_ofZ 1), (f_ofZ 1), (f_ofZ 0), (f_ofZ (- 10 ^ 308)).
  repeat (split; [vm_compute; reflexivity|]).
  exists (the_pid (pid_new (N:=F64 acos) (f_ofZ (10 ^ 308)) (f_ofZ 1) (f_ofZ 1) (f_ofZ 1) (f_ofZ 0))).
  split; [apply the_pid_ok; vm_compute; reflexivity|]. unfold fin.
  match goal with |- ?x <> true => replace x with false by (vm_compute; reflexivity) end. discriminate.
Qed.
Print Assumptions C39_output_refuted.

(** Every power ever sent to a heater is a percentage: for every schedule of the
    threads, every measurement failure and all temperatures and times up to 2^64. *)
Theorem C39_power_partial (acos : f64 -> f64) (gains : heater_id -> f64 * f64 * f64) (s : sys (F64 acos)) (k : nat) (b : bool) (x : f64) :
  (forall h, let '(kp, ki, kd) := gains h in tame_gains kp ki kd) ->
  reachable (N:=F64 acos) gains tame tame s -> In (Power (N:=F64 acos) k b x) (s_log s) -> percent x.
Proof. intros Hg H. exact (system_power_F acos gains s k b x Hg H). Qed.
Print Assumptions C39_power_partial.
Example C39_power_partial_ex (acos : f64 -> f64) :
  (forall h, let '(kp, ki, kd) := @default_gains (F64 acos) h in tame_gains kp ki kd) /\
  exists s x, reachable (N:=F64 acos) default_gains tame tame s /\ In (Power (N:=F64 acos) 0 false x) (s_log s) /\ f_lt (f_ofZ 0) x = true.
Proof.
  split; [apply default_tame|]. destruct (start200 acos) as (s & x & Px & H & _ & _ & _ & _ & E). exists s, x. split; [exact H|].
  split; [rewrite E; now left|exact Px].
Qed.

(* ---------- C40 ---------- *)
(** C40. With exact arithmetic, for every coefficient I for which the controller
    can be created. *)
Theorem C40_windup_exact (target kp ki kd now : R) (p p' : pid RN) (ups : list (R * R)) (outs : list R) :
  pid_new (N:=RN) target kp ki kd now = Ok p -> pid_run p ups = (p', outs) ->
  Rabs (p_integral p') <= / Rabs ki /\ Rabs (ki * p_integral p') <= 1.
Proof. intros H1 H2. exact (proj2 (exact_bounds target kp ki kd now p ups p' outs H1 H2)). Qed.
Print Assumptions C40_windup_exact.
Example C40_windup_exact_ex : exists p, pid_new (N:=RN) 200 1 (1/2) 1 0 = Ok p /\ p_integral (fst (pid_run p [(20, 1)])) = 2.
Proof.
  unfold pid_new. cbn. destruct (Req_EM_T (1 / 2) 0); [lra|]. eexists. split; [reflexivity|].
  unfold pid_run, pid_update. destruct (pid_fix _ _ _ _). cbn. unfold pid_integral. cbn. unfold Rltb, Rabs.
  repeat (destruct (Rlt_dec _ _) || destruct (Rcase_abs _)); try lra.
Qed.
(** Binary64, including the rounding of 1/I and of the product. Partial: numbers
    beyond 2^64 and coefficients I below 2^-64 are missing. *)
Theorem C40_windup_partial (acos : f64 -> f64) (target kp ki kd now : f64) (ups : list (f64 * f64)) :
  tame target -> tame_gains kp ki kd -> tame now -> Forall (fun u => tame (fst u) /\ tame (snd u)) ups ->
  exists p p' outs, pid_new (N:=F64 acos) target kp ki kd now = Ok p /\ pid_run p ups = (p', outs) /\
    fin (p_integral p') /\ Rabs (val (p_integral p')) <= rd (1 / val ki) /\
    fin (f_mul ki (p_integral p')) /\ Rabs (val (f_mul ki (p_integral p'))) <= 1.
Proof.
  intros H1 H2 H3 H4. destruct (new_F acos target kp ki kd H2 now H3) as (p & E & Hp).
  destruct (run_F acos target kp ki kd H2 H1 p ups Hp H4) as [P _].
  exists p, (fst (pid_run (N:=F64 acos) p ups)), (snd (pid_run (N:=F64 acos) p ups)).
  split; [exact E|]. split; [apply surjective_pairing|]. destruct (ok_int _ _ _ _ _ _ P) as [F B].
  destruct (ok_windup _ _ _ _ _ _ P) as (_ & V & _). split; [exact F|]. split; [now rewrite <- V|].
  exact (contribution_F acos target kp ki kd H2 _ P).
Qed.
Print Assumptions C40_windup_partial.
(** The bound is reached: 180 degrees below the target for 10 seconds. *)
Example C40_windup_partial_ex (acos : f64 -> f64) :
  let '(kp, ki, kd) := @default_gains (F64 acos) HeaterExtruder in
  tame_gains kp ki kd /\
  match div (p:=F64 acos) (f_ofZ 1) ki with
  | Ok w => f_eq (p_integral (fst (pid_run (N:=F64 acos) (pid200 acos) [(f_ofZ 20, f_ofZ 10)]))) w
  | Raise _ => false end = true.
Proof. split; [exact (default_tame acos HeaterExtruder)|]. vm_compute. reflexivity. Qed.

(* ---------- C41 ---------- *)
(** C41. The target counts as reached exactly if some run of consecutive
    updates, each within 1% of the target with an output below 1, lasted longer than
    2.5 seconds, counted from the first update of the run. For any arithmetic. *)
Theorem C41_fixed_iff_held (N : PyNum) (target kp ki kd now : N) (p p' : pid N) (ups : list (N * N)) (outs : list N) :
  pid_new target kp ki kd now = Ok p -> pid_run p ups = (p', outs) ->
  (p_fixed p' = true <->
   exists pre first mid last post,
     combine ups outs = pre ++ (first :: mid ++ [last]) ++ post /\
     forallb (fun r : N * N * N => ltb (absn (sub target (fst (fst r)))) (mul target (ofdec false 1 2)) && ltb (snd r) (ofZ 1))
             (first :: mid ++ [last]) = true /\
     (pre = [] \/ exists pre' b, pre = pre' ++ [b] /\
        ltb (absn (sub target (fst (fst b)))) (mul target (ofdec false 1 2)) && ltb (snd b) (ofZ 1) = false) /\
     ltb (ofdec false 25 1) (sub (snd (fst last)) (snd (fst first))) = true).
Proof. exact (fixed_iff_held target kp ki kd now p ups p' outs). Qed.
Print Assumptions C41_fixed_iff_held.
(** Three updates at 200 degrees, 3 seconds apart in total; and the same with a
    measurement of 100 degrees in between. *)
Example C41_fixed_iff_held_ex (acos : f64 -> f64) :
  p_fixed (fst (pid_run (N:=F64 acos) (pid200 acos) [(f_ofZ 200, f_ofZ 1); (f_ofZ 200, f_ofZ 2); (f_ofZ 200, f_ofZ 4)])) = true /\
  p_fixed (fst (pid_run (N:=F64 acos) (pid200 acos) [(f_ofZ 200, f_ofZ 1); (f_ofZ 100, f_ofZ 2); (f_ofZ 200, f_ofZ 4)])) = false.
Proof. split; vm_compute; reflexivity. Qed.

Theorem C41_stays (N : PyNum) (p : pid N) (ups : list (N * N)) : p_fixed p = true -> p_fixed (fst (pid_run p ups)) = true.
Proof. exact (fixed_stays_run p ups). Qed.
Print Assumptions C41_stays.
Example C41_stays_ex (acos : f64 -> f64) :
  p_fixed (fst (pid_run (N:=F64 acos) (pid200 acos) [(f_ofZ 200, f_ofZ 1); (f_ofZ 200, f_ofZ 4)])) = true.
Proof. vm_compute. reflexivity. Qed.

(* ---------- C42 ---------- *)
(** C42. Once stop() has returned, no power is sent to this heater any more, by
    neither thread, and the last one sent was 0. *)
Theorem C42_stopped_stays_off (N : PyNum) (gains : heater_id -> N * N * N) (reading clock : N -> Prop) (s : sys N) (k : nat) (l1 l2 : list (happening N)) :
  reachable gains reading clock s -> s_log s = l1 ++ StopReturned k :: l2 ->
  (forall b p, ~ In (Power k b p) l1) /\ exists l3, l2 = Power k true zero :: l3.
Proof. exact (stopped_stays_off gains reading clock s k l1 l2). Qed.
Print Assumptions C42_stopped_stays_off.
Example C42_stopped_stays_off_ex (acos : f64 -> f64) :
  exists s x l l', f_lt (f_ofZ 0) x = true /\ reachable (N:=F64 acos) default_gains tame tame s /\ s_log s = StopReturned 0 :: l /\
    In (Power (N:=F64 acos) 0 false x) l /\ l = Power (N:=F64 acos) 0 true zero :: l'.
Proof.
  destruct (start200 acos) as (s & x & Px & H & Hm & Ha & Hr & Hp & E).
  assert (S1: step (N:=F64 acos) default_gains tame tame s (with_main s (MStopAcq 0) [StopCalled 0])) by (apply step_main; eapply m_stop; eassumption).
  destruct (stop_can_return (N:=F64 acos) default_gains tame tame) with (s := with_main s (MStopAcq 0) [StopCalled (N:=F64 acos) 0]) (k := 0%nat) as (s' & l & H1 & H2 & _).
  - exists (f_ofZ 20). apply tame_Z. lia.
  - exists (f_ofZ 1). apply tame_Z. lia.
  - eapply reachable_steps; [exact H|]. apply steps_one. exact S1.
  - cbn. rewrite E. intros (t & f & Hi & _). cbn in Hi. intuition discriminate.
  - intros (f & Hi). cbn in Hi. rewrite E in Hi. cbn in Hi. intuition discriminate.
  - left. reflexivity.
  - eexists s', x, _, _. split; [exact Px|]. split; [eapply reachable_steps; [exact H|eapply steps_cons; [exact S1|exact H1]]|]. split; [exact H2|].
    split; [|reflexivity]. right. apply in_or_app. right. cbn. rewrite E. right. now left.
Qed.

(* ---------- C43 ---------- *)
(** C43, partial: what is missing are exceptions other than IOError and OSError
    (struct.error for a short I2C read), after which the thread ends without
    switching the heater off (below). After any failed measurement of the thread
    every power sent is 0 ... *)
Theorem C43_only_zero_after_failure (N : PyNum) (gains : heater_id -> N * N * N) (reading clock : N -> Prop) (s : sys N) (k : nat) (f : failure)
        (l1 l2 : list (happening N)) (b : bool) (p : N) :
  reachable gains reading clock s -> s_log s = l1 ++ MeasErr (THeat k) f :: l2 -> In (Power k b p) l1 -> p = zero.
Proof. exact (failed_power_zero gains reading clock s k f l1 l2 b p). Qed.
Print Assumptions C43_only_zero_after_failure.
(** ... and until it is sent, sending it is possible at once, whatever the other
    threads do. *)
Theorem C43_switched_off_partial (N : PyNum) (gains : heater_id -> N * N * N) (reading clock : N -> Prop) (s : sys N) (k : nat) (f : failure)
        (l1 l2 : list (happening N)) :
  reachable gains reading clock s -> f <> OtherError -> s_log s = l1 ++ MeasErr (THeat k) f :: l2 ->
  (forall p, ~ In (Power k false p) l1) ->
  exists s', step gains reading clock s s' /\ s_log s' = Power k false zero :: s_log s.
Proof. exact (failed_switches_off gains reading clock s k f l1 l2). Qed.
Print Assumptions C43_switched_off_partial.

(** The running heater fails to measure. *)
Lemma fail200 (acos : f64 -> f64) f : exists (s : sys (F64 acos)) (x : F64 acos), f_lt (f_ofZ 0) x = true /\ reachable (N:=F64 acos) default_gains tame tame s /\ s_main s = MIdle /\
  s_rec s HeaterExtruder = Some 0%nat /\ h_pc (s_heaters s 0%nat) = (match f with OtherError => HDead | _ => HFail end) /\
  exists l, s_log s = MeasErr (THeat 0) f :: Power (N:=F64 acos) 0 false x :: l.
Proof.
  destruct (start200 acos) as (s & x & Px & H & Hm & Ha & Hr & Hp & E).
  set (s1 := with_heater (with_adc s (Some (THeat 0))) 0 (set_pc (s_heaters s 0%nat) HAdc) []).
  assert (S1: step (N:=F64 acos) default_gains tame tame s s1) by (apply (step_heater _ _ _ s 0), h_adc; assumption).
  destruct f.
  - set (s2 := with_heater (with_adc s1 None) 0 (set_pc (s_heaters s1 0%nat) HFail) [MeasErr (THeat 0) Refused]).
    exists s2, x. split; [exact Px|]. split; [eapply reachable_steps; [exact H|eapply steps_cons; [exact S1|apply steps_one, (step_heater _ _ _ s1 0), h_refused; reflexivity]]|].
    split; [exact Hm|]. split; [exact Hr|]. split; [reflexivity|]. cbn. rewrite E. eexists. reflexivity.
  - set (s2 := with_heater s1 0 (set_pc (s_heaters s1 0%nat) HFail) [MeasErr (THeat 0) I2cError]).
    exists s2, x. split; [exact Px|]. split; [eapply reachable_steps; [exact H|eapply steps_cons; [exact S1|apply steps_one, (step_heater _ _ _ s1 0), h_i2c_error; reflexivity]]|].
    split; [exact Hm|]. split; [exact Hr|]. split; [reflexivity|]. cbn. rewrite E. eexists. reflexivity.
  - set (s2 := with_heater s1 0 (set_pc (s_heaters s1 0%nat) HDead) [MeasErr (THeat 0) OtherError]).
    exists s2, x. split; [exact Px|]. split; [eapply reachable_steps; [exact H|eapply steps_cons; [exact S1|apply steps_one, (step_heater _ _ _ s1 0), h_other_error; reflexivity]]|].
    split; [exact Hm|]. split; [exact Hr|]. split; [reflexivity|]. cbn. rewrite E. eexists. reflexivity.
Qed.
(** The heater is at 100 % when the measurement fails; then 0 is sent. *)
Example C43_switched_off_partial_ex (acos : f64 -> f64) :
  exists s x l, reachable (N:=F64 acos) default_gains tame tame s /\ s_log s = MeasErr (THeat 0) Refused :: Power (N:=F64 acos) 0 false x :: l /\
    f_lt (f_ofZ 0) x = true.
Proof. destruct (fail200 acos Refused) as (s & x & Px & H & _ & _ & _ & l & E). exists s, x, l. split; [exact H|]. split; [exact E|exact Px]. Qed.
Example C43_only_zero_after_failure_ex (acos : f64 -> f64) :
  exists s l2, reachable (N:=F64 acos) default_gains tame tame s /\ s_log s = [Power (N:=F64 acos) 0 false zero] ++ MeasErr (THeat 0) Refused :: l2.
Proof.
  destruct (fail200 acos Refused) as (s & x & Px & H & _ & _ & Hp & l & E).
  exists (with_heater s 0 (set_pc (s_heaters s 0%nat) HFailTime) [Power (N:=F64 acos) 0 false zero]). eexists.
  split; [eapply reachable_steps; [exact H|apply steps_one, (step_heater _ _ _ s 0), h_off, Hp]|]. cbn. now rewrite E.
Qed.

(** A heater left at full power forever: the thread has ended, stop() can not return
    and nothing is ever sent to the heater again. *)
Theorem C43_refuted (acos : f64 -> f64) :
  exists (s : sys (F64 acos)) x l, reachable (N:=F64 acos) default_gains tame tame s /\
    s_log s = MeasErr (THeat 0) OtherError :: Power (N:=F64 acos) 0 false x :: l /\ f_lt (f_ofZ 0) x = true /\
    forall s', steps (N:=F64 acos) default_gains tame tame s s' ->
      exists l', s_log s' = l' ++ s_log s /\ (forall b p, ~ In (Power (N:=F64 acos) 0 b p) l') /\ ~ In (StopReturned 0) (s_log s').
Proof.
  destruct (fail200 acos OtherError) as (s & x & Px & H & _ & _ & Hp & l & E). exists s, x, l.
  split; [exact H|]. split; [exact E|]. split; [exact Px|]. intros s' Hs.
  assert (Hi: In (MeasErr (THeat 0) OtherError) (s_log s)) by (rewrite E; now left).
  destruct (dead_silent (N:=F64 acos) default_gains tame tame s 0 OtherError s' H Hi Hp Hs) as (_ & l' & E' & Hl').
  exists l'. split; [exact E'|]. split; [exact Hl'|].
  apply (failed_never_stops (N:=F64 acos) default_gains tame tame s' 0 OtherError).
  - exact (reachable_steps _ _ _ _ _ H Hs).
  - rewrite E'. apply in_or_app. now right.
Qed.
Print Assumptions C43_refuted.

(* ---------- C44 ---------- *)
(** C44 is false in every case: a single failed measurement of the heater thread,
    of whatever kind, leaves its mutex locked (the continue in cnc/heater.py:67 skips
    the release in line 71): stop() never returns any more, and the thread never
    measures again. *)
Theorem C44_failure_is_final (N : PyNum) (gains : heater_id -> N * N * N) (reading clock : N -> Prop) (s : sys N) (k : nat) (f : failure)
        (l1 l2 : list (happening N)) :
  reachable gains reading clock s -> s_log s = l1 ++ MeasErr (THeat k) f :: l2 ->
  ~ In (StopReturned k) (s_log s) /\ ~ In (MeasOk (THeat k)) l1.
Proof.
  intros H E. split.
  - apply (failed_never_stops gains reading clock s k f H). rewrite E. apply in_or_app. right. now left.
  - apply (r_after s (proj2 (inv2_reachable gains reading clock s H)) k f l1 l2 E).
Qed.
Print Assumptions C44_failure_is_final.
Example C44_failure_is_final_ex (acos : f64 -> f64) :
  exists (s : sys (F64 acos)) l2, reachable (N:=F64 acos) default_gains tame tame s /\ s_log s = [] ++ MeasErr (THeat 0) Refused :: l2.
Proof. destruct (fail200 acos Refused) as (s & x & _ & H & _ & _ & _ & l & E). exists s. eexists. split; [exact H|exact E]. Qed.
(** A transient failure: the main thread calls stop() and waits forever. *)
Theorem C44_refuted (acos : f64 -> f64) :
  exists s : sys (F64 acos), reachable (N:=F64 acos) default_gains tame tame s /\ s_main s = MStopAcq 0 /\
    (exists l, s_log s = StopCalled 0 :: MeasErr (THeat 0) Refused :: l) /\
    forall s', steps (N:=F64 acos) default_gains tame tame s s' -> s_main s' = MStopAcq 0 /\ ~ In (StopReturned 0) (s_log s').
Proof.
  destruct (fail200 acos Refused) as (s & x & Px & H & Hm & Hr & Hp & l & E).
  set (s1 := with_main s (MStopAcq 0) [StopCalled (N:=F64 acos) 0]).
  assert (H1: reachable (N:=F64 acos) default_gains tame tame s1).
  { eapply reachable_steps; [exact H|]. apply steps_one, step_main. eapply m_stop; [exact Hm|exact Hr]. }
  assert (Hi: In (MeasErr (THeat 0) Refused) (s_log s1)) by (cbn; rewrite E; right; now left).
  exists s1. split; [exact H1|]. split; [reflexivity|]. split; [cbn; rewrite E; eexists; reflexivity|]. intros s' Hs. split.
  - eapply stuck_in_stop; [exact H1|exact Hi|reflexivity|exact Hs].
  - destruct (steps_log (N:=F64 acos) default_gains tame tame s1 s' Hs) as (l' & E').
    apply (failed_never_stops (N:=F64 acos) default_gains tame tame s' 0 Refused); [exact (reachable_steps _ _ _ _ _ H1 Hs)|]. rewrite E'. apply in_or_app. now right.
Qed.
Print Assumptions C44_refuted.
(** C44, partial: without a failed measurement of this heater, and without an
    I2C error anywhere, stop() can return from every state in which it was called.
    Missing: heaters with failed measurements. *)
Theorem C44_stop_returns_partial (N : PyNum) (gains : heater_id -> N * N * N) (reading clock : N -> Prop) (s : sys N) (k : nat) :
  (exists v, reading v) -> (exists t, clock t) -> reachable gains reading clock s ->
  (forall t f, In (MeasErr t f) (s_log s) -> f = Refused /\ t <> THeat k) ->
  s_main s = MStopAcq k \/ s_main s = MStopSet k \/ s_main s = MStopRel k \/ s_main s = MStopOff k ->
  exists s' l, steps gains reading clock s s' /\ s_log s' = StopReturned k :: Power k true zero :: l ++ s_log s /\
    forall t f, ~ In (MeasErr t f) l.
Proof.
  intros H1 H2 H H3 H4. apply (stop_can_return gains reading clock H1 H2 s k H); [| |exact H4].
  - intros (t & f & Hi & Hf). now apply H3 in Hi.
  - intros (f & Hi). apply H3 in Hi. tauto.
Qed.
Print Assumptions C44_stop_returns_partial.
Example C44_stop_returns_partial_ex (acos : f64 -> f64) :
  (exists v, tame v) /\
  exists s : sys (F64 acos), reachable (N:=F64 acos) default_gains tame tame s /\ s_main s = MStopAcq 0 /\ h_pc (s_heaters s 0%nat) = HMeasure /\
    (forall t f, In (MeasErr t f) (s_log s) -> f = Refused /\ t <> THeat 0).
Proof.
  split; [exists (f_ofZ 1); apply tame_Z; lia|].
  destruct (start200 acos) as (s & x & Px & H & Hm & Ha & Hr & Hp & E).
  exists (with_main s (MStopAcq 0) [StopCalled (N:=F64 acos) 0]). split.
  { eapply reachable_steps; [exact H|]. apply steps_one, step_main. eapply m_stop; [exact Hm|exact Hr]. }
  split; [reflexivity|]. split; [exact Hp|]. intros t f Hi. cbn in Hi. rewrite E in Hi. cbn in Hi. intuition discriminate.
Qed.

(* ---------- C45 ---------- *)
(** C45 is false in every case: after one I2C error in any thread no measurement of
    any thread ever ends again (the lock in cnc/sensors/ads111x.py:52 is not released). *)
Theorem C45_error_is_final (N : PyNum) (gains : heater_id -> N * N * N) (reading clock : N -> Prop) (s : sys N) (t t' : tid) (f : failure)
        (l1 l2 : list (happening N)) :
  reachable gains reading clock s -> f <> Refused -> s_log s = l1 ++ MeasErr t f :: l2 ->
  ~ In (MeasOk t') l1 /\ forall f', ~ In (MeasErr t' f') l1.
Proof. intros H Hf E. exact (a_after s (proj2 (inv3_reachable gains reading clock s H)) t f l1 l2 Hf E t'). Qed.
Print Assumptions C45_error_is_final.
Example C45_error_is_final_ex (acos : f64 -> f64) :
  exists (s : sys (F64 acos)) l2, reachable (N:=F64 acos) default_gains tame tame s /\ s_log s = [] ++ MeasErr (THeat 0) I2cError :: l2.
Proof. destruct (fail200 acos I2cError) as (s & x & _ & H & _ & _ & _ & l & E). exists s. eexists. split; [exact H|exact E]. Qed.
(** A heater left at full power forever by an I2C error of the main thread (M105). *)
Theorem C45_refuted (acos : f64 -> f64) :
  exists (s : sys (F64 acos)) x l, reachable (N:=F64 acos) default_gains tame tame s /\
    s_log s = MeasErr TMain I2cError :: Power (N:=F64 acos) 0 false x :: l /\ f_lt (f_ofZ 0) x = true /\ h_pc (s_heaters s 0%nat) = HMeasure /\
    forall s', steps (N:=F64 acos) default_gains tame tame s s' ->
      h_pc (s_heaters s' 0%nat) = HMeasure /\ exists l', s_log s' = l' ++ s_log s /\ forall b p, ~ In (Power (N:=F64 acos) 0 b p) l'.
Proof.
  destruct (start200 acos) as (s & x & Px & H & Hm & Ha & Hr & Hp & E).
  set (s1 := with_main s (MMeasure None) []). set (s2 := with_main (with_adc s1 (Some TMain)) (MAdc None) []).
  set (s3 := not_measured s2 None I2cError).
  assert (H3: reachable (N:=F64 acos) default_gains tame tame s3).
  { eapply reachable_steps; [exact H|]. eapply steps_cons; [apply step_main, m_measure, Hm|].
    eapply steps_cons; [apply step_main, (m_adc _ _ _ s1 None); [reflexivity|exact Ha]|]. apply steps_one, step_main, (m_i2c_error _ _ _ s2 None). reflexivity. }
  eexists s3, x, _. split; [exact H3|]. split; [cbn; rewrite E; reflexivity|]. split; [exact Px|]. split; [exact Hp|].
  intros s' Hs. eapply blocked_forever; [exact H3| |exact Hp|exact Hs].
  exists TMain, I2cError. split; [now left|discriminate].
Qed.
Print Assumptions C45_refuted.
(** C45, partial: as long as measurements fail only because a voltage is refused,
    every thread waiting for a measurement can still get one. Missing: I2C errors. *)
Theorem C45_can_measure_partial (N : PyNum) (gains : heater_id -> N * N * N) (reading clock : N -> Prop) (s : sys N) (t : tid) :
  (exists v, reading v) -> (exists t, clock t) -> reachable gains reading clock s ->
  (forall t f, In (MeasErr t f) (s_log s) -> f = Refused) ->
  (match t with TMain => exists c, s_main s = MMeasure c | THeat k => h_pc (s_heaters s k) = HMeasure end) ->
  exists s' l, steps gains reading clock s s' /\ s_log s' = l ++ s_log s /\ In (MeasOk t) l /\ forall t' f, ~ In (MeasErr t' f) l.
Proof.
  intros H1 H2 H H3 H4. apply (can_measure gains reading clock H1 H2 s t H); [|exact H4].
  intros (t' & f & Hi & Hf). now apply H3 in Hi.
Qed.
Print Assumptions C45_can_measure_partial.
(** After a refused voltage in the main thread while the heater waits. *)
Example C45_can_measure_partial_ex (acos : f64 -> f64) :
  exists s : sys (F64 acos), reachable (N:=F64 acos) default_gains tame tame s /\ h_pc (s_heaters s 0%nat) = HMeasure /\
    In (MeasErr TMain Refused) (s_log s) /\ (forall t f, In (MeasErr t f) (s_log s) -> f = Refused).
Proof.
  destruct (start200 acos) as (s & x & Px & H & Hm & Ha & Hr & Hp & E).
  set (s1 := with_main s (MMeasure None) []). set (s2 := with_main (with_adc s1 (Some TMain)) (MAdc None) []).
  exists (not_measured (with_adc s2 None) None Refused). split.
  { eapply reachable_steps; [exact H|]. eapply steps_cons; [apply step_main, m_measure, Hm|].
    eapply steps_cons; [apply step_main, (m_adc _ _ _ s1 None); [reflexivity|exact Ha]|]. apply steps_one, step_main, (m_refused _ _ _ s2 None). reflexivity. }
  split; [exact Hp|]. split; [now left|]. intros t f [Hi|Hi]; [congruence|]. cbn in Hi. rewrite E in Hi. cbn in Hi. intuition discriminate.
Qed.

(* ---------- C63 ---------- *)
(** C63. If the machine has no heater on record and its main thread is idle, every
    heater thread ever created for this heater is stopped and sent 0 last.
    Partial: heaters whose constructor raised are missing. *)
Theorem C63_off_means_off_partial (N : PyNum) (gains : heater_id -> N * N * N) (reading clock : N -> Prop) (s : sys N) (h : heater_id) (k : nat) :
  reachable gains reading clock s -> s_main s = MIdle -> s_rec s h = None -> In (Created k h) (s_log s) -> ~ In (NewRaised k) (s_log s) ->
  exists l1 l2, s_log s = l1 ++ StopReturned k :: Power k true zero :: l2 /\ forall b p, ~ In (Power k b p) l1.
Proof. exact (off_means_off gains reading clock s h k). Qed.
Print Assumptions C63_off_means_off_partial.
(** Two heater threads never drive the same heater at once, with the same gap. *)
Theorem C63_one_driver_partial (N : PyNum) (gains : heater_id -> N * N * N) (reading clock : N -> Prop) (s : sys N) (h : heater_id) (k k' : nat) :
  reachable gains reading clock s -> In (Created k h) (s_log s) -> In (Created k' h) (s_log s) -> k <> k' ->
  ~ In (NewRaised k) (s_log s) -> ~ In (NewRaised k') (s_log s) ->
  In (StopReturned k) (s_log s) \/ In (StopReturned k') (s_log s).
Proof. exact (one_driver gains reading clock s h k k'). Qed.
Print Assumptions C63_one_driver_partial.
(** The gap: the last statement of Heater.__init__ measures the temperature; if this
    raises, the thread already runs but nobody holds the object: the machine believes
    the heater to be off, and no stop() for it can ever return. *)
Theorem C63_refuted (acos : f64 -> f64) :
  exists (s : sys (F64 acos)) x l, reachable (N:=F64 acos) default_gains tame tame s /\ s_main s = MIdle /\ s_rec s HeaterExtruder = None /\
    s_log s = NewRaised 0 :: MeasErr TMain Refused :: Power (N:=F64 acos) 0 false x :: l /\ f_lt (f_ofZ 0) x = true /\
    forall s', steps (N:=F64 acos) default_gains tame tame s s' -> ~ In (StopReturned 0) (s_log s').
Proof.
  destruct (lost200 acos) as (s & x & Px & H & Hm & Hr & E). eexists s, x, _. split; [exact H|]. split; [exact Hm|]. split; [exact Hr|].
  split; [exact E|]. split; [exact Px|]. intros s' Hs.
  apply (lost_never_stopped (N:=F64 acos) default_gains tame tame s' 0); [exact (reachable_steps _ _ _ _ _ H Hs)|].
  destruct (steps_log (N:=F64 acos) default_gains tame tame s s' Hs) as (l' & E'). unfold lost. rewrite E'. apply in_or_app. right. rewrite E. now left.
Qed.
Print Assumptions C63_refuted.
(** A heater switched on, off and on again. *)
Example C63_partial_ex (acos : f64 -> f64) :
  (exists s : sys (F64 acos), reachable (N:=F64 acos) default_gains tame tame s /\ s_main s = MIdle /\ s_rec s HeaterExtruder = None /\
     In (Created 0 HeaterExtruder) (s_log s) /\ ~ In (NewRaised 0) (s_log s)) /\
  (exists s : sys (F64 acos), reachable (N:=F64 acos) default_gains tame tame s /\ In (Created 0 HeaterExtruder) (s_log s) /\
     In (Created 1 HeaterExtruder) (s_log s) /\ ~ In (NewRaised 0) (s_log s) /\ ~ In (NewRaised 1) (s_log s)).
Proof.
  destruct (on_off_on (N:=F64 acos) default_gains tame tame HeaterExtruder (f_ofZ 200) (f_ofZ 0) (pid200 acos) (pid200_ok acos)
    (tame_Z 200 ltac:(cbn; lia)) (tame_Z 0 ltac:(cbn; lia))) as ((s & H1 & H2 & H3 & H4) & (s' & H1' & H4')). split.
  - exists s. split; [exact H1|]. split; [exact H2|]. split; [exact H3|]. rewrite H4. cbn. intuition discriminate.
  - exists s'. split; [exact H1'|]. rewrite H4'. cbn. intuition discriminate.
Qed.
