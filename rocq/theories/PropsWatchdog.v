(** Property C86: the thread of cnc/watchdog.py and the watchdog channel. Every theorem is
    followed by its assumptions and by an Example in which its hypotheses hold. *)
From Coq Require Import ZArith Bool Lia List.
From Verif Require Import PyBase PyNum PyFloatFacts Dma DmaGpio Gpio GpioProofs GMachine Heater Watchdog WatchdogProofs WatchdogThread WatchdogThreadSpec WatchdogThreadProofs.
From Verif Require PropsDma PropsHeat PwmRace.
From Coq Require Import List.
Import ListNotations.
Local Open Scope Z_scope.

(* ================= C86 ================= *)
(** While the thread runs (first feed at [t0], each sleep of three seconds late by at most
    [late]; everything observed until [until], when the next feed is not overdue) and
    blocks take at least [d], with three seconds and [late] less than 2046 blocks: the
    watchdog keeps running and no pin loses its function. *)
Theorem C86_running base m g l d late t0 until sleeps :
  0 < base /\ base + 65536 < 2 ^ 32 -> 0 < d -> 3000000 + late < 2046 * d ->
  in_order 0 l -> at_least d (completed_at l) ->
  fed_at l = feed_times t0 sleeps -> t0 <= 3000000 + late -> Forall (fun s => 3000000 <= s <= 3000000 + late) sleeps ->
  (forall t o, In (t, o) l -> t <= until) -> until <= fold_left Z.add sleeps t0 + 3000000 + late ->
  e_active (x_eng (after_ops base (wd_memory base m) g (events l))) = true /\
  forall p, function_of (x_gpio (after_ops base (wd_memory base m) g (events l))) p = function_of g p.
Proof.
  intros B H1 H2 H3 H4 H5 H6 H7 H8 H9. apply PropsDma.C54_quiet; [exact B|].
  exact (stays_fed l d late t0 until sleeps H1 H2 H3 H4 H5 H6 H7 H8 H9).
Qed.
Print Assumptions C86_running.

(** When the program has ended at [from], whatever happened before, and with it the thread:
    blocks taking at most [D], pins 0-29 are inputs 2050 blocks later and from then on. *)
Theorem C86_ended base m g l1 l2 D from until :
  0 < base /\ base + 65536 < 2 ^ 32 -> 0 < D ->
  fed_at l2 = [] -> at_most D from until (completed_at l2) -> from + 2050 * D <= until ->
  forall p, 0 <= p < 30 -> function_of (x_gpio (after_ops base (wd_memory base m) g (events (l1 ++ l2)))) p = 0.
Proof.
  intros B HD Hf Hm Hu. destruct (goes_unfed l2 D from until HD Hf Hm Hu) as [U T].
  unfold events. rewrite map_app. exact (PropsDma.C54_bites base m g (map snd l1) (map snd l2) B U T).
Qed.
Print Assumptions C86_ended.

(** The hypotheses hold together: fed every three seconds, [n] times, a block every 7.5 ms. *)
Lemma rounds_run base m g n : 0 < base /\ base + 65536 < 2 ^ 32 ->
  e_active (x_eng (after_ops base (wd_memory base m) g (events (rounds 400 0 (S n))))) = true /\
  forall p, function_of (x_gpio (after_ops base (wd_memory base m) g (events (rounds 400 0 (S n))))) p = function_of g p.
Proof.
  intros B. assert (B4: Z.of_nat 400 = 400) by reflexivity.
  apply (C86_running base m g (rounds 400 0 (S n)) 7500 0 0 (sleep_us * Z.of_nat (S n)) (repeat sleep_us n) B); try reflexivity.
  - apply rounds_order; [exact B4|lia].
  - apply (rounds_later 400 (S n) B4 0).
  - apply rounds_fed.
  - discriminate.
  - apply Forall_forall. intros s Hs. apply repeat_spec in Hs. subst s. unfold sleep_us. lia.
  - apply rounds_until; [exact B4|lia].
  - rewrite sum_repeat. unfold sleep_us. lia.
Qed.
Example C86_running_ex : exists (l : timed) sleeps, length sleeps = 19%nat /\
  in_order 0 l /\ at_least 7500 (completed_at l) /\ fed_at l = feed_times 0 sleeps /\ Forall (fun s => 3000000 <= s <= 3000000) sleeps /\
  (forall t o, In (t, o) l -> t <= 60000000) /\ 60000000 <= fold_left Z.add sleeps 0 + 3000000 /\ 3000000 < 2046 * 7500.
Proof.
  assert (B4: Z.of_nat 400 = 400) by reflexivity.
  exists (rounds 400 0 20), (repeat sleep_us 19). split; [reflexivity|]. split; [apply rounds_order; [exact B4|lia]|].
  split; [apply (rounds_later 400 20 B4 0)|]. split; [apply rounds_fed|]. split; [|split; [|split]].
  - apply Forall_forall. intros s Hs. apply repeat_spec in Hs. subst s. unfold sleep_us. lia.
  - apply rounds_until; [exact B4|]. unfold sleep_us. lia.
  - rewrite sum_repeat. unfold sleep_us. lia.
  - reflexivity.
Qed.
Lemma beats_at_most n : forall t u, u <= t + 7500 * Z.of_nat n -> at_most 7500 t u (completed_at (beats t n [])).
Proof. induction n as [|n IH]; intros t u H; cbn [beats completed_at at_most]; [lia|]. split; [lia|].
  destruct n as [|n]; [cbn [beats completed_at at_most]; lia|]. cbn [beats completed_at at_most] in *. split; [lia|]. specialize (IH (t + 7500) u). 
  assert (K: u <= t + 7500 + 7500 * Z.of_nat (S n)) by lia. exact (proj2 (IH K)).
Qed.
(** The program ends one second after the start; the pins at 16.375 s. *)
Example C86_ended_ex : exists (l1 l2 : timed),
  fed_at l1 = [0] /\ fed_at l2 = [] /\ at_most 7500 1000000 16375000 (completed_at l2) /\ 1000000 + 2050 * 7500 <= 16375000.
Proof.
  exists ((0, Feed) :: beats 0 133 []), (beats 1000000 2050 []). split; [reflexivity|]. split; [apply beats_fed|]. split; [|reflexivity].
  apply beats_at_most. lia.
Qed.

(** C86 beyond that fails: a program that does not end but no longer controls its outputs is
    not noticed. After an I2C error in an M105 (C45) the heater's thread waits for ever and
    nothing sends the heater's output another value, while the thread of the watchdog
    feeds as before: for any number of minutes no pin is made an input. *)
Theorem C86_blocked_refuted (acos : f64 -> f64) :
  exists (s : sys (F64 acos)) x l, reachable (N:=F64 acos) default_gains PropsHeat.tame PropsHeat.tame s /\
    s_log s = MeasErr TMain I2cError :: Power (N:=F64 acos) 0 false x :: l /\ f_lt (f_ofZ 0) x = true /\
    (forall s', steps (N:=F64 acos) default_gains PropsHeat.tame PropsHeat.tame s s' ->
       h_pc (s_heaters s' 0%nat) = HMeasure /\ exists l', s_log s' = l' ++ s_log s /\ forall b p, ~ In (Power (N:=F64 acos) 0 b p) l') /\
    forall minutes, exists w : timed, in_order 0 w /\ at_least 7500 (completed_at w) /\ fed_at w = feed_times 0 (repeat 3000000 (20 * minutes + 19)) /\
      forall base m g, 0 < base /\ base + 65536 < 2 ^ 32 ->
        forall p, function_of (x_gpio (after_ops base (wd_memory base m) g (events w))) p = function_of g p.
Proof.
  destruct (PropsHeat.C45_refuted acos) as (s & x & l & H1 & H2 & H3 & _ & H4). exists s, x, l.
  split; [exact H1|]. split; [exact H2|]. split; [exact H3|]. split; [exact H4|].
  intros n. assert (B4: Z.of_nat 400 = 400) by reflexivity. exists (rounds 400 0 (S (20 * n + 19))).
  split; [apply rounds_order; [exact B4|lia]|]. split; [apply (rounds_later 400 _ B4 0)|]. split; [apply rounds_fed|].
  intros base m g B. apply (rounds_run base m g (20 * n + 19) B).
Qed.
Print Assumptions C86_blocked_refuted.
