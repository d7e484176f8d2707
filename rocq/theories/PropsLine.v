(** Straight moves from the displacement to the motor drivers, without assumptions about
    the pauses (C51, C72). *)
From Coq Require Import String ZArith Bool Reals Lra Lia List.
From Flocq Require Import Core BinarySingleNaN.
From Verif Require Import PyBase PyNum PyFloatFacts Config Coordinates GCode Pulses PulseSpec GMachine ExampleBase ArcSpec LinearTravel LinearFloat LinearFloatRun LinearGen
  Dma DmaGpio DmaSpec DmaGpioProofs Hal HalSpec MoveNew HalDrive HalPause PropsLinFloat PropsMoves PropsHal PropsDrive.
From Coq Require Import List.
Import ListNotations.
Local Open Scope Z_scope.

(** C51. A straight move of at least one step and at most 4096 mm per axis at a feed of at
    least 1 mm per minute, at 4 to 1000 steps per mm: every item has its microsecond, and
    when move has returned (with an engine not faster than a program it streamed, C53) the
    motor drivers see the movement, with the delays of C51_calls. *)
Theorem C51_straight_partial (acos : f64 -> f64) cfg h base size extra delta v g l d e x :
  lin_cfg cfg -> (forall m, 4 <= qat m (ppm cfg)) -> fit_move cfg delta v -> emits (N:=F64 acos) cfg delta v g l ->
  buffer_ok base size -> pins_ok h -> 0 <= pulse_us h < 2 ^ 26 ->
  reach_in_time h base size extra (begin_move h l None d e) x -> m_pc (x_move x) = MDone ->
  exists tl rest, timed l tl /\ gaps h 0 tl /\ remains extra (d_mem (x_dma x)) (x_eng x) rest /\
    seen 0 (x_done x ++ rest) = ideal h 0 (delayed h 0 0 tl).
Proof.
  intros Hc H4 Hm He B Hp U R PC. destruct (line_gaps acos cfg h delta v g l Hc H4 Hm (proj1 U) He) as (tl & T & G).
  destruct (C51_played_partial h base size extra l tl d e x B Hp U T G R PC) as (rest & RM & S). exists tl, rest. auto.
Qed.
Print Assumptions C51_straight_partial.

(** C72. The same moves always run to their end, and the driver of every motor takes the
    number of steps of the displacement, rounded to the nearest one, in the direction of the
    displacement, or against it if the motor is inverted in config.py. *)
Theorem C72_straight (acos : f64 -> f64) cfg h delta v :
  lin_cfg cfg -> (forall m, 4 <= qat m (ppm cfg)) -> fit_move cfg delta v ->
  pins_ok h -> NoDup (used_pins h) -> 0 <= pulse_us h < 2 ^ 26 ->
  exists g l, emits (N:=F64 acos) cfg delta v g l /\
    forall base size extra d e x, buffer_ok base size ->
    reach_in_time h base size extra (begin_move h l None d e) x -> m_pc (x_move x) = MDone ->
    exists rest, remains extra (d_mem (x_dma x)) (x_eng x) rest /\
    forall m, exists n, (Rabs (IZR n - Rabs (val (qat m delta)) * IZR (qat m (ppm cfg))) <= / 2 + / 10000000)%R /\
      driven (qat m (step_pin h)) (qat m (dir_pin h)) (seen 0 (x_done x ++ rest)) =
        invert (qat m (inverted cfg)) ((if Rlt_dec (val (qat m delta)) 0 then -1 else 1) * n).
Proof.
  intros Hc H4 Hm Hp Hd U. destruct (C30_completes_float acos cfg delta v Hc Hm) as (g & l & He & _ & St). exists g. eexists. split; [exact He|].
  intros base size extra d e x B R PC. assert (Pp: forall m, 0 <= qat m (ppm cfg)) by (intros m; specialize (H4 m); lia).
  destruct (C72_line acos cfg h base size extra delta v g _ d e x Pp He Hp Hd B U) as (rest & RM & Q); try assumption.
  { intros rs E. destruct (line_gaps acos cfg h delta v g _ Hc H4 Hm (proj1 U) He) as (tl & T & G).
    assert (S := plan_sane h _ tl T Hp U 0 0 rs G E). eapply Forall_impl; [|exact S]. intros [] H; cbn [sane] in H; try exact Logic.I. apply H. }
  exists rest. split; [exact RM|]. intros m. destruct (Q m) as (n & F & E). exists n. split; [|exact E].
  destruct (C30_travel_float acos cfg delta v g _ m Pp He) as (n' & F' & N0 & T'). assert (n' = n) by congruence. subst n'.
  specialize (St m). assert (E2: steps m l = n).
  { destruct (emits_float acos cfg Hc delta v Hm) as (g2 & l2 & [E1 [f1 E2]] & _ & S2). destruct He as [E3 [f3 E4]]. assert (g2 = g) by congruence. subst g2.
    assert (EL := run_gen_det _ _ _ _ _ _ E2 E4). injection EL as ->. destruct (S2 m) as (z & Z1 & <-). congruence. }
  rewrite <- E2. exact St.
Qed.
Print Assumptions C72_straight.

(** 1 mm along X and -1 mm along Y at 600 mm per minute on the machine of config.py. *)
Definition straight_delta : quad f64 := Quad (f_ofZ 1) (f_ofZ (-1)) (f_ofZ 0) (f_ofZ 0).
Lemma straight_fit : fit_move default_config straight_delta (f_ofZ 600).
Proof.
  assert (V: forall n, (Z.abs n <= 4096)%Z -> fin (f_ofZ n) /\ val (f_ofZ n) = IZR n) by (intros n H; apply f_ofZ_val; lia).
  split.
  - intros m. destruct (V 1%Z ltac:(lia)) as [F1 E1]. destruct (V (-1)%Z ltac:(lia)) as [F2 E2]. destruct (V 0%Z ltac:(lia)) as [F4 E4].
    destruct m; cbn [qat straight_delta qx qy qz qe]; rewrite ?E1, ?E2, ?E4; (split; [assumption|]); apply Rabs_le; lra.
  - exists MX. destruct (V 1%Z ltac:(lia)) as [F1 E1]. cbn [qat straight_delta qx ppm default_config]. rewrite E1, Rabs_pos_eq; lra.
  - destruct (V 600%Z ltac:(lia)) as [F1 E1]. split; [exact F1|]. rewrite E1. change (bpow radix2 60) with (IZR (2 ^ 60)). split; [lra|]. apply IZR_le. lia.
Qed.
Definition line51 : option bool :=
  match make_linear (N:=FX) default_config straight_delta (f_ofZ 600) with
  | Ok g => match run_gen default_config 300 (GLinear g) with
            | Finished l => Some (move_b l && (signed_steps MX l =? -100) && (signed_steps MY l =? -100)) | _ => None end
  | Raise _ => None end.
Example C51_straight_partial_ex : lin_cfg default_config /\ (forall m, 4 <= qat m (ppm default_config)) /\ fit_move default_config straight_delta (f_ofZ 600) /\
  exists g l, emits (N:=FX) default_config straight_delta (f_ofZ 600) g l /\
  buffer_ok 8192 65536 /\ pins_ok default_hal /\ 0 <= pulse_us default_hal < 2 ^ 26 /\
  reach_in_time default_hal 8192 65536 false (begin_move default_hal l None dma0 stopped) (moved l) /\ m_pc (x_move (moved l)) = MDone /\
  signed_steps MX l = -100 /\ signed_steps MY l = -100.
Proof.
  split; [exact default_lin|]. split; [intros []; cbn; lia|]. split; [exact straight_fit|].
  assert (H: match line51 with Some b => b | None => false end = true) by (vm_compute; reflexivity).
  unfold line51 in H. match type of H with context [make_linear ?c ?d ?v] => destruct (make_linear (N:=FX) c d v) as [g|] eqn:G end; [|discriminate].
  match type of H with context [run_gen ?c ?f ?g] => destruct (run_gen c f g) as [l| |] eqn:E end; [|discriminate H|discriminate H].
  apply andb_prop in H. destruct H as [H H3]. apply andb_prop in H. destruct H as [H1 H2]. apply Z.eqb_eq in H2, H3. apply move_b_spec in H1. destruct H1 as (_ & R & D).
  exists g, l. split; [split; [exact G|exists 300%nat; exact E]|]. split; [repeat split; lia|]. split; [exact default_pins|]. split; [cbn; lia|].
  split; [exact R|]. split; [exact D|]. split; [exact H2|exact H3].
Qed.
Example C72_straight_ex : lin_cfg default_config /\ (forall m, 4 <= qat m (ppm default_config)) /\ fit_move default_config straight_delta (f_ofZ 600) /\
  pins_ok default_hal /\ NoDup (used_pins default_hal) /\ 0 <= pulse_us default_hal < 2 ^ 26.
Proof.
  split; [exact default_lin|]. split; [intros []; cbn; lia|]. split; [exact straight_fit|]. split; [exact default_pins|]. split; [exact default_distinct|]. cbn; lia.
Qed.
