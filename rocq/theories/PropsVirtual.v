(** Properties C70 and C71: the machine on the virtual device (cnc/hal_virtual.py),
    over binary64. *)
From Coq Require Import String Ascii ZArith Bool Reals Lra Lia List Sorted.
From Flocq Require Import Core BinarySingleNaN.
From Verif Require Import PyBase PyNum PyFloatFacts Config Coordinates Pulses PulseSpec GCode GCodeSpec WordFacts GMachine MachineFacts MachineHist MachineFloat Decimal MachinePos MachineArc MachineWork LinearGen LinearFloat LinearFloatRun LinearFloatTime LinearFloatLimit StraightRun ArcSpec ArcFloat ArcFail HalVirtual HalVirtualProofs HalVirtualSound ExampleBase PropsPosition PropsLinFloat PropsStraight PropsArc PropsArcEnd.
From Coq Require Import List.
From Flocq Require Import Core.
Import ListNotations.
Local Open Scope R_scope.

(* ---------- C70 ---------- *)
(** A displacement of at most 65 m, rounded to steps, whose velocities the machine
    accepts: all the assertions of the virtual device hold for the pulses of its
    generator. The limits are those of the time scale of the device, which counts whole
    microseconds (400 kHz per motor), and of the arithmetic: a step is a multiple of
    1e-10 mm up to an odd factor of at most 40. *)
Theorem C70_virtual_accepts (acos : f64 -> f64) (cfg : config) (d d0 : quad f64) (v : f64) (g : linear_gen (F64 acos)) :
  lin_cfg cfg -> step_rates cfg -> (forall m, fine_steps (qat m (ppm cfg))) ->
  (forall m, bd 16 (qat m d)) -> round_to_grid (N:=F64 acos) cfg d = Ok d0 -> fit_move cfg d0 v ->
  make_linear (N:=F64 acos) cfg d0 v = Ok g -> too_fast (N:=F64 acos) cfg (gen_max_velocity (GLinear g)) = false ->
  exists l, completes cfg (GLinear g) l /\ virtual_move cfg (GLinear g) l = Ok tt.
Proof.
  intros Hl Hr Hs Hb Er Hm Em Hf. destruct (emits_float_counts acos cfg d0 v Hl Hm) as (g' & l & He & _).
  assert (g' = g) by (destruct He as [E _]; congruence). subst g'.
  destruct (grid_round acos cfg Hl d Hb) as (d1 & Er' & G). assert (d1 = d0) by congruence. subst d1.
  eexists. split; [exact (proj2 He)|]. refine (virtual_ok acos cfg Hl d0 v g _ Hr Hs Hm _ Hf He). intros m. destruct (G m) as [j Hj]. exists (qat m d), j. exact Hj.
Qed.
Print Assumptions C70_virtual_accepts.

(** The virtual device: a move fails only with an assertion of its own. *)
Definition virtual_device {N : PyNum} (cfg : config) (hw : hw_oracle N) : Prop :=
  forall l g its e, completes cfg g its -> hw l (EMove g) = HRaise e -> virtual_move cfg g its = Raise e.

(** On the virtual device, straight moves to points on the table are executed: the
    hypothesis of C69 on the hardware is met. *)
Theorem C70_virtual_executes (acos : f64 -> f64) (cfg : config) (m : machine (F64 acos)) (es0 : list (event (F64 acos)))
        (hw : hw_oracle (F64 acos)) (g : gcode) (u : R) :
  good_cfg cfg -> lin_cfg cfg -> sec_limits cfg -> step_rates cfg -> (forall m, fine_steps (qat m (ppm cfg))) -> auto_velocity cfg = true ->
  (1 <= min_velocity_min cfg <= quad_min (max_velocity_min cfg))%Z ->
  history_where Moderate cfg m es0 -> moderate (Some g) -> readable g -> unit_factor acos m u ->
  effective_command g = Some (tx "G0") \/ effective_command g = Some (tx "G1") ->
  bounded acos m AE -> reachable acos cfg m g u -> feed_usable acos cfg m g -> virtual_device cfg hw ->
  exists m' es, run_command cfg hw (Some g) m = (m', es, Ok tt).
Proof.
  intros Hc Hl Hs Hr Hf Ha Hm Hh Hg R U He Be Rb Fu Hv.
  destruct (straight_runs_handed acos cfg Hc Hl Hs Ha Moderate m es0 hw g u (fun _ _ H => H) Hm Hh Hg R U He Be Rb Fu) as (m' & es & E & _); [|eauto].
  intros l ev e (lg & d0 & v & -> & Fm & G & Em & Tf) H. destruct (emits_float_counts acos cfg d0 v Hl Fm) as (g' & its & Hi & _).
  assert (g' = lg) by (destruct Hi as [E _]; congruence). subst g'.
  assert (V := Hv l _ _ e (proj2 Hi) H). rewrite (virtual_ok acos cfg Hl d0 v lg _ Hr Hf Fm G Tf Hi) in V. discriminate V.
Qed.
Print Assumptions C70_virtual_executes.

Lemma default_rates : step_rates default_config. Proof. intros []; vm_compute; discriminate. Qed.
Lemma default_fine m : fine_steps (qat m (ppm default_config)).
Proof.
  destruct m; [exists 1%Z, 100000000%Z|exists 1%Z, 100000000%Z|exists 1%Z, 25000000%Z|exists 3%Z, 200000000%Z]; vm_compute; split; [reflexivity|split; [split; discriminate|reflexivity]| | | | | |]; try reflexivity; split; try reflexivity; split; discriminate.
Qed.
(** X+10 Y-5 Z+2 with a feed of 1800 mm/min. *)
Definition fast_b {N : PyNum} (cfg : config) (r : res (linear_gen N)) : bool := match r with Ok g => too_fast cfg (gen_max_velocity (GLinear g)) | Raise _ => true end.
Lemma fast_b_spec {N : PyNum} cfg (r : res (linear_gen N)) : fast_b cfg r = false -> exists g, r = Ok g /\ too_fast cfg (gen_max_velocity (GLinear g)) = false.
Proof. destruct r as [g|]; [intros H; exists g; split; [reflexivity|exact H]|discriminate]. Qed.
Definition same_b (q d : quad f64) : bool :=
  (is_finite (qx q) && f_eq (qx q) (qx d)) && (is_finite (qy q) && f_eq (qy q) (qy d)) && (is_finite (qz q) && f_eq (qz q) (qz d)) && (is_finite (qe q) && f_eq (qe q) (qe d)).
Lemma same_fit cfg q d v : same_b q d = true -> fit_move cfg d v -> fit_move cfg q v.
Proof.
  intros H [Fd (m0 & S) Fv].
  assert (E: forall m, fin (qat m q) /\ val (qat m q) = val (qat m d)).
  { unfold same_b in H. rewrite !andb_true_iff in H. destruct H as [[[[F1 H1] [F2 H2]] [F3 H3]] [F4 H4]].
    assert (D := fun m => proj1 (Fd m)). assert (D1 := D MX). assert (D2 := D MY). assert (D3 := D MZ). assert (D4 := D ME). cbn [qat] in *.
    apply f_eq_true in H1, H2, H3, H4; auto. intros []; cbn [qat]; auto. }
  split; [|exists m0|exact Fv].
  - intros m. destruct (E m) as [F ->]. split; [exact F|apply Fd].
  - destruct (E m0) as [_ ->]. exact S.
Qed.
Lemma rounded_test (N : PyNum) cfg (d : quad N) v (test : quad N -> bool) :
  match round_to_grid cfg d with Ok q => test q && negb (fast_b cfg (make_linear cfg q v)) | Raise _ => false end = true ->
  exists q g, round_to_grid cfg d = Ok q /\ test q = true /\ make_linear cfg q v = Ok g /\ too_fast cfg (gen_max_velocity (GLinear g)) = false.
Proof.
  destruct (round_to_grid cfg d) as [q|]; [|discriminate]. intros H. apply andb_prop in H. destruct H as [H1 H2]. apply negb_true_iff, fast_b_spec in H2. destruct H2 as (g & E & H2). exists q, g. auto.
Qed.
Example C70_virtual_accepts_ex (acos : f64 -> f64) : lin_cfg default_config /\ step_rates default_config /\ (forall m, fine_steps (qat m (ppm default_config))) /\
  (forall m, bd 16 (qat m exf_delta)) /\ (exists d0, round_to_grid (N:=F64 acos) default_config exf_delta = Ok d0 /\ fit_move default_config d0 (f_ofZ 1800) /\
  exists g, make_linear (N:=F64 acos) default_config d0 (f_ofZ 1800) = Ok g /\ too_fast (N:=F64 acos) default_config (gen_max_velocity (GLinear g)) = false).
Proof.
  split; [exact default_lin|]. split; [exact default_rates|]. split; [exact default_fine|]. split.
  - intros m. destruct exf_fit as [Fd _]. destruct (Fd m) as [F B]. split; [exact F|]. change (bpow radix2 16) with 65536. lra.
  - destruct (rounded_test (F64 acos) default_config exf_delta (f_ofZ 1800) (fun q => same_b q exf_delta)) as (q & g & E1 & E2 & E3 & E4); [vm_compute; reflexivity|].
    exists q. split; [exact E1|]. split; [exact (same_fit _ _ _ _ E2 exf_fit)|]. exists g. auto.
Qed.

(** The virtual device asked for at most [n] items. *)
Definition hw_virtual {N : PyNum} (cfg : config) (n : nat) : hw_oracle N := fun _ ev =>
  match ev with
  | EMove g => match run_gen cfg n g with
               | Finished its => match virtual_move cfg g its with Raise e => HRaise e | Ok _ => HReturn false end
               | _ => HReturn false
               end
  | _ => HReturn false
  end.
Example C70_virtual_executes_ex (acos : f64 -> f64) :
  good_cfg default_config /\ lin_cfg default_config /\ sec_limits default_config /\ step_rates default_config /\
  (forall m, fine_steps (qat m (ppm default_config))) /\ auto_velocity default_config = true /\
  (1 <= min_velocity_min default_config <= quad_min (max_velocity_min default_config))%Z /\
  history_where (N:=F64 acos) Moderate default_config (after0 prog69) (events0 prog69) /\ moderate (Some (gl line69)) /\ readable (gl line69) /\
  unit_factor acos (after0 prog69) 1 /\ effective_command (gl line69) = Some (tx "G0") /\
  bounded acos (after0 prog69) AE /\ reachable acos default_config (after0 prog69) (gl line69) 1 /\
  feed_usable acos default_config (after0 prog69) (gl line69) /\ virtual_device (N:=F64 acos) default_config (hw_virtual default_config 4000).
Proof.
  destruct (C69_straight_executed_ex acos) as (H1 & H2 & H3 & H4 & H5 & H6 & H7 & H8 & H9 & H10 & H11 & H12 & H13 & _).
  repeat (split; [first [assumption|exact default_rates|exact default_fine]|]).
  intros l g its e [fuel Hf]. cbn [hw_virtual]. destruct (run_gen default_config 4000 g) as [its'| |] eqn:E; try discriminate.
  rewrite (run_gen_det _ _ _ _ _ _ Hf E). destruct (virtual_move default_config g its') as [u|e'] eqn:V; [discriminate|]. intros H. injection H as <-. reflexivity.
Qed.

(** C70 is false for arcs. This one makes a whole turn instead of going to X-8 Y+16 (see
    C35_quarter_refuted), and the virtual device does not accept its pulses. *)
Theorem C70_virtual_arc_refuted (acos : f64 -> f64) : good_acos acos ->
  acos (dbl 0x121a1851ff630a 55) = dbl 0x16dcc57bb565fd 52 -> acos (dbl 0x16a09e667f3bcc 53) = dbl 0x1921fb54442d19 53 ->
  exists m es g l, commands_arc (F64 acos) default_config "G3X92Y116I-28J-4" m es (Ok tt) g /\
    completes default_config (GCircular g) l /\ virtual_move default_config (GCircular g) l <> Ok tt.
Proof.
  intros Hg H1 H2. destruct (C35_quarter_refuted acos Hg H1 H2) as (m & es & g & l & HC & Ha & Hl & TX & TY). exists m, es, g, l. split; [exact HC|]. split; [exact Hl|].
  intros V. destruct (virtual_sound acos _ _ _ Hl V) as (S & _). specialize (S MX). rewrite TX in S. cbn [qat ppm default_config] in S. cbv zeta in S.
  destruct S as [F C]; [vm_compute; split; [reflexivity|discriminate]|vm_compute; discriminate|]. apply andb_prop in Ha. destruct Ha as [Ha _]. cbn [eqb F64 ofZ] in Ha. cbn [gen_delta] in *.
  destruct (f_ofZ_val (-8)) as [F8 V8]; [lia|]. change (num (F64 acos)) with f64 in *. apply (f_eq_true _ _ F F8) in Ha. rewrite V8 in Ha. rewrite Ha in C. apply Rabs_le_inv in C. lra.
Qed.
Print Assumptions C70_virtual_arc_refuted.
Example C70_virtual_arc_refuted_ex : good_acos ex_acos2 /\
  ex_acos2 (dbl 0x121a1851ff630a 55) = dbl 0x16dcc57bb565fd 52 /\ ex_acos2 (dbl 0x16a09e667f3bcc 53) = dbl 0x1921fb54442d19 53.
Proof.
  destruct ex_acos2_ok as [H T]. split; [exact H|]. rewrite Forall_forall in T. split.
  - apply (T (dbl 0x121a1851ff630a 55, dbl 0x16dcc57bb565fd 52)). do 2 right. now left.
  - apply (T (dbl 0x16a09e667f3bcc 53, dbl 0x1921fb54442d19 53)). do 3 right. now left.
Qed.

(* ---------- C71 ---------- *)
(** If the virtual device accepts the pulses of a generator, straight or not, then every
    motor ends where the generator was asked to go; its pulses come one after the other,
    none after the time that the generator announces; and the pulses of one message are
    due in the same microsecond. *)
Theorem C71_virtual_sound (acos : f64 -> f64) (cfg : config) (g : gen (F64 acos)) (l : list (item (F64 acos))) :
  completes cfg g l -> virtual_move cfg g l = Ok tt ->
  (forall m, (0 < qat m (ppm cfg) <= 1000)%Z -> (Z.abs (travel cfg m l) <= 65536 * qat m (ppm cfg))%Z ->
     let x : f64 := qat m (gen_delta g) in fin x /\ Rabs (val x - IZR (travel cfg m l) / IZR (qat m (ppm cfg))) <= / 5000000000) /\
  (forall m, StronglySorted (fun t u : f64 => val t < val u) (motor_times m l)) /\
  (forall m (t : f64), In t (motor_times m l) -> fin t /\ f_le t (total_time_s g) = true) /\
  (forall q, In (Pulse q) l -> exists k, forall m (t : f64), qat m q = Some t -> f_rnd (f_mul t (f_ofZ 1000000)) = Ok k).
Proof. exact (virtual_sound acos cfg g l). Qed.
Print Assumptions C71_virtual_sound.
Example C71_virtual_sound_ex (acos : f64 -> f64) : exists g l, completes (N:=F64 acos) default_config (GLinear g) l /\ virtual_move default_config (GLinear g) l = Ok tt.
Proof.
  destruct (C70_virtual_accepts_ex acos) as (H1 & H2 & H3 & H4 & d0 & H5 & H6 & g & H7 & H8). exists g.
  exact (C70_virtual_accepts acos default_config exf_delta d0 _ g H1 H2 H3 H4 H5 H6 H7 H8).
Qed.
