(** Theorems about where arcs end in binary64 (C35). Every theorem is followed by its
    assumptions and by an Example of its hypotheses. *)
From Coq Require Import String Ascii ZArith Bool Reals Lra Lia List.
From Flocq Require Import Core BinarySingleNaN.
From Verif Require Import PyBase PyNum ArcExact PyFloatFacts Config Coordinates Pulses PulseSpec GCode GCodeSpec WordFacts GMachine ExampleBase Decimal MachinePos MachineArc MachineWork PropsPosition LinearGen ArcSpec ArcRun ArcMake ArcFloat ArcGrid ArcDone ArcEnd ArcMachine ArcFail ArcTravel ArcQuarters ArcNet ArcAngle ArcFloatNet ArcFloatEnd PropsArc PropsArcEnd.
From Coq Require Import List.
From Flocq Require Import Core.
Import ListNotations.
Local Open Scope R_scope.

(* ---------- for the Examples ---------- *)
(** A straight line instead of the arc cosine. *)
Definition line_acos (x : f64) : f64 := f_sub half_pi (f_mul half_pi x).
Lemma half_pi_val : fin half_pi /\ val half_pi = hpi.
Proof.
  split; [reflexivity|]. rewrite pi_eq.
  assert (E: forall x : f64, B2SF x = SpecFloat.S754_finite false 7074237752028440 (-52) -> val x = 884279719003555 / 281474976710656 / 2).
  { intros x Hx. destruct x; try discriminate Hx. injection Hx as -> -> ->. cbn. unfold F2R. cbn. lra. }
  apply E. vm_compute. reflexivity.
Qed.
Lemma line_acos_val q : fin q -> -1 <= val q <= 1 ->
  fin (line_acos q) /\ val (line_acos q) = rd (hpi - rd (hpi * val q)) /\ Rabs (val (line_acos q) - (hpi - hpi * val q)) <= bpow radix2 (-51) /\ - hpi <= rd (hpi * val q) <= hpi.
Proof.
  intros F B. destruct half_pi_val as [Fh Vh]. assert (P := pi_eq).
  assert (B1: Rabs (hpi * val q) <= bpow radix2 1) by (change (bpow radix2 1) with 2; apply Rabs_le; nra).
  destruct (f_mul_val half_pi q Fh F) as [F1 V1]; [rewrite Vh; eapply bd_big; [exact B1|lia]|]. rewrite Vh in V1.
  assert (E1 := rd_error _ 1 ltac:(lia) B1). change (1 - 54)%Z with (-53)%Z in E1.
  assert (R: - hpi <= rd (hpi * val q) <= hpi).
  { assert (Q: rd hpi = hpi) by (rewrite <- Vh; apply rd_val). split; [apply Rle_trans with (rd (- hpi)); [rewrite rd_opp, Q; apply Rle_refl|apply rd_le; nra]|apply Rle_trans with (rd hpi); [apply rd_le; nra|rewrite Q; apply Rle_refl]]. }
  assert (B2: Rabs (hpi - rd (hpi * val q)) <= bpow radix2 2) by (change (bpow radix2 2) with 4; apply Rabs_le; lra).
  destruct (f_sub_val half_pi (f_mul half_pi q) Fh F1) as [F2 V2]; [rewrite Vh, V1; eapply bd_big; [exact B2|lia]|]. rewrite Vh, V1 in V2.
  assert (E2 := rd_error _ 2 ltac:(lia) B2). change (2 - 54)%Z with (-52)%Z in E2.
  split; [exact F2|]. split; [exact V2|]. split; [|exact R]. change (val (line_acos q)) with (val (f_sub half_pi (f_mul half_pi q))). rewrite V2.
  change (bpow radix2 (-53)) with (/ 9007199254740992) in E1. change (bpow radix2 (-52)) with (/ 4503599627370496) in E2. change (bpow radix2 (-51)) with (/ 2251799813685248).
  apply Rabs_le_inv in E1, E2. apply Rabs_le. lra.
Qed.
Lemma line_acos_orderly : orderly_acos line_acos.
Proof.
  assert (P := pi_eq). destruct half_pi_val as [Fh Vh]. assert (Q: rd hpi = hpi) by (rewrite <- Vh; apply rd_val).
  assert (Q2: rd (val f_pi) = val f_pi) by apply rd_val.
  split.
  - intros q F B. destruct (line_acos_val q F B) as (F2 & V2 & _ & R). split; [exact F2|]. rewrite V2. split; [rewrite <- rd_0; apply rd_le; lra|apply Rle_trans with (rd (val f_pi)); [apply rd_le; lra|rewrite Q2; apply Rle_refl]].
  - intros q F V. destruct (line_acos_val q F ltac:(lra)) as (_ & -> & _). rewrite V, Rmult_1_r, Q, Rminus_diag_eq, rd_0; reflexivity.
  - intros q F V. destruct (line_acos_val q F ltac:(lra)) as (_ & -> & _). rewrite V, Rmult_0_r, rd_0, Rminus_0_r. exact Q.
  - intros q F V. destruct (line_acos_val q F ltac:(lra)) as (_ & -> & _). rewrite V. replace (hpi * -1) with (- hpi) by ring. rewrite rd_opp, Q. replace (hpi - - hpi) with (val f_pi) by lra. exact Q2.
  - intros x y Fx Fy Lx Ly D. assert (D0: 0 < bpow radix2 (-48)) by apply bpow_gt_0. destruct (line_acos_val x Fx ltac:(lra)) as (_ & _ & Ex & _). destruct (line_acos_val y Fy ltac:(lra)) as (_ & _ & Ey & _).
    change (bpow radix2 (-48)) with (/ 281474976710656) in *. change (bpow radix2 (-51)) with (/ 2251799813685248) in *. apply Rabs_le_inv in Ex, Ey. rewrite P in *. nra.
Qed.
(** A generator runs to its end. *)
Definition finishes {N : PyNum} (cfg : config) (fuel : nat) (g : gen N) : bool := match run_gen cfg fuel g with Finished _ => true | _ => false end.
Lemma finishes_spec {N : PyNum} cfg fuel (g : gen N) : finishes cfg fuel g = true -> exists l, completes cfg g l.
Proof. unfold finishes, completes. destruct (run_gen cfg fuel g) as [l| |] eqn:E; try discriminate. intros _. exists l, fuel. exact E. Qed.
Notation LX := (F64 line_acos).
Definition small_delta : quad LX := Quad (f_ofZ 1) (f_ofZ (-1)) (f_ofZ 2) (f_ofZ 0).
Definition small_radius : quad LX := Quad (f_ofZ (-3)) (f_ofZ (-4)) (f_ofZ 0) (f_ofZ 0).
Lemma whole_mm p n : (0 < p <= 1000)%Z -> (Z.abs n <= 4096)%Z -> nearest_to p (n * p) (f_ofZ n).
Proof.
  intros Hp Hn. destruct (f_ofZ_val n) as [F V]; [lia|]. split; [exact F|]. rewrite V, mult_IZR. assert (0 < IZR p) by (apply (IZR_lt 0); lia).
  replace (IZR n * IZR p / IZR p) with (IZR n) by (field; lra). symmetry. apply rd_IZR. lia.
Qed.
Lemma whole_back p n : (0 < p <= 1000)%Z -> (Z.abs n <= 4096)%Z -> back p (n * p) = IZR (n * p).
Proof.
  intros Hp Hn. destruct (whole_mm p n Hp Hn) as [_ V]. unfold back. rewrite <- V. destruct (f_ofZ_val n) as [_ ->]; [lia|]. rewrite <- mult_IZR. apply rd_IZR. nia.
Qed.
Lemma small_made : exists g l, make_circular default_config small_delta small_radius PlaneXY CW (f_ofZ 600 : LX) = Ok g /\ completes default_config (GCircular g) l.
Proof.
  assert (T: match make_circular default_config small_delta small_radius PlaneXY CW (f_ofZ 600 : LX) with Ok g => finishes default_config 4000 (GCircular g) | _ => false end = true) by (vm_compute; reflexivity).
  destruct (make_circular _ _ _ _ _ _) as [g|] eqn:E; [|discriminate T]. apply finishes_spec in T. destruct T as [l Hl]. exists g, l. split; [reflexivity|exact Hl].
Qed.
Lemma small_arc : float_arc default_config PlaneXY small_delta small_radius 100 300 400 400 300 800.
Proof.
  split; [reflexivity|reflexivity|exact (whole_mm 100 (-3) ltac:(lia) ltac:(lia))|exact (whole_mm 100 (-4) ltac:(lia) ltac:(lia))|exact (whole_mm 100 1 ltac:(lia) ltac:(lia))|exact (whole_mm 100 (-1) ltac:(lia) ltac:(lia))|exact (whole_mm 400 2 ltac:(lia) ltac:(lia))|cbn; lia].
Qed.

(* ---------- C35 ---------- *)
(** C35 in binary64, the axes of the plane: the circles, the arcs that end in another
    quarter than they start in, and the arcs inside one quarter whose ends are on one
    circle and that do not go back. Equal steps per mm in the plane, radius up to
    2^20 steps. The start and the radius have to survive the conversion from steps to
    millimetres and int(mm * steps per mm) afterwards: C35_circle_refuted is a case
    where the radius does not. *)
Theorem C35_float_partial (acos : f64 -> f64) (cfg : config) (delta radius : quad (F64 acos)) (pl : plane) (rot : rotation) (v : F64 acos)
        (g : circular_gen (F64 acos)) p sa sb ea eb jc l :
  orderly_acos acos -> good_cfg cfg -> make_circular cfg delta radius pl rot v = Ok g ->
  float_arc cfg pl delta radius p sa sb ea eb jc ->
  onward_arc sa sb ea eb -> (len_steps sa sb <= 1048576)%Z ->
  (forall n, n = sa \/ n = sb \/ n = len_steps sa sb -> Ztrunc (back p n) = n) ->
  completes cfg (GCircular g) l ->
  travel cfg (motor_a pl) l = (ea - sa)%Z /\ travel cfg (motor_b pl) l = (eb - sb)%Z.
Proof.
  intros Ha Hc Hg G F Far W Hl.
  exact (fe_travel acos cfg Hc delta radius pl rot v g Hg p sa sb ea eb jc G Ha Far (W _ (or_introl eq_refl)) (W _ (or_intror (or_introl eq_refl))) (W _ (or_intror (or_intror eq_refl))) l F Hl).
Qed.
Print Assumptions C35_float_partial.
(** From (3, 4) to (4, 3) around the centre, rising by 2 mm. *)
Lemma small_len : len_steps 300 400 = 500%Z.
Proof. unfold len_steps. replace (IZR (300 * 300 + 400 * 400)) with (500 * 500) by (vm_compute; lra || lra). rewrite sqrt_square by lra. apply Zrnd_IZR. apply valid_rnd_N. Qed.
Example C35_float_ex : exists g l, make_circular default_config small_delta small_radius PlaneXY CW (f_ofZ 600 : LX) = Ok g /\ completes default_config (GCircular g) l /\
  orderly_acos line_acos /\ onward_arc 300 400 400 300 /\ (forall n, n = 300%Z \/ n = 400%Z \/ n = len_steps 300 400 -> Ztrunc (back 100 n) = n) /\
  travel default_config MX l = 100%Z /\ travel default_config MY l = (-100)%Z.
Proof.
  destruct small_made as (g & l & Hg & Hl). exists g, l. split; [exact Hg|]. split; [exact Hl|]. split; [exact line_acos_orderly|].
  assert (O: onward_arc 300 400 400 300) by (right; right; split; [reflexivity|]; intros [_ H]; lia).
  assert (W: forall n, n = 300%Z \/ n = 400%Z \/ n = len_steps 300 400 -> Ztrunc (back 100 n) = n).
  { intros n H. rewrite small_len in H. assert (X: exists k, n = (k * 100)%Z /\ (Z.abs k <= 4096)%Z) by (destruct H as [->|[->| ->]]; [exists 3%Z|exists 4%Z|exists 5%Z]; lia).
    destruct X as (k & -> & Hk). rewrite whole_back by lia. apply Ztrunc_IZR. }
  split; [exact O|]. split; [exact W|].
  exact (C35_float_partial line_acos default_config small_delta small_radius PlaneXY CW (f_ofZ 600) g 100 300 400 400 300 800 l line_acos_orderly default_good Hg small_arc O ltac:(rewrite small_len; lia) W Hl).
Qed.

(** The third axis makes exactly as many steps as its displacement, converted to
    millimetres and back to steps, rounded up: right or one too many. *)
Theorem C35_third_float (acos : f64 -> f64) (cfg : config) (delta radius : quad (F64 acos)) (pl : plane) (rot : rotation) (v : F64 acos)
        (g : circular_gen (F64 acos)) p sa sb ea eb jc l :
  good_cfg cfg -> make_circular cfg delta radius pl rot v = Ok g ->
  float_arc cfg pl delta radius p sa sb ea eb jc -> completes cfg (GCircular g) l ->
  travel cfg (motor_c pl) l = (Z.sgn jc * Zceil (back (axis_c pl (ppm cfg)) (Z.abs jc)))%Z.
Proof. exact (fun Hc Hg G => fe_third acos cfg Hc delta radius pl rot v g Hg p sa sb ea eb jc G l). Qed.
Print Assumptions C35_third_float.
Example C35_third_ex : exists g l, make_circular default_config small_delta small_radius PlaneXY CW (f_ofZ 600 : LX) = Ok g /\ completes default_config (GCircular g) l /\ travel default_config MZ l = 800%Z.
Proof.
  destruct small_made as (g & l & Hg & Hl). exists g, l. split; [exact Hg|]. split; [exact Hl|].
  assert (T := C35_third_float line_acos default_config small_delta small_radius PlaneXY CW (f_ofZ 600) g 100 300 400 400 300 800 l default_good Hg small_arc Hl).
  change (back (axis_c PlaneXY (ppm default_config)) (Z.abs 800)) with (back 400 (2 * 400)) in T. rewrite whole_back, Zceil_IZR in T by lia. exact T.
Qed.
(** C35 is false for the third axis: a circle rising by 0.07 mm, 28 steps of the shipped
    configuration, makes 29 steps on Z. *)
Definition rising_b {acos} (g : circular_gen (F64 acos)) : bool :=
  match c_plane g with PlaneXY => true | _ => false end && room_b 2 g && f_eq (qe (c_delta g)) (f_ofZ 0) && negb (f_eq (c_velocity_3rd g) (f_ofZ 0)) &&
  sf_same (B2SF (qz (c_delta g) : f64)) (B2SF (f_ratio false 7 100)) && is_finite (c_iterations_3rd g : f64) && f_lt (f_ofZ 28) (c_iterations_3rd g) && f_le (c_iterations_3rd g) (f_ofZ 29) && is_finite (c_velocity_3rd g : f64).
Lemma rising_travel (acos : f64 -> f64) (s : string) m es r g : good_acos acos -> commands_arc (F64 acos) default_config s m es r g -> rising_b g = true ->
  qz (c_delta g) = f_ratio false 7 100 /\ exists l, completes default_config (GCircular g) l /\ travel default_config MZ l = 29%Z.
Proof.
  intros Hg HC T.
  unfold rising_b in T. rewrite !andb_true_iff in T. destruct T as ((((((((T1 & T2) & T3) & T4) & T5) & T6) & T7) & T8) & T9).
  assert (Pl : c_plane g = PlaneXY) by (destruct (c_plane g); try discriminate T1; reflexivity).
  apply sf_same_eq, B2SF_inj in T5. apply room_b_spec in T2. apply eq_zero in T3. destruct T3 as [F1 V1].
  destruct default_arc_cfg as (Hc & Hf & Hm & Hac). destruct HC as (m' & es0 & HH & HCa & Hr & Hin).
  destruct (arc_of_history acos default_config Hc Calm m es0 hw_ok _ m' es r g Hf (fun _ _ h => h) HH HCa Hr Hin) as [A].
  assert (Ev : axis_a (c_plane g) (ppm default_config) = axis_b (c_plane g) (ppm default_config)) by (rewrite Pl; reflexivity).
  assert (V3: val (c_velocity_3rd g) <> 0).
  { intros V. destruct (c_velocity_3rd g : f64) as [b|b| |b mm e Hb]; [destruct b; discriminate T4|discriminate T9|discriminate T9|]. revert V. apply F2R_neq_0. cbn. destruct b; discriminate. }
  destruct (arc_facts_completes acos default_config Hc g Hg Hm Hac A Ev T2) as [l Hl]; auto; [split; [exact F1|]; rewrite V1, Rabs_R0; apply bpow_ge_0|].
  split; [exact T5|]. exists l. split; [exact Hl|].
  destruct (arc_facts_request acos default_config Hc g A Ev) as (rr & rot & v & sa & sb & ea & eb & jc & Hmk & G).
  assert (O := fe_starts acos default_config Hc (c_delta g) rr (c_plane g) rot v g Hmk _ sa sb ea eb jc G).
  assert (X := fe_third acos default_config Hc (c_delta g) rr (c_plane g) rot v g Hmk _ sa sb ea eb jc G l Hl).
  destruct (axis_c_cfg default_config Hc (c_plane g)) as [t C].
  assert (Dc := proj1 (nearest_dec _ _ _ _ C) (fa_c _ _ _ _ _ _ _ _ _ _ G)).
  destruct (third_count acos default_config (c_delta g) rr (c_plane g) rot v g (make_circular_made _ _ _ _ _ _ _ Hmk) _ t jc C eq_refl Dc ltac:(apply (fa_small _ _ _ _ _ _ _ _ _ _ G))) as (Fi & Vi & _).
  destruct (f_ofZ_val 28) as [F28 V28]; [lia|]. destruct (f_ofZ_val 29) as [F29 V29]; [lia|].
  apply (f_lt_true _ _ F28 Fi) in T7. apply (f_le_true _ _ Fi F29) in T8. rewrite V28, Vi in T7. rewrite V29, Vi in T8.
  rewrite (Zceil_imp 29) in X by (split; [exact T7|exact T8]). rewrite Pl in X. change (motor_c PlaneXY) with MZ in X. rewrite X.
  assert (J: (0 < jc)%Z); [|rewrite Z.sgn_pos by exact J; reflexivity].
  destruct (fa_c _ _ _ _ _ _ _ _ _ _ G) as [_ Vc]. rewrite Pl in Vc. change (axis_c PlaneXY (c_delta g)) with (qz (c_delta g)) in Vc. rewrite T5 in Vc. change (axis_c PlaneXY (ppm default_config)) with 400%Z in Vc.
  destruct (Z_lt_le_dec 0 jc) as [|L]; [assumption|]. exfalso. apply IZR_le in L.
  assert (Y: rd (IZR jc / 400) <= 0) by (rewrite <- rd_0; apply rd_le; lra). rewrite <- Vc in Y. apply (f_le_true (f_ratio false 7 100) (f_ofZ 0)) in Y; [|reflexivity|reflexivity]. vm_compute in Y. discriminate Y.
Qed.
Theorem C35_helix_refuted (acos : f64 -> f64) : good_acos acos -> acos pz = half_pi -> acos nz = half_pi ->
  exists m es g l, commands_arc (F64 acos) default_config "G2Z0.07I10" m es (Ok tt) g /\ qz (c_delta g) = f_ratio false 7 100 /\
    completes default_config (GCircular g) l /\ travel default_config MZ l = 29%Z.
Proof.
  intros Hg H1 H2. assert (E : acos_at [(pz, half_pi); (nz, half_pi)] acos = acos) by (apply acos_at_eq; repeat constructor; assumption).
  assert (T : exists m es r g, commands_arc (F64 (acos_at [(pz, half_pi); (nz, half_pi)] acos)) default_config "G2Z0.07I10" m es r g /\
    at_xy 100 100 m = true /\ ok_b (snd (es, r)) = true /\ rising_b g = true)
    by (apply (ex_command _ _ ["G1X100Y100"]%string _ _ (fun q => ok_b (snd q))); vm_compute; reflexivity).
  rewrite E in T. clear H1 H2 E. destruct T as (m & es & r & g & HC & Tm & Tr & T). apply ok_b_spec in Tr. cbn [snd] in Tr. subst r.
  destruct (rising_travel acos _ m es _ g Hg HC T) as (Hz & l & Hl & Tl). exists m, es, g, l. auto.
Qed.
Print Assumptions C35_helix_refuted.
Example C35_helix_ex : good_acos line_acos /\ line_acos pz = half_pi /\ line_acos nz = half_pi.
Proof. split; [exact (oa_good _ line_acos_orderly)|]. split; apply B2SF_inj; vm_compute; reflexivity. Qed.

(** With powers of two as steps per mm nothing is lost. *)
Theorem C35_power_of_two_partial (acos : f64 -> f64) (cfg : config) (delta radius : quad (F64 acos)) (pl : plane) (rot : rotation) (v : F64 acos)
        (g : circular_gen (F64 acos)) n nc sa sb ea eb jc l :
  orderly_acos acos -> good_cfg cfg -> make_circular cfg delta radius pl rot v = Ok g ->
  (0 <= n)%Z -> (0 <= nc)%Z -> axis_c pl (ppm cfg) = (2 ^ nc)%Z -> float_arc cfg pl delta radius (2 ^ n) sa sb ea eb jc ->
  onward_arc sa sb ea eb -> (len_steps sa sb <= 1048576)%Z -> completes cfg (GCircular g) l ->
  travel cfg (motor_a pl) l = (ea - sa)%Z /\ travel cfg (motor_b pl) l = (eb - sb)%Z /\ travel cfg (motor_c pl) l = jc.
Proof. exact (float_pow2 acos cfg delta radius pl rot v g n nc sa sb ea eb jc l). Qed.
Print Assumptions C35_power_of_two_partial.
(** 64 steps per mm on X and Y, 512 on Z; from (3, 4) to (4, 3) around the centre, rising
    by 2 mm. *)
Definition cfg512 : config :=
  {| max_velocity_min := max_velocity_min default_config; min_velocity_min := min_velocity_min default_config;
     ppm := Quad 64 64 512 150; inverted := inverted default_config;
     table_x := table_x default_config; table_y := table_y default_config; table_z := table_z default_config;
     max_acceleration := max_acceleration default_config; spindle_max_rpm := spindle_max_rpm default_config;
     extruder_max_t := extruder_max_t default_config; bed_max_t := bed_max_t default_config; min_t := min_t default_config;
     auto_velocity := auto_velocity default_config; auto_fan := auto_fan default_config |}%Z.
Lemma cfg512_good : good_cfg cfg512.
Proof.
  split; [|simpl; lia]; intros []; simpl; (split; [lia|split; [|lia]]).
  - exists 156250000%Z; reflexivity.
  - exists 156250000%Z; reflexivity.
  - exists 19531250%Z; reflexivity.
Qed.
Example C35_power_of_two_ex : exists g l, make_circular cfg512 small_delta small_radius PlaneXY CW (f_ofZ 600 : LX) = Ok g /\ completes cfg512 (GCircular g) l /\
  travel cfg512 MX l = 64%Z /\ travel cfg512 MY l = (-64)%Z /\ travel cfg512 MZ l = 1024%Z.
Proof.
  assert (T: match make_circular cfg512 small_delta small_radius PlaneXY CW (f_ofZ 600 : LX) with Ok g => finishes cfg512 4000 (GCircular g) | _ => false end = true) by (vm_compute; reflexivity).
  destruct (make_circular _ _ _ _ _ _) as [g|] eqn:E; [|discriminate T]. apply finishes_spec in T. destruct T as [l Hl]. exists g, l. split; [reflexivity|]. split; [exact Hl|].
  assert (G: float_arc cfg512 PlaneXY small_delta small_radius (2 ^ 6) 192 256 256 192 1024).
  { split; [reflexivity|reflexivity|exact (whole_mm 64 (-3) ltac:(lia) ltac:(lia))|exact (whole_mm 64 (-4) ltac:(lia) ltac:(lia))|exact (whole_mm 64 1 ltac:(lia) ltac:(lia))|exact (whole_mm 64 (-1) ltac:(lia) ltac:(lia))|exact (whole_mm 512 2 ltac:(lia) ltac:(lia))|cbn; lia]. }
  assert (O: onward_arc 192 256 256 192) by (right; right; split; [reflexivity|]; intros [_ H]; lia).
  assert (L: len_steps 192 256 = 320%Z) by (unfold len_steps; replace (IZR (192 * 192 + 256 * 256)) with (320 * 320) by (vm_compute; lra || lra); rewrite sqrt_square by lra; apply Zrnd_IZR; apply valid_rnd_N).
  exact (C35_power_of_two_partial line_acos cfg512 small_delta small_radius PlaneXY CW (f_ofZ 600) g 6 9 192 256 256 192 1024 l line_acos_orderly cfg512_good E ltac:(lia) ltac:(lia) eq_refl G O ltac:(rewrite L; lia) Hl).
Qed.

(** Every arc that the machine hands to the motors in a history of commands with
    radius words up to 600 and feeds up to a million is such an arc on the grid, in
    planes with equal steps per mm. *)
Theorem C35_requests (acos : f64 -> f64) (cfg : config) (P : hw_oracle (F64 acos) -> option gcode -> Prop)
        (m m' : machine (F64 acos)) (es es' : list (event (F64 acos))) (hw : hw_oracle (F64 acos)) (gc : gcode) (r : res unit)
        (g : circular_gen (F64 acos)) :
  arc_cfg cfg -> (forall hw gc, P hw gc -> calm gc) -> history_where P cfg m es -> calm (Some gc) ->
  run_command cfg hw (Some gc) m = (m', es', r) -> In (EMove (GCircular g)) es' -> even_plane cfg g ->
  exists radius rot v sa sb ea eb jc, make_circular cfg (c_delta g) radius (c_plane g) rot v = Ok g /\
    float_arc cfg (c_plane g) (c_delta g) radius (axis_a (c_plane g) (ppm cfg)) sa sb ea eb jc.
Proof.
  intros (Hc & Hf & _) HP H Hgc Hr Hin He. destruct (arc_of_history acos cfg Hc P m es hw gc m' es' r g Hf HP H Hgc Hr Hin) as [A].
  exact (arc_facts_request acos cfg Hc g A He).
Qed.
Print Assumptions C35_requests.
Example C35_requests_ex :
  shows_arc LX default_config "G3X11Y10I0.5J0.25F300" (fun g => even_plane_b default_config g).
Proof. apply (ex_arc LX _ ["G1X10Y10"]%string); vm_compute; reflexivity. Qed.
