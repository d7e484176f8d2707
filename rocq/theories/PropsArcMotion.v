(** Theorems about the speed and the acceleration of arcs, in exact arithmetic (C74,
    C75). Every theorem is followed by its assumptions and by an Example of its
    hypotheses. *)
From Coq Require Import ZArith Bool Reals Lra Lia List.
From Flocq Require Import Core.
From Verif Require Import PyBase PyNum Config Coordinates Pulses PulseSpec GMachine LinearReal ArcSpec ArcRun ArcAdjust ArcTotal ArcQuarters ArcExact ArcNet ArcPath ArcMotion PropsArcExact PropsArcNet.
From Coq Require Import List.
From Flocq Require Import Core.
Import ListNotations.
Local Open Scope R_scope.

(* ---------- C74 ---------- *)
(** C74 in exact arithmetic: behind the pulses of an arc is a motion along its circle.
    The length of the whole movement, over the arc, the third axis and the extruder, is
    [way d]; it is passed with at most the velocity asked for, and, if the velocities
    are adjusted, with no axis above its limit. The velocity asked for is reached when
    it is below the limits and the way is long enough to accelerate and brake. All
    pulses come within the time announced by total_time_s. Missing: binary64, planes
    whose axes have different steps per mm, and the arcs that go back in the quarter
    where they start (C35_whole_turn_exact). *)
Theorem C74_exact_partial (cfg : config) (delta radius : quad RN) (pl : plane) (rot : rotation) (v : RN) (g : circular_gen RN) p sa sb ea eb jc je l :
  sane_cfg cfg -> (0 : R) < v -> make_circular cfg delta radius pl rot v = Ok g -> arc_on_grid cfg pl delta radius p sa sb ea eb jc je ->
  forward_arc sa sb ea eb -> completes cfg (GCircular g) l ->
  let rm := IZR (len_steps sa sb) / IZR p in
  exists (t d : R) (phi dphi : R -> R), in_direction t sa sb /\ in_direction (arc_angle rot t d) ea eb /\ 0 < d <= 2 * PI /\
  arc_motion cfg pl rot sa sb jc je l t d phi dphi /\
  (forall l1 q l2 m x, l = l1 ++ Pulse q :: l2 -> qat m q = Some (x : RN) -> (x : R) <= total_time_s (GCircular g)) /\
  (forall x, 0 <= dphi x /\ way delta pl p sa sb d / d * dphi x <= v / 60) /\
  (auto_velocity cfg = true -> forall x,
     rm * dphi x * 60 <= IZR (qat (motor_a pl) (max_velocity_min cfg)) /\ rm * dphi x * 60 <= IZR (qat (motor_b pl) (max_velocity_min cfg)) /\
     Rabs (axis_c pl delta) / d * dphi x * 60 <= IZR (qat (motor_c pl) (max_velocity_min cfg)) /\ Rabs (qe delta) / d * dphi x * 60 <= IZR (qat ME (max_velocity_min cfg))) /\
  (v / 60 * (v / 60) <= IZR (max_acceleration cfg) * way delta pl p sa sb d ->
     auto_velocity cfg = false \/ (forall m, v <= IZR (qat m (max_velocity_min cfg))) ->
     exists x, 0 <= x <= total_time_s (GCircular g) /\ phi x <= d /\ way delta pl p sa sb d / d * dphi x = v / 60).
Proof.
  intros Hc Hv Hg G F Hl rm. destruct (grid_motion cfg delta radius pl rot v g Hc Hv Hg p sa sb ea eb jc je G F l Hl) as (t & d & phi & dphi & H1 & H2 & H3 & H4 & H5 & H6 & H7 & H8 & _).
  exists t, d, phi, dphi. repeat (split; [assumption|]). intros X. exact (proj1 (H8 X)).
Qed.
Print Assumptions C74_exact_partial.

(** The half circle from (-4, -4) to (4, 4) around (0, 0). *)
Lemma half_turn rot t d : in_direction t (-400) (-400) -> in_direction (arc_angle rot t d) 400 400 -> 0 < d -> 1 < d.
Proof.
  unfold in_direction. change (-400 * -400 + -400 * -400)%Z with 320000%Z. change (400 * 400 + 400 * 400)%Z with 320000%Z.
  intros [A1 A2] [B1 B2] D. assert (S := sqrt_sqrt 320000 ltac:(lra)). assert (S0 := sqrt_lt_R0 320000 ltac:(lra)). set (h := sqrt 320000) in *. clearbody h.
  assert (C: cos d = cos (arc_angle rot t d) * cos t + sin (arc_angle rot t d) * sin t) by (rewrite <- cos_minus; unfold arc_angle; destruct rot; [f_equal; ring|rewrite <- cos_neg; f_equal; ring]).
  assert (E1: sin (arc_angle rot t d) = - sin t) by (apply (Rmult_eq_reg_l h); lra). assert (E2: cos (arc_angle rot t d) = - cos t) by (apply (Rmult_eq_reg_l h); lra).
  assert (Q := sin2_cos2 t). unfold Rsqr in Q. rewrite E1, E2 in C. assert (C': cos d = -1) by lra.
  apply Rnot_le_lt. intros L. assert (0 < cos d) by (apply cos_gt_0; assert (X := PI2_1); lra). lra.
Qed.
Lemma half_way rot t d z : in_direction t (-400) (-400) -> in_direction (arc_angle rot t d) 400 400 -> 0 < d -> 1 < way (ex_delta z) PlaneXY 100 (-400) (-400) d.
Proof.
  intros A B D. assert (D1 := half_turn rot t d A B D). unfold way.
  assert (L: len_steps (-400) (-400) = 566%Z).
  { unfold len_steps. apply Znearest_imp. change (-400 * -400 + -400 * -400)%Z with 320000%Z. assert (S := sqrt_sqrt 320000 ltac:(lra)). assert (S0 := sqrt_pos 320000). apply Rabs_def1; nra. }
  rewrite L. rewrite <- sqrt_1. apply sqrt_lt_1_alt. split; [lra|]. set (u := Rabs _). set (w := Rabs _).
  assert (0 <= u * u) by apply Rle_0_sqr. assert (0 <= w * w) by apply Rle_0_sqr. assert (1 < d * (566 / 100)) by lra. nra.
Qed.
Example C74_exact_ex rot : exists g l, make_circular (N:=RN) default_config (ex_delta 50) ex_radius PlaneXY rot (600 : R) = Ok g /\
  completes default_config (GCircular g) l /\ forward_arc (-400) (-400) 400 400 /\
  exists t d phi dphi x, arc_motion default_config PlaneXY rot (-400) (-400) 20000 0 l t d phi dphi /\ 0 <= x <= total_time_s (GCircular g) /\
    way (ex_delta 50) PlaneXY 100 (-400) (-400) d / d * dphi x = 10.
Proof.
  destruct (ex_made 50 rot) as [g Hg]. exists g. assert (G: arc_on_grid default_config PlaneXY (ex_delta 50) ex_radius 100 (-400) (-400) 400 400 20000 0) by (apply ex_half; lra).
  assert (V: 0 < 600) by lra.
  destruct (C38_exact_partial _ _ _ _ _ (600 : R) g _ _ _ _ _ _ _ default_sane V Hg G) as [l Hl]. exists l.
  assert (F: forward_arc (-400) (-400) 400 400) by (right; split; [reflexivity|]; intros [F _]; discriminate F).
  split; [exact Hg|]. split; [exact Hl|]. split; [exact F|].
  destruct (C74_exact_partial _ _ _ _ _ _ g _ _ _ _ _ _ _ l default_sane V Hg G F Hl) as (t & d & phi & dphi & E1 & E2 & E3 & E4 & _ & _ & _ & E8).
  assert (W := half_way rot t d 50 E1 E2 (proj1 E3)).
  destruct E8 as (x & X1 & _ & X2).
  - change (600 / 60 * (600 / 60) <= 3000 * way (ex_delta 50) PlaneXY 100 (-400) (-400) d). lra.
  - right. intros m. destruct m; cbn; lra.
  - exists t, d, phi, dphi, x. split; [exact E4|]. split; [exact X1|]. rewrite X2. lra.
Qed.

(* ---------- C75 ---------- *)
(** C75 in exact arithmetic, for the arcs long enough to accelerate to the velocity
    asked for and brake again: (v/60)^2 <= acceleration * way. The speed along the
    circle and the speeds of the third axis and of the extruder start at 0 and never
    change faster than the acceleration of the configuration; accordingly every axis
    starts from standstill. The arcs that stay in their plane come to standstill at
    the end of the turn, at the time announced. Missing: as in C74; and C75 is false
    for short arcs (C75_refuted). *)
Theorem C75_exact_partial (cfg : config) (delta radius : quad RN) (pl : plane) (rot : rotation) (v : RN) (g : circular_gen RN) p sa sb ea eb jc je l :
  sane_cfg cfg -> (0 : R) < v -> make_circular cfg delta radius pl rot v = Ok g -> arc_on_grid cfg pl delta radius p sa sb ea eb jc je ->
  forward_arc sa sb ea eb -> completes cfg (GCircular g) l ->
  let rm := IZR (len_steps sa sb) / IZR p in let A := IZR (max_acceleration cfg) in
  exists (t d : R) (phi dphi : R -> R), in_direction t sa sb /\ in_direction (arc_angle rot t d) ea eb /\ 0 < d <= 2 * PI /\
  arc_motion cfg pl rot sa sb jc je l t d phi dphi /\
  (v / 60 * (v / 60) <= A * way delta pl p sa sb d ->
     dphi 0 = 0 /\
     (forall x y, rm * Rabs (dphi x - dphi y) <= A * Rabs (x - y) /\ Rabs (axis_c pl delta) / d * Rabs (dphi x - dphi y) <= A * Rabs (x - y) /\
                  Rabs (qe delta) / d * Rabs (dphi x - dphi y) <= A * Rabs (x - y)) /\
     (forall m, starts_within A cfg l m) /\
     (jc = 0%Z -> je = 0%Z -> (forall m, stops_within A cfg l m) /\ phi (total_time_s (GCircular g)) = d /\ dphi (total_time_s (GCircular g)) = 0)).
Proof.
  intros Hc Hv Hg G F Hl rm A. destruct (grid_motion cfg delta radius pl rot v g Hc Hv Hg p sa sb ea eb jc je G F l Hl) as (t & d & phi & dphi & H1 & H2 & H3 & H4 & _ & _ & _ & H8 & _).
  exists t, d, phi, dphi. repeat (split; [assumption|]). intros X. exact (proj2 (H8 X)).
Qed.
Print Assumptions C75_exact_partial.
Example C75_exact_ex rot : exists g l, make_circular (N:=RN) default_config (ex_delta 0) ex_radius PlaneXY rot (600 : R) = Ok g /\
  completes default_config (GCircular g) l /\ forward_arc (-400) (-400) 400 400 /\ (forall m, starts_within 3000 default_config l m) /\ (forall m, stops_within 3000 default_config l m).
Proof.
  destruct (ex_made 0 rot) as [g Hg]. exists g. assert (G: arc_on_grid default_config PlaneXY (ex_delta 0) ex_radius 100 (-400) (-400) 400 400 0 0) by (apply ex_half; lra).
  assert (V: 0 < 600) by lra.
  destruct (C38_exact_partial _ _ _ _ _ (600 : R) g _ _ _ _ _ _ _ default_sane V Hg G) as [l Hl]. exists l.
  assert (F: forward_arc (-400) (-400) 400 400) by (right; split; [reflexivity|]; intros [F _]; discriminate F).
  split; [exact Hg|]. split; [exact Hl|]. split; [exact F|].
  destruct (C75_exact_partial _ _ _ _ _ _ g _ _ _ _ _ _ _ l default_sane V Hg G F Hl) as (t & d & phi & dphi & E1 & E2 & E3 & E4 & E8).
  assert (W := half_way rot t d 0 E1 E2 (proj1 E3)).
  destruct E8 as (_ & _ & X1 & X2).
  - change (600 / 60 * (600 / 60) <= 3000 * way (ex_delta 0) PlaneXY 100 (-400) (-400) d). lra.
  - destruct (X2 eq_refl eq_refl) as [X3 _]. split; [exact X1|exact X3].
Qed.

(** C75 is false for short arcs: the half circle of radius 0.25 mm from (-0.25, 0) to
    (0.25, 0) around (0, 0) with F12000 and the default configuration makes the first
    25 steps of x faster than 3000 mm/s^2 from standstill allow, and ends at full
    speed: the last 25 steps are made in a time in which 3000 mm/s^2 do not stop it. *)
Definition short_delta : quad RN := Quad (1 / 2 : R) (0 : R) (0 : R) (0 : R).
Definition short_radius : quad RN := Quad (1 / 4 : R) (0 : R) (0 : R) (0 : R).
Theorem C75_refuted : exists g l, make_circular (N:=RN) default_config short_delta short_radius PlaneXY CW (12000 : R) = Ok g /\
  completes default_config (GCircular g) l /\ arc_on_grid default_config PlaneXY short_delta short_radius 100 (-25) 0 25 0 0 0 /\ forward_arc (-25) 0 25 0 /\
  max_acceleration default_config = 3000%Z /\ ~ starts_within 3000 default_config l MX /\ ~ stops_within 3000 default_config l MX.
Proof.
  assert (Hm: exists g, make_circular (N:=RN) default_config short_delta short_radius PlaneXY CW (12000 : R) = Ok g).
  { apply arc_made; [exact default_sane|change (0 < 12000); lra| |].
    - change (0 < ZnearestE (sqrt (- (1 / 4) * - (1 / 4) + - 0 * - 0) * IZR 100))%Z. replace (- (1 / 4) * - (1 / 4) + - 0 * - 0) with (1 / 4 * (1 / 4)) by ring. rewrite sqrt_square by lra.
      replace (1 / 4 * IZR 100) with (IZR 25) by lra. rewrite (Zrnd_IZR ZnearestE 25). reflexivity.
    - change (ZnearestE (sqrt ((- (1 / 4) + 1 / 2) * (- (1 / 4) + 1 / 2) + (- 0 + 0) * (- 0 + 0)) * IZR 100) = ZnearestE (sqrt (- (1 / 4) * - (1 / 4) + - 0 * - 0) * IZR 100)). do 3 f_equal. field. }
  destruct Hm as [g Hg]. exists g.
  assert (G: arc_on_grid default_config PlaneXY short_delta short_radius 100 (-25) 0 25 0 0 0) by (split; try reflexivity; try (left; discriminate); cbn; lra).
  assert (V: 0 < 12000) by lra.
  destruct (C38_exact_partial _ _ _ _ _ (12000 : R) g _ _ _ _ _ _ _ default_sane V Hg G) as [l Hl]. exists l.
  assert (F: forward_arc (-25) 0 25 0) by (right; split; [reflexivity|]; intros [F _]; discriminate F).
  split; [exact Hg|]. split; [exact Hl|]. split; [exact G|]. split; [exact F|]. split; [reflexivity|].
  destruct (grid_motion _ _ _ _ _ _ g default_sane V Hg _ _ _ _ _ _ _ G F l Hl) as (t & d & phi & dphi & E1 & E2 & E3 & Mo & _ & _ & _ & _ & Sh).
  destruct (C35_exact_partial _ _ _ _ _ _ g _ _ _ _ _ _ _ l default_sane Hg G (or_intror F) Hl) as (Tx & _). change (motor_a PlaneXY) with MX in Tx. change (25 - -25)%Z with 50%Z in Tx.
  assert (Ls: len_steps (-25) 0 = 25%Z) by apply (len_axis (-25)). rewrite Ls in Sh.
  (* the turn is half a circle *)
  unfold in_direction in E1, E2. change (-25 * -25 + 0 * 0)%Z with (25 * 25)%Z in E1. change (25 * 25 + 0 * 0)%Z with (25 * 25)%Z in E2. rewrite mult_IZR, sqrt_square in E1, E2 by lra.
  destruct E1 as [S1 C1]. destruct E2 as [S2 C2]. unfold arc_angle in S2, C2.
  assert (S1': sin t = -1) by lra. assert (C1': cos t = 0) by lra. assert (S2': sin (t + d) = 1) by lra.
  assert (Cd: cos d = -1) by (rewrite sin_plus, S1', C1' in S2'; lra).
  assert (Sn: forall f, sin (t + f) = - cos f) by (intros f; rewrite sin_plus, S1', C1'; ring).
  assert (Dd: d = PI).
  { assert (P0 := PI_RGT_0). destruct (Rtotal_order d PI) as [L|[L|L]]; [|exact L|].
    - assert (X := cos_decreasing_1 d PI ltac:(lra) ltac:(lra) ltac:(lra) ltac:(lra) L). rewrite cos_PI in X. lra.
    - assert (X := cos_increasing_1 PI d ltac:(lra) ltac:(lra) ltac:(lra) ltac:(lra) L). rewrite cos_PI in X. lra. }
  assert (P4 := PI_4). assert (P0 := PI_RGT_0). destruct Sh as (a & A0 & A1 & Sh); [reflexivity|reflexivity|right; cbn; lra| |].
  { change (max_acceleration default_config) with 3000%Z. rewrite Dd. lra. }
  change (max_acceleration default_config) with 3000%Z in A1. rewrite Dd in A1.
  assert (A2: a <= 1 / 50) by (apply Rnot_lt_le; intros X; nra).
  (* the pulse at the top, and the last one *)
  destruct (reach_pulse _ _ _ _ _ _ g default_sane Hg _ _ _ _ _ _ _ G l MX 25 (or_introl eq_refl) Hl ltac:(rewrite Tx; lia)) as (l1 & q & l2 & x & E & Ex & Tr).
  destruct (reach_pulse _ _ _ _ _ _ g default_sane Hg _ _ _ _ _ _ _ G l MX 50 (or_introl eq_refl) Hl ltac:(rewrite Tx; lia)) as (l1' & q' & l2' & y & E' & Ey & Ty).
  destruct (mo_pulse _ _ _ _ _ _ _ _ _ _ _ _ Mo _ _ _ _ _ E Ex) as (X0 & Bx & (Nx & _) & Xa & _). destruct (mo_pulse _ _ _ _ _ _ _ _ _ _ _ _ Mo _ _ _ _ _ E' Ey) as (Y0 & By & _ & Ya & _).
  destruct (Xa eq_refl) as [Xa1 Xa2]. destruct (Ya eq_refl) as [Ya1 Ya2]. clear Xa Ya. change (motor_a PlaneXY) with MX in Nx. rewrite Tr, Ls in Xa1. rewrite Tr, Ls in Nx. rewrite Ty, Ls in Ya1. unfold arc_angle in Xa1, Nx, Ya1. rewrite Sn in Xa1, Nx, Ya1. rewrite Dd in *.
  assert (Px: phi x = PI / 2).
  { assert (Cx: cos (phi x) = 0).
    { destruct (Z.eq_dec (steps MX l2) 0) as [Z|Z]; [exfalso|specialize (Xa1 Z); change (IZR (-25 + 25)) with 0 in Xa1; lra].
      rewrite (Xa2 Z), cos_PI in Nx. change (IZR (-25 + 25)) with 0 in Nx. apply Rabs_le_inv in Nx. lra. }
    assert (Q := cos_PI2). destruct (Rtotal_order (phi x) (PI / 2)) as [L|[L|L]]; [|exact L|].
    - assert (X := cos_decreasing_1 (phi x) (PI / 2) ltac:(lra) ltac:(lra) ltac:(lra) ltac:(lra) L). lra.
    - assert (X := cos_decreasing_1 (PI / 2) (phi x) ltac:(lra) ltac:(lra) ltac:(lra) ltac:(lra) L). lra. }
  assert (Py: phi y = PI).
  { destruct (Z.eq_dec (steps MX l2') 0) as [Z|Z]; [exact (Ya2 Z)|]. specialize (Ya1 Z). change (IZR (-25 + 50)) with 25 in Ya1.
    destruct (Rle_lt_or_eq_dec _ _ (proj2 By)) as [L|L]; [|exact L]. assert (X := cos_decreasing_1 (phi y) PI ltac:(lra) ltac:(lra) ltac:(lra) ltac:(lra) L). rewrite cos_PI in X. lra. }
  assert (Sx := Sh _ _ _ _ _ E Ex). assert (Sy := Sh _ _ _ _ _ E' Ey). rewrite Px in Sx. rewrite Py in Sy.
  assert (AP: a * PI <= 1 / 50 * 4) by (apply Rmult_le_compat; lra).
  assert (Bx2: (x : R) * x <= 1 / 10000) by (rewrite Sx; apply Rle_trans with (a * PI / 800); [right; field|lra]).
  assert (Yx: (y : R) * y = 2 * ((x : R) * x)) by (rewrite Sx, Sy; field).
  split.
  - intros H. assert (X := H _ _ _ _ _ E Ex). rewrite Tr in X. change (IZR (Z.abs 25)) with 25 in X. change (IZR (qat MX (ppm default_config))) with 100 in X. lra.
  - intros H. assert (X := H _ _ _ _ _ _ _ _ _ _ E Ex E' Ey). rewrite Tx, Tr in X. change (IZR (Z.abs (50 - 25))) with 25 in X. change (IZR (qat MX (ppm default_config))) with 100 in X.
    assert (Z: forall l3 q3 l4 m3 z, l = l3 ++ Pulse q3 :: l4 -> qat m3 q3 = Some (z : RN) -> (z : R) <= y).
    { intros l3 q3 l4 m3 z E3' Ez. assert (Sz := Sh _ _ _ _ _ E3' Ez). destruct (mo_pulse _ _ _ _ _ _ _ _ _ _ _ _ Mo _ _ _ _ _ E3' Ez) as (Z0 & Bz & _).
      assert ((z : R) * z <= (y : R) * y) by (rewrite Sz, Sy; apply Rmult_le_compat_l; lra). apply Rnot_lt_le. intros L. nra. }
    specialize (X Z). assert (L := Z _ _ _ _ _ E Ex). change (num RN) with R in x, y.
    assert (Lx: x * x <= x * y) by (apply Rmult_le_compat_l; assumption). replace ((y - x) * (y - x)) with (y * y - 2 * (x * y) + x * x) in X by ring. rewrite Yx in X. lra.
Qed.
Print Assumptions C75_refuted.
