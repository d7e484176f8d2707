(** Theorems about arcs on the grid of the motors, in exact arithmetic: generation
    (C38), net travel (C35) and working area (C10). Every theorem is followed by its
    assumptions and by an Example of its hypotheses. *)
From Coq Require Import ZArith Bool Reals Lra Lia List.
From Flocq Require Import Core.
From Verif Require Import PyBase PyNum Config Coordinates Pulses PulseSpec GMachine LinearReal ArcSpec ArcAdjust ArcTotal ArcQuarters ArcNet PropsArcExact.
From Coq Require Import List.
From Flocq Require Import Core.
Import ListNotations.
Local Open Scope R_scope.

(* ---------- for the Examples ---------- *)
Lemma ex_half z k : z = IZR k / 400 -> arc_on_grid default_config PlaneXY (ex_delta z) ex_radius 100 (-400) (-400) 400 400 k 0.
Proof. intros ->. split; try reflexivity; try (left; discriminate); cbn; lra. Qed.
(** From (4, 3) to (3, 4) around (0, 0). *)
Definition back_delta : quad RN := Quad (-1 : R) (1 : R) (0 : R) (0 : R).
Definition back_radius : quad RN := Quad (-4 : R) (-3 : R) (0 : R) (0 : R).
Lemma ex_back_made rot : exists g, make_circular (N:=RN) default_config back_delta back_radius PlaneXY rot (600 : R) = Ok g.
Proof.
  assert (E: sqrt 25 = 5) by (replace 25 with (5 * 5) by ring; apply sqrt_square; lra).
  apply arc_made; [exact default_sane|change (0 < 600); lra| |].
  - change (0 < ZnearestE (sqrt (- (-4) * - (-4) + - (-3) * - (-3)) * IZR 100))%Z. replace (- (-4) * - (-4) + - (-3) * - (-3)) with 25 by ring. rewrite E.
    apply Z.lt_le_trans with 1%Z; [reflexivity|]. rewrite <- (Zrnd_IZR ZnearestE 1). apply Zrnd_le; [apply valid_rnd_N|]. lra.
  - change (ZnearestE (sqrt ((- (-4) + -1) * (- (-4) + -1) + (- (-3) + 1) * (- (-3) + 1)) * IZR 100) = ZnearestE (sqrt (- (-4) * - (-4) + - (-3) * - (-3)) * IZR 100)).
    do 3 f_equal. ring.
Qed.
Lemma ex_back : arc_on_grid default_config PlaneXY back_delta back_radius 100 400 300 300 400 0 0.
Proof. split; try reflexivity; try (left; discriminate); cbn; lra. Qed.

(* ---------- C38 ---------- *)
(** C38 in exact arithmetic: the generator of every arc on the grid, in a plane whose
    axes have the same number of steps per mm, runs to its end. The planes with
    different steps and binary64 are missing (there C38 is false, C38_refuted_xy,
    C38_refuted_yz; C38_arcs_complete_partial is about binary64). *)
Theorem C38_exact_partial (cfg : config) (delta radius : quad RN) (pl : plane) (rot : rotation) (v : RN) (g : circular_gen RN) p sa sb ea eb jc je :
  sane_cfg cfg -> (0 : R) < v -> make_circular cfg delta radius pl rot v = Ok g -> arc_on_grid cfg pl delta radius p sa sb ea eb jc je ->
  exists l, completes cfg (GCircular g) l.
Proof. exact (fun Hc Hv Hg G => net_completes cfg delta radius pl rot v g Hc Hg p sa sb ea eb jc je G Hv). Qed.
Print Assumptions C38_exact_partial.
Example C38_exact_ex : exists g l, make_circular (N:=RN) default_config (ex_delta 50) ex_radius PlaneXY CW (600 : R) = Ok g /\ completes default_config (GCircular g) l.
Proof.
  destruct (ex_made 50 CW) as [g Hg]. exists g.
  destruct (C38_exact_partial default_config (ex_delta 50) ex_radius PlaneXY CW (600 : R) g 100 (-400) (-400) 400 400 20000 0) as [l Hl].
  - exact default_sane.
  - change (0 < 600). lra.
  - exact Hg.
  - apply ex_half. lra.
  - exists l. split; assumption.
Qed.

(* ---------- C35 ---------- *)
(** C35 in exact arithmetic, for the circles, for the arcs that end in another quarter
    than they start in, and for the arcs inside one quarter whose ends are on one circle
    and that do not go back: every axis makes the steps that were asked for. In the others the plane is left where it was
    (C35_whole_turn_exact). Equal steps per mm in the plane, as above. *)
Theorem C35_exact_partial (cfg : config) (delta radius : quad RN) (pl : plane) (rot : rotation) (v : RN) (g : circular_gen RN) p sa sb ea eb jc je l :
  sane_cfg cfg -> make_circular cfg delta radius pl rot v = Ok g -> arc_on_grid cfg pl delta radius p sa sb ea eb jc je ->
  onward_arc sa sb ea eb -> completes cfg (GCircular g) l ->
  travel cfg (motor_a pl) l = (ea - sa)%Z /\ travel cfg (motor_b pl) l = (eb - sb)%Z /\ travel cfg (motor_c pl) l = jc /\ travel cfg ME l = je.
Proof. exact (fun Hc Hg G => net_onward cfg delta radius pl rot v g Hc Hg p sa sb ea eb jc je G l). Qed.
Print Assumptions C35_exact_partial.
Example C35_exact_ex : exists g l, make_circular (N:=RN) default_config (ex_delta 50) ex_radius PlaneXY CCW (600 : R) = Ok g /\
  completes default_config (GCircular g) l /\ forward_arc (-400) (-400) 400 400 /\
  travel default_config MX l = 800%Z /\ travel default_config MY l = 800%Z /\ travel default_config MZ l = 20000%Z /\ travel default_config ME l = 0%Z.
Proof.
  destruct (ex_made 50 CCW) as [g Hg]. exists g. assert (G: arc_on_grid default_config PlaneXY (ex_delta 50) ex_radius 100 (-400) (-400) 400 400 20000 0) by (apply ex_half; lra).
  destruct (C38_exact_partial _ _ _ _ _ (600 : R) g _ _ _ _ _ _ _ default_sane ltac:(change (0 < 600); lra) Hg G) as [l Hl]. exists l.
  assert (F: forward_arc (-400) (-400) 400 400) by (right; split; [reflexivity|]; intros [F _]; discriminate F).
  split; [exact Hg|]. split; [exact Hl|]. split; [exact F|]. exact (C35_exact_partial _ _ _ _ _ _ g _ _ _ _ _ _ _ l default_sane Hg G (or_intror F) Hl).
Qed.
(** C35 is false for all other arcs with both ends in one quarter, whatever the
    direction: they are executed as a whole turn. *)
Theorem C35_whole_turn_exact (cfg : config) (delta radius : quad RN) (pl : plane) (rot : rotation) (v : RN) (g : circular_gen RN) p sa sb ea eb jc je l :
  sane_cfg cfg -> make_circular cfg delta radius pl rot v = Ok g -> arc_on_grid cfg pl delta radius p sa sb ea eb jc je ->
  back_in_quarter sa sb ea eb -> completes cfg (GCircular g) l ->
  travel cfg (motor_a pl) l = 0%Z /\ travel cfg (motor_b pl) l = 0%Z.
Proof. exact (fun Hc Hg G => net_back cfg delta radius pl rot v g Hc Hg p sa sb ea eb jc je G l). Qed.
Print Assumptions C35_whole_turn_exact.
(** From (4, 3) to (3, 4) around (0, 0), both directions. *)
Example C35_whole_turn_ex rot : exists g l, make_circular (N:=RN) default_config back_delta back_radius PlaneXY rot (600 : R) = Ok g /\
  completes default_config (GCircular g) l /\ back_in_quarter 400 300 300 400 /\ travel default_config MX l = 0%Z /\ travel default_config MY l = 0%Z.
Proof.
  destruct (ex_back_made rot) as [g Hg]. exists g.
  destruct (C38_exact_partial _ _ _ _ _ (600 : R) g _ _ _ _ _ _ _ default_sane ltac:(change (0 < 600); lra) Hg ex_back) as [l Hl]. exists l.
  assert (F: back_in_quarter 400 300 300 400) by (split; [reflexivity|lia]).
  split; [exact Hg|]. split; [exact Hl|]. split; [exact F|]. exact (C35_whole_turn_exact _ _ _ _ _ _ g _ _ _ _ _ _ _ l default_sane Hg ex_back F Hl).
Qed.

(* ---------- C10 ---------- *)
(** C10 in exact arithmetic for full circles, with any movement of the third axis: at
    every moment of an accepted circle every axis is on the table. Equal steps per mm
    in the plane; the machine is on the grid and on the table before. C10 is false
    for other arcs (C10_refuted). *)
Theorem C10_circle_exact_partial (cfg : config) (hw : hw_oracle RN) (delta radius : quad RN) (v : RN) (rot : rotation) (m : machine RN) l m' l' :
  sane_cfg cfg -> move_circular cfg hw delta radius v rot m l = (m', l', Ok tt) ->
  let pl := m_plane m in let d := snap cfg delta in let pos : quad R := m_position m in
  axis_a pl (ppm cfg) = axis_b pl (ppm cfg) -> on_grid cfg pos -> in_area cfg pos -> axis_a pl d = 0 -> axis_b pl d = 0 ->
  exists g, l' = (l ++ [EMove (GCircular g)])%list /\ forall n k, k <> ME ->
    0 <= qat k pos + IZR (travel cfg k (items cfg (GCircular g) n)) / IZR (qat k (ppm cfg)) <= IZR (qat k (table_quad cfg)).
Proof. exact (fun Hc => circle_stays cfg Hc hw delta radius v rot m l m' l'). Qed.
Print Assumptions C10_circle_exact_partial.
(** Any arc on the grid, if its circle and the ends of the third axis are on the
    table. *)
Theorem C10_inside_exact_partial (cfg : config) (delta radius : quad RN) (pl : plane) (rot : rotation) (v : RN) (g : circular_gen RN) p sa sb ea eb jc je (pos : quad R) (qa qb qc : Z) n :
  sane_cfg cfg -> make_circular cfg delta radius pl rot v = Ok g -> arc_on_grid cfg pl delta radius p sa sb ea eb jc je ->
  axis_a pl pos = IZR qa / IZR p -> axis_b pl pos = IZR qb / IZR p ->
  circle_in_area cfg pl (axis_a pl pos + axis_a pl (radius : quad R)) (axis_b pl pos + axis_b pl (radius : quad R))
    (sqrt (axis_a pl (radius : quad R) * axis_a pl (radius : quad R) + axis_b pl (radius : quad R) * axis_b pl (radius : quad R))) ->
  let pc := axis_c pl (ppm cfg) in let T := table_quad cfg in
  axis_in_area pc (axis_c pl T) qc -> axis_in_area pc (axis_c pl T) (qc + jc) ->
  let l := items cfg (GCircular g) n in
  axis_in_area p (axis_a pl T) (qa + travel cfg (motor_a pl) l) /\ axis_in_area p (axis_b pl T) (qb + travel cfg (motor_b pl) l) /\
  axis_in_area pc (axis_c pl T) (qc + travel cfg (motor_c pl) l).
Proof.
  exact (fun Hc Hg G Pa Pb Ci Q1 Q2 => area_moments cfg delta radius pl rot v g Hc Hg p sa sb ea eb jc je G pos qa qb qc Pa Pb Ci (conj Q1 Q2) n).
Qed.
Print Assumptions C10_inside_exact_partial.

Example C10_circle_exact_ex : exists g m' l', move_circular (N:=RN) default_config ex_hw (Quad (0 : R) (0 : R) (0 : R) (0 : R)) ex_radius (600 : R) CW ex_machine [] = (m', l', Ok tt) /\
  l' = [EMove (GCircular g)] /\ on_grid default_config (m_position ex_machine) /\ in_area default_config (m_position ex_machine) /\
  forall n, 0 <= 100 + IZR (travel default_config MX (items default_config (GCircular g) n)) / 100 <= 200.
Proof.
  assert (S1: snap default_config (Quad (0 : R) (0 : R) (0 : R) (0 : R)) = Quad 0 0 0 0) by (apply ex_snap; intros []; exists 0%Z; cbn; lra).
  assert (S2: snap default_config ex_radius = ex_radius).
  { apply ex_snap. intros []; [exists 400%Z|exists 400%Z|exists 0%Z|exists 0%Z]; cbn; lra. }
  assert (E := ex_r).
  assert (Gr: on_grid default_config (m_position ex_machine)) by (intros []; [exists 10000%Z|exists 10000%Z|exists 0%Z|exists 0%Z]; cbn; lra).
  assert (Ar: in_area default_config (m_position ex_machine)) by (change ((0 <= 100 <= 200) /\ (0 <= 100 <= 200) /\ (0 <= 0 <= 220)); lra).
  destruct (C37_accepted_exact_partial default_config ex_hw (Quad (0 : R) (0 : R) (0 : R) (0 : R)) ex_radius (600 : R) CW ex_machine []) as (g & H & D).
  - exact default_sane.
  - reflexivity.
  - intros ? ?. exists true. reflexivity.
  - change (0 < 600). lra.
  - cbv zeta. rewrite S2. change (1 <= sqrt (4 * 4 + 4 * 4) * IZR 100). lra.
  - cbv zeta. rewrite S1, S2. change ((0 - 4) * (0 - 4) + (0 - 4) * (0 - 4) = 4 * 4 + 4 * 4). lra.
  - rewrite S1. left. split; reflexivity.
  - rewrite S2. change (0 <= 100 + 4 - sqrt (4 * 4 + 4 * 4) /\ 100 + 4 + sqrt (4 * 4 + 4 * 4) <= 200 /\ 0 <= 100 + 4 - sqrt (4 * 4 + 4 * 4) /\ 100 + 4 + sqrt (4 * 4 + 4 * 4) <= 200). lra.
  - rewrite S1. change ((0 <= 100 + 0 <= 200) /\ (0 <= 100 + 0 <= 200) /\ (0 <= 0 + 0 <= 220)). lra.
  - rewrite S1. reflexivity.
  - rewrite S1. reflexivity.
  - destruct (C10_circle_exact_partial _ _ _ _ _ _ _ _ _ _ default_sane H eq_refl Gr Ar) as (g' & El & A).
    + rewrite S1. reflexivity.
    + rewrite S1. reflexivity.
    + exists g'. eexists _, _. split; [exact H|]. split; [exact El|]. split; [exact Gr|]. split; [exact Ar|]. intros n. apply (A n MX). discriminate.
Qed.
Example C10_inside_exact_ex : exists g, make_circular (N:=RN) default_config (ex_delta 0) ex_radius PlaneXY CW (600 : R) = Ok g /\
  forall n, axis_in_area 100 200 (10000 + travel default_config MX (items default_config (GCircular g) n)).
Proof.
  destruct (ex_made 0 CW) as [g Hg]. exists g. split; [exact Hg|]. intros n. assert (E := ex_r).
  assert (G: arc_on_grid default_config PlaneXY (ex_delta 0) ex_radius 100 (-400) (-400) 400 400 0 0) by (apply ex_half; lra).
  apply (C10_inside_exact_partial _ _ _ _ _ _ g _ _ _ _ _ _ _ (m_position ex_machine) 10000 10000 0 n default_sane Hg G).
  - cbn. lra.
  - cbn. lra.
  - change (0 <= 100 + 4 - sqrt (4 * 4 + 4 * 4) /\ 100 + 4 + sqrt (4 * 4 + 4 * 4) <= 200 /\ 0 <= 100 + 4 - sqrt (4 * 4 + 4 * 4) /\ 100 + 4 + sqrt (4 * 4 + 4 * 4) <= 200). lra.
  - split; discriminate.
  - split; discriminate.
Qed.
