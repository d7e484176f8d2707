(** Theorems about arcs in exact arithmetic: velocity (C23) and end point (C37).
    Every theorem is followed by its assumptions and by an Example of its
    hypotheses. *)
From Coq Require Import String ZArith Bool Reals Lra Lia List.
From Flocq Require Import Core.
From Verif Require Import PyBase PyNum Config Coordinates Pulses PulseSpec GMachine GMachineProofs LinearReal ArcSpec ArcMake ArcReal ArcAdjust ArcTotal.
From Coq Require Import List.
From Flocq Require Import Core.
Import ListNotations.
Local Open Scope R_scope.

(* ---------- for the Examples ---------- *)
(** Half a circle around (4, 4), from (0, 0) to (8, 8); with a rise of z. *)
Definition ex_delta (z : R) : quad RN := Quad (8 : R) (8 : R) z (0 : R).
Definition ex_radius : quad RN := Quad (4 : R) (4 : R) (0 : R) (0 : R).
Lemma ex_r : 5 < sqrt (4 * 4 + 4 * 4) < 6.
Proof.
  assert (S := sqrt_sqrt (4 * 4 + 4 * 4) ltac:(lra)). assert (P := sqrt_pos (4 * 4 + 4 * 4)). split; nra.
Qed.
Lemma ex_made z rot : exists g, make_circular (N:=RN) default_config (ex_delta z) ex_radius PlaneXY rot (600 : R) = Ok g.
Proof.
  apply arc_made; [exact default_sane|change (0 < 600); lra| |].
  - change (0 < ZnearestE (sqrt (- (4) * - (4) + - (4) * - (4)) * IZR 100))%Z. replace (- (4) * - (4) + - (4) * - (4)) with (4 * 4 + 4 * 4) by ring.
    apply Z.lt_le_trans with 1%Z; [reflexivity|]. rewrite <- (Zrnd_IZR ZnearestE 1). apply Zrnd_le; [apply valid_rnd_N|]. assert (E := ex_r). lra.
  - change (ZnearestE (sqrt ((- (4) + 8) * (- (4) + 8) + (- (4) + 8) * (- (4) + 8)) * IZR 100) = ZnearestE (sqrt (- (4) * - (4) + - (4) * - (4)) * IZR 100)).
    do 3 f_equal. ring.
Qed.

(* ---------- C23 ---------- *)
(** C23 for arcs that stay in their plane: the velocities chosen by the automatic
    adjustment pass the velocity check. C23 is false for the others (C23_refuted);
    C23_long_exact_partial is about some of them. Exact arithmetic. *)
Theorem C23_planar_exact_partial (cfg : config) (delta radius : quad RN) (pl : plane) (rot : rotation) (v : RN) (g : circular_gen RN) :
  sane_cfg cfg -> auto_velocity cfg = true -> (0 : R) < v -> make_circular cfg delta radius pl rot v = Ok g ->
  axis_c pl delta = (0 : R) -> qe delta = (0 : R) -> too_fast cfg (gen_max_velocity (GCircular g)) = false.
Proof.
  intros Hc Ha Hv Hg. exact (planar_acceptable cfg Hc Ha delta radius pl rot v g (make_circular_made cfg delta radius pl rot v g Hg) Hv).
Qed.
Print Assumptions C23_planar_exact_partial.
Example C23_planar_exact_ex : exists g, make_circular (N:=RN) default_config (ex_delta 0) ex_radius PlaneXY CW (600 : R) = Ok g /\
  too_fast default_config (gen_max_velocity (GCircular g)) = false.
Proof.
  destruct (ex_made 0 CW) as [g Hg]. exists g. split; [exact Hg|].
  refine (C23_planar_exact_partial _ _ _ _ _ _ g default_sane eq_refl _ Hg eq_refl eq_refl). change (0 < 600). lra.
Qed.
(** C23 for arcs long enough to reach their velocity, moving any axes. *)
Theorem C23_long_exact_partial (cfg : config) (delta radius : quad RN) (pl : plane) (rot : rotation) (v : RN) (g : circular_gen RN) :
  sane_cfg cfg -> auto_velocity cfg = true -> (0 : R) < v -> make_circular cfg delta radius pl rot v = Ok g ->
  c_lin g <> (0 : R) -> too_fast cfg (gen_max_velocity (GCircular g)) = false.
Proof.
  intros Hc Ha Hv Hg. exact (long_acceptable cfg Hc Ha delta radius pl rot v g (make_circular_made cfg delta radius pl rot v g Hg) Hv).
Qed.
Print Assumptions C23_long_exact_partial.
(** Enough for that: the third axis moves further than it takes to stop. *)
Theorem C23_rise_exact_partial (cfg : config) (delta radius : quad RN) (pl : plane) (rot : rotation) (v : RN) (g : circular_gen RN) :
  sane_cfg cfg -> auto_velocity cfg = true -> (0 : R) < v -> make_circular cfg delta radius pl rot v = Ok g ->
  (v / 60) * (v / 60) < IZR (max_acceleration cfg) * Rabs (axis_c pl delta) -> too_fast cfg (gen_max_velocity (GCircular g)) = false.
Proof.
  intros Hc Ha Hv Hg L. exact (C23_long_exact_partial cfg delta radius pl rot v g Hc Ha Hv Hg (rise_is_long cfg Hc Ha delta radius pl rot v g (make_circular_made cfg delta radius pl rot v g Hg) Hv L)).
Qed.
Print Assumptions C23_rise_exact_partial.
Example C23_rise_exact_ex : exists g, make_circular (N:=RN) default_config (ex_delta 50) ex_radius PlaneXY CCW (600 : R) = Ok g /\
  c_lin g <> (0 : R) /\ too_fast default_config (gen_max_velocity (GCircular g)) = false.
Proof.
  destruct (ex_made 50 CCW) as [g Hg]. exists g. split; [exact Hg|]. assert (V: (0 : R) < (600 : RN)) by (change (0 < 600); lra).
  assert (L: ((600 : RN) : R) / 60 * (600 / 60) < IZR (max_acceleration default_config) * Rabs (axis_c PlaneXY (ex_delta 50))).
  { change (600 / 60 * (600 / 60) < 3000 * Rabs 50). rewrite Rabs_pos_eq by lra. lra. }
  split.
  - exact (rise_is_long default_config default_sane eq_refl _ _ _ _ _ g (make_circular_made _ _ _ _ _ _ g Hg) V L).
  - exact (C23_rise_exact_partial _ _ _ _ _ _ g default_sane eq_refl V Hg L).
Qed.

(* ---------- C37 ---------- *)
(** C37 in exact arithmetic: an arc whose commanded end is on the circle and is, seen
    from the centre, on an axis or on a diagonal, or that is a full circle, is
    executed as commanded, with no straight move after it, and the machine is then
    where the command said. C37 is false for other ends (C37_refuted,
    C37_exact_only). *)
Theorem C37_exact_partial (cfg : config) hw (delta radius : quad RN) (v : RN) (rot : rotation) (m : machine RN) l m' l' :
  (forall k, 0 < qat k (ppm cfg))%Z -> move_circular cfg hw delta radius v rot m l = (m', l', Ok tt) ->
  let d := snap cfg delta in let rr := snap cfg radius in
  let ra := axis_a (m_plane m) rr in let rb := axis_b (m_plane m) rr in
  let x := axis_a (m_plane m) d - ra in let y := axis_b (m_plane m) d - rb in
  x * x + y * y = ra * ra + rb * rb ->
  (axis_a (m_plane m) d = 0 /\ axis_b (m_plane m) d = 0) \/ x = 0 \/ y = 0 \/ Rabs x = Rabs y ->
  exists g, l' = (l ++ [EMove (GCircular g)])%list /\ c_delta g = d /\ m_position m' = cadd (N:=RN) (m_position m) d.
Proof. exact (fun Hp H => executed_as_commanded cfg Hp hw delta radius v rot m l m' l' H). Qed.
Print Assumptions C37_exact_partial.
(** Such an arc is accepted if it stays in its plane, its circle is inside the
    working area and is not smaller than one step. *)
Theorem C37_accepted_exact_partial (cfg : config) (hw : hw_oracle RN) (delta radius : quad RN) (v : RN) (rot : rotation) (m : machine RN) l :
  sane_cfg cfg -> auto_velocity cfg = true -> (forall l ev, exists b, hw l ev = HReturn b) -> (0 : R) < v ->
  let pl := m_plane m in let d := snap cfg delta in let rr := snap cfg radius in
  let ra := axis_a pl rr in let rb := axis_b pl rr in let r := sqrt (ra * ra + rb * rb) in
  let x := axis_a pl d - ra in let y := axis_b pl d - rb in
  1 <= r * IZR (Z.min (axis_a pl (ppm cfg)) (axis_b pl (ppm cfg))) ->
  x * x + y * y = ra * ra + rb * rb ->
  (axis_a pl d = 0 /\ axis_b pl d = 0) \/ x = 0 \/ y = 0 \/ Rabs x = Rabs y ->
  circle_in_area cfg pl (axis_a pl (m_position m) + ra) (axis_b pl (m_position m) + rb) r ->
  in_area cfg (cadd (N:=RN) (m_position m) d) -> axis_c pl d = 0 -> qe d = 0 ->
  exists g, move_circular cfg hw delta radius v rot m l =
      (set_position m (cadd (N:=RN) (m_position m) d), (l ++ [EMove (GCircular g)])%list, Ok tt) /\ c_delta g = d.
Proof.
  intros Hc Ha Hhw Hv pl d rr ra rb r x y Hr On Sp Hci Hen H3 H4.
  destruct (accepted cfg Hc Ha hw Hhw delta radius v rot m Hv Hr On Sp Hci Hen H3 H4 l) as (g & H & D & _). exists g. split; assumption.
Qed.
Print Assumptions C37_accepted_exact_partial.

Definition ex_machine : machine RN := set_position (N:=RN) (init_machine default_config) (Quad (100 : R) (100 : R) (0 : R) (0 : R)).
Definition ex_hw : hw_oracle RN := fun _ _ => HReturn true.
Lemma ex_snap q : on_grid default_config q -> snap default_config q = q.
Proof. exact (snap_id default_config (sane_ppm _ default_sane) q). Qed.
Example C37_exact_ex : exists g m' l', move_circular (N:=RN) default_config ex_hw (ex_delta 0) ex_radius (600 : R) CW ex_machine [] = (m', l', Ok tt) /\
  l' = [EMove (GCircular g)] /\ c_delta g = ex_delta 0.
Proof.
  assert (S1: snap default_config (ex_delta 0) = ex_delta 0).
  { apply ex_snap. intros []; [exists 800%Z|exists 800%Z|exists 0%Z|exists 0%Z]; cbn; lra. }
  assert (S2: snap default_config ex_radius = ex_radius).
  { apply ex_snap. intros []; [exists 400%Z|exists 400%Z|exists 0%Z|exists 0%Z]; cbn; lra. }
  assert (E := ex_r).
  destruct (C37_accepted_exact_partial default_config ex_hw (ex_delta 0) ex_radius (600 : R) CW ex_machine []) as (g & H & D).
  - exact default_sane.
  - reflexivity.
  - intros ? ?. exists true. reflexivity.
  - change (0 < 600). lra.
  - cbv zeta. rewrite S2. change (1 <= sqrt (4 * 4 + 4 * 4) * IZR 100). lra.
  - cbv zeta. rewrite S1, S2. change ((8 - 4) * (8 - 4) + (8 - 4) * (8 - 4) = 4 * 4 + 4 * 4). lra.
  - rewrite S1, S2. right. right. right. reflexivity.
  - rewrite S2. change (0 <= 100 + 4 - sqrt (4 * 4 + 4 * 4) /\ 100 + 4 + sqrt (4 * 4 + 4 * 4) <= 200 /\ 0 <= 100 + 4 - sqrt (4 * 4 + 4 * 4) /\ 100 + 4 + sqrt (4 * 4 + 4 * 4) <= 200). lra.
  - rewrite S1. change ((0 <= 100 + 8 <= 200) /\ (0 <= 100 + 8 <= 200) /\ (0 <= 0 + 0 <= 220)). lra.
  - rewrite S1. reflexivity.
  - rewrite S1. reflexivity.
  - rewrite S1 in D. exists g, (set_position ex_machine (cadd (N:=RN) (m_position ex_machine) (snap default_config (ex_delta 0)))), [EMove (GCircular g)].
    split; [exact H|]. split; [reflexivity|exact D].
Qed.
(** For no other end on the circle is the end point computed by the machine the
    commanded one, even in exact arithmetic. *)
Theorem C37_exact_only (r da db ra rb : R) : (da - ra) * (da - ra) + (db - rb) * (db - rb) = r * r ->
  exists ea eb q, circle_end_point (N:=RN) r da db ra rb = Ok (ea, eb, q) /\
    ((ea = da /\ eb = db) <-> (da = 0 /\ db = 0) \/ da - ra = 0 \/ db - rb = 0 \/ Rabs (da - ra) = Rabs (db - rb)).
Proof. exact (end_point r da db ra rb). Qed.
Print Assumptions C37_exact_only.
Example C37_exact_only_ex : exists ea eb q, circle_end_point (N:=RN) 5 7 7 3 4 = Ok (ea, eb, q) /\ ~ (ea = 7 /\ eb = 7).
Proof.
  destruct (C37_exact_only 5 7 7 3 4) as (ea & eb & q & E & K); [lra|]. exists ea, eb, q. split; [exact E|]. intros H. apply K in H.
  destruct H as [H|[H|[H|H]]]; try lra. rewrite !Rabs_pos_eq in H by lra. lra.
Qed.
