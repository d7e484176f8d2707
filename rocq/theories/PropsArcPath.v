(** Theorems about the path of arcs, in exact arithmetic (C73). Every theorem is
    followed by its assumptions and by an Example of its hypotheses. *)
From Coq Require Import ZArith Bool Reals Lra Lia List.
From Flocq Require Import Core.
From Verif Require Import PyBase PyNum Config Coordinates Pulses PulseSpec GMachine LinearReal ArcSpec ArcAdjust ArcTotal ArcQuarters ArcExact ArcNet ArcPath PropsArcExact PropsArcNet.
From Coq Require Import List.
From Flocq Require Import Core.
Import ListNotations.
Local Open Scope R_scope.

(* ---------- C73 ---------- *)
(** C73 in exact arithmetic: an arc from (sa, sb) to (ea, eb), seen from its centre,
    turns from the direction of its start by d > 0, at most one whole turn, in the
    direction asked for, to the direction of its end. Every pulse belongs to a part
    phi of this turn, later pulses to larger parts. After the pulse each axis of the
    plane is within 3/2 steps of the point of the circle there, and the third axis and
    the extruder have made the same part of their movement up to one step. Missing:
    binary64, planes whose axes have different steps per mm, and the arcs that go back
    in the quarter where they start (C35_whole_turn_exact). *)
Theorem C73_exact_partial (cfg : config) (delta radius : quad RN) (pl : plane) (rot : rotation) (v : RN) (g : circular_gen RN) p sa sb ea eb jc je l :
  sane_cfg cfg -> (0 : R) < v -> make_circular cfg delta radius pl rot v = Ok g -> arc_on_grid cfg pl delta radius p sa sb ea eb jc je ->
  forward_arc sa sb ea eb -> completes cfg (GCircular g) l ->
  exists (t d : R) (part : nat -> R), in_direction t sa sb /\ in_direction (arc_angle rot t d) ea eb /\ 0 < d <= 2 * PI /\
  (forall l1 q l2, l = l1 ++ Pulse q :: l2 -> let l' := l1 ++ [Pulse q] in let phi := part (length l1) in
     0 <= phi <= d /\
     Rabs (IZR (sa + travel cfg (motor_a pl) l') - IZR (len_steps sa sb) * sin (arc_angle rot t phi)) <= 3 / 2 /\
     Rabs (IZR (sb + travel cfg (motor_b pl) l') - IZR (len_steps sa sb) * cos (arc_angle rot t phi)) <= 3 / 2 /\
     Rabs (IZR (travel cfg (motor_c pl) l') - IZR jc * (phi / d)) <= 1 /\
     Rabs (IZR (travel cfg ME l') - IZR je * (phi / d)) <= 1) /\
  (forall l1 q l2 l1' q' l2', l = l1 ++ Pulse q :: l2 -> l = l1' ++ Pulse q' :: l2' -> (length l1 < length l1')%nat -> part (length l1) < part (length l1')).
Proof. exact (fun Hc Hv Hg G F => follow_circle cfg delta radius pl rot v g Hc Hv Hg p sa sb ea eb jc je G F l). Qed.
Print Assumptions C73_exact_partial.
(** The half circle from (-4, -4) to (4, 4) around (0, 0), both directions: 566 steps
    from the centre. *)
Example C73_exact_ex rot : exists g l, make_circular (N:=RN) default_config (ex_delta 50) ex_radius PlaneXY rot (600 : R) = Ok g /\
  completes default_config (GCircular g) l /\ forward_arc (-400) (-400) 400 400 /\ len_steps (-400) (-400) = 566%Z /\ l <> [] /\
  exists t d (part : nat -> R), in_direction t (-400) (-400) /\ in_direction (arc_angle rot t d) 400 400 /\ 0 < d <= 2 * PI /\
    forall l1 q l2, l = l1 ++ Pulse q :: l2 -> Rabs (IZR (-400 + travel default_config MX (l1 ++ [Pulse q])) - 566 * sin (arc_angle rot t (part (length l1)))) <= 3 / 2.
Proof.
  destruct (ex_made 50 rot) as [g Hg]. exists g. assert (G: arc_on_grid default_config PlaneXY (ex_delta 50) ex_radius 100 (-400) (-400) 400 400 20000 0) by (apply ex_half; lra).
  assert (V: 0 < 600) by lra.
  destruct (C38_exact_partial _ _ _ _ _ (600 : R) g _ _ _ _ _ _ _ default_sane V Hg G) as [l Hl]. exists l.
  assert (F: forward_arc (-400) (-400) 400 400) by (right; split; [reflexivity|]; intros [F _]; discriminate F).
  assert (L: len_steps (-400) (-400) = 566%Z).
  { unfold len_steps. apply Znearest_imp. change (-400 * -400 + -400 * -400)%Z with 320000%Z. assert (S := sqrt_sqrt 320000 ltac:(lra)). assert (S0 := sqrt_pos 320000). apply Rabs_def1; nra. }
  split; [exact Hg|]. split; [exact Hl|]. split; [exact F|]. split; [exact L|]. split.
  - intros E. destruct (C35_exact_partial _ _ _ _ _ _ g _ _ _ _ _ _ _ l default_sane Hg G (or_intror F) Hl) as (T & _). rewrite E in T. discriminate T.
  - destruct (C73_exact_partial _ _ _ _ _ _ g _ _ _ _ _ _ _ l default_sane V Hg G F Hl) as (t & d & part & E1 & E2 & E3 & E4 & _).
    exists t, d, part. split; [exact E1|]. split; [exact E2|]. split; [exact E3|]. intros l1 q l2 E. destruct (E4 l1 q l2 E) as (_ & E5 & _). rewrite L in E5. exact E5.
Qed.
