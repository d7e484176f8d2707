(** Arcs on the grid of the motors in exact arithmetic: generation, net travel and
    the working area. *)
From Coq Require Import ZArith Bool Reals Lra Lia List Psatz.
From Flocq Require Import Core.
From Verif Require Import PyBase PyNum Config Coordinates Pulses PulseSpec GMachine GMachineProofs LinearGen LinearReal ArcSpec ArcRun ArcMake ArcTravel ArcReal ArcAdjust ArcTotal ArcQuarters ArcExact.
From Coq Require Import List.
From Flocq Require Import Core.
Import ListNotations.
Local Open Scope R_scope.

(** An arc on the grid of the motors, in a plane whose two axes have [p] steps per
    mm: seen from the centre it goes from (sa, sb) to (ea, eb) steps, while the third
    axis makes jc steps and the extruder je. *)
Record arc_on_grid (cfg : config) (pl : plane) (delta radius : quad R) (p sa sb ea eb jc je : Z) : Prop := {
  ag_a : axis_a pl (ppm cfg) = p;
  ag_b : axis_b pl (ppm cfg) = p;
  ag_sa : axis_a pl radius = - (IZR sa / IZR p);
  ag_sb : axis_b pl radius = - (IZR sb / IZR p);
  ag_ea : axis_a pl delta = IZR (ea - sa) / IZR p;
  ag_eb : axis_b pl delta = IZR (eb - sb) / IZR p;
  ag_c : axis_c pl delta = IZR jc / IZR (axis_c pl (ppm cfg));
  ag_e : qe delta = IZR je / IZR (qe (ppm cfg));
  ag_start : (sa <> 0 \/ sb <> 0)%Z
}.
(** Both ends in one quarter, and the end is not after the start in the order of the
    clock. *)
Definition back_in_quarter (sa sb ea eb : Z) : Prop := (quadrant ea eb = quadrant sa sb /\ ea * sb - eb * sa <= 0)%Z.
(** The circles, and the arcs whose ends are on one circle and that do not go back in
    their quarter. *)
Definition forward_arc (sa sb ea eb : Z) : Prop :=
  ((ea = sa /\ eb = sb) \/ (ea * ea + eb * eb = sa * sa + sb * sb /\ ~ back_in_quarter sa sb ea eb))%Z.
(** The arcs between different quarters, and these. *)
Definition onward_arc (sa sb ea eb : Z) : Prop := quadrant ea eb <> quadrant sa sb \/ forward_arc sa sb ea eb.

Section Net.
Variables (cfg : config) (delta radius : quad RN) (pl : plane) (rot : rotation) (v : RN) (g : circular_gen RN).
Hypothesis Hc : sane_cfg cfg.
Hypothesis Hg : make_circular (N:=RN) cfg delta radius pl rot v = Ok g.
Variables p sa sb ea eb jc je : Z.
Hypothesis G : arc_on_grid cfg pl delta radius p sa sb ea eb jc je.
Let M := make_circular_made (N:=RN) cfg delta radius pl rot v g Hg.

Lemma net_p : (0 < p)%Z.
Proof. rewrite <- (ag_a _ _ _ _ _ _ _ _ _ _ _ G). destruct pl; apply (sane_ppm cfg Hc MX) || apply (sane_ppm cfg Hc MY) || apply (sane_ppm cfg Hc MZ). Qed.
Lemma net_end : (ea <> 0 \/ eb <> 0)%Z.
Proof.
  destruct G. assert (E := rme_eq cfg delta radius pl rot v g M p net_p ag_a0 ag_b0 sa sb ea eb ag_sa0 ag_sb0 ag_ea0 ag_eb0).
  assert (L := len_ge sa sb). destruct (Z.eq_dec ea 0) as [Ha|Ha]; [|left; exact Ha]. destruct (Z.eq_dec eb 0) as [Hb|Hb]; [|right; exact Hb].
  exfalso. rewrite Ha, Hb in E. rewrite (proj1 (len_axis 0)) in E. lia.
Qed.
Lemma net_completes : (0 : R) < v -> exists l, completes cfg (GCircular g) l.
Proof.
  intros Hv. destruct G. exact (exact_completes cfg delta radius pl rot v g M p net_p ag_a0 ag_b0 sa sb ea eb ag_sa0 ag_sb0 ag_ea0 ag_eb0 ag_start0 net_end Hc Hv jc je ag_c0 ag_e0).
Qed.
Lemma net_onward l : onward_arc sa sb ea eb -> completes cfg (GCircular g) l ->
  travel cfg (motor_a pl) l = (ea - sa)%Z /\ travel cfg (motor_b pl) l = (eb - sb)%Z /\ travel cfg (motor_c pl) l = jc /\ travel cfg ME l = je.
Proof.
  intros F. destruct G. apply (exact_travel cfg delta radius pl rot v g M p net_p ag_a0 ag_b0 sa sb ea eb ag_sa0 ag_sb0 ag_ea0 ag_eb0 ag_start0 net_end Hc jc je ag_c0 ag_e0).
  destruct (Z.eq_dec (quadrant ea eb) (quadrant sa sb)) as [Q|Q]; [|left; exact Q]. destruct F as [F|[F|[F1 F2]]]; [contradiction|right; left; exact F|].
  right. right. split; [exact Q|]. split; [exact F1|]. unfold back_in_quarter in F2. lia.
Qed.
Lemma net_travel l : forward_arc sa sb ea eb -> completes cfg (GCircular g) l ->
  travel cfg (motor_a pl) l = (ea - sa)%Z /\ travel cfg (motor_b pl) l = (eb - sb)%Z /\ travel cfg (motor_c pl) l = jc /\ travel cfg ME l = je.
Proof. intros F. apply net_onward. right. exact F. Qed.
Lemma net_back l : back_in_quarter sa sb ea eb -> completes cfg (GCircular g) l -> travel cfg (motor_a pl) l = 0%Z /\ travel cfg (motor_b pl) l = 0%Z.
Proof.
  intros [F1 F2]. destruct G. exact (exact_wrong cfg delta radius pl rot v g M p net_p ag_a0 ag_b0 sa sb ea eb ag_sa0 ag_sb0 ag_ea0 ag_eb0 ag_start0 net_end l F1 F2).
Qed.

(** At every moment the axes of the plane are not further from the centre than the
    radius, rounded to steps; the third axis is between its ends. *)
Lemma net_within n : let l := items cfg (GCircular g) n in
  (Z.abs (sa + travel cfg (motor_a pl) l) <= len_steps sa sb /\ Z.abs (sb + travel cfg (motor_b pl) l) <= len_steps sa sb /\
   Z.min 0 jc <= travel cfg (motor_c pl) l <= Z.max 0 jc)%Z.
Proof.
  intros l. destruct G.
  assert (O := exact_on_circle cfg delta radius pl rot v g M p net_p ag_a0 ag_b0 sa sb ea eb ag_sa0 ag_sb0 ag_ea0 ag_eb0 ag_start0 net_end).
  assert (W := arc_within cfg g n O). fold l in W. cbv zeta in W.
  destruct (start_pulses cfg delta radius pl rot v g M p net_p ag_a0 ag_b0 sa sb ag_sa0 ag_sb0) as [S1 S2].
  destruct (radius_pulses cfg delta radius pl rot v g M p net_p ag_a0 ag_b0 sa sb ag_sa0 ag_sb0) as (R1 & R2 & _).
  assert (KP := k_plane _ _ _ _ _ _ _ M). rewrite KP, S1, S2, R1, R2 in W. destruct W as [W1 W2]. split; [exact W1|]. split; [exact W2|].
  destruct O as [O _]. destruct (arc_third cfg g O n) as [[T C] _]. fold l in T, C. rewrite KP in T, C. rewrite (k_it3 _ _ _ _ _ _ _ M) in C. rewrite (k_dir3 _ _ _ _ _ _ _ M) in T.
  assert (P: 0 < IZR (axis_c pl (ppm cfg))) by (apply (IZR_lt 0); destruct pl; [apply (sane_ppm cfg Hc MZ)|apply (sane_ppm cfg Hc MX)|apply (sane_ppm cfg Hc MY)]). assert (D := third_dir 0 0 _ jc _ P ag_c0). assert (Dc: copysign1 (p:=RN) (axis_c pl delta) = 1%Z \/ copysign1 (p:=RN) (axis_c pl delta) = (-1)%Z) by (cbn; destruct (Rlt_dec _ _); auto).
  assert (Q := steps_nonneg (motor_c pl) l).
  assert (B: (steps (motor_c pl) l <= Z.abs jc)%Z).
  { destruct (Z_le_gt_dec (steps (motor_c pl) l) (Z.abs jc)) as [L|L]; [exact L|]. exfalso. specialize (C (steps (motor_c pl) l - 1)%Z ltac:(lia) ltac:(lia)).
    change (Rleb (Rabs (axis_c pl delta) * IZR (axis_c pl (ppm cfg))) (IZR (steps (motor_c pl) l - 1)) = false) in C. unfold Rleb in C.
    destruct (Rle_dec _ _) as [|C']; [discriminate|]. apply C'. change (@axis_c (num RN)) with (@axis_c R). rewrite ag_c0. unfold Rdiv. rewrite Rabs_mult, (Rabs_pos_eq (/ _)) by (left; now apply Rinv_0_lt_compat).
    rewrite <- abs_IZR. replace (IZR (Z.abs jc) * _ * _) with (IZR (Z.abs jc)) by (field; lra). apply IZR_le. lia. }
  rewrite T. change (@axis_c (num RN)) with (@axis_c R) in *. destruct Dc as [Dc|Dc]; rewrite Dc in D |- *; lia.
Qed.
End Net.

(* ---------- the working area ---------- *)
(** An axis at [q] steps, [p] steps per mm, on a table of [t] mm. *)
Definition axis_in_area (p t q : Z) : Prop := (0 <= q <= t * p)%Z.
Lemma near_area (p t c r : Z) (x : R) : r = ZnearestE x -> 0 <= IZR c - x -> IZR c + x <= IZR (t * p) -> (0 <= c - r /\ c + r <= t * p)%Z.
Proof.
  intros -> L U. assert (H := Znearest_half (fun z => negb (Z.even z)) x). apply Rabs_le_inv in H. set (q := ZnearestE x) in *. change (Znearest (fun z => negb (Z.even z)) x) with q in H.
  split.
  - assert (A: IZR (q - c) < 1) by (rewrite minus_IZR; lra). apply (lt_IZR _ 1) in A. lia.
  - assert (A: IZR (c + q) < IZR (t * p + 1)) by (rewrite !plus_IZR; lra). apply lt_IZR in A. lia.
Qed.
(** An accepted full circle is inside the working area. *)
Lemma circle_checked rot (r ra rb pa pb ma mb : R) (q : Z) : (1 <= q <= 4)%Z ->
  quarters_ok (N:=RN) 4 rot q 5 r ra rb pa pb ma mb = true -> 0 <= pa + ra - r /\ pa + ra + r <= ma /\ 0 <= pb + rb - r /\ pb + rb + r <= mb.
Proof.
  intros Hq. assert (K: (q = 1 \/ q = 2 \/ q = 3 \/ q = 4)%Z) by lia. clear Hq.
  assert (L: forall x y, (if Rltb x y then false else true) = true -> y <= x) by (intros x y; destruct (Rltb x y) eqn:E; [discriminate|now apply Rltb_false in E]).
  cbn [quarters_ok]. change (ltb (p:=RN)) with Rltb. unfold crossing_out, next_quarter. change (ltb (p:=RN)) with Rltb. change (add (p:=RN)) with Rplus. change (sub (p:=RN)) with Rminus. change (@zero RN) with 0.
  destruct K as [->|[->|[->| ->]]]; destruct rot; cbn [Z.sub Z.add Z.opp Z.leb Z.compare Z.eqb Pos.eqb Pos.compare Pos.compare_cont Z.pos_sub Pos.pred_double Pos.add Pos.succ andb orb];
  repeat match goal with |- (if ?b then false else _) = true -> _ => let E := fresh in destruct b eqn:E; [discriminate|apply Rltb_false in E] end; intros _; lra.
Qed.
Lemma quarter_range (a b : R) : (1 <= quarter (N:=RN) a b <= 4)%Z.
Proof.
  unfold quarter. change (leb (p:=RN)) with Rleb. change (ltb (p:=RN)) with Rltb. change (@zero RN) with 0. unfold Rleb, Rltb.
  destruct (Rle_dec 0 a), (Rle_dec 0 b), (Rlt_dec a 0), (Rlt_dec b 0); cbn [andb]; try lia; lra.
Qed.

Section Area.
Variables (cfg : config) (delta radius : quad RN) (pl : plane) (rot : rotation) (v : RN) (g : circular_gen RN).
Hypothesis Hc : sane_cfg cfg.
Hypothesis Hg : make_circular (N:=RN) cfg delta radius pl rot v = Ok g.
Variables p sa sb ea eb jc je : Z.
Hypothesis G : arc_on_grid cfg pl delta radius p sa sb ea eb jc je.
(** Where the movement starts, in steps. *)
Variables (pos : quad R) (qa qb qc : Z).
Hypothesis Pa : axis_a pl pos = IZR qa / IZR p.
Hypothesis Pb : axis_b pl pos = IZR qb / IZR p.
Let T := table_quad cfg.
Let r := sqrt (axis_a pl (radius : quad R) * axis_a pl (radius : quad R) + axis_b pl (radius : quad R) * axis_b pl (radius : quad R)).
Hypothesis Hcirc : circle_in_area cfg pl (axis_a pl pos + axis_a pl (radius : quad R)) (axis_b pl pos + axis_b pl (radius : quad R)) r.
Hypothesis Qc : axis_in_area (axis_c pl (ppm cfg)) (axis_c pl T) qc /\ axis_in_area (axis_c pl (ppm cfg)) (axis_c pl T) (qc + jc).

Lemma area_moments n : let l := items cfg (GCircular g) n in
  axis_in_area p (axis_a pl T) (qa + travel cfg (motor_a pl) l) /\
  axis_in_area p (axis_b pl T) (qb + travel cfg (motor_b pl) l) /\
  axis_in_area (axis_c pl (ppm cfg)) (axis_c pl T) (qc + travel cfg (motor_c pl) l).
Proof.
  intros l. destruct (net_within cfg delta radius pl rot v g Hc Hg p sa sb ea eb jc je G n) as (W1 & W2 & W3). fold l in W1, W2, W3.
  assert (Pp := net_p cfg delta radius pl rot v g Hc Hg p sa sb ea eb jc je G). assert (P: 0 < IZR p) by now apply (IZR_lt 0). destruct G. destruct Hcirc as (C1 & C2 & C3 & C4). fold T in C2, C4.
  assert (Er: r * IZR p = sqrt (IZR (sa * sa + sb * sb))).
  { rewrite <- (len_grid p Pp). f_equal. unfold r. f_equal. change (@axis_a (num RN)) with (@axis_a R) in *. change (@axis_b (num RN)) with (@axis_b R) in *. rewrite ag_sa0, ag_sb0. ring. }
  assert (Xa: (axis_a pl pos + axis_a pl (radius : quad R)) * IZR p = IZR (qa - sa)) by (change (@axis_a (num RN)) with (@axis_a R) in *; rewrite Pa, ag_sa0, minus_IZR; field; lra).
  assert (Xb: (axis_b pl pos + axis_b pl (radius : quad R)) * IZR p = IZR (qb - sb)) by (change (@axis_b (num RN)) with (@axis_b R) in *; rewrite Pb, ag_sb0, minus_IZR; field; lra).
  destruct (near_area p (axis_a pl T) (qa - sa) (len_steps sa sb) (sqrt (IZR (sa * sa + sb * sb))) eq_refl) as [A1 A2]; [rewrite <- Er, <- Xa; nra|rewrite <- Er, <- Xa, mult_IZR; nra|].
  destruct (near_area p (axis_b pl T) (qb - sb) (len_steps sa sb) (sqrt (IZR (sa * sa + sb * sb))) eq_refl) as [B1 B2]; [rewrite <- Er, <- Xb; nra|rewrite <- Er, <- Xb, mult_IZR; nra|].
  unfold axis_in_area in *. lia.
Qed.
End Area.

(** A full circle accepted by the command. *)
Lemma circle_accepted cfg (Hc : sane_cfg cfg) hw (delta radius : quad RN) (v : RN) rot (m : machine RN) l m' l' :
  move_circular (N:=RN) cfg hw delta radius v rot m l = (m', l', Ok tt) ->
  let pl := m_plane m in let d := snap cfg delta in let rr := snap cfg radius in
  axis_a pl d = 0 -> axis_b pl d = 0 ->
  exists g, l' = l ++ [EMove (GCircular g)] /\ make_circular (N:=RN) cfg d rr pl rot v = Ok g /\
    circle_in_area cfg pl (axis_a pl (m_position m : quad R) + axis_a pl rr) (axis_b pl (m_position m : quad R) + axis_b pl rr)
      (sqrt (axis_a pl rr * axis_a pl rr + axis_b pl rr * axis_b pl rr)) /\
    in_box (N:=RN) cfg (cadd (N:=RN) (m_position m) d) = true /\ (axis_a pl rr <> 0 \/ axis_b pl rr <> 0).
Proof.
  assert (Hp := sane_ppm cfg Hc). intros H pl d rr Za Zb.
  apply move_circular_inv in H. inversion H; subst; clear H.
  match goal with K : circular_ok _ _ _ _ _ _ _ _ _ _ |- _ => destruct K as [d' rr' ea eb Hd Hrr Hbox Had Hce Hg Hf Hld Hlg] end.
  rewrite (round_to_grid_R cfg Hp) in Hd, Hrr. injection Hd as Hd. injection Hrr as Hrr. fold d in Hd. fold rr in Hrr. subst d' rr'. fold pl in Had, Hce, Hg.
  assert (E: ea = (0 : R) /\ eb = (0 : R) /\ circle_in_area cfg pl (axis_a pl (m_position m : quad R) + axis_a pl rr) (axis_b pl (m_position m : quad R) + axis_b pl rr)
      (sqrt (axis_a pl rr * axis_a pl rr + axis_b pl rr * axis_b pl rr)) /\ (axis_a pl rr <> 0 \/ axis_b pl rr <> 0)).
  { unfold adjust_circle in Had. apply rbind_ok in Had. destruct Had as (r & Er & Had). apply ofsqrt in Er. destruct Er as [R0 Er].
    change (eqb (p:=RN)) with Reqb in Had. change (@zero RN) with 0 in Had. destruct (Reqb r 0) eqn:RZ; [discriminate|].
    unfold circle_end_point in Had. change (eqb (p:=RN)) with Reqb in Had. change (@zero RN) with 0 in Had.
    assert (F: Reqb (axis_a pl d) 0 && Reqb (axis_b pl d) 0 = true) by (rewrite Za, Zb, (proj2 (Reqb_true 0 0) eq_refl); reflexivity).
    change (@axis_a (num RN)) with (@axis_a R) in Had. change (@axis_b (num RN)) with (@axis_b R) in Had. rewrite F in Had. cbn [rbind] in Had.
    match type of Had with (if ?b then _ else _) = _ => destruct b eqn:Q end; [|discriminate]. injection Had as <- <-.
    apply circle_checked in Q; [|apply quarter_range]. split; [exact Za|]. split; [exact Zb|]. change (r = sqrt (axis_a pl rr * axis_a pl rr + axis_b pl rr * axis_b pl rr)) in Er. split; [unfold circle_in_area; rewrite <- Er; exact Q|].
    destruct (Req_dec (axis_a pl rr) 0) as [Xa|Xa]; [|left; exact Xa]. destruct (Req_dec (axis_b pl rr) 0) as [Xb|Xb]; [|right; exact Xb].
    exfalso. rewrite Xa, Xb in Er. replace (0 * 0 + 0 * 0) with 0 in Er by ring. rewrite sqrt_0 in Er. apply (proj2 (Reqb_true r 0)) in Er. congruence. }
  destruct E as (-> & -> & E & En). exists g.
  assert (ce = d).
  { rewrite (round_to_grid_R cfg Hp) in Hce. apply ok_inj in Hce. rewrite <- Hce. transitivity (snap cfg d); [|apply (snap_id cfg Hp), snap_grid]. f_equal.
    assert (Ax: forall q : quad R, axis_a pl q = 0 -> axis_b pl q = 0 -> from_axes pl 0 0 (axis_c pl q) (qe q) = q).
    { intros [qx1 qy1 qz1 qe1]. unfold pl. destruct (m_plane m); cbn; intros -> ->; reflexivity. }
    exact (Ax d Za Zb). }
  subst ce. split; [|split; [exact Hg|split; [exact E|split; [exact Hbox|exact En]]]].
  assert (Zd: csub (N:=RN) d d = Quad 0 0 0 0) by (unfold csub, coords; cbn; f_equal; lra).
  assert (Zz: is_zero (csub (N:=RN) d d) = true).
  { rewrite Zd. unfold is_zero. cbn [qx qy qz qe]. change (eqb (p:=RN) 0 (@zero RN)) with (Reqb 0 0). now rewrite (proj2 (Reqb_true 0 0) eq_refl). }
  destruct lg as [lg|]; [exfalso; destruct Hlg as [F _]; congruence|]. reflexivity.
Qed.

Lemma grid_axis cfg pl (q : quad R) : on_grid cfg q -> (exists k, axis_a pl q = IZR k / IZR (axis_a pl (ppm cfg))) /\
  (exists k, axis_b pl q = IZR k / IZR (axis_b pl (ppm cfg))) /\ (exists k, axis_c pl q = IZR k / IZR (axis_c pl (ppm cfg))) /\ exists k, qe q = IZR k / IZR (qe (ppm cfg)).
Proof. intros H. assert (X := H MX). assert (Y := H MY). assert (Z := H MZ). assert (E := H ME). destruct pl; auto. Qed.
Lemma grid_neg (k p : Z) : IZR k / IZR p = - (IZR (- k) / IZR p).
Proof. rewrite opp_IZR. unfold Rdiv. ring. Qed.
Lemma in_area_c cfg pl q : in_area cfg q -> 0 <= axis_c pl q <= IZR (axis_c pl (table_quad cfg)).
Proof. intros (X & Y & Z). destruct pl; assumption. Qed.
Lemma box_c cfg pl (q0 : quad R) (q : quad RN) : in_area cfg q0 -> in_box (N:=RN) cfg q = true -> 0 <= axis_c pl (q : quad R) <= IZR (axis_c pl (table_quad cfg)).
Proof.
  destruct q as [a b c e]. intros (X & Y & Z). unfold in_box, is_in_aabb, sorted2, table_corner, coords0, coords. change (ltb (p:=RN)) with Rltb. change (ofZ (p:=RN)) with IZR. change (rnd10 (p:=RN)) with (fun x : R => x). change (@zero RN) with 0.
  cbv beta. cbn [qx qy qz qe]. unfold Rltb.
  repeat match goal with |- context [Rlt_dec ?x ?y] => destruct (Rlt_dec x y); cbn [fst snd] in * end; cbn [fst snd]; try discriminate; intros _; change (num RN) with R in *; destruct pl; cbn [axis_c table_quad qx qy qz] in *; lra.
Qed.
Lemma steps_mm (p q t : Z) (x : R) : 0 < IZR p -> x = IZR q / IZR p -> (0 <= x <= IZR t <-> axis_in_area p t q).
Proof.
  intros P ->. unfold axis_in_area. assert (I: 0 < / IZR p) by now apply Rinv_0_lt_compat. assert (E: IZR q = IZR q / IZR p * IZR p) by (field; lra). split.
  - intros [A B]. split; apply le_IZR; rewrite ?mult_IZR, E; nra.
  - intros [A B]. apply IZR_le in A, B. rewrite mult_IZR in B. split; nra.
Qed.
(** Every moment of an accepted full circle. *)
Lemma circle_stays cfg (Hc : sane_cfg cfg) hw (delta radius : quad RN) (v : RN) rot (m : machine RN) l m' l' :
  move_circular (N:=RN) cfg hw delta radius v rot m l = (m', l', Ok tt) ->
  let pl := m_plane m in let d := snap cfg delta in let pos : quad R := m_position m in
  axis_a pl (ppm cfg) = axis_b pl (ppm cfg) -> on_grid cfg pos -> in_area cfg pos -> axis_a pl d = 0 -> axis_b pl d = 0 ->
  exists g, l' = l ++ [EMove (GCircular g)] /\ forall n k, k <> ME ->
    0 <= qat k pos + IZR (travel cfg k (items cfg (GCircular g) n)) / IZR (qat k (ppm cfg)) <= IZR (qat k (table_quad cfg)).
Proof.
  intros H pl d pos Hpp Gp Ip Za Zb. destruct (circle_accepted cfg Hc hw delta radius v rot m l m' l' H Za Zb) as (g & El & Hg & Hci & Hbox & Hs). exists g. split; [exact El|].
  set (rr := snap cfg radius) in *. fold pl d pos in Hg, Hci, Hbox, Hs. assert (Hp := sane_ppm cfg Hc).
  destruct (grid_axis cfg pl rr (snap_grid cfg radius)) as ((ka & Ka) & (kb & Kb) & _). destruct (grid_axis cfg pl d (snap_grid cfg delta)) as (_ & _ & (jc & Jc) & (je & Je)).
  destruct (grid_axis cfg pl pos Gp) as ((qa & Qa) & (qb & Qb) & (qc & Qc) & _).
  set (p := axis_a pl (ppm cfg)) in *. rewrite <- Hpp in Kb, Qb.
  assert (G: arc_on_grid cfg pl d rr p (- ka) (- kb) (- ka) (- kb) jc je).
  { split; auto; rewrite ?Za, ?Zb, ?Z.sub_diag; try (unfold Rdiv; ring).
    - rewrite Ka. apply grid_neg.
    - rewrite Kb. apply grid_neg.
    - destruct Hs as [Hs|Hs]; [left|right]; intros E.
      + apply Hs. rewrite Ka. replace ka with 0%Z by lia. unfold Rdiv. ring.
      + apply Hs. rewrite Kb. replace kb with 0%Z by lia. unfold Rdiv. ring. }
  assert (Pc: 0 < IZR (axis_c pl (ppm cfg))) by (apply (IZR_lt 0); destruct pl; [apply (Hp MZ)|apply (Hp MX)|apply (Hp MY)]).
  assert (Pp := net_p cfg d rr pl rot v g Hc Hg p _ _ _ _ _ _ G). assert (Pr: 0 < IZR p) by now apply (IZR_lt 0).
  assert (A := area_moments cfg d rr pl rot v g Hc Hg p _ _ _ _ jc je G pos qa qb qc Qa Qb Hci).
  assert (Bc: axis_in_area (axis_c pl (ppm cfg)) (axis_c pl (table_quad cfg)) qc /\ axis_in_area (axis_c pl (ppm cfg)) (axis_c pl (table_quad cfg)) (qc + jc)).
  { split; [apply (steps_mm _ _ _ _ Pc Qc), in_area_c, Ip|]. apply (steps_mm _ _ _ (axis_c pl (cadd (N:=RN) (m_position m) d : quad R)) Pc); [|apply (box_c cfg pl pos); [exact Ip|exact Hbox]].
    transitivity (axis_c pl pos + axis_c pl d); [destruct pl; reflexivity|]. rewrite Qc, Jc, plus_IZR. unfold Rdiv. ring. }
  intros n k Hk. destruct (A Bc n) as (A1 & A2 & A3).
  destruct (motor_cases pl k) as [->|[->|[->| ->]]]; [| | |contradiction]; rewrite <- ?qat_axis_a, <- ?qat_axis_b, <- ?qat_axis_c.
  - fold p. eapply (steps_mm p _ _ _ Pr); [|exact A1]. rewrite Qa, plus_IZR. unfold Rdiv. ring.
  - rewrite <- Hpp. eapply (steps_mm p _ _ _ Pr); [|exact A2]. rewrite Qb, plus_IZR. unfold Rdiv. ring.
  - eapply (steps_mm _ _ _ _ Pc); [|exact A3]. rewrite Qc, plus_IZR. unfold Rdiv. ring.
Qed.
