(** Arcs on the grid of the motors follow their circle, in exact arithmetic. *)
From Coq Require Import ZArith Bool Reals Lra Lia List Psatz.
From Flocq Require Import Core.
From Verif Require Import PyBase PyNum Config Coordinates Pulses PulseSpec GMachine GMachineProofs LinearGen LinearReal ArcSpec ArcRun ArcMake ArcTravel ArcReal ArcAdjust ArcTotal ArcQuarters ArcExact ArcNet CircleCount Schedule.
From Coq Require Import List.
From Flocq Require Import Core.
Import ListNotations.
Local Open Scope R_scope.

(** Clockwise the angle, measured from the second axis towards the first, grows. *)
Definition sigma (rot : rotation) : Z := match rot with CW => 1%Z | CCW => (-1)%Z end.
Lemma sigma_1 rot : (sigma rot = 1 \/ sigma rot = -1)%Z.
Proof. destruct rot; auto. Qed.

(* ---------- the way of the projections, on integers ---------- *)
Definition piece_a (q : Z) : Z := if (q =? 0)%Z then 0%Z else if (q <=? 2)%Z then 1%Z else 2%Z.
Definition piece_b (q : Z) : Z := if (q <=? 1)%Z then 1%Z else 2%Z.
Definition way_a (rho a b : Z) : Z := (2 * piece_a (quadrant a b) * rho + esg (piece_a (quadrant a b)) * a)%Z.
Definition way_b (rho a b : Z) : Z := (2 * piece_b (quadrant a b) * rho + esg (piece_b (quadrant a b)) * b)%Z.
Ltac quads a b H := let Q := fresh "Q" in let S1 := fresh "S" in let S2 := fresh "S" in
  destruct (quadrant_cases a b H) as [(Q & S1 & S2)|[(Q & S1 & S2)|[(Q & S1 & S2)|(Q & S1 & S2)]]].
Ltac ways := unfold way_a, way_b; repeat match goal with Q : quadrant _ _ = _ |- _ => rewrite Q in * end;
  cbn [piece_a piece_b Z.eqb Z.leb Z.compare Pos.compare Pos.compare_cont Pos.eqb esg Z.odd].

Lemma start_piece_a rot rho sa sb : (Z.abs sa <= rho)%Z -> (sa <> 0 \/ sb <> 0)%Z -> (sb = 0%Z -> Z.abs sa = rho) ->
  exists k0, way_a rho sa sb = (2 * k0 * rho + esg k0 * sa)%Z /\ dir_a_of rot sa sb = (sigma rot * esg k0)%Z /\
   ((sb <? 0)%Z || ((sb =? 0)%Z && (dir_b_of rot sa sb <? 0)%Z)) = Z.odd k0.
Proof.
  intros A Hs Z1. quads sa sb Hs; ways; unfold dir_a_of, dir_b_of, sigma; destruct rot;
  destruct (Z.ltb_spec sa 0), (Z.ltb_spec 0 sa), (Z.eqb_spec sa 0); try (exfalso; lia); destruct (Z.ltb_spec sb 0), (Z.ltb_spec 0 sb), (Z.eqb_spec sb 0); try (exfalso; lia); cbn [andb orb];
  try (match goal with e : _ = 0%Z |- _ => specialize (Z1 e) end);
  first [exists 0%Z; change (esg 0) with (1)%Z; change (Z.odd 0) with false; split; [lia|split; [lia|reflexivity]]|exists 1%Z; change (esg 1) with ((-1))%Z; change (Z.odd 1) with true; split; [lia|split; [lia|reflexivity]]|exists 2%Z; change (esg 2) with (1)%Z; change (Z.odd 2) with false; split; [lia|split; [lia|reflexivity]]].
Qed.
Lemma start_piece_b rot rho sa sb : (Z.abs sb <= rho)%Z -> (sa <> 0 \/ sb <> 0)%Z -> (sa = 0%Z -> Z.abs sb = rho) ->
  exists k0, way_b rho sa sb = (2 * k0 * rho + esg k0 * sb)%Z /\ dir_b_of rot sa sb = (sigma rot * esg k0)%Z /\
   ((sa <? 0)%Z || ((sa =? 0)%Z && (dir_a_of rot sa sb <? 0)%Z)) = negb (Z.odd k0).
Proof.
  intros A Hs Z1. quads sa sb Hs; ways; unfold dir_a_of, dir_b_of, sigma; destruct rot;
  destruct (Z.ltb_spec sa 0), (Z.ltb_spec 0 sa), (Z.eqb_spec sa 0); try (exfalso; lia); destruct (Z.ltb_spec sb 0), (Z.ltb_spec 0 sb), (Z.eqb_spec sb 0); try (exfalso; lia); cbn [andb orb];
  try (match goal with e : _ = 0%Z |- _ => specialize (Z1 e) end);
  first [exists 0%Z; change (esg 0) with (1)%Z; change (Z.odd 0) with false; split; [lia|split; [lia|reflexivity]]|exists 1%Z; change (esg 1) with ((-1))%Z; change (Z.odd 1) with true; split; [lia|split; [lia|reflexivity]]|exists 2%Z; change (esg 2) with (1)%Z; change (Z.odd 2) with false; split; [lia|split; [lia|reflexivity]]].
Qed.
Lemma quarters_way R sa sb ea eb qs qe ia ib : (sa <> 0 \/ sb <> 0)%Z -> (ea <> 0 \/ eb <> 0)%Z -> qs = quadrant sa sb -> quadrant ea eb <> qs ->
  qe = (if quadrant ea eb <? qs then quadrant ea eb + 4 else quadrant ea eb)%Z ->
  quarter_iterations qs qe R R (Z.abs sa) (Z.abs sb) (Z.abs ea) (Z.abs eb) = (ia, ib) ->
  let w := (if quadrant ea eb <? qs then 1 else 0)%Z in
  ia = (way_a R ea eb + 4 * R * w - way_a R sa sb)%Z /\ ib = (way_b R ea eb + 4 * R * w - way_b R sa sb)%Z.
Proof.
  intros Hs He Qs Qe E H w. unfold w. clear w. quads sa sb Hs; quads ea eb He; rewrite Q in Qs; rewrite Q0 in Qe, E |- *; subst qs;
  try (exfalso; apply Qe; reflexivity); cbn in E; subst qe; clear Qe;
  first [rewrite qi01 in H|rewrite qi02 in H|rewrite qi03 in H|rewrite qi12 in H|rewrite qi13 in H|rewrite qi14 in H
        |rewrite qi23 in H|rewrite qi24 in H|rewrite qi25 in H|rewrite qi34 in H|rewrite qi35 in H|rewrite qi36 in H];
  injection H as <- <-; ways; cbn [Z.ltb Z.compare Pos.compare Pos.compare_cont]; lia.
Qed.
Lemma quarter_way R sa sb ea eb : (sa <> 0 \/ sb <> 0)%Z -> (ea <> 0 \/ eb <> 0)%Z -> quadrant ea eb = quadrant sa sb ->
  (ea * ea + eb * eb = sa * sa + sb * sb)%Z -> (0 < ea * sb - eb * sa)%Z ->
  Z.abs (sa - ea) = (way_a R ea eb - way_a R sa sb)%Z /\ Z.abs (sb - eb) = (way_b R ea eb - way_b R sa sb)%Z.
Proof.
  intros Hs He Q C X. unfold way_a, way_b. rewrite Q.
  destruct (quadrant_cases sa sb Hs) as [(P & S1 & S2)|[(P & S1 & S2)|[(P & S1 & S2)|(P & S1 & S2)]]];
  destruct (quadrant_cases ea eb He) as [(P' & T1 & T2)|[(P' & T1 & T2)|[(P' & T1 & T2)|(P' & T1 & T2)]]]; try (exfalso; lia); rewrite P; cbn [piece_a piece_b Z.eqb Z.leb Z.compare Pos.compare Pos.compare_cont Pos.eqb esg Z.odd].
  - destruct (Z.le_gt_cases sa ea), (Z.le_gt_cases eb sb); try (exfalso; nia). lia.
  - destruct (Z.le_gt_cases ea sa), (Z.le_gt_cases eb sb); try (exfalso; nia). lia.
  - destruct (Z.le_gt_cases ea sa), (Z.le_gt_cases sb eb); try (exfalso; nia). lia.
  - destruct (Z.le_gt_cases sa ea), (Z.le_gt_cases sb eb); try (exfalso; nia). lia.
Qed.

(* ---------- the way at an angle ---------- *)
Lemma way_angle_a (r : R) (A B : Z) an : zregion A B an ->
  let k := piece_a (quadrant A B) in at_count r (2 * IZR k * r + IZR (esg k) * (r * sin an)) an.
Proof.
  intros G k. destruct (zquadrant 0 0 A B an G) as [Q _]. exists k. unfold k in *. clear k.
  assert (P := PI_RGT_0). assert (H: (A <> 0 \/ B <> 0)%Z) by (unfold zregion in G; lia).
  split.
  - quads A B H; rewrite Q0 in *; cbn [piece_a Z.eqb Z.leb Z.compare Pos.compare Pos.compare_cont] in *; lra.
  - set (k := piece_a _). replace an with (an - IZR k * PI + IZR k * PI) at 1 by ring. rewrite (proj1 (sin_cos_kpi _ k)).
    replace (IZR (esg k) * (r * (IZR (esg k) * sin (an - IZR k * PI)))) with (IZR (esg k) * IZR (esg k) * (r * sin (an - IZR k * PI))) by ring. rewrite esg_sq_R. ring.
Qed.
Lemma way_angle_b (r : R) (A B : Z) an : zregion A B an ->
  let k := piece_b (quadrant A B) in at_count r (2 * IZR k * r + IZR (esg k) * (r * cos an)) (an + PI / 2).
Proof.
  intros G k. destruct (zquadrant 0 0 A B an G) as [Q _]. exists k. unfold k in *. clear k.
  assert (P := PI_RGT_0). assert (H: (A <> 0 \/ B <> 0)%Z) by (unfold zregion in G; lia).
  split.
  - quads A B H; rewrite Q0 in *; cbn [piece_b Z.eqb Z.leb Z.compare Pos.compare Pos.compare_cont] in *; lra.
  - set (k := piece_b _). assert (E: cos an = sin (an + PI / 2)) by (rewrite cos_sin; f_equal; ring). rewrite E.
    replace (an + PI / 2) with (an + PI / 2 - IZR k * PI + IZR k * PI) at 1 by ring. rewrite (proj1 (sin_cos_kpi _ k)).
    replace (IZR (esg k) * (r * (IZR (esg k) * sin (an + PI / 2 - IZR k * PI)))) with (IZR (esg k) * IZR (esg k) * (r * sin (an + PI / 2 - IZR k * PI))) by ring. rewrite esg_sq_R. ring.
Qed.
(** One angle in a turn. *)
Lemma angle_unique x y : sin x = sin y -> cos x = cos y -> - (2 * PI) < x - y < 2 * PI -> x = y.
Proof.
  intros S C B. assert (P := PI_RGT_0).
  assert (E: cos (x - y) = 1) by (rewrite cos_minus, S, C; assert (Q := sin2_cos2 y); unfold Rsqr in Q; lra).
  assert (F: sin ((x - y) / 2) = 0).
  { replace (x - y) with (2 * ((x - y) / 2)) in E by field. rewrite cos_2a_sin in E. nra. }
  destruct (Rtotal_order x y) as [L|[L|L]]; [|exact L|]; exfalso.
  - assert (0 < sin (- ((x - y) / 2))) by (apply sin_gt_0; lra). rewrite sin_neg in H. lra.
  - assert (0 < sin ((x - y) / 2)) by (apply sin_gt_0; lra). lra.
Qed.

Section Path.
Variable cfg : config.
Variables (delta radius : quad RN) (pl : plane) (rot : rotation) (v : RN).
Variable g : circular_gen RN.
Variable M : made cfg delta radius pl rot v g.
Variable p : Z.
Hypothesis Hp : (0 < p)%Z.
Hypothesis Pa : axis_a pl (ppm cfg) = p.
Hypothesis Pb : axis_b pl (ppm cfg) = p.
Variables sa sb ea eb : Z.
Hypothesis Sa : axis_a pl radius = - (IZR sa / IZR p) :> R.
Hypothesis Sb : axis_b pl radius = - (IZR sb / IZR p) :> R.
Hypothesis Ea : axis_a pl delta = IZR (ea - sa) / IZR p :> R.
Hypothesis Eb : axis_b pl delta = IZR (eb - sb) / IZR p :> R.
Hypothesis Hs : (sa <> 0 \/ sb <> 0)%Z.
Hypothesis He : (ea <> 0 \/ eb <> 0)%Z.
Hypothesis Hreg : regular sa sb ea eb.
Notation K f := (f _ _ _ _ _ _ _ M).
Let rho := len_steps sa sb.
Let r := IZR rho.
Let th : R := c_start_angle g.
Let dl : R := c_delta_angle g.
Let sg := sigma rot.
Let na := c_iterations_a g.
Let nb := c_iterations_b g.

Lemma f_radius : c_radius_a_pulses g = rho /\ c_radius_b_pulses g = rho /\ K k_rra = rho /\ K k_rrb = rho.
Proof. eapply radius_pulses; eassumption. Qed.
Lemma f_start : c_start_a_pulses g = sa /\ c_start_b_pulses g = sb.
Proof. eapply start_pulses; eassumption. Qed.
Lemma f_dirs : c_dir_a g = dir_a_of rot sa sb /\ c_dir_b g = dir_b_of rot sa sb.
Proof. eapply dirs_eq; eassumption. Qed.
Lemma f_ge : (Z.abs sa <= rho /\ Z.abs sb <= rho /\ Z.abs ea <= rho /\ Z.abs eb <= rho)%Z.
Proof. eapply rho_ge; eassumption. Qed.
Lemma f_rho : (0 < rho)%Z.
Proof. eapply rho_pos; eassumption. Qed.
Lemma f_region_s : zregion sa sb th.
Proof. eapply start_region; eassumption. Qed.
Lemma f_region_e : zregion ea eb (K k_end).
Proof. eapply end_region; eassumption. Qed.
Lemma f_qs : K k_qs = quadrant sa sb.
Proof. eapply qs_eq; eassumption. Qed.
Lemma f_qe : K k_qe = (if Rle_dec (K k_end) th then quadrant ea eb + 4 else quadrant ea eb)%Z.
Proof. eapply qe_eq; eassumption. Qed.
Lemma f_base qs qe' : base_iterations cfg delta radius pl qs qe' rho rho =
  if (qs =? qe')%Z then Ok (Z.abs (sa - ea), Z.abs (sb - eb)) else Ok (quarter_iterations qs qe' rho rho (Z.abs sa) (Z.abs sb) (Z.abs ea) (Z.abs eb)).
Proof. eapply base_eq; eassumption. Qed.
Lemma f_net : (0 <= na <= 4 * rho)%Z /\ (0 <= nb <= 4 * rho)%Z /\ pos_a g na = ea /\ pos_b g nb = eb.
Proof. eapply exact_net; eassumption. Qed.
Lemma f_whole : quadrant ea eb = quadrant sa sb -> (ea * sb - eb * sa <= 0)%Z -> na = (4 * rho)%Z /\ nb = (4 * rho)%Z.
Proof. eapply whole_turn; eassumption. Qed.
Lemma f_cross : quadrant ea eb = quadrant sa sb ->
  ((0 < ea * sb - eb * sa)%Z -> th < (K k_end : R)) /\ ((ea * sb - eb * sa <= 0)%Z -> (K k_end : R) <= th).
Proof. eapply cross_angle; eassumption. Qed.
Lemma f_angle : 0 < dl.
Proof. eapply angle_pos; eassumption. Qed.
Lemma f_axis : (sb = 0%Z -> Z.abs sa = rho) /\ (sa = 0%Z -> Z.abs sb = rho).
Proof. unfold rho. split; intros ->; symmetry; apply len_axis. Qed.

(* ---------- angles ---------- *)
Lemma polar_steps (A B : Z) an : (A <> 0 \/ B <> 0)%Z -> angle_of (N:=RN) (IZR A / IZR p) (IZR B / IZR p) = Ok an ->
  let h := sqrt (IZR (A * A + B * B)) in 0 <= an < 2 * PI /\ IZR A = h * sin an /\ IZR B = h * cos an.
Proof.
  intros H E h. assert (P: 0 < IZR p) by now apply (IZR_lt 0). destruct (angle_polar _ _ _ (grid_pos p Hp _ _ _ _ Hs He A B H) E) as (B0 & E1 & E2).
  assert (L := len_grid p Hp A B). fold h in L. split; [exact B0|]. rewrite <- L. clearbody h. clear L. set (s := sqrt _) in *. clearbody s.
  split; [replace (IZR A) with (IZR A / IZR p * IZR p) by (field; lra); rewrite E1; ring|].
  replace (IZR B) with (IZR B / IZR p * IZR p) by (field; lra). rewrite E2. ring.
Qed.
Lemma near_steps (A B : Z) an : (A <> 0 \/ B <> 0)%Z -> len_steps A B = rho -> angle_of (N:=RN) (IZR A / IZR p) (IZR B / IZR p) = Ok an ->
  Rabs (r * sin an - IZR A) <= / 2 /\ Rabs (r * cos an - IZR B) <= / 2.
Proof.
  intros H L E. destruct (polar_steps A B an H E) as (_ & E1 & E2). set (h := sqrt _) in *.
  assert (D: Rabs (h - r) <= / 2) by (unfold r; rewrite <- L; apply Znearest_half).
  rewrite E1, E2. assert (S := SIN_bound an). assert (C := COS_bound an). rewrite Rabs_minus_sym in D.
  split; rewrite <- Rmult_minus_distr_r, Rabs_mult.
  - assert (Rabs (sin an) <= 1) by (apply Rabs_le; lra). assert (P1 := Rabs_pos (r - h)). assert (P2 := Rabs_pos (sin an)). nra.
  - assert (Rabs (cos an) <= 1) by (apply Rabs_le; lra). assert (P1 := Rabs_pos (r - h)). assert (P2 := Rabs_pos (cos an)). nra.
Qed.
Lemma f_sa_R : - axis_a pl radius = IZR sa / IZR p :> R. Proof. rewrite Sa. ring. Qed.
Lemma f_sb_R : - axis_b pl radius = IZR sb / IZR p :> R. Proof. rewrite Sb. ring. Qed.
Lemma start_angle : angle_of (N:=RN) (IZR sa / IZR p) (IZR sb / IZR p) = Ok (th : RN).
Proof. assert (E := K k_start_eq). change (angle_of (N:=RN) (- axis_a pl radius) (- axis_b pl radius) = Ok (th : RN)) in E. now rewrite f_sa_R, f_sb_R in E. Qed.
Lemma end_angle : angle_of (N:=RN) (IZR ea / IZR p) (IZR eb / IZR p) = Ok (K k_end).
Proof.
  assert (E := K k_end_eq). change (angle_of (N:=RN) (- axis_a pl radius + axis_a pl delta) (- axis_b pl radius + axis_b pl delta) = Ok (K k_end)) in E.
  assert (P: 0 < IZR p) by now apply (IZR_lt 0).
  rewrite f_sa_R, f_sb_R, Ea, Eb, !minus_IZR in E. replace (IZR sa / IZR p + (IZR ea - IZR sa) / IZR p) with (IZR ea / IZR p) in E by (field; lra).
  now replace (IZR sb / IZR p + (IZR eb - IZR sb) / IZR p) with (IZR eb / IZR p) in E by (field; lra).
Qed.
Lemma th_range : 0 <= th < 2 * PI.
Proof. exact (proj1 (polar_steps _ _ _ Hs start_angle)). Qed.
Lemma end_range : 0 <= (K k_end : R) < 2 * PI.
Proof. exact (proj1 (polar_steps _ _ _ He end_angle)). Qed.

(** The arc ends at the angle of the end point, after some turns. *)
Lemma delta_turns : th + IZR sg * dl = (K k_end : R) + 2 * PI * IZR (match rot with CW => if Rle_dec (K k_end) th then 1 else 0 | CCW => if Rlt_dec (K k_end) th then 0 else -1 end) /\ dl <= 2 * PI.
Proof.
  assert (PI_ := PI_RGT_0). assert (B1 := th_range). assert (B2 := end_range). unfold dl. rewrite (K k_delta_angle). change (absn (p:=RN) (K k_da)) with (Rabs (K k_da)).
  assert (E := K k_da_eq). cbv zeta in E. change (sub (p:=RN) (K k_end) (c_start_angle g)) with ((K k_end : R) - th) in E. set (an2 := K k_end : R) in *. set (da := K k_da : R) in *.
  change (two (N:=RN)) with 2 in E. change (@pin RN) with PI in E. change (@zero RN) with 0 in E. change (sub (p:=RN)) with Rminus in E. change (add (p:=RN)) with Rplus in E. change (mul (p:=RN)) with Rmult in E. change (ltb (p:=RN)) with Rltb in E. change (eqb (p:=RN)) with Reqb in E.
  unfold Rltb, Reqb in E. unfold sg, sigma. destruct rot.
  - assert (D: da = an2 - th + 2 * PI * IZR (if Rle_dec an2 th then 1 else 0)).
    { rewrite E. destruct (Rlt_dec (an2 - th) 0), (Req_EM_T (an2 - th) 0), (Rle_dec an2 th); cbn [orb andb]; try (exfalso; lra); lra. }
    assert (P: 0 <= da <= 2 * PI) by (rewrite D; destruct (Rle_dec an2 th); lra). rewrite Rabs_pos_eq by lra. rewrite D in *. split; lra.
  - assert (D: da = an2 - th + 2 * PI * IZR (if Rlt_dec an2 th then 0 else -1)).
    { rewrite E. destruct (Rlt_dec (an2 - th) 0), (Req_EM_T (an2 - th) 0), (Rlt_dec an2 th); cbn [orb andb]; try (exfalso; lra); lra. }
    assert (P: - (2 * PI) <= da <= 0) by (rewrite D; destruct (Rlt_dec an2 th); lra). rewrite Rabs_left1 by lra. rewrite D in *. split; lra.
Qed.
(** ... and so does the way of each axis. *)
Lemma end_turns : exists j, th + IZR sg * dl = (K k_end : R) + 2 * PI * IZR j /\
  (sg * na = way_a rho ea eb + 4 * rho * j - way_a rho sa sb)%Z /\ (sg * nb = way_b rho ea eb + 4 * rho * j - way_b rho sa sb)%Z.
Proof.
  destruct delta_turns as [DT _]. eexists. split; [exact DT|]. clear DT. destruct f_radius as (_ & _ & R3 & R4).
  destruct (zquadrant 0 0 _ _ _ f_region_s) as [Q1 Q1']. destruct (zquadrant 0 0 _ _ _ f_region_e) as [Q2 Q2'].
  assert (I := K k_iter). rewrite f_qs, f_qe, R3, R4 in I. fold na nb in I. assert (PI_ := PI_RGT_0).
  destruct (Z.eq_dec (quadrant ea eb) (quadrant sa sb)) as [Q|Q].
  - destruct Hreg as [G|[[G1 G2]|(_ & C & X)]]; [contradiction| |].
    + assert (X: (ea * sb - eb * sa <= 0)%Z) by (rewrite G1, G2; lia). destruct (f_whole Q X) as [-> ->]. assert (L := proj2 (f_cross Q) X).
      assert (L2: ~ (K k_end : R) < th).
      { assert (E1 := end_angle). rewrite G1, G2, start_angle in E1. injection E1 as E1. rewrite <- E1. lra. }
      rewrite G1, G2. unfold sg, sigma. destruct rot; [destruct (Rle_dec (K k_end) th) as [|N]; [lia|contradiction]|destruct (Rlt_dec (K k_end) th) as [N|N]; [contradiction|lia]].
    + assert (L := proj1 (f_cross Q) X). destruct (Rle_dec (K k_end) th) as [N|_]; [exfalso; lra|]. rewrite Q, Z.sub_diag in I. cbn [Z.leb Z.compare] in I.
      destruct I as (ia & ib & I & J). rewrite f_base, Z.eqb_refl in I. injection I as <- <-.
      destruct (quarter_way rho sa sb ea eb Hs He Q C X) as [W1 W2]. rewrite W1, W2 in J.
      unfold sg, sigma. destruct rot; destruct J as [-> ->]; [lia|]. destruct (Rlt_dec (K k_end) th) as [N|_]; [exfalso; lra|]. lia.
  - set (qs := quadrant sa sb) in *. set (qe' := quadrant ea eb) in *.
    assert (Lt: (qe' < qs)%Z -> (K k_end : R) < th).
    { intros H. assert (H': (qe' + 1 <= qs)%Z) by lia. apply IZR_le in H'. rewrite plus_IZR in H'. nra. }
    assert (Gt: (qs < qe')%Z -> th < (K k_end : R)).
    { intros H. assert (H': (qs + 1 <= qe')%Z) by lia. apply IZR_le in H'. rewrite plus_IZR in H'. nra. }
    assert (E: (if Rle_dec (K k_end) th then qe' + 4 else qe')%Z = (if qe' <? qs then qe' + 4 else qe')%Z).
    { destruct (Z.ltb_spec qe' qs) as [H|H]; destruct (Rle_dec (K k_end) th) as [L|L]; try reflexivity; exfalso; [specialize (Lt H); lra|]. specialize (Gt ltac:(lia)). lra. }
    rewrite E in I. clear E. set (q := (if qe' <? qs then qe' + 4 else qe')%Z) in *.
    assert (Hq: (qs < q <= qs + 3)%Z) by (unfold q; destruct (Z.ltb_spec qe' qs); lia).
    replace (4 <=? q - qs)%Z with false in I by (symmetry; apply Z.leb_gt; lia). destruct I as (ia & ib & I & J). rewrite f_base in I.
    replace (qs =? q)%Z with false in I by (symmetry; apply Z.eqb_neq; lia). injection I as I.
    destruct (quarters_way rho sa sb ea eb qs q ia ib Hs He eq_refl Q eq_refl I) as [W1 W2]. fold qe' in W1, W2.
    unfold sg, sigma. destruct rot; destruct J as [-> ->]; destruct (Z.ltb_spec qe' qs) as [H|H].
    + destruct (Rle_dec (K k_end) th) as [_|N]; [lia|]. specialize (Lt H). exfalso. lra.
    + destruct (Rle_dec (K k_end) th) as [N|_]; [|lia]. specialize (Gt ltac:(lia)). exfalso. lra.
    + destruct (Rlt_dec (K k_end) th) as [_|N]; [lia|]. specialize (Lt H). exfalso. lra.
    + destruct (Rlt_dec (K k_end) th) as [N|_]; [|lia]. specialize (Gt ltac:(lia)). exfalso. lra.
Qed.

(* ---------- the ways at the two ends ---------- *)
Let Ua := way_a rho sa sb.
Let Ub := way_b rho sa sb.
Lemma esg_abs k : Rabs (IZR (esg k)) = 1.
Proof. destruct (esg_cases k) as [-> | ->]; [apply Rabs_R1|]. rewrite Rabs_left by lra. lra. Qed.
Lemma near_way (k A : Z) (x : R) : Rabs (x - IZR A) <= / 2 ->
  Rabs (2 * IZR k * r + IZR (esg k) * x - IZR (2 * k * rho + esg k * A)) <= / 2.
Proof.
  intros H. rewrite plus_IZR, !mult_IZR. fold r. replace (_ - _) with (IZR (esg k) * (x - IZR A)) by ring. rewrite Rabs_mult, esg_abs. lra.
Qed.
Lemma f_rme : len_steps ea eb = rho.
Proof. eapply rme_eq; eassumption. Qed.
Lemma ends_a : exists w0 we, at_count r w0 th /\ Rabs (w0 - IZR Ua) <= / 2 /\
  at_count r we (th + IZR sg * dl) /\ Rabs (we - IZR (Ua + sg * na)) <= / 2.
Proof.
  destruct end_turns as (j & J1 & J2 & _).
  eexists _, (_ + 4 * r * IZR j). split; [exact (way_angle_a r _ _ _ f_region_s)|]. split.
  { apply near_way. exact (proj1 (near_steps _ _ _ Hs eq_refl start_angle)). }
  rewrite J1. split; [apply count_shift; exact (way_angle_a r _ _ _ f_region_e)|].
  replace (Ua + sg * na)%Z with (way_a rho ea eb + 4 * rho * j)%Z by (unfold Ua; lia). rewrite (plus_IZR (way_a _ _ _)), !mult_IZR. fold r.
  match goal with |- Rabs (?x + _ - (?y + _)) <= _ => replace (x + 4 * r * IZR j - (y + 4 * r * IZR j)) with (x - y) by ring end.
  apply near_way. exact (proj1 (near_steps _ _ _ He f_rme end_angle)).
Qed.
Lemma ends_b : exists w0 we, at_count r w0 (th + PI / 2) /\ Rabs (w0 - IZR Ub) <= / 2 /\
  at_count r we (th + PI / 2 + IZR sg * dl) /\ Rabs (we - IZR (Ub + sg * nb)) <= / 2.
Proof.
  destruct end_turns as (j & J1 & _ & J2).
  eexists _, (_ + 4 * r * IZR j). split; [exact (way_angle_b r _ _ _ f_region_s)|]. split.
  { apply near_way. exact (proj2 (near_steps _ _ _ Hs eq_refl start_angle)). }
  replace (th + PI / 2 + IZR sg * dl) with ((K k_end : R) + PI / 2 + 2 * PI * IZR j) by lra.
  split; [apply count_shift; exact (way_angle_b r _ _ _ f_region_e)|].
  replace (Ub + sg * nb)%Z with (way_b rho ea eb + 4 * rho * j)%Z by (unfold Ub; lia). rewrite (plus_IZR (way_b _ _ _)), !mult_IZR. fold r.
  match goal with |- Rabs (?x + _ - (?y + _)) <= _ => replace (x + 4 * r * IZR j - (y + 4 * r * IZR j)) with (x - y) by ring end.
  apply near_way. exact (proj2 (near_steps _ _ _ He f_rme end_angle)).
Qed.

(* ---------- the times of the steps ---------- *)
Let rdv : R := c_r_div_v g.
Lemma find_time_angle (t phi : R) : 0 < t -> 0 < phi < 2 * PI ->
  circular_find_time (N:=RN) g (t * sin (th + IZR sg * phi)) (t * cos (th + IZR sg * phi)) = Ok (rdv * phi : RN).
Proof.
  intros Ht Hphi. set (al := th + IZR sg * phi). assert (B1 := th_range). assert (PI_ := PI_RGT_0).
  assert (SC := sin2_cos2 al). unfold Rsqr in SC.
  assert (Q: t * sin al * (t * sin al) + t * cos al * (t * cos al) = t * t) by (replace (_ + _) with (t * t * (sin al * sin al + cos al * cos al)) by ring; rewrite SC; ring).
  assert (P: 0 < t * sin al * (t * sin al) + t * cos al * (t * cos al)) by (rewrite Q; nra).
  destruct (angle_ok (t * sin al) (t * cos al) P) as (an & E & B). destruct (angle_polar _ _ _ P E) as (_ & E1 & E2).
  rewrite Q, sqrt_square in E1, E2 by lra. apply Rmult_eq_reg_l in E1; [|lra]. apply Rmult_eq_reg_l in E2; [|lra].
  unfold circular_find_time. rewrite E. cbn [rbind].
  change (leb (p:=RN)) with Rleb. change (@zero RN) with 0. change (two (N:=RN)) with 2. change (@pin RN) with PI. change (add (p:=RN)) with Rplus. change (sub (p:=RN)) with Rminus. change (mul (p:=RN)) with Rmult.
  change (c_start_angle g) with (th : RN). fold rdv. rewrite (K k_rot). f_equal. f_equal. cbv zeta.
  assert (D: forall d, (d = phi \/ d = phi + 2 * PI \/ d = phi - 2 * PI) -> -(2*PI) < d < 2 * PI -> (if Rleb d 0 then d + 2 * PI else d) = phi).
  { intros d Hd Bd. unfold Rleb. destruct (Rle_dec d 0); destruct Hd as [->|[->| ->]]; lra. }
  assert (S2: forall x k, sin (x + 2 * PI * IZR k) = sin x /\ cos (x + 2 * PI * IZR k) = cos x).
  { intros x k. replace (x + 2 * PI * IZR k) with (x + IZR (2 * k) * PI) by (rewrite mult_IZR; ring). destruct (sin_cos_kpi x (2 * k)) as [-> ->].
    replace (esg (2 * k)) with 1%Z by (unfold esg; rewrite Z.odd_mul; reflexivity). split; ring. }
  assert (W: exists k, an = al + 2 * PI * IZR k /\ (k = 0 \/ k = 1 \/ k = -1)%Z).
  { unfold al, sg, sigma in *. destruct (Rlt_dec (th + IZR (match rot with CW => 1 | CCW => -1 end) * phi) 0) as [L|L].
    - exists 1%Z. split; [|auto]. symmetry. destruct (S2 (th + IZR (match rot with CW => 1 | CCW => -1 end) * phi) 1%Z) as [S3 S4].
      apply angle_unique; [rewrite S3; exact E1|rewrite S4; exact E2|]. destruct rot; lra.
    - destruct (Rlt_dec (th + IZR (match rot with CW => 1 | CCW => -1 end) * phi) (2 * PI)) as [L2|L2].
      + exists 0%Z. split; [|auto]. symmetry. destruct (S2 (th + IZR (match rot with CW => 1 | CCW => -1 end) * phi) 0%Z) as [S3 S4].
        apply angle_unique; [rewrite S3; exact E1|rewrite S4; exact E2|]. lra.
      + exists (-1)%Z. split; [|auto]. symmetry. destruct (S2 (th + IZR (match rot with CW => 1 | CCW => -1 end) * phi) (-1)%Z) as [S3 S4].
        apply angle_unique; [rewrite S3; exact E1|rewrite S4; exact E2|]. destruct rot; lra. }
  destruct W as (k & W & Hk). rewrite W in B |- *. unfold al, sg, sigma in *. destruct rot; apply D; destruct Hk as [-> |[-> | ->]]; lra.
Qed.
Hypothesis Hc : sane_cfg cfg.
Hypothesis Hv : (0 : R) < v.
Variables jc je : Z.
Hypothesis Ec : axis_c pl delta = IZR jc / IZR (axis_c pl (ppm cfg)) :> R.
Hypothesis Ee : qe delta = IZR je / IZR (qe (ppm cfg)) :> R.
Lemma rdv_gt : 0 < rdv.
Proof. unfold rdv. eapply rdv_pos; eassumption. Qed.
Lemma f_radii : c_radius_a2 g = IZR rho / IZR p * (IZR rho / IZR p) :> R /\ c_radius_b2 g = IZR rho / IZR p * (IZR rho / IZR p) :> R.
Proof. eapply radii_exact; eassumption. Qed.
(** The chord in mm. *)
Lemma chord_mm (h : Z) : (Z.abs h <= rho)%Z -> sqrtn (p:=RN) (IZR rho / IZR p * (IZR rho / IZR p) - IZR h / IZR p * (IZR h / IZR p)) = Ok (/ IZR p * sqrt (r * r - IZR h * IZR h) : RN).
Proof.
  intros H. assert (P: 0 < IZR p) by now apply (IZR_lt 0). assert (I: 0 < / IZR p) by now apply Rinv_0_lt_compat.
  assert (L: IZR h * IZR h <= r * r) by (unfold r; rewrite <- !mult_IZR; apply IZR_le; nia).
  replace (IZR rho / IZR p * (IZR rho / IZR p) - IZR h / IZR p * (IZR h / IZR p)) with (/ IZR p * / IZR p * (r * r - IZR h * IZR h)) by (unfold Rdiv, r; ring).
  rewrite sqrt_R by (apply Rmult_le_pos; nra). f_equal. rewrite sqrt_mult by nra. rewrite sqrt_square by lra. reflexivity.
Qed.
Lemma side_sign (sd : bool) (k : Z) (x : R) : xorb sd (Z.odd k) = false -> (if sd then - x else x) = IZR (esg k) * x.
Proof. unfold esg. destruct sd, (Z.odd k); cbn; try discriminate; intros _; ring. Qed.
Lemma side_sign' (sd : bool) (k : Z) (x : R) : xorb sd (Z.odd k) = true -> (if sd then - x else x) = - (IZR (esg k) * x).
Proof. unfold esg. destruct sd, (Z.odd k); cbn; try discriminate; intros _; ring. Qed.
Lemma time_a i : (0 <= i < na)%Z -> exists d phi, circular_a (N:=RN) g i p = Ok (d, Some (rdv * phi : RN)) /\ step_angle rho sg Ua th dl na (i + 1) phi.
Proof.
  intros Hi. destruct f_radius as (R1 & _). destruct f_start as [S1 S2]. destruct f_dirs as [D1 D2]. destruct f_ge as (A1 & _). destruct f_axis as [Z1 _]. destruct f_net as (N1 & _).
  destruct (start_piece_a rot rho sa sb A1 Hs Z1) as (k0 & U0 & D0 & X0). destruct ends_a as (w0 & we & W1 & W2 & W3 & W4).
  assert (SD: c_side_a g = Z.odd k0) by (rewrite (K k_side_a), S2, D2; exact X0).
  unfold circular_a. fold na. destruct (Z.leb_spec na i) as [L|L]; [lia|]. rewrite S1, R1, D1, SD.
  assert (P: 0 < IZR p) by now apply (IZR_lt 0). change (ofZ (p:=RN)) with IZR.
  destruct (Z.eqb_spec (i + 1) na) as [E|E].
  - destruct (circular_helper sa (i + 1) rho (Z.odd k0) (dir_a_of rot sa sb)) as [[h d] sd]. rewrite div_R by lra. cbn [rbind].
    exists d, dl. split; [reflexivity|]. right. split; [exact E|reflexivity].
  - destruct (axis_angle rho sa (dir_a_of rot sa sb) sg k0 Ua f_rho A1 (sigma_1 rot) U0 D0 th dl w0 we na W1 W2 W3 W4 N1 (Z.odd k0) (i + 1) ltac:(lia)) as (h & d & sd & k & phi & H1 & H2 & H3 & H4 & H5 & H6 & H7).
    rewrite H1. rewrite div_R by lra. cbn [rbind]. destruct f_radii as [-> _]. change (sub (p:=RN)) with Rminus. change (mul (p:=RN)) with Rmult. rewrite (chord_mm h H2). cbn [rbind].
    rewrite xorb_nilpotent in H3. exists d, phi. split; [|left; split; [lia|exact H4]]. cbv zeta. 
    assert (Y: (if sd then - (/ IZR p * sqrt (r * r - IZR h * IZR h)) else / IZR p * sqrt (r * r - IZR h * IZR h)) = r / IZR p * cos (th + IZR sg * phi)).
    { rewrite (side_sign sd k _ H3). assert (H7' := H7). fold r in H7'. transitivity (/ IZR p * (r * cos (th + IZR sg * phi))); [rewrite H7'; ring|unfold Rdiv; ring]. }
    assert (X: IZR h / IZR p = r / IZR p * sin (th + IZR sg * phi)).
    { rewrite <- H6. fold r. unfold Rdiv. ring. }
    assert (F := find_time_angle (r / IZR p) phi). rewrite <- X, <- Y in F.
    match goal with |- context [circular_find_time ?gg ?x ?y] => replace (circular_find_time gg x y) with (Ok (rdv * phi : RN)) by (symmetry; apply F; [apply Rdiv_lt_0_compat; [apply (IZR_lt 0), f_rho|exact P]|exact H5]) end.
    reflexivity.
Qed.
Lemma time_b i : (0 <= i < nb)%Z -> exists d phi, circular_b (N:=RN) g i p = Ok (d, Some (rdv * phi : RN)) /\ step_angle rho sg Ub (th + PI / 2) dl nb (i + 1) phi.
Proof.
  intros Hi. destruct f_radius as (_ & R1 & _). destruct f_start as [S1 S2]. destruct f_dirs as [D1 D2]. destruct f_ge as (_ & A1 & _). destruct f_axis as [_ Z1]. destruct f_net as (_ & N1 & _).
  destruct (start_piece_b rot rho sa sb A1 Hs Z1) as (k0 & U0 & D0 & X0). destruct ends_b as (w0 & we & W1 & W2 & W3 & W4).
  assert (SD: c_side_b g = negb (Z.odd k0)) by (rewrite (K k_side_b), S1, D1; exact X0).
  unfold circular_b. fold nb. destruct (Z.leb_spec nb i) as [L|L]; [lia|]. rewrite S2, R1, D2, SD.
  assert (P: 0 < IZR p) by now apply (IZR_lt 0). change (ofZ (p:=RN)) with IZR.
  destruct (Z.eqb_spec (i + 1) nb) as [E|E].
  - destruct (circular_helper sb (i + 1) rho (negb (Z.odd k0)) (dir_b_of rot sa sb)) as [[h d] sd]. rewrite div_R by lra. cbn [rbind].
    exists d, dl. split; [reflexivity|]. right. split; [exact E|reflexivity].
  - destruct (axis_angle rho sb (dir_b_of rot sa sb) sg k0 Ub f_rho A1 (sigma_1 rot) U0 D0 (th + PI / 2) dl w0 we nb W1 W2 W3 W4 N1 (negb (Z.odd k0)) (i + 1) ltac:(lia)) as (h & d & sd & k & phi & H1 & H2 & H3 & H4 & H5 & H6 & H7).
    rewrite H1. rewrite div_R by lra. cbn [rbind]. destruct f_radii as [_ ->]. change (sub (p:=RN)) with Rminus. change (mul (p:=RN)) with Rmult. rewrite (chord_mm h H2). cbn [rbind].
    assert (H3': xorb sd (Z.odd k) = true) by (rewrite H3; destruct (Z.odd k0); reflexivity). exists d, phi. split; [|left; split; [lia|exact H4]]. cbv zeta. 
    replace (th + PI / 2 + IZR sg * phi) with (PI / 2 + (th + IZR sg * phi)) in H6, H7 by ring. rewrite <- cos_sin in H6.
    assert (C: cos (PI / 2 + (th + IZR sg * phi)) = - sin (th + IZR sg * phi)) by (rewrite cos_plus, cos_PI2, sin_PI2; ring). rewrite C in H7.
    assert (Y: (if sd then - (/ IZR p * sqrt (r * r - IZR h * IZR h)) else / IZR p * sqrt (r * r - IZR h * IZR h)) = r / IZR p * sin (th + IZR sg * phi)).
    { rewrite (side_sign' sd k _ H3'). assert (H7' := H7). fold r in H7'. transitivity (/ IZR p * (- (r * - sin (th + IZR sg * phi)))); [rewrite H7'; ring|unfold Rdiv; ring]. }
    assert (X: IZR h / IZR p = r / IZR p * cos (th + IZR sg * phi)).
    { rewrite <- H6. fold r. unfold Rdiv. ring. }
    assert (F := find_time_angle (r / IZR p) phi). rewrite <- X, <- Y in F.
    match goal with |- context [circular_find_time ?gg ?x ?y] => replace (circular_find_time gg x y) with (Ok (rdv * phi : RN)) by (symmetry; apply F; [apply Rdiv_lt_0_compat; [apply (IZR_lt 0), f_rho|exact P]|exact H5]) end.
    reflexivity.
Qed.

(* ---------- the other axes ---------- *)
Lemma outside_vel : axis_c pl (K k_vel) * rdv * dl = Rabs (axis_c pl (delta : quad R)) /\ qe (K k_vel) * rdv * dl = Rabs (qe (delta : quad R)).
Proof.
  assert (Lg: 0 < (K k_length : R)) by (eapply length_gt; eassumption). assert (V: 0 < (K k_velocity : R)) by (eapply velocity_gt; eassumption).
  assert (A: 0 < (K k_arc : R)) by (eapply arc_gt; eassumption). assert (Rp: 0 < (K k_r : R)) by (eapply r_pos; eassumption). assert (Dp := f_angle).
  assert (C1: K k_cv = (K k_arc : R) / (K k_length : R) * (K k_velocity : R) :> R) by (eapply part_eq; try eassumption; exact (K k_cv_eq)).
  assert (C2: K k_v3 = Rabs (axis_c pl (delta : quad R)) / (K k_length : R) * (K k_velocity : R) :> R) by (eapply part_eq; try eassumption; exact (K k_v3_eq)).
  assert (C3: K k_ev = Rabs (qe (delta : quad R)) / (K k_length : R) * (K k_velocity : R) :> R) by (eapply part_eq; try eassumption; exact (K k_ev_eq)).
  assert (Ar: K k_arc = dl * (K k_r : R) :> R) by exact (K k_arc_eq).
  set (q := from_axes pl (K k_cv : R) (K k_cv : R) (K k_v3 : R) (K k_ev : R)).
  assert (IV: 0 < / (K k_length : R) * (K k_velocity : R)) by (apply Rmult_lt_0_compat; [now apply Rinv_0_lt_compat|exact V]).
  assert (D1: 0 < (K k_cv : R)) by (rewrite C1; unfold Rdiv; rewrite Rmult_assoc; now apply Rmult_lt_0_compat).
  assert (D2: 0 <= (K k_v3 : R)) by (rewrite C2; unfold Rdiv; rewrite Rmult_assoc; apply Rmult_le_pos; [apply Rabs_pos|lra]).
  assert (D3: 0 <= (K k_ev : R)) by (rewrite C3; unfold Rdiv; rewrite Rmult_assoc; apply Rmult_le_pos; [apply Rabs_pos|lra]).
  destruct (adjust_velocity_R cfg q Hc) as (k & Ek & Hk & _).
  { intros m. unfold q. destruct pl, m; cbn; lra. }
  assert (E: adjust_velocity (N:=RN) cfg q = Ok (K k_vel)) by (rewrite <- (K k_vel_eq); f_equal; unfold q; destruct pl; reflexivity).
  rewrite Ek in E. injection E as E.
  assert (V4: axis_a pl (K k_vel) = (K k_cv : R) * k :> R /\ axis_b pl (K k_vel) = (K k_cv : R) * k :> R /\ axis_c pl (K k_vel) = (K k_v3 : R) * k :> R /\ qe (K k_vel) = (K k_ev : R) * k :> R).
  { rewrite <- E. unfold q. destruct pl; repeat split; reflexivity. }
  destruct V4 as (V1 & V2 & V3 & V4).
  assert (Rd: rdv = (K k_r : R) / ((K k_cv : R) * k)).
  { unfold rdv. destruct (ofdiv _ _ _ (K k_rdv_eq)) as [_ ->]. rewrite pmin_R, V1, V2. unfold Rmin. destruct (Rle_dec _ _); reflexivity. }
  rewrite V3, V4, Rd. rewrite C2, C3, C1, Ar. clear - Lg V Rp Dp Hk.
  split; field; repeat split; lra.
Qed.
Lemma time_line i (j q : Z) (x w : R) : 0 < IZR q -> x = IZR j / IZR q -> w * rdv * dl = Rabs x -> (0 <= i <= Z.abs j)%Z ->
  circular_linear (N:=RN) i (Rabs x * IZR q) q w = Ok (if (i <? Z.abs j)%Z then Some (rdv * (dl * IZR i / IZR (Z.abs j)) : RN) else None).
Proof.
  intros Hq Ex Hw Hi. assert (Rp := rdv_gt). assert (Dp := f_angle). unfold circular_linear. change (leb (p:=RN)) with Rleb. change (ofZ (p:=RN)) with IZR.
  assert (Ax: Rabs x = IZR (Z.abs j) / IZR q). { rewrite Ex, abs_IZR. unfold Rdiv. rewrite Rabs_mult, (Rabs_pos_eq (/ IZR q)) by (left; now apply Rinv_0_lt_compat). reflexivity. }
  rewrite Ax in *. replace (IZR (Z.abs j) / IZR q * IZR q) with (IZR (Z.abs j)) by (field; lra). unfold Rleb.
  destruct (Z.ltb_spec i (Z.abs j)) as [L|L].
  - destruct (Rle_dec (IZR (Z.abs j)) (IZR i)) as [L2|_]; [apply le_IZR in L2; lia|].
    assert (J: 0 < IZR (Z.abs j)) by (apply (IZR_lt 0); lia).
    assert (W: w = IZR (Z.abs j) / (IZR q * (rdv * dl))).
    { assert (RD: 0 < rdv * dl) by now apply Rmult_lt_0_compat. apply (Rmult_eq_reg_r (rdv * dl)); [|lra]. replace (w * (rdv * dl)) with (w * rdv * dl) by ring. rewrite Hw. field. split; lra. }
    assert (W0: 0 < w). { rewrite W. apply Rdiv_lt_0_compat; [exact J|]. apply Rmult_lt_0_compat; [exact Hq|]. now apply Rmult_lt_0_compat. }
    rewrite div_R by lra. cbn [rbind]. rewrite div_R by lra. cbn [rbind]. do 2 f_equal. rewrite W. field. repeat split; lra.
  - destruct (Rle_dec (IZR (Z.abs j)) (IZR i)) as [_|L2]; [reflexivity|]. exfalso. apply L2. now apply IZR_le.
Qed.

(* ---------- all steps ---------- *)
Definition some_time (r : res (Z * option RN)) : R := match r with Ok (_, Some t) => t | _ => 0 end.
Let ta (i : Z) : R := some_time (circular_a (N:=RN) g i p).
Let tb (i : Z) : R := some_time (circular_b (N:=RN) g i p).
Let tl (j i : Z) : R := rdv * (dl * IZR i / IZR (Z.abs j)).
Let nn (m : motor) : Z := qat m (from_axes pl na nb (Z.abs jc) (Z.abs je)).
Let tm (m : motor) (i : Z) : R := qat m (from_axes pl (ta i) (tb i) (tl jc i) (tl je i)).

Lemma ta_angle i : (0 <= i < na)%Z -> exists phi, ta i = rdv * phi /\ step_angle rho sg Ua th dl na (i + 1) phi.
Proof. intros Hi. destruct (time_a i Hi) as (d & phi & E & S). exists phi. split; [|exact S]. unfold ta. rewrite E. reflexivity. Qed.
Lemma tb_angle i : (0 <= i < nb)%Z -> exists phi, tb i = rdv * phi /\ step_angle rho sg Ub (th + PI / 2) dl nb (i + 1) phi.
Proof. intros Hi. destruct (time_b i Hi) as (d & phi & E & S). exists phi. split; [|exact S]. unfold tb. rewrite E. reflexivity. Qed.
Lemma path_interp i : (forall m, 0 <= qat m i <= nn m)%Z ->
  exists d t, gen_interp cfg (GCircular g) i = Ok (d, t) /\ forall m, qat m t = if (qat m i <? nn m)%Z then Some (tm m (qat m i) : RN) else None.
Proof.
  intros Hi. unfold nn in Hi. assert (KP := K k_plane).
  assert (A := Hi (motor_a pl)). rewrite from_axes_a in A. assert (B := Hi (motor_b pl)). rewrite from_axes_b in B.
  assert (C := Hi (motor_c pl)). rewrite from_axes_c in C. assert (E := Hi ME). rewrite from_axes_e in E. clear Hi.
  assert (XA: exists d, circular_a (N:=RN) g (qat (motor_a pl) i) p = Ok (d, if (qat (motor_a pl) i <? na)%Z then Some (ta (qat (motor_a pl) i) : RN) else None)).
  { destruct (Z.ltb_spec (qat (motor_a pl) i) na) as [L|L].
    - destruct (time_a (qat (motor_a pl) i) ltac:(lia)) as (d & phi & E1 & _). exists d. unfold ta. rewrite E1. reflexivity.
    - assert (X: exists d t, circular_a (N:=RN) g (qat (motor_a pl) i) p = Ok (d, t) /\ match t with None => True | Some x => (qat (motor_a pl) i < na)%Z /\ (0 <= x)%R end) by (eapply circular_a_exact; eassumption).
      destruct X as (d & [x|] & E1 & E2); [lia|]. exists d. exact E1. }
  assert (XB: exists d, circular_b (N:=RN) g (qat (motor_b pl) i) p = Ok (d, if (qat (motor_b pl) i <? nb)%Z then Some (tb (qat (motor_b pl) i) : RN) else None)).
  { destruct (Z.ltb_spec (qat (motor_b pl) i) nb) as [L|L].
    - destruct (time_b (qat (motor_b pl) i) ltac:(lia)) as (d & phi & E1 & _). exists d. unfold tb. rewrite E1. reflexivity.
    - assert (X: exists d t, circular_b (N:=RN) g (qat (motor_b pl) i) p = Ok (d, t) /\ match t with None => True | Some x => (qat (motor_b pl) i < nb)%Z /\ (0 <= x)%R end) by (eapply circular_b_exact; eassumption).
      destruct X as (d & [x|] & E1 & E2); [lia|]. exists d. exact E1. }
  destruct XA as [da XA]. destruct XB as [db XB]. destruct outside_vel as [O1 O2].
  assert (PC: 0 < IZR (axis_c pl (ppm cfg))) by (eapply ppm_c; eassumption). assert (PE: 0 < IZR (qe (ppm cfg))) by (apply (IZR_lt 0), (sane_ppm cfg Hc ME)).
  assert (XC := time_line (qat (motor_c pl) i) jc _ _ _ PC Ec O1 C). assert (XE := time_line (qat ME i) je _ _ _ PE Ee O2 E).
  exists (from_axes pl da db (c_third_dir g) (c_e_dir g)), (from_axes pl (if (qat (motor_a pl) i <? na)%Z then Some (ta (qat (motor_a pl) i) : RN) else None)
    (if (qat (motor_b pl) i <? nb)%Z then Some (tb (qat (motor_b pl) i) : RN) else None)
    (if (qat (motor_c pl) i <? Z.abs jc)%Z then Some (tl jc (qat (motor_c pl) i) : RN) else None)
    (if (qat ME i <? Z.abs je)%Z then Some (tl je (qat ME i) : RN) else None)). split.
  - cbn [gen_interp]. unfold circular_interp. rewrite KP, !qat_axis_a, !qat_axis_b, <- (qat_axis_a pl (ppm cfg)), <- (qat_axis_b pl (ppm cfg)), Pa, Pb.
    rewrite XA. cbn [rbind]. rewrite XB. cbn [rbind]. rewrite (K k_it3), (K k_ite), (K k_vel3), (K k_vele). rewrite (qat_axis_c pl i).
    match goal with |- context [rbind ?x _] => replace x with (Ok (if (qat (motor_c pl) i <? Z.abs jc)%Z then Some (tl jc (qat (motor_c pl) i) : RN) else None)) by (symmetry; exact XC) end. cbn [rbind].
    match goal with |- context [rbind ?x _] => replace x with (Ok (if (qat ME i <? Z.abs je)%Z then Some (tl je (qat ME i) : RN) else None)) by (symmetry; exact XE) end. reflexivity.
  - intros m. unfold nn, tm. destruct (motor_cases pl m) as [->|[->|[->| ->]]]; rewrite ?from_axes_a, ?from_axes_b, ?from_axes_c, ?from_axes_e; reflexivity.
Qed.
Lemma axis_dirs_a : exists k0 w0 we, Ua = (2 * k0 * rho + esg k0 * sa)%Z /\ dir_a_of rot sa sb = (sg * esg k0)%Z /\
  at_count r w0 th /\ Rabs (w0 - IZR Ua) <= / 2 /\ at_count r we (th + IZR sg * dl) /\ Rabs (we - IZR (Ua + sg * na)) <= / 2.
Proof.
  destruct f_ge as (A1 & _). destruct f_axis as [Z1 _]. destruct (start_piece_a rot rho sa sb A1 Hs Z1) as (k0 & U0 & D0 & _). destruct ends_a as (w0 & we & W).
  exists k0, w0, we. exact (conj U0 (conj D0 W)).
Qed.
Lemma axis_dirs_b : exists k0 w0 we, Ub = (2 * k0 * rho + esg k0 * sb)%Z /\ dir_b_of rot sa sb = (sg * esg k0)%Z /\
  at_count r w0 (th + PI / 2) /\ Rabs (w0 - IZR Ub) <= / 2 /\ at_count r we (th + PI / 2 + IZR sg * dl) /\ Rabs (we - IZR (Ub + sg * nb)) <= / 2.
Proof.
  destruct f_ge as (_ & A1 & _). destruct f_axis as [_ Z1]. destruct (start_piece_b rot rho sa sb A1 Hs Z1) as (k0 & U0 & D0 & _). destruct ends_b as (w0 & we & W).
  exists k0, w0, we. exact (conj U0 (conj D0 W)).
Qed.
Lemma tl_lt j x y : (x < y)%Z -> (0 < Z.abs j)%Z -> tl j x < tl j y.
Proof.
  intros L J. assert (Rp := rdv_gt). assert (Dp := f_angle). unfold tl. apply Rmult_lt_compat_l; [exact Rp|]. apply (IZR_lt 0) in J. apply IZR_lt in L.
  apply Rmult_lt_compat_r; [now apply Rinv_0_lt_compat|]. now apply Rmult_lt_compat_l.
Qed.
Lemma tl_range j x : (0 <= x < Z.abs j)%Z -> 0 <= tl j x <= rdv * dl.
Proof.
  intros [L1 L2]. assert (Rp := rdv_gt). assert (Dp := f_angle). assert (J: 0 < IZR (Z.abs j)) by (apply (IZR_lt 0); lia). apply (IZR_le 0) in L1. apply IZR_lt in L2. unfold tl.
  assert (F: 0 <= IZR x / IZR (Z.abs j) <= 1).
  { split; [apply Rmult_le_pos; [exact L1|left; now apply Rinv_0_lt_compat]|]. apply (Rmult_le_reg_r (IZR (Z.abs j))); [exact J|]. unfold Rdiv. rewrite Rmult_assoc, Rinv_l by lra. lra. }
  replace (dl * IZR x / IZR (Z.abs j)) with (dl * (IZR x / IZR (Z.abs j))) by (unfold Rdiv; ring). set (u := IZR x / IZR (Z.abs j)) in *. split; [apply Rmult_le_pos; [lra|apply Rmult_le_pos; lra]|].
  apply Rmult_le_compat_l; [lra|]. nra.
Qed.
Lemma step_angle_dl U theta n i phi w0 we k0 s dir : U = (2 * k0 * rho + esg k0 * s)%Z -> dir = (sg * esg k0)%Z -> at_count r w0 theta -> Rabs (w0 - IZR U) <= / 2 ->
  at_count r we (theta + IZR sg * dl) -> Rabs (we - IZR (U + sg * n)) <= / 2 ->
  (0 < i <= n)%Z -> step_angle rho sg U theta dl n i phi -> 0 < phi <= dl.
Proof.
  intros U0 D0 W1 W2 W3 W4 Hi S. split.
  - eapply (step_angle_pos rho s dir sg k0 U f_rho (sigma_1 rot) D0 theta dl w0 we n W1 W2 W3 W4 i phi Hi f_angle S).
  - destruct (Z.eq_dec i n) as [->|N].
    + destruct S as [[S _]|[_ S]]; [lia|lra].
    + left. apply (step_angles_lt rho s dir sg k0 U f_rho (sigma_1 rot) D0 theta dl we n W3 W4 i n phi dl ltac:(lia) ltac:(lia) S). right. split; reflexivity.
Qed.
Lemma path_mono m i j : (0 <= i)%Z -> (i < j)%Z -> (j < nn m)%Z -> tm m i < tm m j.
Proof.
  intros Hi Hij. assert (Rp := rdv_gt). unfold nn, tm. destruct (motor_cases pl m) as [->|[->|[->| ->]]]; rewrite ?from_axes_a, ?from_axes_b, ?from_axes_c, ?from_axes_e; intros Hj.
  - destruct axis_dirs_a as (k0 & w0 & we & U0 & D0 & W1 & W2 & W3 & W4). destruct (ta_angle i ltac:(lia)) as (phi & -> & S1). destruct (ta_angle j ltac:(lia)) as (psi & -> & S2).
    apply Rmult_lt_compat_l; [exact Rp|]. exact (step_angles_lt rho sa _ sg k0 Ua f_rho (sigma_1 rot) D0 th dl we na W3 W4 (i + 1) (j + 1) phi psi ltac:(lia) ltac:(lia) S1 S2).
  - destruct axis_dirs_b as (k0 & w0 & we & U0 & D0 & W1 & W2 & W3 & W4). destruct (tb_angle i ltac:(lia)) as (phi & -> & S1). destruct (tb_angle j ltac:(lia)) as (psi & -> & S2).
    apply Rmult_lt_compat_l; [exact Rp|]. exact (step_angles_lt rho sb _ sg k0 Ub f_rho (sigma_1 rot) D0 (th + PI / 2) dl we nb W3 W4 (i + 1) (j + 1) phi psi ltac:(lia) ltac:(lia) S1 S2).
  - apply tl_lt; lia.
  - apply tl_lt; lia.
Qed.
Lemma path_range m i : (0 <= i < nn m)%Z -> 0 <= tm m i <= rdv * dl.
Proof.
  assert (Rp := rdv_gt). unfold nn, tm. destruct (motor_cases pl m) as [->|[->|[->| ->]]]; rewrite ?from_axes_a, ?from_axes_b, ?from_axes_c, ?from_axes_e; intros Hi.
  - destruct axis_dirs_a as (k0 & w0 & we & U0 & D0 & W1 & W2 & W3 & W4). destruct (ta_angle i Hi) as (phi & -> & S1).
    assert (B := step_angle_dl _ _ _ _ _ _ _ _ _ _ U0 D0 W1 W2 W3 W4 ltac:(instantiate (1 := (i + 1)%Z); lia) S1). split; [apply Rmult_le_pos; lra|apply Rmult_le_compat_l; lra].
  - destruct axis_dirs_b as (k0 & w0 & we & U0 & D0 & W1 & W2 & W3 & W4). destruct (tb_angle i Hi) as (phi & -> & S1).
    assert (B := step_angle_dl _ _ _ _ _ _ _ _ _ _ U0 D0 W1 W2 W3 W4 ltac:(instantiate (1 := (i + 1)%Z); lia) S1). split; [apply Rmult_le_pos; lra|apply Rmult_le_compat_l; lra].
  - now apply tl_range.
  - now apply tl_range.
Qed.
Lemma nn_nonneg m : (0 <= nn m)%Z.
Proof. destruct f_net as (N1 & N2 & _). unfold nn. destruct (motor_cases pl m) as [->|[->|[->| ->]]]; rewrite ?from_axes_a, ?from_axes_b, ?from_axes_c, ?from_axes_e; lia. Qed.
Lemma near_line (k j : Z) (phi : R) : 0 <= phi <= dl -> (0 <= k <= Z.abs j)%Z -> ((0 < k)%Z -> tl j (k - 1) <= rdv * phi) -> ((k < Z.abs j)%Z -> rdv * phi < tl j k) ->
  Rabs (IZR k - IZR (Z.abs j) * (phi / dl)) <= 1.
Proof.
  intros Hphi Hk H1 H2. assert (Rp := rdv_gt). assert (Dp := f_angle).
  assert (U: 0 <= phi / dl <= 1).
  { split; [apply Rmult_le_pos; [lra|left; now apply Rinv_0_lt_compat]|]. apply (Rmult_le_reg_r dl); [exact Dp|]. unfold Rdiv. rewrite Rmult_assoc, Rinv_l by lra. lra. }
  destruct (Z.eq_dec j 0) as [->|J0].
  { replace k with 0%Z by (cbn in Hk; lia). rewrite Rmult_0_l, Rminus_0_r, Rabs_R0. lra. }
  assert (J: 0 < IZR (Z.abs j)) by (apply (IZR_lt 0); lia). set (J' := IZR (Z.abs j)) in *.
  assert (E: phi = dl * (J' * (phi / dl)) / J') by (field; lra). set (u := phi / dl) in *. clearbody u.
  assert (X: forall a b : R, dl * a / J' <= dl * b / J' -> a <= b).
  { intros a b L. apply (Rmult_le_reg_l dl); [exact Dp|]. apply (Rmult_le_reg_r (/ J')); [now apply Rinv_0_lt_compat|]. exact L. }
  assert (B1: IZR k - 1 <= J' * u).
  { destruct (Z.eq_dec k 0) as [->|K0]; [nra|]. specialize (H1 ltac:(lia)). unfold tl in H1. fold J' in H1. apply Rmult_le_reg_l in H1; [|exact Rp]. rewrite E in H1. apply X in H1. now rewrite minus_IZR in H1. }
  assert (B2: J' * u <= IZR k).
  { destruct (Z.eq_dec k (Z.abs j)) as [->|K0]; [fold J'; nra|]. specialize (H2 ltac:(lia)). unfold tl in H2. fold J' in H2. apply Rmult_lt_reg_l in H2; [|exact Rp]. rewrite E in H2. apply X. left. exact H2. }
  apply Rabs_le. lra.
Qed.
(** After every pulse: near the point of the circle, and near the same part of the
    movement of the other axes. *)
Lemma near_due (i : motor -> Z) (phi : R) : 0 <= phi <= dl -> due nn tm (rdv * phi) i ->
  Rabs (IZR (pos_a g (i (motor_a pl))) - r * sin (th + IZR sg * phi)) <= 3 / 2 /\ Rabs (IZR (pos_b g (i (motor_b pl))) - r * cos (th + IZR sg * phi)) <= 3 / 2 /\
  Rabs (IZR (i (motor_c pl)) - IZR (Z.abs jc) * (phi / dl)) <= 1 /\ Rabs (IZR (i ME) - IZR (Z.abs je) * (phi / dl)) <= 1.
Proof.
  intros Hphi D. assert (Rp := rdv_gt). destruct f_radius as (R1 & R2 & _). destruct f_start as [S1 S2]. destruct f_dirs as [D1 D2]. destruct f_ge as (A1 & A2 & _). destruct f_net as (N1 & N2 & _).
  assert (Da := D (motor_a pl)). assert (Db := D (motor_b pl)). assert (Dc := D (motor_c pl)). assert (De := D ME). unfold nn, tm in Da, Db, Dc, De. clear D.
  rewrite from_axes_a in Da. rewrite from_axes_b in Db. rewrite from_axes_c in Dc. rewrite from_axes_e in De.
  split; [|split; [|split]].
  - destruct axis_dirs_a as (k0 & w0 & we & U0 & D0 & W1 & W2 & W3 & W4). unfold pos_a, h_pos. rewrite S1, R1, D1.
    destruct Da as (Da1 & Da2 & Da3). revert Da2 Da3. rewrite ?from_axes_a. intros Da2 Da3.
    apply (axis_near rho sa (dir_a_of rot sa sb) sg k0 Ua f_rho A1 (sigma_1 rot) U0 D0 th dl w0 we na W1 W2 W3 W4 N1 false (i (motor_a pl)) phi Da1 Hphi).
    + intros L. specialize (Da2 L). destruct (ta_angle (i (motor_a pl) - 1) ltac:(lia)) as (psi & E & S). rewrite E in Da2. apply Rmult_le_reg_l in Da2; [|exact Rp].
      exists psi. split; [|exact Da2]. now replace (i (motor_a pl) - 1 + 1)%Z with (i (motor_a pl)) in S by lia.
    + intros L. specialize (Da3 L). destruct (ta_angle (i (motor_a pl)) ltac:(lia)) as (psi & E & S). rewrite E in Da3. apply Rmult_lt_reg_l in Da3; [|exact Rp].
      exists psi. split; [exact S|lra].
  - destruct axis_dirs_b as (k0 & w0 & we & U0 & D0 & W1 & W2 & W3 & W4). unfold pos_b, h_pos. rewrite S2, R2, D2.
    destruct Db as (Db1 & Db2 & Db3). revert Db2 Db3. rewrite ?from_axes_b. intros Db2 Db3.
    replace (cos (th + IZR sg * phi)) with (sin (th + PI / 2 + IZR sg * phi)) by (rewrite cos_sin; f_equal; ring).
    apply (axis_near rho sb (dir_b_of rot sa sb) sg k0 Ub f_rho A2 (sigma_1 rot) U0 D0 (th + PI / 2) dl w0 we nb W1 W2 W3 W4 N2 false (i (motor_b pl)) phi Db1 Hphi).
    + intros L. specialize (Db2 L). destruct (tb_angle (i (motor_b pl) - 1) ltac:(lia)) as (psi & E & S). rewrite E in Db2. apply Rmult_le_reg_l in Db2; [|exact Rp].
      exists psi. split; [|exact Db2]. now replace (i (motor_b pl) - 1 + 1)%Z with (i (motor_b pl)) in S by lia.
    + intros L. specialize (Db3 L). destruct (tb_angle (i (motor_b pl)) ltac:(lia)) as (psi & E & S). rewrite E in Db3. apply Rmult_lt_reg_l in Db3; [|exact Rp].
      exists psi. split; [exact S|lra].
  - destruct Dc as (Dc1 & Dc2 & Dc3). revert Dc2 Dc3. rewrite ?from_axes_c. intros Dc2 Dc3. now apply near_line.
  - destruct De as (De1 & De2 & De3). revert De2 De3. rewrite ?from_axes_e. intros De2 De3. now apply near_line.
Qed.
Lemma sign_near (d k j : Z) (u : R) : (d = 1 \/ d = -1)%Z -> (d * Z.abs j = j)%Z -> Rabs (IZR k - IZR (Z.abs j) * u) <= 1 -> Rabs (IZR (d * k) - IZR j * u) <= 1.
Proof.
  intros Hd E H. rewrite <- E at 1. rewrite !mult_IZR. replace (IZR d * IZR k - IZR d * IZR (Z.abs j) * u) with (IZR d * (IZR k - IZR (Z.abs j) * u)) by ring.
  rewrite Rabs_mult. replace (Rabs (IZR d)) with 1; [lra|]. destruct Hd as [-> | ->]; [symmetry; apply Rabs_R1|]. rewrite Rabs_left by lra. lra.
Qed.
(** A pulse of an axis of the plane comes when the point of the circle is at the
    position the axis steps to, or is the last one of this axis. *)
Lemma same_angle U theta u (phi psi : R) : U = u -> at_count r (IZR U) (theta + IZR sg * phi) -> at_count r (IZR u) (theta + IZR sg * psi) -> phi = psi.
Proof.
  intros -> C1 C2. assert (Rp: 0 < r) by (apply (IZR_lt 0), f_rho).
  destruct (Rtotal_order (theta + IZR sg * phi) (theta + IZR sg * psi)) as [L|[L|L]].
  - assert (X := count_mono r Rp _ _ _ _ C1 C2 L). lra.
  - destruct (sigma_1 rot) as [E|E]; unfold sg in L; rewrite E in L; lra.
  - assert (X := count_mono r Rp _ _ _ _ C2 C1 L). lra.
Qed.
Lemma exact_a k phi : (0 <= k < na)%Z -> ta k = rdv * phi -> ((k + 1 < na)%Z -> IZR (pos_a g (k + 1)) = r * sin (th + IZR sg * phi)) /\ ((k + 1)%Z = na -> phi = dl).
Proof.
  intros Hk E. assert (Rp := rdv_gt). destruct (ta_angle k Hk) as (phi1 & E1 & S). rewrite E in E1. apply Rmult_eq_reg_l in E1; [|lra]. subst phi1.
  destruct S as [[S1 S2]|[S1 S2]]; [split; [intros _|intros; lia]|split; [intros; lia|auto]]. destruct axis_dirs_a as (k0 & w0 & we & U0 & D0 & W1 & W2 & W3 & W4).
  destruct f_radius as (R1 & _). destruct f_start as [T1 _]. destruct f_dirs as [D1 _]. destruct f_ge as (A1 & _). destruct f_net as (N1 & _).
  destruct (axis_angle rho sa (dir_a_of rot sa sb) sg k0 Ua f_rho A1 (sigma_1 rot) U0 D0 th dl w0 we na W1 W2 W3 W4 N1 false (k + 1) S1) as (h & d & sd & kk & psi & H1 & H2 & H3 & H4 & H5 & H6 & H7).
  rewrite (same_angle _ _ _ _ _ eq_refl S2 H4). unfold pos_a, h_pos. rewrite T1, R1, D1, H1. cbn [fst]. symmetry. exact H6.
Qed.
Lemma exact_b k phi : (0 <= k < nb)%Z -> tb k = rdv * phi -> ((k + 1 < nb)%Z -> IZR (pos_b g (k + 1)) = r * cos (th + IZR sg * phi)) /\ ((k + 1)%Z = nb -> phi = dl).
Proof.
  intros Hk E. assert (Rp := rdv_gt). destruct (tb_angle k Hk) as (phi1 & E1 & S). rewrite E in E1. apply Rmult_eq_reg_l in E1; [|lra]. subst phi1.
  destruct S as [[S1 S2]|[S1 S2]]; [split; [intros _|intros; lia]|split; [intros; lia|auto]]. destruct axis_dirs_b as (k0 & w0 & we & U0 & D0 & W1 & W2 & W3 & W4).
  destruct f_radius as (_ & R1 & _). destruct f_start as [_ T1]. destruct f_dirs as [_ D1]. destruct f_ge as (_ & A1 & _). destruct f_net as (_ & N1 & _).
  destruct (axis_angle rho sb (dir_b_of rot sa sb) sg k0 Ub f_rho A1 (sigma_1 rot) U0 D0 (th + PI / 2) dl w0 we nb W1 W2 W3 W4 N1 false (k + 1) S1) as (h & d & sd & kk & psi & H1 & H2 & H3 & H4 & H5 & H6 & H7).
  rewrite (same_angle _ _ _ _ _ eq_refl S2 H4). unfold pos_b, h_pos. rewrite T1, R1, D1, H1. cbn [fst].
  replace (cos (th + IZR sg * psi)) with (sin (th + PI / 2 + IZR sg * psi)) by (rewrite cos_sin; f_equal; ring). symmetry. exact H6.
Qed.
Lemma exact_line j k phi : (0 <= k < Z.abs j)%Z -> rdv * phi = tl j k -> IZR (Z.abs j) * (phi / dl) = IZR k.
Proof.
  intros Hk E. assert (Rp := rdv_gt). assert (Dp := f_angle). unfold tl in E. apply Rmult_eq_reg_l in E; [|lra]. rewrite E.
  assert (J: 0 < IZR (Z.abs j)) by (apply (IZR_lt 0); lia). field. split; lra.
Qed.
Lemma step_here m (q : quad (option RN)) (l1 : list (item RN)) x : qat m q = Some x -> steps m (l1 ++ [Pulse q]) = (steps m l1 + 1)%Z.
Proof. intros E. induction l1 as [|it l1 IH]; [cbn [steps app fold_right step_of]; rewrite E; reflexivity|]. cbn [app]. change (steps m (it :: ?z)) with (step_of m it + steps m z)%Z. rewrite IH. lia. Qed.
Lemma steps_app' m (l1 l2 : list (item RN)) : steps m (l1 ++ l2) = (steps m l1 + steps m l2)%Z.
Proof. induction l1 as [|it l1 IH]; [reflexivity|]. cbn [app]. change (steps m (it :: ?z)) with (step_of m it + steps m z)%Z. rewrite IH. lia. Qed.
Lemma tm_a k : tm (motor_a pl) k = ta k. Proof. unfold tm. now rewrite from_axes_a. Qed.
Lemma tm_b k : tm (motor_b pl) k = tb k. Proof. unfold tm. now rewrite from_axes_b. Qed.
Lemma tm_c k : tm (motor_c pl) k = tl jc k. Proof. unfold tm. now rewrite from_axes_c. Qed.
Lemma tm_e k : tm ME k = tl je k. Proof. unfold tm. now rewrite from_axes_e. Qed.
Lemma path_follows l : completes cfg (GCircular g) l -> exists s (f : nat -> R), iter_start cfg (GCircular g) = Ok s /\
  (forall l1 q l2, l = l1 ++ Pulse q :: l2 -> let l' := l1 ++ [Pulse q] in let phi := f (length l1) in 0 <= phi <= dl /\
     (Rabs (IZR (sa + travel cfg (motor_a pl) l') - r * sin (th + IZR sg * phi)) <= 3 / 2 /\
      Rabs (IZR (sb + travel cfg (motor_b pl) l') - r * cos (th + IZR sg * phi)) <= 3 / 2 /\
      Rabs (IZR (travel cfg (motor_c pl) l') - IZR jc * (phi / dl)) <= 1 /\ Rabs (IZR (travel cfg ME l') - IZR je * (phi / dl)) <= 1) /\
     (qat (motor_a pl) q <> None -> (steps (motor_a pl) l2 <> 0%Z -> IZR (sa + travel cfg (motor_a pl) l') = r * sin (th + IZR sg * phi)) /\ (steps (motor_a pl) l2 = 0%Z -> phi = dl)) /\
     (qat (motor_b pl) q <> None -> (steps (motor_b pl) l2 <> 0%Z -> IZR (sb + travel cfg (motor_b pl) l') = r * cos (th + IZR sg * phi)) /\ (steps (motor_b pl) l2 = 0%Z -> phi = dl)) /\
     (qat (motor_c pl) q <> None -> IZR (Z.abs jc) * (phi / dl) = IZR (steps (motor_c pl) l1) /\ (steps (motor_c pl) l1 < Z.abs jc)%Z) /\
     (qat ME q <> None -> IZR (Z.abs je) * (phi / dl) = IZR (steps ME l1) /\ (steps ME l1 < Z.abs je)%Z) /\
     forall m x, qat m q = Some x -> to_accelerated_time (N:=RN) (c_acc g) (c_lin g) (it_c s) (rdv * phi : RN) = Ok x) /\
  (forall l1 q l2 l1' q' l2', l = l1 ++ Pulse q :: l2 -> l = l1' ++ Pulse q' :: l2' -> (length l1 < length l1')%nat -> f (length l1) < f (length l1')).
Proof.
  intros Hl. assert (Rp := rdv_gt). assert (Dp := f_angle).
  destruct (completes_timed cfg (GCircular g) nn tm path_interp path_mono (fun m i H => proj1 (path_range m i H)) nn_nonneg l Hl) as (s & Es & T).
  assert (Tot := timed_total (GCircular g) nn tm _ _ _ _ T).
  destruct (timed_places (GCircular g) nn tm _ _ _ _ T) as (f & F1 & F2). exists s, (fun k => f k / rdv). split; [exact Es|]. split.
  - intros l1 q l2 E l' phi. destruct (F1 l1 q l2 E) as (D & _ & (m & k & Hk & Ef) & Ti).
    assert (Ey: f (length l1) = rdv * phi) by (unfold phi; field; lra). rewrite Ey in D, Ti.
    assert (Hphi: 0 <= phi <= dl).
    { assert (B := path_range m k Hk). rewrite <- Ef, Ey in B. destruct B as [B1 B2]. apply Rmult_le_reg_l in B2; [|exact Rp]. split; [|exact B2]. apply (Rmult_le_reg_l rdv); lra. }
    split; [exact Hphi|]. destruct (near_due _ _ Hphi D) as (Na & Nb & Nc & Ne). cbv beta in Na, Nb, Nc, Ne. rewrite !Z.add_0_l in Na, Nb, Nc, Ne. fold l' in Na, Nb, Nc, Ne.
    destruct (completes_items _ _ _ Hl) as [nI En]. rewrite E in En. assert (El: l1 ++ Pulse q :: l2 = l' ++ l2) by (unfold l'; rewrite <- app_assoc; reflexivity). rewrite El in En. apply items_prefix in En.
    assert (O: starts_inside g) by (eapply inside; eassumption). assert (KP := K k_plane). destruct f_start as [S1 S2].
    assert (Ta := arc_travel_a cfg g O (length l')). assert (Tb := arc_travel_b cfg g O (length l')). assert (Tc := arc_third cfg g O (length l')). cbv zeta in Ta, Tb, Tc. rewrite En, KP in Ta, Tb, Tc.
    destruct Ta as [Ta _]. destruct Tb as [Tb _]. destruct Tc as [[Tc _] [Te _]]. rewrite S1 in Ta. rewrite S2 in Tb. rewrite (K k_dir3) in Tc. rewrite (K k_dire) in Te.
    assert (PC: 0 < IZR (axis_c pl (ppm cfg))) by (eapply ppm_c; eassumption). assert (PE: 0 < IZR (qe (ppm cfg))) by (apply (IZR_lt 0), (sane_ppm cfg Hc ME)).
    assert (CS: forall x : R, copysign1 (p:=RN) x = 1%Z \/ copysign1 (p:=RN) x = (-1)%Z) by (intros x; cbn; destruct (Rlt_dec _ _); auto).
    rewrite Ta, Tb, Tc, Te.
    assert (St: forall m x, qat m q = Some x -> steps m l' = (steps m l1 + 1)%Z) by (intros m' x; apply step_here).
    assert (Sm: forall m, (steps m l' + steps m l2 = nn m)%Z) by (intros m'; rewrite <- steps_app', <- El, <- E; exact (Tot m')).
    assert (Fi: forall m x, qat m q = Some x -> (0 <= steps m l1 < nn m)%Z /\ tm m (steps m l1) = rdv * phi).
    { intros m' x Ex. destruct (Ti m' x Ex) as (_ & T2 & T3). cbv beta in T2, T3. rewrite Z.add_0_l in T2, T3. split; [exact T2|now symmetry]. }
    assert (So: forall m, qat m q <> None -> exists x, qat m q = Some x) by (intros m'; destruct (qat m' q) as [x|]; [eauto|congruence]).
    split; [split; [exact Na|]; split; [exact Nb|]; split|].
    { apply sign_near; [apply CS|exact (third_dir 0 0 _ jc _ PC Ec)|exact Nc]. }
    { apply sign_near; [apply CS|exact (third_dir 0 0 _ je _ PE Ee)|exact Ne]. }
    split; [|split; [|split; [|split]]].
    + intros Hq. destruct (So _ Hq) as [x Ex]. destruct (Fi _ _ Ex) as [F3 F4]. assert (Sl := St _ _ Ex). assert (Sn := Sm (motor_a pl)). unfold nn in F3, Sn. rewrite tm_a in F4. rewrite from_axes_a in F3, Sn. rewrite Sl in Sn |- *.
      destruct (exact_a _ _ F3 F4) as [X1 X2]. split; intros Y; [apply X1; lia|apply X2; lia].
    + intros Hq. destruct (So _ Hq) as [x Ex]. destruct (Fi _ _ Ex) as [F3 F4]. assert (Sl := St _ _ Ex). assert (Sn := Sm (motor_b pl)). unfold nn in F3, Sn. rewrite tm_b in F4. rewrite from_axes_b in F3, Sn. rewrite Sl in Sn |- *.
      destruct (exact_b _ _ F3 F4) as [X1 X2]. split; intros Y; [apply X1; lia|apply X2; lia].
    + intros Hq. destruct (So _ Hq) as [x Ex]. destruct (Fi _ _ Ex) as [F3 F4]. unfold nn in F3. rewrite tm_c in F4. rewrite from_axes_c in F3. split; [|apply F3]. apply exact_line; [exact F3|now symmetry].
    + intros Hq. destruct (So _ Hq) as [x Ex]. destruct (Fi _ _ Ex) as [F3 F4]. unfold nn in F3. rewrite tm_e in F4. rewrite from_axes_e in F3. split; [|apply F3]. apply exact_line; [exact F3|now symmetry].
    + intros m' x Ex. apply (Ti m' x Ex).
  - intros l1 q l2 l1' q' l2' E E' L. assert (X := F2 _ _ _ _ _ _ E E' L). apply Rmult_lt_compat_r; [now apply Rinv_0_lt_compat|exact X].
Qed.
End Path.

(* ---------- the arcs ---------- *)
(** A point at [a], [b] from the centre, in the direction of the angle [t], measured
    from the second axis towards the first. *)
Definition in_direction (t : R) (a b : Z) : Prop :=
  IZR a = sqrt (IZR (a * a + b * b)) * sin t /\ IZR b = sqrt (IZR (a * a + b * b)) * cos t.
(** The angle of a part [phi] of the arc: clockwise it grows. *)
Definition arc_angle (rot : rotation) (t phi : R) : R := match rot with CW => t + phi | CCW => t - phi end.

Section Follow.
Variables (cfg : config) (delta radius : quad RN) (pl : plane) (rot : rotation) (v : RN) (g : circular_gen RN).
Hypothesis Hc : sane_cfg cfg.
Hypothesis Hv : (0 : R) < v.
Hypothesis Hg : make_circular (N:=RN) cfg delta radius pl rot v = Ok g.
Variables p sa sb ea eb jc je : Z.
Hypothesis G : arc_on_grid cfg pl delta radius p sa sb ea eb jc je.
Hypothesis F : forward_arc sa sb ea eb.
Let M := make_circular_made (N:=RN) cfg delta radius pl rot v g Hg.

Lemma arc_angle_sigma t phi : arc_angle rot t phi = t + IZR (sigma rot) * phi.
Proof. unfold arc_angle, sigma. destruct rot; ring. Qed.
Lemma follow_regular : regular sa sb ea eb.
Proof.
  destruct F as [F'|[F1 F2]]; [right; left; exact F'|]. destruct (Z.eq_dec (quadrant ea eb) (quadrant sa sb)) as [Q|Q]; [|left; exact Q].
  right. right. split; [exact Q|]. split; [exact F1|]. unfold back_in_quarter in F2. lia.
Qed.
Lemma follow_ends : let t := c_start_angle g : R in let d := c_delta_angle g : R in
  in_direction t sa sb /\ in_direction (arc_angle rot t d) ea eb /\ 0 < d <= 2 * PI.
Proof.
  intros t d. assert (Pp := net_p cfg delta radius pl rot v g Hc Hg p sa sb ea eb jc je G). assert (He := net_end cfg delta radius pl rot v g Hc Hg p sa sb ea eb jc je G). destruct G as [Pa Pb Sa Sb Ea Eb Ec Ee Hs].
  assert (St: angle_of (N:=RN) (IZR sa / IZR p) (IZR sb / IZR p) = Ok (t : RN)) by (eapply start_angle; eassumption).
  assert (En: angle_of (N:=RN) (IZR ea / IZR p) (IZR eb / IZR p) = Ok (k_end _ _ _ _ _ _ _ M)) by (eapply end_angle; eassumption).
  assert (T: exists j, t + IZR (sigma rot) * d = (k_end _ _ _ _ _ _ _ M : R) + 2 * PI * IZR j /\ d <= 2 * PI).
  { eexists. eapply delta_turns; eassumption. }
  destruct T as (j & T & D2).
  destruct (polar_steps p Pp sa sb ea eb Hs He sa sb t Hs St) as (_ & A1 & A2).
  destruct (polar_steps p Pp sa sb ea eb Hs He ea eb _ He En) as (_ & A3 & A4).
  split; [split; assumption|]. split; [|split; [eapply f_angle; eassumption|exact D2]].
  rewrite arc_angle_sigma, T. replace (2 * PI * IZR j) with (IZR (2 * j) * PI) by (rewrite mult_IZR; ring). unfold in_direction.
  destruct (sin_cos_kpi (k_end _ _ _ _ _ _ _ M) (2 * j)) as [-> ->]. replace (esg (2 * j)) with 1%Z by (unfold esg; rewrite Z.odd_mul; reflexivity). rewrite !Rmult_1_l. split; assumption.
Qed.
Lemma follow_circle l : completes cfg (GCircular g) l -> exists (t d : R) (f : nat -> R),
  in_direction t sa sb /\ in_direction (arc_angle rot t d) ea eb /\ 0 < d <= 2 * PI /\
  (forall l1 q l2, l = l1 ++ Pulse q :: l2 -> let l' := l1 ++ [Pulse q] in let phi := f (length l1) in 0 <= phi <= d /\
     Rabs (IZR (sa + travel cfg (motor_a pl) l') - IZR (len_steps sa sb) * sin (arc_angle rot t phi)) <= 3 / 2 /\
     Rabs (IZR (sb + travel cfg (motor_b pl) l') - IZR (len_steps sa sb) * cos (arc_angle rot t phi)) <= 3 / 2 /\
     Rabs (IZR (travel cfg (motor_c pl) l') - IZR jc * (phi / d)) <= 1 /\ Rabs (IZR (travel cfg ME l') - IZR je * (phi / d)) <= 1) /\
  (forall l1 q l2 l1' q' l2', l = l1 ++ Pulse q :: l2 -> l = l1' ++ Pulse q' :: l2' -> (length l1 < length l1')%nat -> f (length l1) < f (length l1')).
Proof.
  intros Hl. destruct follow_ends as (E1 & E2 & E3). exists (c_start_angle g : R), (c_delta_angle g : R).
  assert (Pp := net_p cfg delta radius pl rot v g Hc Hg p sa sb ea eb jc je G). assert (He := net_end cfg delta radius pl rot v g Hc Hg p sa sb ea eb jc je G). assert (Rg := follow_regular). destruct G as [Pa Pb Sa Sb Ea Eb Ec Ee Hs].
  destruct (path_follows cfg delta radius pl rot v g M p Pp Pa Pb sa sb ea eb Sa Sb Ea Eb Hs He Rg Hc Hv jc je Ec Ee l Hl) as (s & f & _ & F1 & F2).
  exists f. split; [exact E1|]. split; [exact E2|]. split; [exact E3|]. split; [|exact F2].
  intros l1 q l2 E l' phi. rewrite arc_angle_sigma. destruct (F1 l1 q l2 E) as (G1 & (G2 & G3 & G4 & G5) & _). repeat split; try assumption; apply G1.
Qed.
End Follow.
