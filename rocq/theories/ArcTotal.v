(** In exact arithmetic every arc whose two ends are on its circle is made. *)
From Coq Require Import ZArith Bool Reals Lra Lia List Psatz.
From Flocq Require Import Core.
From Verif Require Import PyBase PyNum Config Coordinates Pulses PulseSpec GMachine GMachineProofs LinearGen LinearReal ArcSpec ArcRun ArcMake ArcReal ArcAdjust.
From Coq Require Import List.
Import ListNotations.
Local Open Scope R_scope.

Lemma unit_ok (b r : R) : 0 < r -> r * r >= b * b -> exists an, acosn (p:=RN) (b / r) = Ok an /\ 0 <= an <= PI /\ (an = 0 -> b = r).
Proof.
  intros Hr Hb. assert (E: b / r * r = b) by (field; lra). assert (L: -1 <= b / r <= 1).
  { assert (Q: b / r * (b / r) <= 1) by (apply Rmult_le_reg_r with (r * r); [nra|]; replace (b / r * (b / r) * (r * r)) with (b * b) by (field; lra); lra). nra. }
  exists (acos (b / r)). split.
  - cbn. destruct (Rlt_dec 1 (b / r)); [lra|]. destruct (Rlt_dec (b / r) (-1)); [lra|reflexivity].
  - split; [apply acos_bound|]. intros H. assert (C := cos_acos (b / r) L). rewrite H, cos_0 in C. rewrite <- C in E. lra.
Qed.
(** The angle of a point other than the centre. *)
Lemma angle_ok (a b : R) : 0 < a * a + b * b -> exists an, angle_of (N:=RN) a b = Ok an /\ 0 <= an < 2 * PI.
Proof.
  intros H. unfold angle_of. assert (PI_ := PI_RGT_0).
  assert (S := sqrt_lt_R0 _ H). assert (SQ := sqrt_sqrt (a * a + b * b) ltac:(lra)).
  change (add (p:=RN)) with Rplus. change (mul (p:=RN)) with Rmult.
  rewrite sqrt_R by lra. cbn [rbind]. rewrite div_R by lra. cbn [rbind].
  destruct (unit_ok b (sqrt (a * a + b * b)) S) as (an & E & B & Z); [nra|]. rewrite E. cbn [rbind].
  eexists. split; [reflexivity|]. change (ltb (p:=RN)) with Rltb. change (@zero RN) with 0. destruct (Rltb a 0) eqn:A.
  - change (0 <= 2 * PI - an < 2 * PI). apply Rltb_true in A. assert (an <> 0) by (intros E0; apply Z in E0; rewrite <- E0 in SQ; nra). lra.
  - lra.
Qed.

Section Total.
Variable cfg : config.
Hypothesis Hc : sane_cfg cfg.
Variables (delta radius : quad RN) (pl : plane) (rot : rotation) (v : RN).
Hypothesis Hv : (0 : R) < v.
Let sa : R := - axis_a pl radius.
Let sb : R := - axis_b pl radius.
Let ea : R := sa + axis_a pl delta.
Let eb : R := sb + axis_b pl delta.
Let h := sqrt (sa * sa + sb * sb).
Let he := sqrt (ea * ea + eb * eb).
Let mpm := Z.min (axis_a pl (ppm cfg)) (axis_b pl (ppm cfg)).
Hypothesis Hr : (0 < ZnearestE (h * IZR mpm))%Z.
Hypothesis He : ZnearestE (he * IZR mpm) = ZnearestE (h * IZR mpm).

Lemma arc_made : exists g, make_circular (N:=RN) cfg delta radius pl rot v = Ok g.
Proof.
  assert (PI_ := PI_RGT_0).
  assert (PA: 0 < IZR (axis_a pl (ppm cfg))) by (apply (IZR_lt 0); destruct pl; [apply (sane_ppm cfg Hc MX)|apply (sane_ppm cfg Hc MY)|apply (sane_ppm cfg Hc MZ)]).
  assert (PB: 0 < IZR (axis_b pl (ppm cfg))) by (apply (IZR_lt 0); destruct pl; [apply (sane_ppm cfg Hc MY)|apply (sane_ppm cfg Hc MZ)|apply (sane_ppm cfg Hc MX)]).
  assert (PM: 0 < IZR mpm) by (apply (IZR_lt 0); apply (lt_IZR 0) in PA, PB; unfold mpm; lia).
  assert (PC: 0 < IZR (max_acceleration cfg)) by apply (IZR_lt 0), Hc.
  assert (NZ: forall x, (0 < ZnearestE (x * IZR mpm))%Z -> x <> 0).
  { intros x L ->. rewrite Rmult_0_l, (Zrnd_IZR ZnearestE 0) in L. lia. }
  assert (Hh: h <> 0) by (apply NZ; exact Hr). assert (Hhe: he <> 0) by (apply NZ; rewrite He; exact Hr).
  assert (HS: 0 < sa * sa + sb * sb) by (destruct (Req_dec (sa * sa + sb * sb) 0) as [E|E]; [unfold h in Hh; rewrite E, sqrt_0 in Hh; lra|nra]).
  assert (HE: 0 < ea * ea + eb * eb) by (destruct (Req_dec (ea * ea + eb * eb) 0) as [E|E]; [unfold he in Hhe; rewrite E, sqrt_0 in Hhe; lra|nra]).
  apply IZR_lt in Hr. set (r := IZR (ZnearestE (h * IZR mpm)) / IZR mpm). assert (Rp: 0 < r) by (apply Rdiv_lt_0_compat; assumption).
  unfold make_circular.
  change (neg (p:=RN)) with Ropp. change (add (p:=RN)) with Rplus. change (mul (p:=RN)) with Rmult. change (sub (p:=RN)) with Rminus. change (absn (p:=RN)) with Rabs.
  change (ofZ (p:=RN)) with IZR. change (rnd (p:=RN)) with (fun x : R => Ok (ZnearestE x)). change (trunc (p:=RN)) with (fun x : R => Ok (Ztrunc x)).
  change (@sixty RN) with 60. change (@two RN) with 2. change (@pin RN) with PI. change (@zero RN) with 0.
  rewrite (div_R v 60) by lra. cbn [rbind]. fold sa sb ea eb mpm.
  rewrite (sqrt_R (sa * sa + sb * sb)) by lra. cbn [rbind]. fold h.
  rewrite (div_R _ (IZR mpm)) by lra. rewrite (div_R _ (IZR (axis_a _ _))) by lra. rewrite (div_R _ (IZR (axis_b _ _))) by lra. cbn [rbind]. fold r.
  rewrite (sqrt_R (ea * ea + eb * eb)) by lra. cbn [rbind]. fold he.
  rewrite (div_R _ (IZR mpm)) by lra. cbn [rbind]. rewrite He. fold r. change (eqb (p:=RN) r r) with (Reqb r r).
  replace (Reqb r r) with true by (symmetry; now apply Reqb_true). cbn [guard rbind].
  destruct (angle_ok sa sb HS) as (an1 & E1 & A1). rewrite E1. destruct (angle_ok ea eb HE) as (an2 & E2 & A2). rewrite E2. cbn [rbind].
  cbv zeta.
  match goal with |- context [Rabs ?x] => match x with context [an2 - an1] => set (da := x : R) end end.
  assert (DA: 0 < Rabs da).
  { apply Rabs_pos_lt. unfold da. change (ltb (p:=RN)) with Rltb. change (eqb (p:=RN)) with Reqb.
    destruct (Rltb (an2 - an1) 0) eqn:L; cbn [orb]; [apply Rltb_true in L; destruct rot; lra|].
    apply Rltb_false in L. destruct (Reqb (an2 - an1) 0) eqn:Q; cbn [andb]; destruct rot; try lra.
    intros X. apply Reqb_true in X. congruence. }
  rewrite !(div_R _ 2) by lra. cbn [rbind].
  destruct (start_dirs _ _ _ _) as [d1 d2].
  rewrite !(div_R _ (PI / 2)) by lra. cbn [rbind].
  match goal with |- context [rbind (if ?c then Ok ?x else ?y) _] => assert (IT: exists i, (if c then Ok x else y) = Ok i) end.
  { destruct (Z.leb _ _); [eauto|]. destruct (Z.eqb _ _); destruct rot; cbn [rbind]; eauto;
      destruct (quarter_iterations _ _ _ _ _ _ _ _); eauto. }
  destruct IT as ([i1 i2] & IT). rewrite IT. clear IT. cbn [rbind].
  set (arc := Rabs da * r). assert (Ar: 0 < arc) by (apply Rmult_lt_0_compat; assumption).
  set (L2 := arc * arc + axis_c pl delta * axis_c pl delta + qe delta * qe delta).
  assert (HL2: 0 < L2) by (unfold L2; nra). rewrite (sqrt_R L2) by lra. cbn [rbind]. set (len_ := sqrt L2). assert (Lp: 0 < len_) by now apply sqrt_lt_R0.
  change (eqb (p:=RN) len_ 0) with (Reqb len_ 0). replace (Reqb len_ 0) with false by (symmetry; unfold Reqb; destruct (Req_EM_T len_ 0); [lra|reflexivity]).
  rewrite !(div_R _ len_) by lra. cbn [rbind].
  match goal with |- context [adjust_velocity _ ?x] => set (q := x : quad R) end.
  assert (V: 0 < v / 60) by (apply Rdiv_lt_0_compat; lra).
  assert (I: 0 < / len_) by now apply Rinv_0_lt_compat.
  set (cv := arc / len_ * (v / 60)) in *. assert (Cv: 0 < cv) by (unfold cv, Rdiv; apply Rmult_lt_0_compat; [apply Rmult_lt_0_compat; assumption|exact V]).
  set (cc := Rabs (axis_c pl delta) / len_ * (v / 60)) in *. assert (Cc: 0 <= cc) by (unfold cc, Rdiv; apply Rmult_le_pos; [apply Rmult_le_pos; [apply Rabs_pos|lra]|unfold Rdiv in V; lra]).
  set (ce := Rabs (qe delta) / len_ * (v / 60)) in *. assert (Ce: 0 <= ce) by (unfold ce, Rdiv; apply Rmult_le_pos; [apply Rmult_le_pos; [apply Rabs_pos|lra]|unfold Rdiv in V; lra]).
  assert (Eq: q = from_axes pl cv cv cc ce) by (unfold q; destruct pl; reflexivity). clearbody q. subst q.
  destruct (adjust_velocity_R cfg (from_axes pl cv cv cc ce) Hc) as (k & Ek & Hk & _).
  { intros m. destruct pl, m; cbn; lra. }
  rewrite Ek. cbn [rbind]. set (w := qmap (fun x => x * k) (from_axes pl cv cv cc ce)).
  assert (Wa: @axis_a (num RN) pl w = cv * k) by (unfold w; destruct pl; reflexivity). assert (Wb: @axis_b (num RN) pl w = cv * k) by (unfold w; destruct pl; reflexivity).
  assert (Wp: 0 < cv * k) by (apply Rmult_lt_0_compat; lra).
  rewrite pmin_R, Wa, Wb, Rmin_left by lra.
  rewrite (div_R r) by lra. cbn [rbind]. change (accel (N:=RN) cfg) with (IZR (max_acceleration cfg)). rewrite (div_R (find_max (N:=RN) w)) by lra. cbn [rbind sqr RN].
  match goal with |- context [if ?c then _ else _] => destruct c end.
  - rewrite (div_R len_) by lra. cbn [rbind]. assert (Q: 0 < len_ / IZR (max_acceleration cfg)) by (apply Rdiv_lt_0_compat; lra).
    rewrite sqrt_R by lra. cbn [rbind]. rewrite div_R by (apply Rgt_not_eq, sqrt_lt_R0, Q). cbn [rbind]. eauto.
  - match goal with |- context [sqrtn (p:=RN) ?x] => assert (Q: 0 < x) by nra; rewrite (sqrt_R x) by lra end. cbn [rbind].
    rewrite div_R by (apply Rgt_not_eq, sqrt_lt_R0, Q). cbn [rbind]. eauto.
Qed.
End Total.

(* ---------- the command ---------- *)
(** A point of the working area. *)
Definition in_area (cfg : config) (q : quad R) : Prop :=
  0 <= qx q <= IZR (table_x cfg) /\ 0 <= qy q <= IZR (table_y cfg) /\ 0 <= qz q <= IZR (table_z cfg).
(** The circle around (ca, cb) of radius r is inside the working area. *)
Definition circle_in_area (cfg : config) (pl : plane) (ca cb r : R) : Prop :=
  0 <= ca - r /\ ca + r <= IZR (axis_a pl (table_quad cfg)) /\ 0 <= cb - r /\ cb + r <= IZR (axis_b pl (table_quad cfg)).
Lemma area_box cfg q : in_area cfg q -> in_box (N:=RN) cfg q = true.
Proof.
  intros ((X1 & X2) & (Y1 & Y2) & Z1 & Z2). unfold in_box, is_in_aabb, sorted2, table_corner, coords0, coords. change (ltb (p:=RN)) with Rltb. change (ofZ (p:=RN)) with IZR. change (rnd10 (p:=RN)) with (fun x : R => x).
  cbv beta. cbn [qx qy qz qe]. change (@zero RN) with 0.
  rewrite !(proj2 (Rltb_false _ _)) by (cbn; lra). reflexivity.
Qed.
Lemma quarters_inside (n : nat) (cfg : config) pl rot pq eq (r ra rb pa pb : R) : circle_in_area cfg pl (pa + ra) (pb + rb) r ->
  quarters_ok (N:=RN) n rot pq eq r ra rb pa pb (IZR (axis_a pl (table_quad cfg))) (IZR (axis_b pl (table_quad cfg))) = true.
Proof.
  intros (A1 & A2 & B1 & B2). revert pq. induction n as [|n IH]; intros pq; [reflexivity|]. cbn [quarters_ok].
  destruct (Z.eqb _ eq); [reflexivity|].
  replace (crossing_out _ _ _ _ _ _ _ _ _) with false; [apply IH|]. symmetry. unfold crossing_out. change (ltb (p:=RN)) with Rltb. change (add (p:=RN)) with Rplus. change (sub (p:=RN)) with Rminus. change (@zero RN) with 0.
  rewrite !(proj2 (Rltb_false _ _)) by lra. repeat match goal with |- (if ?c then _ else _) = _ => destruct c end; reflexivity.
Qed.

Section Accepted.
Variable cfg : config.
Hypothesis Hc : sane_cfg cfg.
Hypothesis Ha : auto_velocity cfg = true.
Variable hw : hw_oracle RN.
Hypothesis Hhw : forall l ev, exists b, hw l ev = HReturn b.
Variables (delta radius : quad RN) (v : RN) (rot : rotation) (m : machine RN).
Hypothesis Hv : (0 : R) < v.
Notation pl := (m_plane m).
Let d := snap cfg delta.
Let rr := snap cfg radius.
Let ra : R := axis_a pl rr.
Let rb : R := axis_b pl rr.
Let da : R := axis_a pl d.
Let db : R := axis_b pl d.
Let r := sqrt (ra * ra + rb * rb).
Hypothesis Hr : 1 <= r * IZR (Z.min (axis_a pl (ppm cfg)) (axis_b pl (ppm cfg))).
Hypothesis On : (da - ra) * (da - ra) + (db - rb) * (db - rb) = ra * ra + rb * rb.
Hypothesis Sp : (da = 0 /\ db = 0) \/ da - ra = 0 \/ db - rb = 0 \/ Rabs (da - ra) = Rabs (db - rb).
Hypothesis Hcirc : circle_in_area cfg pl (axis_a pl (m_position m) + ra) (axis_b pl (m_position m) + rb) r.
Hypothesis Hend : in_area cfg (cadd (N:=RN) (m_position m) d).
Hypothesis H3 : axis_c pl d = (0 : R).
Hypothesis H4 : qe d = (0 : R).

Lemma accepted l : exists g, move_circular (N:=RN) cfg hw delta radius v rot m l = (set_position m (cadd (N:=RN) (m_position m) d), l ++ [EMove (GCircular g)], Ok tt) /\
  c_delta g = d /\ make_circular (N:=RN) cfg d rr pl rot v = Ok g.
Proof.
  assert (Hp := sane_ppm cfg Hc).
  assert (R2: r * r = ra * ra + rb * rb) by (apply sqrt_sqrt; nra).
  assert (Rp: 0 < r). { assert (S := sqrt_pos (ra * ra + rb * rb)). fold r in S. destruct (Req_dec r 0) as [E|E]; [rewrite E in Hr; lra|lra]. }
  destruct (arc_made cfg Hc d rr pl rot v Hv) as [g Hg].
  { change (0 < ZnearestE (sqrt (- ra * - ra + - rb * - rb) * IZR (Z.min (axis_a pl (ppm cfg)) (axis_b pl (ppm cfg)))))%Z.
    replace (- ra * - ra + - rb * - rb) with (ra * ra + rb * rb) by ring. fold r.
    apply Z.lt_le_trans with 1%Z; [reflexivity|]. rewrite <- (Zrnd_IZR ZnearestE 1). apply Zrnd_le; [apply valid_rnd_N|exact Hr]. }
  { change (ZnearestE (sqrt ((- ra + da) * (- ra + da) + (- rb + db) * (- rb + db)) * IZR (Z.min (axis_a pl (ppm cfg)) (axis_b pl (ppm cfg)))) = ZnearestE (sqrt (- ra * - ra + - rb * - rb) * IZR (Z.min (axis_a pl (ppm cfg)) (axis_b pl (ppm cfg))))).
    do 3 f_equal. lra. }
  exists g. assert (Dg: c_delta g = d) by exact (k_delta _ _ _ _ _ _ _ (make_circular_made (N:=RN) cfg d rr pl rot v g Hg)).
  split; [|split; [exact Dg|exact Hg]].
  assert (Fast := planar_acceptable cfg Hc Ha d rr pl rot v g (make_circular_made (N:=RN) cfg d rr pl rot v g Hg) Hv H3 H4).
  unfold move_circular, bind, lift. rewrite !(round_to_grid_R cfg Hp). fold d rr.
  unfold check_delta, bind, gets, fail_if. assert (B := area_box cfg _ Hend). unfold in_box in B. rewrite B. cbn [negb ret].
  unfold ret.
  assert (Ad: adjust_circle (N:=RN) da db ra rb rot (axis_a pl (m_position m)) (axis_b pl (m_position m)) (IZR (axis_a pl (table_quad cfg))) (IZR (axis_b pl (table_quad cfg))) = Ok (da, db)).
  { unfold adjust_circle. change (add (p:=RN)) with Rplus. change (mul (p:=RN)) with Rmult. rewrite sqrt_R by nra. cbn [rbind]. fold r.
    change (eqb (p:=RN) r (@zero RN)) with (Reqb r 0). replace (Reqb r 0) with false by (symmetry; unfold Reqb; destruct (Req_EM_T r 0); [lra|reflexivity]).
    destruct (end_point r da db ra rb) as (ea & eb & q & E & K); [rewrite R2; exact On|]. rewrite E. cbn [rbind].
    rewrite quarters_inside by exact Hcirc. apply K in Sp. destruct Sp as [-> ->]. reflexivity. }
  match goal with |- context [adjust_circle ?a ?b ?c ?d0 ?e ?f ?g0 ?h ?i] => change (adjust_circle a b c d0 e f g0 h i) with (adjust_circle (N:=RN) da db ra rb rot (axis_a pl (m_position m)) (axis_b pl (m_position m)) (IZR (axis_a pl (table_quad cfg))) (IZR (axis_b pl (table_quad cfg)))) end.
  rewrite Ad. cbv beta iota. unfold da, db.
  match goal with |- context [round_to_grid cfg ?q] => replace (round_to_grid cfg q) with (Ok d : res (quad RN)) end.
  2: { rewrite (round_to_grid_R cfg Hp). f_equal. transitivity (snap cfg d); [symmetry; apply (snap_id cfg Hp), snap_grid|]. f_equal. destruct pl, d; reflexivity. }
  rewrite Hg. unfold check_velocity, fail_if. rewrite Fast. cbn [ret]. unfold ret.
  assert (Z: csub (N:=RN) d d = Quad 0 0 0 0) by (unfold csub, coords; cbn; f_equal; lra).
  replace (is_zero (csub (N:=RN) d d)) with true.
  2: { rewrite Z. unfold is_zero. cbn [qx qy qz qe]. change (eqb (p:=RN) 0 (@zero RN)) with (Reqb 0 0). now rewrite (proj2 (Reqb_true 0 0) eq_refl). }
  unfold call. destruct (Hhw l (EMove (GCircular g))) as [b Hb]. rewrite Hb. unfold modify. do 3 f_equal. rewrite Z. unfold cadd, coords. cbn. f_equal; lra.
Qed.
End Accepted.
