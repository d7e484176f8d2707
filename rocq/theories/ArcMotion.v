(** The motion behind the pulses of an arc, in exact arithmetic: speed, acceleration
    and braking. *)
From Coq Require Import ZArith Bool Reals Lra Lia List Psatz.
From Flocq Require Import Core.
From Verif Require Import PyBase PyNum Config Coordinates Pulses PulseSpec GMachine GMachineProofs LinearGen LinearReal ArcSpec ArcRun ArcMake ArcTravel ArcReal ArcAdjust ArcTotal ArcQuarters ArcExact ArcNet CircleCount Schedule ArcPath Warp.
From Coq Require Import List.
From Flocq Require Import Core.
Import ListNotations.
Local Open Scope R_scope.

(* ---------- the specification ---------- *)
(** A motion along the circle behind the pulses [l] of an arc: at the time x the part
    [phi x] of the turn [d] is done, [dphi x] is its derivative. Every pulse comes when
    the axes are, up to 3/2 steps or one step, where the motion is; the axes that step
    are there exactly, but the axes of the plane make their last steps at the end of
    the turn. *)
Record arc_motion (cfg : config) (pl : plane) (rot : rotation) (sa sb jc je : Z) (l : list (item RN)) (t d : R) (phi dphi : R -> R) : Prop := {
  mo_start : phi 0 = 0;
  mo_deriv : forall x, derivable_pt_lim phi x (dphi x);
  mo_pulse : forall l1 q l2 m x, l = l1 ++ Pulse q :: l2 -> qat m q = Some (x : RN) -> let l' := l1 ++ [Pulse q] in
    0 <= x /\ 0 <= phi x <= d /\
    (Rabs (IZR (sa + travel cfg (motor_a pl) l') - IZR (len_steps sa sb) * sin (arc_angle rot t (phi x))) <= 3 / 2 /\
     Rabs (IZR (sb + travel cfg (motor_b pl) l') - IZR (len_steps sa sb) * cos (arc_angle rot t (phi x))) <= 3 / 2 /\
     Rabs (IZR (travel cfg (motor_c pl) l') - IZR jc * (phi x / d)) <= 1 /\
     Rabs (IZR (travel cfg ME l') - IZR je * (phi x / d)) <= 1) /\
    (m = motor_a pl -> (steps m l2 <> 0%Z -> IZR (sa + travel cfg m l') = IZR (len_steps sa sb) * sin (arc_angle rot t (phi x))) /\ (steps m l2 = 0%Z -> phi x = d)) /\
    (m = motor_b pl -> (steps m l2 <> 0%Z -> IZR (sb + travel cfg m l') = IZR (len_steps sa sb) * cos (arc_angle rot t (phi x))) /\ (steps m l2 = 0%Z -> phi x = d)) /\
    (m = motor_c pl -> IZR (Z.abs jc) * (phi x / d) = IZR (steps m l1) /\ (steps m l1 < Z.abs jc)%Z) /\
    (m = ME -> IZR (Z.abs je) * (phi x / d) = IZR (steps m l1) /\ (steps m l1 < Z.abs je)%Z);
  mo_order : forall l1 q l2 m x l1' q' l2' m' x', l = l1 ++ Pulse q :: l2 -> l = l1' ++ Pulse q' :: l2' -> (length l1 < length l1')%nat ->
    qat m q = Some (x : RN) -> qat m' q' = Some (x' : RN) -> (x : R) < x'
}.

(** An axis that starts from standstill and never accelerates with more than [A]
    (mm/s^2) has made at most A / 2 * x^2 mm, up to three steps, at any time x of a
    pulse. *)
Definition starts_within (A : R) (cfg : config) (l : list (item RN)) (m : motor) : Prop :=
  forall l1 q l2 m' x, l = l1 ++ Pulse q :: l2 -> qat m' q = Some (x : RN) ->
  IZR (Z.abs (travel cfg m (l1 ++ [Pulse q]))) <= IZR (qat m (ppm cfg)) * (A / 2 * ((x : R) * x)) + 3.
(** An axis that comes to standstill with the last pulse, at the time y, and never
    brakes with more than [A] has at most A / 2 * (y - x)^2 mm left at the time x. *)
Definition stops_within (A : R) (cfg : config) (l : list (item RN)) (m : motor) : Prop :=
  forall l1 q l2 m' x l1' q' l2' m'' y, l = l1 ++ Pulse q :: l2 -> qat m' q = Some (x : RN) -> l = l1' ++ Pulse q' :: l2' -> qat m'' q' = Some (y : RN) ->
  (forall l3 q3 l4 m3 z, l = l3 ++ Pulse q3 :: l4 -> qat m3 q3 = Some (z : RN) -> (z : R) <= y) ->
  IZR (Z.abs (travel cfg m l - travel cfg m (l1 ++ [Pulse q]))) <= IZR (qat m (ppm cfg)) * (A / 2 * (((y : R) - x) * (y - x))) + 3.

Lemma sin_lip a b : Rabs (sin a - sin b) <= Rabs (a - b).
Proof.
  assert (P: forall u w, u < w -> Rabs (sin w - sin u) <= w - u).
  { intros u w H. destruct (MVT_cor2 sin cos u w H (fun z _ => derivable_pt_lim_sin z)) as (z & E & _). rewrite E, Rabs_mult, (Rabs_pos_eq (w - u)) by lra.
    rewrite <- (Rmult_1_l (w - u)) at 2. apply Rmult_le_compat_r; [lra|]. apply Rabs_le, COS_bound. }
  destruct (Rtotal_order a b) as [H|[H|H]].
  - rewrite (Rabs_minus_sym (sin a)), (Rabs_minus_sym a), (Rabs_pos_eq (b - a)) by lra. now apply P.
  - rewrite H, !Rminus_diag_eq, Rabs_R0 by reflexivity. lra.
  - rewrite (Rabs_pos_eq (a - b)) by lra. now apply P.
Qed.
Lemma cos_lip a b : Rabs (cos a - cos b) <= Rabs (a - b).
Proof. rewrite !cos_sin. replace (a - b) with (PI / 2 + a - (PI / 2 + b)) by ring. apply sin_lip. Qed.
Lemma later_pulse m (l : list (item RN)) : steps m l <> 0%Z -> exists l1 q l2 x, l = l1 ++ Pulse q :: l2 /\ qat m q = Some x.
Proof.
  induction l as [|it l IH]; [intros H; now elim H|]. change (steps m (it :: l)) with (step_of m it + steps m l)%Z. intros H.
  destruct (Z.eq_dec (step_of m it) 0) as [E|E].
  - destruct IH as (l1 & q & l2 & x & -> & Hx); [lia|]. exists (it :: l1), q, l2, x. split; [reflexivity|exact Hx].
  - destruct it as [d|q]; cbn [step_of] in E; [now elim E|]. destruct (qat m q) as [x|] eqn:Ex; [|now elim E]. exists [], q, l, x. split; [reflexivity|exact Ex].
Qed.
Lemma nth_step m (l : list (item RN)) k : (0 <= k < steps m l)%Z -> exists l1 q l2 x, l = l1 ++ Pulse q :: l2 /\ qat m q = Some x /\ steps m l1 = k.
Proof.
  revert k. induction l as [|it l IH]; intros k; [intros H; cbn in H; lia|]. change (steps m (it :: l)) with (step_of m it + steps m l)%Z. intros H.
  destruct (Z.eq_dec (step_of m it) 0) as [E|E].
  - destruct (IH k ltac:(lia)) as (l1 & q & l2 & x & -> & Hx & Hs). exists (it :: l1), q, l2, x. split; [reflexivity|]. split; [exact Hx|]. change (steps m (it :: l1)) with (step_of m it + steps m l1)%Z. lia.
  - destruct it as [d|q]; cbn [step_of] in E, H; [now elim E|]. destruct (qat m q) as [x|] eqn:Ex; [|now elim E].
    destruct (Z.eq_dec k 0) as [-> |Hk].
    + exists [], q, l, x. split; [reflexivity|]. split; [exact Ex|reflexivity].
    + destruct (IH (k - 1)%Z ltac:(lia)) as (l1 & q' & l2 & x' & -> & Hx & Hs). exists (Pulse q :: l1), q', l2, x'. split; [reflexivity|]. split; [exact Hx|].
      change (steps m (Pulse q :: l1)) with (step_of (N:=RN) m (Pulse q) + steps m l1)%Z. cbn [step_of]. rewrite Ex. lia.
Qed.
Lemma len_half a b : Rabs (IZR (len_steps a b) - sqrt (IZR (a * a + b * b))) <= / 2.
Proof. rewrite Rabs_minus_sym. apply Znearest_half. Qed.
Lemma on_circle rho h u a : IZR a = h * u -> Rabs u <= 1 -> Rabs (rho - h) <= / 2 -> Rabs (IZR a - rho * u) <= / 2.
Proof. intros E U H. rewrite E. replace (h * u - rho * u) with (- ((rho - h) * u)) by ring. rewrite Rabs_Ropp, Rabs_mult. assert (P1 := Rabs_pos (rho - h)). assert (P2 := Rabs_pos u). nra. Qed.
Lemma qat_a {X} pl (q : quad X) : qat (motor_a pl) q = axis_a pl q. Proof. destruct pl; reflexivity. Qed.
Lemma qat_b {X} pl (q : quad X) : qat (motor_b pl) q = axis_b pl q. Proof. destruct pl; reflexivity. Qed.
Lemma qat_c {X} pl (q : quad X) : qat (motor_c pl) q = axis_c pl q. Proof. destruct pl; reflexivity. Qed.
Lemma chord (s trv : Z) r u0 u1 h ph : 0 <= r -> Rabs (IZR (s + trv) - r * u1) <= 3 / 2 -> Rabs (IZR s - r * u0) <= h -> Rabs (u1 - u0) <= ph -> IZR (Z.abs trv) <= r * ph + 3 / 2 + h.
Proof.
  intros Hr H1 H0 Hu. rewrite abs_IZR. replace (IZR trv) with (IZR (s + trv) - r * u1 + (r * (u1 - u0) - (IZR s - r * u0))) by (rewrite plus_IZR; ring).
  eapply Rle_trans; [apply Rabs_triang|]. assert (X := Rabs_triang (r * (u1 - u0)) (- (IZR s - r * u0))). rewrite Rabs_Ropp, Rabs_mult, (Rabs_pos_eq r) in X by exact Hr. fold (r * (u1 - u0) - (IZR s - r * u0)) in X.
  assert (r * Rabs (u1 - u0) <= r * ph) by now apply Rmult_le_compat_l. lra.
Qed.
Lemma along (j trv : Z) f : 0 <= f -> Rabs (IZR trv - IZR j * f) <= 1 -> IZR (Z.abs trv) <= IZR (Z.abs j) * f + 1.
Proof.
  intros Hf H. rewrite !abs_IZR. replace (IZR trv) with (IZR trv - IZR j * f + IZR j * f) by ring. eapply Rle_trans; [apply Rabs_triang|]. rewrite (Rabs_mult (IZR j)), (Rabs_pos_eq f) by exact Hf. lra.
Qed.
Lemma arc_angle_sig rot t phi : arc_angle rot t phi = t + IZR (sigma rot) * phi.
Proof. unfold arc_angle, sigma. destruct rot; ring. Qed.
Section Motion.
Variable cfg : config.
Variables (delta radius : quad RN) (pl : plane) (rot : rotation) (v : RN).
Variable g : circular_gen RN.
Variable M : made cfg delta radius pl rot v g.
Variable p : Z.
Hypothesis Hp : (0 < p)%Z.
Hypothesis Pa : axis_a pl (ppm cfg) = p.
Hypothesis Pb : axis_b pl (ppm cfg) = p.
Variables sa sb ea eb : Z.
Hypothesis Sa : axis_a pl radius = - (IZR sa / IZR p) :> R.
Hypothesis Sb : axis_b pl radius = - (IZR sb / IZR p) :> R.
Hypothesis Ea : axis_a pl delta = IZR (ea - sa) / IZR p :> R.
Hypothesis Eb : axis_b pl delta = IZR (eb - sb) / IZR p :> R.
Hypothesis Hs : (sa <> 0 \/ sb <> 0)%Z.
Hypothesis He : (ea <> 0 \/ eb <> 0)%Z.
Hypothesis Hc : sane_cfg cfg.
Hypothesis Hv : (0 : R) < v.
Variables jc je : Z.
Hypothesis Ec : axis_c pl delta = IZR jc / IZR (axis_c pl (ppm cfg)) :> R.
Hypothesis Ee : qe delta = IZR je / IZR (qe (ppm cfg)) :> R.
Notation K f := (f _ _ _ _ _ _ _ M).
Let A := IZR (max_acceleration cfg).
Let dl : R := c_delta_angle g.
Let rdv : R := c_r_div_v g.
(** Radius in mm, length of the arc, length of the whole movement, velocity. *)
Let rm := IZR (len_steps sa sb) / IZR p.
Let dc := Rabs (axis_c pl (delta : quad R)).
Let de := Rabs (qe (delta : quad R)).
Let L := sqrt (dl * rm * (dl * rm) + dc * dc + de * de).

Lemma A_gt : 0 < A. Proof. apply (IZR_lt 0), Hc. Qed.
Lemma dl_gt : 0 < dl. Proof. unfold dl. eapply f_angle; eassumption. Qed.
Lemma r_mm : K k_r = rm :> R.
Proof. unfold rm. eapply r_eq; eassumption. Qed.
Lemma rm_gt : 0 < rm.
Proof. rewrite <- r_mm. eapply r_pos; eassumption. Qed.
Lemma L_eq : K k_length = L :> R.
Proof.
  destruct (ofsqrt _ _ (K k_length_eq)) as [_ ->]. assert (Ar: K k_arc = dl * rm :> R) by (rewrite <- r_mm; exact (K k_arc_eq)). unfold L.
  change (sqrt ((K k_arc : R) * K k_arc + axis_c pl delta * axis_c pl delta + qe delta * qe delta) = L). rewrite Ar. unfold L, dc, de. f_equal.
  assert (S: forall x : R, Rabs x * Rabs x = x * x) by (intros x; rewrite <- Rabs_mult; apply Rabs_pos_eq; nra). rewrite !S. reflexivity.
Qed.
Lemma L_gt : 0 < L.
Proof. rewrite <- L_eq. eapply length_gt; eassumption. Qed.
Lemma L_sq : L * L = dl * rm * (dl * rm) + dc * dc + de * de.
Proof. apply sqrt_sqrt. assert (0 <= dl * rm * (dl * rm)) by (apply Rle_0_sqr). nra. Qed.
(** The factor of the adjustment, the speed along the path, the times. *)
Record arc_profile (k acc lin c : R) : Prop := {
  ap_slow : slow_factor cfg (from_axes pl (dl * rm / L * (v / 60)) (dl * rm / L * (v / 60)) (dc / L * (v / 60)) (de / L * (v / 60))) k;
  ap_acc : c_acc g = acc :> R;
  ap_lin : c_lin g = lin :> R;
  ap_rdv : rdv * (v / 60 * k * dl) = L;
  ap_c : exists s, iter_start (N:=RN) cfg (GCircular g) = Ok s /\ it_c s = c :> R;
  ap_case : let w := v / 60 * k in let tp := Rmax (dl * rm) (Rmax dc de) / L * w in
    (acc = tp / A /\ c = 2 * acc /\ lin = (L - acc * acc * A) / w /\ acc * acc * A <= L) \/
    (acc = sqrt (L / A) /\ c = 2 * acc /\ lin = 0 /\ L * A < tp * tp)
}.
Lemma top_axes (a b c e : R) : top (from_axes pl a b c e) = Rmax a (Rmax b (Rmax c e)).
Proof.
  assert (M1 := Rmax_l a (Rmax b (Rmax c e))). assert (M2 := Rmax_r a (Rmax b (Rmax c e))). assert (M3 := Rmax_l b (Rmax c e)). assert (M4 := Rmax_r b (Rmax c e)). assert (M5 := Rmax_l c e). assert (M6 := Rmax_r c e).
  apply Rle_antisym.
  - destruct (top_is (from_axes pl a b c e)) as [m ->]. destruct (motor_cases pl m) as [->|[->|[->| ->]]]; rewrite ?from_axes_a, ?from_axes_b, ?from_axes_c, ?from_axes_e; lra.
  - assert (T1 := top_ge (from_axes pl a b c e) (motor_a pl)). assert (T2 := top_ge (from_axes pl a b c e) (motor_b pl)). assert (T3 := top_ge (from_axes pl a b c e) (motor_c pl)). assert (T4 := top_ge (from_axes pl a b c e) ME).
    rewrite from_axes_a in T1. rewrite from_axes_b in T2. rewrite from_axes_c in T3. rewrite from_axes_e in T4. repeat apply Rmax_lub; assumption.
Qed.
Lemma Rmax_scale x y k : 0 <= k -> Rmax x y * k = Rmax (x * k) (y * k).
Proof. intros H. unfold Rmax. destruct (Rle_dec x y), (Rle_dec (x * k) (y * k)); nra. Qed.
Lemma profile_ex : exists k acc lin c, arc_profile k acc lin c.
Proof.
  assert (HA := A_gt). assert (Dp := dl_gt). assert (Rp := rm_gt). assert (Lp := L_gt).
  assert (Vp: 0 < v / 60) by (apply Rdiv_lt_0_compat; [exact Hv|lra]).
  assert (Lg: K k_length = L :> R) by exact L_eq.
  assert (Ev: K k_velocity = v / 60 :> R) by (destruct (ofdiv _ _ _ (K k_velocity_eq)) as [_ ->]; reflexivity).
  assert (Ar: K k_arc = dl * rm :> R) by (rewrite <- r_mm; exact (K k_arc_eq)).
  assert (C1: K k_cv = dl * rm / L * (v / 60) :> R) by (rewrite <- Ar, <- Lg, <- Ev; eapply part_eq; try eassumption; exact (K k_cv_eq)).
  assert (C2: K k_v3 = dc / L * (v / 60) :> R) by (rewrite <- Lg, <- Ev; eapply part_eq; try eassumption; exact (K k_v3_eq)).
  assert (C3: K k_ev = de / L * (v / 60) :> R) by (rewrite <- Lg, <- Ev; eapply part_eq; try eassumption; exact (K k_ev_eq)).
  assert (DR: 0 < dl * rm) by now apply Rmult_lt_0_compat. assert (Dc: 0 <= dc) by apply Rabs_pos. assert (De: 0 <= de) by apply Rabs_pos.
  assert (IL: 0 < / L) by now apply Rinv_0_lt_compat. assert (IV: 0 < / L * (v / 60)) by now apply Rmult_lt_0_compat.
  set (q := from_axes pl (dl * rm / L * (v / 60)) (dl * rm / L * (v / 60)) (dc / L * (v / 60)) (de / L * (v / 60))).
  assert (D1: 0 < dl * rm / L * (v / 60)) by (unfold Rdiv; rewrite Rmult_assoc; now apply Rmult_lt_0_compat).
  assert (D2: 0 <= dc / L * (v / 60)) by (unfold Rdiv at 1; rewrite Rmult_assoc; apply Rmult_le_pos; lra).
  assert (D3: 0 <= de / L * (v / 60)) by (unfold Rdiv at 1; rewrite Rmult_assoc; apply Rmult_le_pos; lra).
  destruct (adjust_velocity_R cfg q Hc) as (k & Ek & Hk).
  { intros m. unfold q. destruct pl, m; cbn; lra. }
  assert (E: adjust_velocity (N:=RN) cfg q = Ok (K k_vel)).
  { rewrite <- (K k_vel_eq). f_equal. unfold q. rewrite <- C1, <- C2, <- C3. destruct pl; reflexivity. }
  rewrite Ek in E. injection E as E. assert (Kp: 0 < k) by apply Hk. set (w := v / 60 * k). assert (Wp: 0 < w) by now apply Rmult_lt_0_compat.
  set (tp := Rmax (dl * rm) (Rmax dc de) / L * w).
  assert (Vq: K k_vel = from_axes pl (dl * rm / L * w) (dl * rm / L * w) (dc / L * w) (de / L * w) :> quad R).
  { rewrite <- E. apply qat_ext. intros m. rewrite qat_qmap. unfold q, w. destruct (motor_cases pl m) as [->|[->|[->| ->]]]; rewrite ?from_axes_a, ?from_axes_b, ?from_axes_c, ?from_axes_e; ring. }
  assert (Tq: top (K k_vel : quad R) = tp).
  { rewrite Vq, top_axes. unfold tp, Rdiv. rewrite !Rmax_scale by lra. unfold Rmax. repeat match goal with |- context [Rle_dec ?x ?y] => destruct (Rle_dec x y) end; lra. }
  assert (Va: axis_a pl (K k_vel : quad R) = dl * rm / L * w /\ axis_b pl (K k_vel : quad R) = dl * rm / L * w /\ axis_c pl (K k_vel : quad R) = dc / L * w /\ qe (K k_vel : quad R) = de / L * w).
  { rewrite Vq. destruct pl; repeat split; reflexivity. }
  destruct Va as (V1 & V2 & V3 & V4).
  assert (Pm: pmin (N:=RN) (axis_a pl (K k_vel)) (axis_b pl (K k_vel)) = dl * rm / L * w).
  { rewrite pmin_R. unfold Rmin. destruct (Rle_dec _ _); [exact V1|exact V2]. }
  assert (Rd: rdv = rm / (dl * rm / L * w)).
  { unfold rdv. destruct (ofdiv _ _ _ (K k_rdv_eq)) as [_ ->]. rewrite Pm, r_mm. reflexivity. }
  assert (Tp: 0 < tp). { unfold tp, Rdiv. rewrite Rmult_assoc. apply Rmult_lt_0_compat; [|nra]. eapply Rlt_le_trans; [exact DR|apply Rmax_l]. }
  assert (P := K k_profile). assert (Fz: K k_flz = false) by (eapply flz_false; eassumption). rewrite Fz in P.
  assert (A0: K k_acc0 = tp / A :> R). { destruct (ofdiv _ _ _ (K k_acc0_eq)) as [_ ->]. change (find_max (N:=RN) (K k_vel)) with (top (K k_vel)). rewrite Tq. reflexivity. }
  assert (RD: rdv * (v / 60 * k * dl) = L). { fold w. rewrite Rd. field. repeat split; lra. }
  cbn [sqr RN rbind] in P. change (accel (N:=RN) cfg) with A in P. change (ltb (p:=RN)) with Rltb in P.
  match type of P with (if ?b then _ else _) = _ => destruct b eqn:Z end; [assert (Z1 : Rltb (K k_length) (A * ((K k_acc0 : R) * K k_acc0)) = true) by exact Z|assert (Z1 : Rltb (K k_length) (A * ((K k_acc0 : R) * K k_acc0)) = false) by exact Z]; clear Z; rename Z1 into Z.
  - apply Rltb_true in Z. rewrite Lg, A0 in Z.
    assert (Z': L * A < tp * tp). { replace (A * (tp / A * (tp / A))) with (tp * tp / A) in Z by (field; lra). apply (Rmult_lt_compat_r A) in Z; [|exact HA]. replace (tp * tp / A * A) with (tp * tp) in Z by (field; lra). exact Z. }
    apply rbind_ok in P. destruct P as (q1 & Q1 & P). apply ofdiv in Q1. destruct Q1 as [_ Q1].
    apply rbind_ok in P. destruct P as (s & S1 & P). apply ofsqrt in S1. destruct S1 as [S0 S1].
    apply rbind_ok in P. destruct P as (w1 & W1 & P). apply ofdiv in W1. destruct W1 as [W0 W1].
    injection P as P1 P2 P3. rewrite Lg in Q1, W1. rewrite Q1 in S1.
    assert (LA: 0 < L / A) by (apply Rdiv_lt_0_compat; lra). assert (Sp: 0 < sqrt (L / A)) by (apply sqrt_lt_R0; exact LA). assert (Sq := sqrt_sqrt (L / A) ltac:(lra)).
    assert (W2: w1 = sqrt (L / A) * A :> R). { rewrite W1, S1. apply (Rmult_eq_reg_r (sqrt (L / A))); [|lra]. replace (sqrt (L / A) * A * sqrt (L / A)) with (sqrt (L / A) * sqrt (L / A) * A) by ring. rewrite Sq. field. split; lra. }
    assert (W3: 0 < w1) by (rewrite W2; now apply Rmult_lt_0_compat).
    assert (Tv: top (c_vel g : quad R) = w1).
    { rewrite <- P3. change (top (qmap (fun x => if Rltb 0 x then w1 else x) (K k_vel : quad R)) = w1). rewrite Vq.
      assert (F: forall x, 0 < x -> Rltb 0 x = true) by (intros x Hx; now apply Rltb_true).
      assert (D1': 0 < dl * rm / L * w) by (unfold Rdiv; rewrite Rmult_assoc; apply Rmult_lt_0_compat; [exact DR|now apply Rmult_lt_0_compat]).
      assert (Y: forall x, (if Rltb 0 x then w1 else x) <= w1) by (intros x; destruct (Rltb 0 x) eqn:B; [lra|apply Rltb_false in B; lra]).
      replace (qmap (fun x => if Rltb 0 x then w1 else x) (from_axes pl (dl * rm / L * w) (dl * rm / L * w) (dc / L * w) (de / L * w)))
        with (from_axes pl w1 w1 (if Rltb 0 (dc / L * w) then w1 else dc / L * w) (if Rltb 0 (de / L * w) then w1 else de / L * w)) by (apply qat_ext; intros m; rewrite qat_qmap; destruct (motor_cases pl m) as [->|[->|[->| ->]]]; rewrite ?from_axes_a, ?from_axes_b, ?from_axes_c, ?from_axes_e, ?(F _ D1'); reflexivity).
      rewrite top_axes. rewrite (Rmax_left w1); [reflexivity|]. apply Rmax_lub; [lra|]. apply Rmax_lub; apply Y. }
    exists k, (sqrt (L / A)), 0, (2 * sqrt (L / A)). split.
    + exact Hk.
    + rewrite <- P1. exact S1.
    + rewrite <- P2. reflexivity.
    + exact RD.
    + unfold iter_start. change (accel (N:=RN) cfg) with A. rewrite div_R by lra. cbn [rbind]. eexists. split; [reflexivity|]. cbn [it_c gen_vel].
      change (2 * top (c_vel g) / A = 2 * sqrt (L / A)). rewrite Tv, W2. field. lra.
    + right. split; [reflexivity|]. split; [reflexivity|]. split; [reflexivity|]. exact Z'.
  - apply Rltb_false in Z. rewrite Lg, A0 in Z.
    apply rbind_ok in P. destruct P as (s & S1 & P). apply ofsqrt in S1. destruct S1 as [_ S1].
    apply rbind_ok in P. destruct P as (li & L1 & P). apply ofdiv in L1. destruct L1 as [_ L1]. injection P as P1 P2 P3.
    assert (Sw: s = w :> R).
    { rewrite S1, Pm. change (@axis_c (num RN)) with (@axis_c R). change (@qe (num RN)) with (@qe R). rewrite V3, V4. change (add (p:=RN)) with Rplus.
      assert (X: dl * rm / L * w * (dl * rm / L * w) + dc / L * w * (dc / L * w) + de / L * w * (de / L * w) = w * w).
      { replace (dl * rm / L * w * (dl * rm / L * w) + dc / L * w * (dc / L * w) + de / L * w * (de / L * w)) with ((dl * rm * (dl * rm) + dc * dc + de * de) / (L * L) * (w * w)) by (field; lra).
        rewrite <- L_sq. field. lra. }
      transitivity (sqrt (w * w)); [f_equal; exact X|apply sqrt_square; lra]. }
    exists k, (tp / A), ((L - tp / A * (tp / A) * A) / w), (2 * (tp / A)). split.
    + exact Hk.
    + rewrite <- P1. exact A0.
    + rewrite <- P2, L1, Sw, Lg, A0. reflexivity.
    + exact RD.
    + unfold iter_start. change (accel (N:=RN) cfg) with A. rewrite div_R by lra. cbn [rbind]. eexists. split; [reflexivity|]. cbn [it_c gen_vel].
      change (2 * top (c_vel g) / A = 2 * (tp / A)). rewrite <- P3, Tq. field. lra.
    + left. split; [reflexivity|]. split; [reflexivity|]. split; [reflexivity|]. fold w tp. lra.
Qed.
Hypothesis Hreg : regular sa sb ea eb.
Variables (k acc lin c : R).
Hypothesis AP : arc_profile k acc lin c.
Let w := v / 60 * k.
Let tp := Rmax (dl * rm) (Rmax dc de) / L * w.
Let T := rdv * dl.
Lemma k_gt : 0 < k <= 1. Proof. apply (ap_slow _ _ _ _ AP). Qed.
Lemma w_gt : 0 < w. Proof. apply Rmult_lt_0_compat; [apply Rdiv_lt_0_compat; [exact Hv|lra]|apply k_gt]. Qed.
Lemma w_le : w <= v / 60.
Proof. assert (X := k_gt). assert (V: 0 < v / 60) by (apply Rdiv_lt_0_compat; [exact Hv|lra]). unfold w. rewrite <- (Rmult_1_r (v / 60)) at 2. apply Rmult_le_compat_l; lra. Qed.
Lemma dc_ge : 0 <= dc. Proof. apply Rabs_pos. Qed.
Lemma de_ge : 0 <= de. Proof. apply Rabs_pos. Qed.
Lemma dr_gt : 0 < dl * rm. Proof. apply Rmult_lt_0_compat; [exact dl_gt|exact rm_gt]. Qed.
Lemma parts_le : dl * rm <= L /\ dc <= L /\ de <= L.
Proof.
  assert (S := L_sq). assert (Lp := L_gt). assert (D1 := dr_gt). assert (D2 := dc_ge). assert (D3 := de_ge).
  split; [|split]; apply Rnot_lt_le; intros H; nra.
Qed.
Lemma max_part : dl * rm <= Rmax (dl * rm) (Rmax dc de) <= L /\ dc <= Rmax (dl * rm) (Rmax dc de) /\ de <= Rmax (dl * rm) (Rmax dc de).
Proof.
  destruct parts_le as (P1 & P2 & P3). assert (M1 := Rmax_l (dl * rm) (Rmax dc de)). assert (M2 := Rmax_r (dl * rm) (Rmax dc de)). assert (M3 := Rmax_l dc de). assert (M4 := Rmax_r dc de).
  split; [split; [exact M1|repeat apply Rmax_lub; assumption]|]. split; lra.
Qed.
Lemma tp_gt : 0 < tp.
Proof. assert (Lp := L_gt). assert (Wp := w_gt). assert (D := dr_gt). destruct max_part as [[M1 M2] _]. apply Rmult_lt_0_compat; [apply Rdiv_lt_0_compat; lra|exact Wp]. Qed.
Lemma tp_le : tp <= w.
Proof.
  assert (Lp := L_gt). assert (Wp := w_gt). destruct max_part as [[M1 M2] _]. unfold tp. rewrite <- (Rmult_1_l w) at 2. apply Rmult_le_compat_r; [lra|].
  apply (Rmult_le_reg_r L); [exact Lp|]. unfold Rdiv. rewrite Rmult_assoc, Rinv_l, Rmult_1_r by lra. lra.
Qed.
Lemma rdv_eq : rdv = L / (w * dl).
Proof. assert (X := ap_rdv _ _ _ _ AP). fold w in X. assert (Wp := w_gt). assert (Dp := dl_gt). rewrite <- X. field. split; lra. Qed.
Lemma rdv_pos : 0 < rdv.
Proof. rewrite rdv_eq. apply Rdiv_lt_0_compat; [exact L_gt|]. apply Rmult_lt_0_compat; [exact w_gt|exact dl_gt]. Qed.
Lemma T_eq : T = L / w.
Proof. assert (Wp := w_gt). assert (Dp := dl_gt). unfold T. rewrite rdv_eq. field. split; lra. Qed.
Lemma acc_gt : 0 < acc.
Proof.
  assert (HA := A_gt). assert (Lp := L_gt). assert (Tg := tp_gt). destruct (ap_case _ _ _ _ AP) as [(E & _)|(E & _)]; rewrite E; [exact (Rdiv_lt_0_compat _ _ Tg HA)|].
  apply sqrt_lt_R0. now apply Rdiv_lt_0_compat.
Qed.
Lemma lin_ge : 0 <= lin.
Proof.
  assert (Wp := w_gt). destruct (ap_case _ _ _ _ AP) as [(_ & _ & E & X)|(_ & _ & E & _)]; rewrite E; [|lra]. apply Rmult_le_pos; [lra|]. apply Rlt_le, Rinv_0_lt_compat. exact Wp.
Qed.
Lemma c_eq : c = 2 * acc.
Proof. destruct (ap_case _ _ _ _ AP) as [(_ & E & _)|(_ & E & _)]; exact E. Qed.
Lemma c_gt : 0 < c. Proof. rewrite c_eq. assert (X := acc_gt). lra. Qed.
Lemma q0_half : acc * acc / c = acc / 2.
Proof. rewrite c_eq. assert (X := acc_gt). field. lra. Qed.
Lemma T_le : T <= 2 * (acc * acc / c) + lin.
Proof.
  rewrite q0_half, T_eq. assert (HA := A_gt). assert (Lp := L_gt). assert (Wp := w_gt). assert (Tl := tp_le). assert (Tg := tp_gt).
  destruct (ap_case _ _ _ _ AP) as [(E & _ & El & _)|(E & _ & El & X)]; rewrite El; fold w; fold w in E; [fold tp in E|].
  - apply (Rmult_le_reg_r w); [exact Wp|]. replace (L / w * w) with L by (field; lra). replace ((2 * (acc / 2) + (L - acc * acc * A) / w) * w) with (acc * w + (L - acc * (acc * A))) by (field; lra).
    replace (acc * A) with tp by (rewrite E; field; lra). assert (G := acc_gt). nra.
  - fold w in X. fold tp in X. assert (LA: 0 < L / A) by (now apply Rdiv_lt_0_compat). assert (Sp: 0 < sqrt (L / A)) by (apply sqrt_lt_R0; exact LA). assert (Sq := sqrt_sqrt (L / A) ltac:(lra)). rewrite <- E in Sp, Sq.
    assert (SA: acc * acc * A = L) by (rewrite Sq; field; lra).
    apply (Rmult_le_reg_r w); [exact Wp|]. replace (L / w * w) with L by (field; lra). rewrite <- SA.
    assert (Y: acc * A <= w). { apply Rnot_lt_le. intros Y. assert (acc * A * (acc * A) = L * A) by (rewrite <- SA; ring). assert (tp * tp <= w * w) by (apply Rmult_le_compat; lra). assert (w * w < acc * A * (acc * A)) by (apply Rmult_le_0_lt_compat; lra). lra. }
    nra.
Qed.
Definition phi_of (x : R) : R := gone acc lin c x / rdv.
Definition dphi_of (x : R) : R := rate acc lin c x / rdv.
Lemma lin_or : lin = 0 \/ c = 2 * acc. Proof. right. exact c_eq. Qed.
Lemma phi_warp (phi : R) x : 0 <= phi <= dl -> to_accelerated_time (N:=RN) (c_acc g) (c_lin g) (c : RN) (rdv * phi : RN) = Ok (x : RN) -> phi_of x = phi /\ x = warp acc lin c (rdv * phi) :> R.
Proof.
  intros Hphi E. assert (Rp := rdv_pos). rewrite (ap_acc _ _ _ _ AP), (ap_lin _ _ _ _ AP) in E.
  assert (Y: 0 <= rdv * phi <= T) by (unfold T; split; [apply Rmult_le_pos; lra|apply Rmult_le_compat_l; lra]).
  rewrite (to_accelerated_R acc lin c T acc_gt c_gt T_le _ Y) in E. injection E as E. split; [|now rewrite <- E].
  unfold phi_of. rewrite <- E. rewrite (gone_warp acc lin c T acc_gt lin_ge c_gt lin_or T_le _ Y). field. lra.
Qed.
Lemma same_motor m m' (q : quad (option RN)) x : m = m' -> qat m q = Some x -> qat m' q <> None.
Proof. intros <- ->. discriminate. Qed.
Lemma motion l : completes cfg (GCircular g) l -> arc_motion cfg pl rot sa sb jc je l (c_start_angle g) dl phi_of dphi_of /\
  forall l1 q l2 m x, l = l1 ++ Pulse q :: l2 -> qat m q = Some (x : RN) -> x = warp acc lin c (rdv * phi_of x) :> R.
Proof.
  intros Hl. assert (Rp := rdv_pos).
  destruct (path_follows cfg delta radius pl rot v g M p Hp Pa Pb sa sb ea eb Sa Sb Ea Eb Hs He Hreg Hc Hv jc je Ec Ee l Hl) as (s & f & Es & F1 & F2).
  destruct (ap_c _ _ _ _ AP) as (s' & Es' & Ecc). rewrite Es in Es'. injection Es' as <-. 
  assert (W: forall l1 q l2 m x, l = l1 ++ Pulse q :: l2 -> qat m q = Some (x : RN) -> phi_of x = f (length l1) /\ x = warp acc lin c (rdv * f (length l1)) :> R).
  { intros l1 q l2 m x E Ex. destruct (F1 l1 q l2 E) as (B & _ & _ & _ & _ & _ & Tt). specialize (Tt m x Ex). rewrite Ecc in Tt. apply phi_warp; [exact B|exact Tt]. }
  split; [split|].
  - unfold phi_of. rewrite (gone_0 acc lin c acc_gt lin_ge). unfold Rdiv. ring.
  - intros x. unfold phi_of, dphi_of. replace (rate acc lin c x / rdv) with (/ rdv * rate acc lin c x) by (unfold Rdiv; ring).
    apply (derivable_pt_lim_ext (fun u => / rdv * gone acc lin c u)); [intros u; unfold Rdiv; ring|]. apply derivable_pt_lim_scal, gone_deriv.
  - intros l1 q l2 m x E Ex l'. destruct (W _ _ _ _ _ E Ex) as [Wp Wx]. destruct (F1 l1 q l2 E) as (B & (N1 & N2 & N3 & N4) & Xa & Xb & Xc & Xe & _). cbv zeta in B, N1, N2, N3, N4, Xa, Xb, Xc, Xe. change (0 <= f (length l1) <= dl) in B. rewrite Wp.
    split. { assert (Y: 0 <= rdv * f (length l1) <= T) by (unfold T; split; [apply Rmult_le_pos; lra|apply Rmult_le_compat_l; lra]).
      rewrite Wx. apply (warp_range acc lin c T acc_gt lin_ge c_gt T_le _ Y). }
    split; [exact B|]. rewrite !arc_angle_sig. split; [repeat split; assumption|].
    split; [|split; [|split]]; intros Em; rewrite Em.
    + exact (Xa (same_motor _ _ _ _ Em Ex)).
    + exact (Xb (same_motor _ _ _ _ Em Ex)).
    + exact (Xc (same_motor _ _ _ _ Em Ex)).
    + exact (Xe (same_motor _ _ _ _ Em Ex)).
  - intros l1 q l2 m x l1' q' l2' m' x' E E' Ll Ex Ex'. destruct (W _ _ _ _ _ E Ex) as [_ ->]. destruct (W _ _ _ _ _ E' Ex') as [_ ->].
    destruct (F1 l1 q l2 E) as (B & _). destruct (F1 l1' q' l2' E') as (B' & _). change (0 <= f (length l1) <= dl) in B. change (0 <= f (length l1') <= dl) in B'. assert (X := F2 _ _ _ _ _ _ E E' Ll).
    apply (warp_mono acc lin c T acc_gt lin_ge c_gt lin_or T_le); [apply Rmult_le_pos; lra|apply Rmult_lt_compat_l; lra|apply Rmult_le_compat_l; lra].
  - intros l1 q l2 m x E Ex. destruct (W _ _ _ _ _ E Ex) as [-> Wx]. exact Wx.
Qed.

(* ---------- speed ---------- *)
Lemma unit_rate : 2 * acc / c = 1.
Proof. assert (X := acc_gt). rewrite c_eq. field. lra. Qed.
Lemma rate_unit x : 0 <= rate acc lin c x <= 1.
Proof. rewrite <- unit_rate. apply (rate_bounds acc lin c acc_gt lin_ge c_gt). Qed.
Lemma part_speed y x : y / dl * dphi_of x = y / L * w * rate acc lin c x.
Proof. unfold dphi_of. rewrite rdv_eq. assert (Lp := L_gt). assert (Wp := w_gt). assert (Dp := dl_gt). field. repeat split; lra. Qed.
Lemma total : total_time_s (N:=RN) (GCircular g) = 2 * acc + lin :> R.
Proof. unfold total_time_s. cbn [gen_acc gen_lin]. rewrite (ap_acc _ _ _ _ AP), (ap_lin _ _ _ _ AP). cbn. ring. Qed.
Lemma speed x : 0 <= dphi_of x /\ L / dl * dphi_of x <= v / 60.
Proof.
  assert (Lp := L_gt). assert (Wp := w_gt). assert (W := w_le). assert (R1 := rate_unit x). assert (Rp := rdv_pos). split.
  - unfold dphi_of. apply Rmult_le_pos; [lra|]. apply Rlt_le, Rinv_0_lt_compat, Rp.
  - rewrite part_speed. replace (L / L * w) with w by (field; lra). nra.
Qed.
Lemma part_limit y x lim : 0 <= y -> y / L * (v / 60) * k * 60 <= lim -> y / dl * dphi_of x * 60 <= lim.
Proof.
  intros Hy H. rewrite part_speed. assert (Lp := L_gt). assert (Wp := w_gt). assert (R1 := rate_unit x). replace (y / L * (v / 60) * k * 60) with (y / L * w * 60) in H by (unfold w; ring).
  assert (Q: 0 <= y / L * w) by (apply Rmult_le_pos; [apply Rmult_le_pos; [exact Hy|apply Rlt_le, Rinv_0_lt_compat, Lp]|lra]). nra.
Qed.
Lemma limits x : auto_velocity cfg = true ->
  rm * dphi_of x * 60 <= IZR (qat (motor_a pl) (max_velocity_min cfg)) /\ rm * dphi_of x * 60 <= IZR (qat (motor_b pl) (max_velocity_min cfg)) /\
  dc / dl * dphi_of x * 60 <= IZR (qat (motor_c pl) (max_velocity_min cfg)) /\ de / dl * dphi_of x * 60 <= IZR (qat ME (max_velocity_min cfg)).
Proof.
  intros Au. destruct (ap_slow _ _ _ _ AP) as [_ S]. rewrite Au in S. destruct S as [S _]. assert (Dp := dl_gt). assert (Dr := dr_gt). assert (D2 := dc_ge). assert (D3 := de_ge).
  assert (S1 := S (motor_a pl)). assert (S2 := S (motor_b pl)). assert (S3 := S (motor_c pl)). assert (S4 := S ME). rewrite from_axes_a in S1. rewrite from_axes_b in S2. rewrite from_axes_c in S3. rewrite from_axes_e in S4.
  assert (E: rm = dl * rm / dl) by (field; lra).
  split; [|split; [|split]]; [rewrite E|rewrite E| |]; apply part_limit; try assumption; lra.
Qed.
Lemma no_slowing : auto_velocity cfg = false \/ (forall m, v <= IZR (qat m (max_velocity_min cfg))) -> k = 1.
Proof.
  intros H. destruct (ap_slow _ _ _ _ AP) as [S0 S]. destruct (auto_velocity cfg); [|exact S]. destruct H as [H|H]; [discriminate|]. destruct S as [_ [S|[m S]]]; [exact S|].
  assert (Lp := L_gt). assert (V: 0 < v) by exact Hv. assert (Lm: 0 < IZR (qat m (max_velocity_min cfg))) by (apply (IZR_lt 0), sane_vel, Hc). specialize (H m).
  assert (B: forall y, 0 <= y <= L -> y / L * (v / 60) * k * 60 = IZR (qat m (max_velocity_min cfg)) -> k = 1).
  { intros y Hy E. assert (Y: 0 <= y / L <= 1). { split; [apply Rmult_le_pos; [lra|apply Rlt_le, Rinv_0_lt_compat, Lp]|]. apply (Rmult_le_reg_r L); [exact Lp|]. replace (y / L * L) with y by (field; lra). lra. }
    set (u := y / L) in *. replace (u * (v / 60) * k * 60) with (u * k * v) in E by field. assert (0 <= u * k <= k) by nra. destruct (Rlt_le_dec k 1); [|lra]. nra. }
  destruct parts_le as (P1 & P2 & P3). assert (Dr := dr_gt). assert (D2 := dc_ge). assert (D3 := de_ge).
  destruct (motor_cases pl m) as [Em|[Em|[Em|Em]]]; rewrite Em in S at 1; rewrite ?from_axes_a, ?from_axes_b, ?from_axes_c, ?from_axes_e in S; (eapply B; [|exact S]); lra.
Qed.
(** Long enough to reach the speed. *)
Hypothesis Hlong : v / 60 * (v / 60) <= A * L.
Lemma long : acc = tp / A /\ lin = (L - acc * acc * A) / w.
Proof.
  destruct (ap_case _ _ _ _ AP) as [(E & _ & El & _)|(_ & _ & _ & X)]; [split; assumption|]. exfalso. fold w in X. fold tp in X.
  assert (Wp := w_gt). assert (W := w_le). assert (Tl := tp_le). assert (Tg := tp_gt). assert (tp * tp <= v / 60 * (v / 60)) by (apply Rmult_le_compat; lra). lra.
Qed.
Lemma acc_tp : acc * A = tp. Proof. destruct long as [E _]. assert (HA := A_gt). rewrite E. field. lra. Qed.
Lemma reached : auto_velocity cfg = false \/ (forall m, v <= IZR (qat m (max_velocity_min cfg))) -> exists x, 0 <= x <= total_time_s (N:=RN) (GCircular g) /\ phi_of x <= dl /\ L / dl * dphi_of x = v / 60.
Proof.
  intros H. apply no_slowing in H. assert (Ac := acc_gt). assert (Li := lin_ge). assert (Lp := L_gt). assert (Rp := rdv_pos). assert (Wp := w_gt). assert (HA := A_gt). exists acc. rewrite total. split; [lra|]. split.
  - unfold phi_of. rewrite (gone_acc acc lin c acc_gt lin_ge) by lra. apply (Rmult_le_reg_r rdv); [exact Rp|]. unfold Rdiv. rewrite Rmult_assoc, Rinv_l, Rmult_1_r by lra. change (acc * acc / c <= dl * rdv).
    rewrite q0_half, (Rmult_comm dl). fold T. rewrite T_eq. apply (Rmult_le_reg_r w); [exact Wp|]. replace (L / w * w) with L by (field; lra).
    assert (At := acc_tp). assert (Tl := tp_le). assert (W := w_le). apply (Rmult_le_reg_r A); [exact HA|]. replace (acc / 2 * w * A) with (acc * A * w / 2) by field. rewrite At.
    assert (tp * w <= v / 60 * (v / 60)) by (apply Rmult_le_compat; try lra; exact (Rlt_le _ _ tp_gt)). assert (X := tp_gt). assert (0 < tp * w) by now apply Rmult_lt_0_compat. lra.
  - rewrite part_speed, (rate_top acc lin c acc_gt lin_ge) by lra. rewrite unit_rate. unfold w. rewrite H. field. lra.
Qed.

(* ---------- acceleration ---------- *)
Lemma part_scaled y : 0 <= y <= Rmax (dl * rm) (Rmax dc de) -> 0 <= y / L * w <= tp.
Proof.
  intros Hy. assert (Lp := L_gt). assert (Wp := w_gt). assert (IL: 0 < / L) by now apply Rinv_0_lt_compat. unfold tp, Rdiv. split; [apply Rmult_le_pos; [apply Rmult_le_pos; lra|lra]|].
  apply Rmult_le_compat_r; [lra|]. apply Rmult_le_compat_r; lra.
Qed.
Lemma part_lipschitz y x x' : 0 <= y <= Rmax (dl * rm) (Rmax dc de) -> y / dl * Rabs (dphi_of x - dphi_of x') <= A * Rabs (x - x').
Proof.
  intros Hy. assert (P := part_scaled y Hy). assert (Dp := dl_gt). assert (Q: 0 <= y / dl) by (apply Rmult_le_pos; [lra|apply Rlt_le, Rinv_0_lt_compat, Dp]).
  rewrite <- (Rabs_pos_eq (y / dl)) by exact Q. rewrite <- Rabs_mult, Rmult_minus_distr_l, !part_speed, <- Rmult_minus_distr_l, Rabs_mult, (Rabs_pos_eq (y / L * w)) by apply P.
  assert (Ra := rate_lipschitz acc lin c acc_gt lin_ge c_gt x x'). assert (Rq := Rabs_pos (x - x')). assert (Rr := Rabs_pos (rate acc lin c x - rate acc lin c x')).
  apply Rle_trans with (tp * (2 / c * Rabs (x - x'))); [apply Rmult_le_compat; [apply P|exact Rr|apply P|exact Ra]|]. right. rewrite c_eq, <- acc_tp. assert (Ac := acc_gt). field. lra.
Qed.
Lemma part_start y x : 0 <= y <= Rmax (dl * rm) (Rmax dc de) -> 0 <= x -> y * (phi_of x / dl) <= A / 2 * (x * x).
Proof.
  intros Hy Hx. assert (P := part_scaled y Hy). assert (Lp := L_gt). assert (Wp := w_gt). assert (Dp := dl_gt). assert (Ac := acc_gt).
  replace (y * (phi_of x / dl)) with (y / L * w * gone acc lin c x) by (unfold phi_of; rewrite rdv_eq; field; repeat split; lra).
  assert (G1 := gone_start acc lin c acc_gt lin_ge c_gt x Hx).
  apply Rle_trans with (tp * (x * x / c)).
  - assert (G0: 0 <= gone acc lin c x) by (rewrite <- (gone_0 acc lin c acc_gt lin_ge); now apply (gone_mono acc lin c acc_gt lin_ge c_gt)). apply Rmult_le_compat; try assumption; apply P.
  - right. rewrite <- acc_tp, c_eq. field. lra.
Qed.

(* ---------- start and stop ---------- *)
Lemma r_p : IZR (len_steps sa sb) = IZR p * rm.
Proof. unfold rm. assert (0 < IZR p) by now apply (IZR_lt 0). field. lra. Qed.
Lemma time_range l : completes cfg (GCircular g) l -> forall l1 q l2 m x, l = l1 ++ Pulse q :: l2 -> qat m q = Some (x : RN) -> (x : R) <= total_time_s (N:=RN) (GCircular g).
Proof.
  intros Hl l1 q l2 m x E Ex. destruct (motion l Hl) as [Mo W]. destruct (mo_pulse _ _ _ _ _ _ _ _ _ _ _ _ Mo l1 q l2 m x E Ex) as (_ & B & _). rewrite total, (W _ _ _ _ _ E Ex).
  assert (Rp := rdv_pos). apply (warp_range acc lin c T acc_gt lin_ge c_gt T_le). unfold T. split; [apply Rmult_le_pos; lra|apply Rmult_le_compat_l; lra].
Qed.
Lemma jc_abs : IZR (Z.abs jc) = IZR (qat (motor_c pl) (ppm cfg)) * dc.
Proof.
  unfold dc. rewrite qat_c. assert (PC: 0 < IZR (axis_c pl (ppm cfg))) by (eapply ppm_c; eassumption).
  change (axis_c pl (delta : quad R)) with (axis_c pl delta : R). rewrite Ec. unfold Rdiv. rewrite Rabs_mult, Rabs_inv, (Rabs_pos_eq (IZR (axis_c pl (ppm cfg)))) by lra. rewrite abs_IZR. field. lra.
Qed.
Lemma je_abs : IZR (Z.abs je) = IZR (qat ME (ppm cfg)) * de.
Proof.
  unfold de. assert (PC: 0 < IZR (qe (ppm cfg))) by (apply (IZR_lt 0), (sane_ppm cfg Hc ME)). cbn [qat].
  change (qe (delta : quad R)) with (qe delta : R). rewrite Ee. unfold Rdiv. rewrite Rabs_mult, Rabs_inv, (Rabs_pos_eq (IZR (qe (ppm cfg)))) by lra. rewrite abs_IZR. field. lra.
Qed.
Lemma unit_sin x : Rabs (sin x) <= 1. Proof. apply Rabs_le, SIN_bound. Qed.
Lemma unit_cos x : Rabs (cos x) <= 1. Proof. apply Rabs_le, COS_bound. Qed.
Lemma turn_abs t phi psi : Rabs (arc_angle rot t phi - arc_angle rot t psi) = Rabs (phi - psi).
Proof. rewrite !arc_angle_sig. destruct (sigma_1 rot) as [E|E]; rewrite E; [f_equal; ring|]. rewrite (Rabs_minus_sym phi). f_equal. ring. Qed.
Lemma starts l m : completes cfg (GCircular g) l -> in_direction (c_start_angle g : R) sa sb -> starts_within A cfg l m.
Proof.
  intros Hl [I1 I2] l1 q l2 m' x E Ex. destruct (motion l Hl) as [Mo _]. destruct (mo_pulse _ _ _ _ _ _ _ _ _ _ _ _ Mo l1 q l2 m' x E Ex) as (X0 & P & (Na & Nb & Nc & Ne) & _). clear Mo.
  assert (Dp := dl_gt). assert (Rm := rm_gt). assert (Pp: 0 < IZR p) by now apply (IZR_lt 0). destruct max_part as ([M1 _] & M2 & M3). assert (Dr := dr_gt). assert (D2 := dc_ge). assert (D3 := de_ge).
  assert (Pd: 0 <= phi_of x / dl) by (apply Rmult_le_pos; [lra|apply Rlt_le, Rinv_0_lt_compat, Dp]).
  assert (Lh := len_half sa sb). assert (Rr: 0 <= IZR (len_steps sa sb)) by (rewrite r_p; nra).
  assert (T0: arc_angle rot (c_start_angle g : R) 0 = c_start_angle g :> R) by (rewrite arc_angle_sig; ring).
  assert (Tu: Rabs (arc_angle rot (c_start_angle g : R) (phi_of x) - (c_start_angle g : R)) = phi_of x) by (rewrite <- T0 at 2; rewrite turn_abs, Rminus_0_r; apply Rabs_pos_eq; lra).
  assert (Q1: IZR (len_steps sa sb) * phi_of x <= IZR p * (A / 2 * (x * x))).
  { rewrite r_p, Rmult_assoc. apply Rmult_le_compat_l; [lra|]. replace (rm * phi_of x) with (dl * rm * (phi_of x / dl)) by (field; lra). apply part_start; lra. }
  destruct (motor_cases pl m) as [Em|[Em|[Em|Em]]]; rewrite Em; clear Em.
  - rewrite qat_a, Pa. assert (X := sin_lip (arc_angle rot (c_start_angle g : R) (phi_of x)) (c_start_angle g : R)). rewrite Tu in X.
    assert (Y := chord _ _ _ _ _ _ _ Rr Na (on_circle _ _ _ _ I1 (unit_sin _) Lh) X). lra.
  - rewrite qat_b, Pb. assert (X := cos_lip (arc_angle rot (c_start_angle g : R) (phi_of x)) (c_start_angle g : R)). rewrite Tu in X.
    assert (Y := chord _ _ _ _ _ _ _ Rr Nb (on_circle _ _ _ _ I2 (unit_cos _) Lh) X). lra.
  - assert (Y := along _ _ _ Pd Nc). rewrite jc_abs in Y. assert (Q := part_start dc x ltac:(lra) X0). assert (PC: 0 < IZR (qat (motor_c pl) (ppm cfg))) by (apply (IZR_lt 0), (sane_ppm cfg Hc)). nra.
  - assert (Y := along _ _ _ Pd Ne). rewrite je_abs in Y. assert (Q := part_start de x ltac:(lra) X0). assert (PC: 0 < IZR (qat ME (ppm cfg))) by (apply (IZR_lt 0), (sane_ppm cfg Hc)). nra.
Qed.
Section Planar.
Hypothesis Jc : jc = 0%Z.
Hypothesis Je : je = 0%Z.
Lemma flat : L = dl * rm /\ tp = w.
Proof.
  assert (Zc: dc = 0). { assert (X := jc_abs). rewrite Jc in X. change (IZR (Z.abs 0)) with 0 in X. assert (0 < IZR (qat (motor_c pl) (ppm cfg))) by (apply (IZR_lt 0), (sane_ppm cfg Hc)). nra. }
  assert (Ze: de = 0). { assert (X := je_abs). rewrite Je in X. change (IZR (Z.abs 0)) with 0 in X. assert (0 < IZR (qat ME (ppm cfg))) by (apply (IZR_lt 0), (sane_ppm cfg Hc)). nra. }
  assert (S := L_sq). assert (Lp := L_gt). assert (Dr := dr_gt). rewrite Zc, Ze in S.
  assert (E: L = dl * rm) by nra. split; [exact E|]. unfold tp. rewrite Zc, Ze, (Rmax_left 0 0), Rmax_left, <- E by lra. field. lra.
Qed.
Lemma T_flat : T = acc + lin.
Proof. rewrite T_eq. destruct long as [_ E]. destruct flat as [_ F]. assert (At := acc_tp). assert (Wp := w_gt). rewrite E, Rmult_assoc, At, F. field. lra. Qed.
Lemma part_stop x : x <= 2 * acc + lin -> rm * (dl - phi_of x) <= A / 2 * ((2 * acc + lin - x) * (2 * acc + lin - x)).
Proof.
  intros Hx. destruct flat as [F1 F2]. assert (Ac := acc_gt). assert (Wp := w_gt). assert (Dp := dl_gt). assert (Rm := rm_gt). assert (Rp := rdv_pos).
  assert (G1 := gone_stop acc lin c acc_gt lin_ge c_gt x c_eq Hx). rewrite <- T_flat in G1. assert (Er: rdv = rm / w). { rewrite rdv_eq, F1. field. split; lra. }
  replace (rm * (dl - phi_of x)) with (w * (T - gone acc lin c x)) by (unfold phi_of, T; rewrite Er; field; split; lra).
  apply Rle_trans with (w * ((2 * acc + lin - x) * (2 * acc + lin - x) / c)); [apply Rmult_le_compat_l; lra|]. right. rewrite <- F2, <- acc_tp, c_eq. field. lra.
Qed.
Lemma end_time : warp acc lin c T = 2 * acc + lin.
Proof.
  assert (Ac := acc_gt). assert (Li := lin_ge). unfold warp. rewrite q0_half, T_flat. destruct (Rle_dec _ _); [lra|]. destruct (Rle_dec _ _); [lra|].
  replace (acc * acc - c * (acc + lin - acc / 2 - lin)) with 0 by (rewrite c_eq; field). rewrite sqrt_0. ring.
Qed.
Lemma stop_still : phi_of (total_time_s (N:=RN) (GCircular g)) = dl /\ dphi_of (total_time_s (N:=RN) (GCircular g)) = 0.
Proof.
  rewrite total. unfold phi_of, dphi_of. rewrite (gone_end acc lin c acc_gt lin_ge c_eq), (rate_end acc lin c acc_gt lin_ge), <- T_flat. assert (Rp := rdv_pos). unfold T. split; field; lra.
Qed.
Lemma last_time l : completes cfg (GCircular g) l -> forall l1' q' l2' m'' y, l = l1' ++ Pulse q' :: l2' -> qat m'' q' = Some (y : RN) ->
  (forall l3 q3 l4 m3 z, l = l3 ++ Pulse q3 :: l4 -> qat m3 q3 = Some (z : RN) -> (z : R) <= y) -> y = 2 * acc + lin :> R.
Proof.
  intros Hl l1 q l2 m y E Ey La. destruct (motion l Hl) as [Mo W]. destruct (mo_pulse _ _ _ _ _ _ _ _ _ _ _ _ Mo l1 q l2 m y E Ey) as (_ & _ & _ & Xa & Xb & Xc & Xe).
  assert (N: steps m l2 = 0%Z).
  { destruct (Z.eq_dec (steps m l2) 0) as [H|H]; [exact H|]. exfalso. apply later_pulse in H. destruct H as (l3 & q3 & l4 & z & E3 & Ez).
    assert (E': l = (l1 ++ Pulse q :: l3) ++ Pulse q3 :: l4) by (rewrite <- app_assoc; cbn [app]; rewrite <- E3; exact E).
    assert (Y := La _ _ _ _ _ E' Ez). assert (O := mo_order _ _ _ _ _ _ _ _ _ _ _ _ Mo _ _ _ _ _ _ _ _ _ _ E E' ltac:(rewrite app_length; cbn [length]; lia) Ey Ez). lra. }
  assert (P: phi_of y = dl).
  { destruct (motor_cases pl m) as [Em|[Em|[Em|Em]]].
    - exact (proj2 (Xa Em) N).
    - exact (proj2 (Xb Em) N).
    - exfalso. destruct (Xc Em) as [_ X]. rewrite Jc in X. assert (S0 := steps_nonneg m l1). lia.
    - exfalso. destruct (Xe Em) as [_ X]. rewrite Je in X. assert (S0 := steps_nonneg m l1). lia. }
  rewrite (W _ _ _ _ _ E Ey), P. exact end_time.
Qed.
Lemma stops l m : completes cfg (GCircular g) l -> in_direction (arc_angle rot (c_start_angle g : R) dl) ea eb ->
  travel cfg (motor_a pl) l = (ea - sa)%Z /\ travel cfg (motor_b pl) l = (eb - sb)%Z /\ travel cfg (motor_c pl) l = jc /\ travel cfg ME l = je -> stops_within A cfg l m.
Proof.
  intros Hl [I1 I2] (Ta & Tb & Tc & Te) l1 q l2 m' x l1' q' l2' m'' y E Ex E' Ey La. assert (Yt := last_time l Hl l1' q' l2' m'' y E' Ey La). assert (Xt := La _ _ _ _ _ E Ex). rewrite Yt in Xt |- *.
  destruct (motion l Hl) as [Mo _]. destruct (mo_pulse _ _ _ _ _ _ _ _ _ _ _ _ Mo l1 q l2 m' x E Ex) as (X0 & P & (Na & Nb & Nc & Ne) & _). clear Mo.
  assert (Dp := dl_gt). assert (Rm := rm_gt). assert (Pp: 0 < IZR p) by now apply (IZR_lt 0). assert (Ps := part_stop x Xt).
  assert (Rme: len_steps ea eb = len_steps sa sb) by (eapply rme_eq; eassumption).
  assert (Lh := len_half ea eb). rewrite Rme in Lh. assert (Rr: 0 <= IZR (len_steps sa sb)) by (rewrite r_p; nra).
  assert (Tu: Rabs (arc_angle rot (c_start_angle g : R) (phi_of x) - arc_angle rot (c_start_angle g : R) dl) = dl - phi_of x) by (rewrite turn_abs, Rabs_minus_sym; apply Rabs_pos_eq; lra).
  assert (Q1: IZR (len_steps sa sb) * (dl - phi_of x) <= IZR p * (A / 2 * ((2 * acc + lin - x) * (2 * acc + lin - x)))) by (rewrite r_p, Rmult_assoc; apply Rmult_le_compat_l; lra).
  assert (An := A_gt). assert (Ap: 0 <= A / 2 * ((2 * acc + lin - x) * (2 * acc + lin - x))) by (apply Rmult_le_pos; [lra|apply Rle_0_sqr]).
  destruct (motor_cases pl m) as [Em|[Em|[Em|Em]]]; rewrite Em; clear Em.
  - rewrite qat_a, Pa, Ta. assert (X := sin_lip (arc_angle rot (c_start_angle g : R) (phi_of x)) (arc_angle rot (c_start_angle g : R) dl)). rewrite Tu in X.
    replace (sa + travel cfg (motor_a pl) (l1 ++ [Pulse q]))%Z with (ea + (travel cfg (motor_a pl) (l1 ++ [Pulse q]) - (ea - sa)))%Z in Na by ring.
    assert (Y := chord _ _ _ _ _ _ _ Rr Na (on_circle _ _ _ _ I1 (unit_sin _) Lh) X). replace (ea - sa - travel cfg (motor_a pl) (l1 ++ [Pulse q]))%Z with (- (travel cfg (motor_a pl) (l1 ++ [Pulse q]) - (ea - sa)))%Z by ring. rewrite Z.abs_opp. lra.
  - rewrite qat_b, Pb, Tb. assert (X := cos_lip (arc_angle rot (c_start_angle g : R) (phi_of x)) (arc_angle rot (c_start_angle g : R) dl)). rewrite Tu in X.
    replace (sb + travel cfg (motor_b pl) (l1 ++ [Pulse q]))%Z with (eb + (travel cfg (motor_b pl) (l1 ++ [Pulse q]) - (eb - sb)))%Z in Nb by ring.
    assert (Y := chord _ _ _ _ _ _ _ Rr Nb (on_circle _ _ _ _ I2 (unit_cos _) Lh) X). replace (eb - sb - travel cfg (motor_b pl) (l1 ++ [Pulse q]))%Z with (- (travel cfg (motor_b pl) (l1 ++ [Pulse q]) - (eb - sb)))%Z by ring. rewrite Z.abs_opp. lra.
  - rewrite Tc, Jc in *. rewrite Rmult_0_l, Rminus_0_r, <- abs_IZR in Nc. rewrite Z.sub_0_l, Z.abs_opp. assert (PC: 0 < IZR (qat (motor_c pl) (ppm cfg))) by (apply (IZR_lt 0), (sane_ppm cfg Hc)). nra.
  - rewrite Te, Je in *. rewrite Rmult_0_l, Rminus_0_r, <- abs_IZR in Ne. rewrite Z.sub_0_l, Z.abs_opp. assert (PC: 0 < IZR (qat ME (ppm cfg))) by (apply (IZR_lt 0), (sane_ppm cfg Hc)). nra.
Qed.
End Planar.
Lemma no_slowing_flat : jc = 0%Z -> je = 0%Z -> auto_velocity cfg = false \/ (v <= IZR (qat (motor_a pl) (max_velocity_min cfg)) /\ v <= IZR (qat (motor_b pl) (max_velocity_min cfg))) -> k = 1.
Proof.
  intros Jc Je H. destruct (flat Jc Je) as [F1 _]. assert (Lp := L_gt). assert (V: 0 < v) by exact Hv. assert (S2 := L_sq). assert (D2 := dc_ge). assert (D3 := de_ge). rewrite <- F1 in S2.
  assert (Zc: dc = 0) by nra. assert (Ze: de = 0) by nra.
  destruct (ap_slow _ _ _ _ AP) as [S0 S]. destruct (auto_velocity cfg); [|exact S]. destruct H as [H|[H1 H2]]; [discriminate|]. destruct S as [_ [S|[m S]]]; [exact S|].
  assert (Lm: 0 < IZR (qat m (max_velocity_min cfg))) by (apply (IZR_lt 0), sane_vel, Hc). rewrite <- F1, Zc, Ze in S. replace (L / L) with 1 in S by (field; lra).
  destruct (motor_cases pl m) as [Em|[Em|[Em|Em]]]; subst m; rewrite ?from_axes_a, ?from_axes_b, ?from_axes_c, ?from_axes_e in S; unfold Rdiv in S; try (rewrite !Rmult_0_l in S; lra);
  apply Rle_antisym; try apply S0; apply (Rmult_le_reg_l v); lra.
Qed.
(** The times of the arcs too short to reach their speed. *)
Lemma short_times l : jc = 0%Z -> je = 0%Z -> 4 * (A * L) <= w * w -> completes cfg (GCircular g) l ->
  acc * acc * A = dl * rm /\ rdv = rm / w /\ forall l1 q l2 m x, l = l1 ++ Pulse q :: l2 -> qat m q = Some (x : RN) -> x * x = 2 * acc * (rdv * phi_of x) :> R.
Proof.
  intros Jc Je H Hl. destruct (flat Jc Je) as [F1 F2]. assert (HA := A_gt). assert (Lp := L_gt). assert (Wp := w_gt). assert (Dp := dl_gt). assert (Ac := acc_gt). assert (AL: 0 < A * L) by now apply Rmult_lt_0_compat.
  assert (S: acc * acc * A = L).
  { destruct (ap_case _ _ _ _ AP) as [(E & _ & _ & X)|(E & _)].
    - exfalso. fold w in E. fold tp in E. rewrite F2 in E. assert (Y: acc * A = w) by (rewrite E; field; lra). assert (w * w <= A * L) by (rewrite <- Y; replace (acc * A * (acc * A)) with (A * (acc * acc * A)) by ring; apply Rmult_le_compat_l; lra). lra.
    - rewrite E, sqrt_sqrt; [field; lra|]. apply Rlt_le. now apply Rdiv_lt_0_compat. }
  split; [rewrite S; exact F1|]. split; [rewrite rdv_eq, F1; field; split; lra|]. intros l1 q l2 m x E Ex. destruct (motion l Hl) as [Mo W]. destruct (mo_pulse _ _ _ _ _ _ _ _ _ _ _ _ Mo l1 q l2 m x E Ex) as (_ & B & _).
  assert (Rp := rdv_pos). assert (Y: 0 <= rdv * phi_of x <= T) by (unfold T; split; [apply Rmult_le_pos; lra|apply Rmult_le_compat_l; lra]).
  assert (T2: T <= acc / 2).
  { rewrite T_eq. apply (Rmult_le_reg_r w); [exact Wp|]. replace (L / w * w) with L by (field; lra). rewrite <- S at 1. replace (acc / 2 * w) with (acc * (w / 2)) by field. rewrite Rmult_assoc. apply Rmult_le_compat_l; [lra|].
    apply Rnot_lt_le. intros Z. assert (w / 2 * (w / 2) < acc * A * (acc * A)) by (apply Rmult_le_0_lt_compat; lra). assert (acc * A * (acc * A) = A * L) by (rewrite <- S; ring). lra. }
  assert (X := W _ _ _ _ _ E Ex). unfold warp in X. rewrite q0_half in X. destruct (Rle_dec _ _) as [_|Z] in X; [|lra].
  rewrite X at 1 2. rewrite sqrt_sqrt by (apply Rmult_le_pos; [lra|exact (Rlt_le _ _ c_gt)]). rewrite c_eq. ring.
Qed.
End Motion.

(* ---------- arcs on the grid ---------- *)
Section Grid.
Variables (cfg : config) (delta radius : quad RN) (pl : plane) (rot : rotation) (v : RN) (g : circular_gen RN).
Hypothesis Hc : sane_cfg cfg.
Hypothesis Hv : (0 : R) < v.
Hypothesis Hg : make_circular (N:=RN) cfg delta radius pl rot v = Ok g.
Variables p sa sb ea eb jc je : Z.
Hypothesis G : arc_on_grid cfg pl delta radius p sa sb ea eb jc je.
Hypothesis F : forward_arc sa sb ea eb.
Let M := make_circular_made (N:=RN) cfg delta radius pl rot v g Hg.
Let A := IZR (max_acceleration cfg).
Let rm := IZR (len_steps sa sb) / IZR p.
Let dc := Rabs (axis_c pl (delta : quad R)).
Let de := Rabs (qe (delta : quad R)).
(** Length of the movement for the turn [d]. *)
Definition way (d : R) : R := sqrt (d * rm * (d * rm) + dc * dc + de * de).

Lemma grid_motion l : completes cfg (GCircular g) l -> exists (t d : R) (phi dphi : R -> R),
  in_direction t sa sb /\ in_direction (arc_angle rot t d) ea eb /\ 0 < d <= 2 * PI /\ arc_motion cfg pl rot sa sb jc je l t d phi dphi /\
  (forall l1 q l2 m x, l = l1 ++ Pulse q :: l2 -> qat m q = Some (x : RN) -> (x : R) <= total_time_s (N:=RN) (GCircular g)) /\
  (forall x, 0 <= dphi x /\ way d / d * dphi x <= v / 60) /\
  (auto_velocity cfg = true -> forall x,
     rm * dphi x * 60 <= IZR (qat (motor_a pl) (max_velocity_min cfg)) /\ rm * dphi x * 60 <= IZR (qat (motor_b pl) (max_velocity_min cfg)) /\
     dc / d * dphi x * 60 <= IZR (qat (motor_c pl) (max_velocity_min cfg)) /\ de / d * dphi x * 60 <= IZR (qat ME (max_velocity_min cfg))) /\
  (v / 60 * (v / 60) <= A * way d ->
     (auto_velocity cfg = false \/ (forall m, v <= IZR (qat m (max_velocity_min cfg))) ->
        exists x, 0 <= x <= total_time_s (N:=RN) (GCircular g) /\ phi x <= d /\ way d / d * dphi x = v / 60) /\
     dphi 0 = 0 /\
     (forall x y, rm * Rabs (dphi x - dphi y) <= A * Rabs (x - y) /\ dc / d * Rabs (dphi x - dphi y) <= A * Rabs (x - y) /\ de / d * Rabs (dphi x - dphi y) <= A * Rabs (x - y)) /\
     (forall m, starts_within A cfg l m) /\
     (jc = 0%Z -> je = 0%Z -> (forall m, stops_within A cfg l m) /\
        phi (total_time_s (N:=RN) (GCircular g)) = d /\ dphi (total_time_s (N:=RN) (GCircular g)) = 0)) /\
  (jc = 0%Z -> je = 0%Z -> (auto_velocity cfg = false \/ (v <= IZR (qat (motor_a pl) (max_velocity_min cfg)) /\ v <= IZR (qat (motor_b pl) (max_velocity_min cfg)))) ->
     4 * (A * (d * rm)) <= v / 60 * (v / 60) ->
     exists a : R, 0 < a /\ a * a * A = d * rm /\ forall l1 q l2 m x, l = l1 ++ Pulse q :: l2 -> qat m q = Some (x : RN) -> x * x = 2 * a * (rm / (v / 60) * phi x) :> R).
Proof.
  intros Hl. destruct (follow_ends cfg delta radius pl rot v g Hc Hg p sa sb ea eb jc je G) as (E1 & E2 & E3).
  assert (Rg := follow_regular sa sb ea eb F). assert (Pp := net_p cfg delta radius pl rot v g Hc Hg p sa sb ea eb jc je G). assert (He := net_end cfg delta radius pl rot v g Hc Hg p sa sb ea eb jc je G).
  assert (Tr := net_travel cfg delta radius pl rot v g Hc Hg p sa sb ea eb jc je G l F Hl).
  destruct G as [Pa Pb Sa Sb Ea Eb Ec Ee Hs].
  destruct (profile_ex cfg delta radius pl rot v g M p Pp Pa Pb sa sb ea eb Sa Sb Ea Eb Hs He Hc Hv jc Ec) as (k & acc & lin & c & AP).
  exists (c_start_angle g : R), (c_delta_angle g : R), (phi_of g acc lin c), (dphi_of g acc lin c).
  split; [exact E1|]. split; [exact E2|]. split; [exact E3|].
  split; [eapply motion; eassumption|]. split; [eapply time_range; eassumption|]. split; [intros x; eapply speed; eassumption|]. split; [intros Au x; eapply limits; eassumption|].
  split; [intros Hlo; split; [|split; [|split; [|split]]]|].
  - intros Hn. eapply reached; eassumption.
  - unfold dphi_of. rewrite rate_0; [unfold Rdiv; ring|eapply acc_gt; eassumption|eapply lin_ge; eassumption].
  - intros x y. assert (X: forall z, 0 <= z <= Rmax ((c_delta_angle g : R) * rm) (Rmax dc de) -> z / (c_delta_angle g : R) * Rabs (dphi_of g acc lin c x - dphi_of g acc lin c y) <= A * Rabs (x - y)) by (intros z Hz; eapply part_lipschitz; eassumption).
    assert (Mp: (c_delta_angle g : R) * rm <= Rmax ((c_delta_angle g : R) * rm) (Rmax dc de) /\ dc <= Rmax ((c_delta_angle g : R) * rm) (Rmax dc de) /\ de <= Rmax ((c_delta_angle g : R) * rm) (Rmax dc de)).
    { split; [apply Rmax_l|]. split; (eapply Rle_trans; [|apply Rmax_r]); [apply Rmax_l|apply Rmax_r]. }
    destruct Mp as (M1 & M2 & M3). assert (Dr: 0 < (c_delta_angle g : R) * rm) by (eapply dr_gt; eassumption).
    split; [|split].
    + replace rm with ((c_delta_angle g : R) * rm / (c_delta_angle g : R)) by (field; lra). apply X; lra.
    + apply X. split; [apply Rabs_pos|exact M2].
    + apply X. split; [apply Rabs_pos|exact M3].
  - intros m. eapply starts; eassumption.
  - intros Jc Je. split; [intros m; eapply stops; eassumption|]. eapply stop_still; eassumption.
  - intros Jc Je Hn Hsh.
    assert (K1: k = 1) by (eapply no_slowing_flat; eassumption).
    assert (Fl: way (c_delta_angle g) = (c_delta_angle g : R) * rm) by (eapply proj1; eapply flat with (k := k); eassumption).
    assert (X: acc * acc * A = (c_delta_angle g : R) * rm /\ (c_r_div_v g : R) = rm / (v / 60 * k) /\ forall l1 q l2 m x, l = l1 ++ Pulse q :: l2 -> qat m q = Some (x : RN) -> x * x = 2 * acc * ((c_r_div_v g : R) * phi_of g acc lin c x) :> R).
    { eapply short_times; try eassumption. change (4 * (A * way (c_delta_angle g)) <= v / 60 * k * (v / 60 * k)). rewrite Fl, K1, Rmult_1_r. exact Hsh. }
    destruct X as (X1 & X2 & X3). rewrite K1, Rmult_1_r in X2. rewrite X2 in X3. exists acc. split; [eapply acc_gt; eassumption|]. split; [exact X1|exact X3].
Qed.

(** Every number of steps between the ends is passed with a pulse. *)
Lemma reach_pulse l m n : m = motor_a pl \/ m = motor_b pl -> completes cfg (GCircular g) l -> (0 < n <= travel cfg m l)%Z ->
  exists l1 q l2 x, l = l1 ++ Pulse q :: l2 /\ qat m q = Some (x : RN) /\ travel cfg m (l1 ++ [Pulse q]) = n.
Proof.
  intros Hm Hl Hn. assert (O: starts_inside g).
  { assert (Pp := net_p cfg delta radius pl rot v g Hc Hg p sa sb ea eb jc je G). assert (He := net_end cfg delta radius pl rot v g Hc Hg p sa sb ea eb jc je G). destruct G as [Pa Pb Sa Sb Ea Eb Ec Ee Hs]. eapply inside; eassumption. }
  assert (KP := k_plane _ _ _ _ _ _ _ M). destruct (completes_items _ _ _ Hl) as [nI En].
  assert (Pr: forall l0 r, l = l0 ++ r -> (n <= travel cfg m l0)%Z -> exists l1 q l2 x, l = l1 ++ Pulse q :: l2 /\ qat m q = Some (x : RN) /\ travel cfg m (l1 ++ [Pulse q]) = n).
  { intros l0. induction l0 as [|it l0 IH] using rev_ind; intros r E Ht.
    - exfalso. unfold travel, signed_steps in Ht. cbn [fold_left snd] in Ht. destruct (qat m (inverted cfg)); lia.
    - rewrite <- app_assoc in E. cbn [app] in E. destruct (Z_le_gt_dec n (travel cfg m l0)) as [L|L]; [exact (IH _ E L)|].
      assert (E0: items cfg (GCircular g) (length l0) = l0) by (apply (items_prefix cfg (GCircular g) nI l0 (it :: r)); rewrite <- E; exact En).
      assert (E1: items cfg (GCircular g) (S (length l0)) = l0 ++ [it]).
      { replace (S (length l0)) with (length (l0 ++ [it])) by (rewrite app_length; cbn; lia). apply (items_prefix cfg (GCircular g) nI _ r). rewrite <- app_assoc. cbn [app]. rewrite <- E. exact En. }
      assert (OS := arc_one_step cfg g O m (length l0)). rewrite KP in OS. specialize (OS Hm). cbv zeta in OS. rewrite E0, E1 in OS. destruct OS as [O1 O2].
      rewrite steps_snoc in O1, O2. destruct it as [d|q]; cbn [step_of] in O1, O2; [lia|]. destruct (qat m q) as [x|] eqn:Ex; [|lia].
      exists l0, q, r, x. split; [exact E|]. split; [exact Ex|lia]. }
  apply (Pr l []); [now rewrite app_nil_r|lia].
Qed.
End Grid.
