(** Circular generators in exact arithmetic: velocities. *)
From Coq Require Import ZArith Bool Reals Lra Lia List Psatz.
From Flocq Require Import Core.
From Verif Require Import PyBase PyNum Config Coordinates Pulses PulseSpec GMachine LinearGen LinearReal ArcSpec ArcRun ArcMake.
From Coq Require Import List.
Import ListNotations.
Local Open Scope R_scope.

Section Real.
Variable cfg : config.
Hypothesis Hc : sane_cfg cfg.
Hypothesis Ha : auto_velocity cfg = true.
Variables (delta radius : quad RN) (pl : plane) (rot : rotation) (v : RN).
Variable g : circular_gen RN.
Hypothesis M : made cfg delta radius pl rot v g.
Hypothesis Hv : (0 : R) < v.
Let vel : quad R := k_vel _ _ _ _ _ _ _ M.
Let len_ : R := k_length _ _ _ _ _ _ _ M.
Let arc : R := k_arc _ _ _ _ _ _ _ M.
Let acc : R := IZR (max_acceleration cfg).

Lemma ofdiv (a b c : R) : div (p:=RN) a b = Ok c -> b <> 0 /\ c = a / b.
Proof. cbn. destruct (Req_EM_T b 0) as [E|E]; [discriminate|]. intros H. injection H as <-. auto. Qed.
Lemma ofsqrt (a c : R) : sqrtn (p:=RN) a = Ok c -> 0 <= a /\ c = sqrt a.
Proof. cbn. destruct (Rlt_dec a 0) as [E|E]; [discriminate|]. intros H. injection H as <-. split; [lra|reflexivity]. Qed.

Lemma acc_pos : 0 < acc.
Proof. apply (IZR_lt 0), Hc. Qed.
Lemma velocity_pos : 0 < (k_velocity _ _ _ _ _ _ _ M : R).
Proof. destruct (ofdiv _ _ _ (k_velocity_eq _ _ _ _ _ _ _ M)) as [_ ->]. change (@sixty RN) with 60. apply Rdiv_lt_0_compat; lra. Qed.
Lemma r_nonneg : 0 <= (k_r _ _ _ _ _ _ _ M : R).
Proof.
  destruct (ofdiv _ _ _ (k_r_eq _ _ _ _ _ _ _ M)) as [NZ ->]. destruct (ofsqrt _ _ (k_h_eq _ _ _ _ _ _ _ M)) as [_ E].
  assert (R := k_rm_eq _ _ _ _ _ _ _ M). cbn in R. injection R as <-.
  set (mp := Z.min (axis_a pl (ppm cfg)) (axis_b pl (ppm cfg))) in *.
  assert (P: (0 < mp)%Z) by (unfold mp; destruct pl; cbn [axis_a axis_b]; apply Z.min_glb_lt; apply (sane_ppm cfg Hc MX) || apply (sane_ppm cfg Hc MY) || apply (sane_ppm cfg Hc MZ)).
  assert (P': 0 < IZR mp) by now apply (IZR_lt 0).
  apply Rmult_le_pos; [|left; now apply Rinv_0_lt_compat]. cbn. apply (IZR_le 0).
  rewrite <- (Zrnd_IZR ZnearestE 0). apply Zrnd_le; [apply valid_rnd_N|]. apply Rmult_le_pos; [|lra]. rewrite E. apply sqrt_pos.
Qed.
Lemma arc_nonneg : 0 <= arc.
Proof.
  unfold arc. rewrite (k_arc_eq _ _ _ _ _ _ _ M), (k_delta_angle _ _ _ _ _ _ _ M). cbn. apply Rmult_le_pos; [apply Rabs_pos|apply r_nonneg].
Qed.
Lemma len_nonneg : 0 <= len_.
Proof. destruct (ofsqrt _ _ (k_length_eq _ _ _ _ _ _ _ M)) as [_ E]. unfold len_. rewrite E. apply sqrt_pos. Qed.
(** A velocity component: some length over the whole length times the velocity. *)
Lemma part_nonneg (x y : R) : 0 <= x ->
  (if k_flz _ _ _ _ _ _ _ M then Ok (k_velocity _ _ _ _ _ _ _ M) else do! q <- div (p:=RN) x (k_length _ _ _ _ _ _ _ M); Ok (mul (p:=RN) q (k_velocity _ _ _ _ _ _ _ M))) = Ok y -> 0 <= y.
Proof.
  intros Hx. assert (V := velocity_pos). destruct (k_flz _ _ _ _ _ _ _ M) eqn:E; intros H.
  - injection H as <-. lra.
  - apply rbind_ok in H. destruct H as (q & H1 & H2). injection H2 as <-. apply ofdiv in H1. destruct H1 as [NZ ->]. fold len_ in NZ |- *.
    assert (L := len_nonneg). cbn. apply Rmult_le_pos; [|lra]. apply Rmult_le_pos; [exact Hx|]. left. apply Rinv_0_lt_compat. lra.
Qed.
Lemma vel_facts : exists k, vel = qmap (fun x => x * k) (from_axes pl (k_cv _ _ _ _ _ _ _ M : R) (k_cv _ _ _ _ _ _ _ M) (k_v3 _ _ _ _ _ _ _ M) (k_ev _ _ _ _ _ _ _ M)) /\
  0 < k <= 1 /\ (forall m, 0 <= qat m vel) /\ forall m, qat m vel * 60 <= IZR (qat m (max_velocity_min cfg)).
Proof.
  assert (C1 := part_nonneg _ _ arc_nonneg (k_cv_eq _ _ _ _ _ _ _ M)).
  assert (C2 := part_nonneg _ _ (Rabs_pos (axis_c pl delta)) (k_v3_eq _ _ _ _ _ _ _ M)).
  assert (C3 := part_nonneg _ _ (Rabs_pos (qe delta)) (k_ev_eq _ _ _ _ _ _ _ M)).
  set (q := from_axes pl _ _ _ _) in *.
  assert (Q0: forall m, 0 <= qat m (q : quad R)) by (intros m; unfold q; destruct pl, m; cbn; assumption).
  destruct (adjust_velocity_R cfg q Hc Q0) as (k & Ek & Hk & S). rewrite Ha in S. destruct S as [S _].
  assert (E := k_vel_eq _ _ _ _ _ _ _ M). replace (qmap (rnd10 (p:=RN)) _) with q in E by (unfold q; destruct pl; reflexivity).
  rewrite Ek in E. injection E as E. exists k. split; [unfold vel; now rewrite <- E|]. split; [exact Hk|].
  unfold vel. rewrite <- E. split; intros m; rewrite qat_qmap.
  - apply Rmult_le_pos; [apply Q0|lra].
  - apply S.
Qed.
Lemma acceptable (q : quad R) : (forall m, qat m q * 60 <= IZR (qat m (max_velocity_min cfg))) ->
  c_vel g = q -> too_fast (N:=RN) cfg (gen_max_velocity (GCircular g)) = false.
Proof.
  intros H E. assert (G: forall m, Rltb (IZR (qat m (max_velocity_min cfg))) (qat m q * 60) = false) by (intros m; apply Rltb_false, H).
  unfold too_fast, gen_max_velocity. cbn [gen_vel]. rewrite E, cmul_R. change (@sixty RN) with 60.
  rewrite !orb_false_iff. exact (conj (conj (conj (G MX) (G MY)) (G MZ)) (G ME)).
Qed.
(** The three cases of the velocity profile. *)
Lemma profile_cases : (c_vel g = Quad 0 0 0 0 /\ c_lin g = 0) \/
  (exists w, c_vel g = qmap (fun x => if Rltb 0 x then w else x) vel /\ w <= top vel /\ (c_lin g : R) = 0) \/
  (c_vel g = vel).
Proof.
  assert (P := k_profile _ _ _ _ _ _ _ M). assert (A := acc_pos). assert (L := len_nonneg).
  destruct (k_flz _ _ _ _ _ _ _ M) eqn:E.
  { left. injection P as P1 P2 P3. split; symmetry; assumption. }
  right. rewrite (k_flz_eq _ _ _ _ _ _ _ M) in E. change (Reqb len_ 0 = false) in E.
  assert (L1: 0 < len_) by (unfold Reqb in E; destruct (Req_EM_T len_ 0); [discriminate|lra]). clear E.
  destruct (ofdiv _ _ _ (k_acc0_eq _ _ _ _ _ _ _ M)) as [_ E0]. cbn [sqr RN rbind] in P.
  change (ltb (p:=RN) (k_length _ _ _ _ _ _ _ M) (mul (p:=RN) (accel cfg) (k_acc0 _ _ _ _ _ _ _ M * k_acc0 _ _ _ _ _ _ _ M)))
    with (Rltb len_ (acc * ((k_acc0 _ _ _ _ _ _ _ M : R) * k_acc0 _ _ _ _ _ _ _ M))) in P.
  destruct (Rltb len_ _) eqn:E.
  - left. apply Rltb_true in E. change (k_acc0 _ _ _ _ _ _ _ M = top vel / acc) in E0. rewrite E0 in E.
    apply rbind_ok in P. destruct P as (q & Q1 & P). apply ofdiv in Q1. destruct Q1 as [_ ->].
    apply rbind_ok in P. destruct P as (s & S1 & P). apply ofsqrt in S1. destruct S1 as [_ ->].
    apply rbind_ok in P. destruct P as (w & W1 & P). apply ofdiv in W1. destruct W1 as [NZ W1].
    injection P as P1 P2 P3. exists w. split; [symmetry; exact P3|]. split; [|symmetry; exact P2].
    change (accel (N:=RN) cfg) with acc in *. fold len_ in W1, NZ. 
    assert (T: 0 <= top vel) by (destruct vel_facts as (k & _ & _ & N0 & _); eapply Rle_trans; [apply (N0 MX)|apply top_ge]).
    assert (E2: len_ * acc <= top vel * top vel).
    { apply (Rmult_lt_compat_r acc) in E; [|exact A]. replace (acc * (top vel / acc * (top vel / acc)) * acc) with (top vel * top vel) in E by (field; lra). lra. }
    assert (W2: w = sqrt (len_ * acc)).
    { rewrite W1. assert (Q: 0 < len_ / acc) by (apply Rdiv_lt_0_compat; lra). assert (SQ := sqrt_sqrt (len_ / acc) ltac:(lra)). assert (SP := sqrt_lt_R0 _ Q).
      apply Rmult_eq_reg_r with (sqrt (len_ / acc)); [|lra]. unfold Rdiv at 1. rewrite Rmult_assoc, Rinv_l, Rmult_1_r by lra.
      rewrite <- sqrt_mult by nra. replace (len_ * acc * (len_ / acc)) with (len_ * len_) by (field; lra). now rewrite sqrt_square. }
    rewrite W2, <- (sqrt_square (top vel) T). now apply sqrt_le_1_alt.
  - right. repeat (apply rbind_ok in P; destruct P as (? & _ & P)). injection P as P1 P2 P3. symmetry. exact P3.
Qed.
Lemma long_acceptable : (c_lin g : R) <> 0 -> too_fast (N:=RN) cfg (gen_max_velocity (GCircular g)) = false.
Proof.
  intros H. destruct vel_facts as (k & _ & _ & _ & L). destruct profile_cases as [[_ E]|[(w & _ & _ & E)|E]]; [contradiction|contradiction|].
  exact (acceptable vel L E).
Qed.
(** Long enough: the third axis alone moves further than the velocity allows to stop. *)
Lemma rise_is_long : ((v : R) / 60) * (v / 60) < acc * Rabs (axis_c pl delta) -> (c_lin g : R) <> 0.
Proof.
  intros H. assert (P := k_profile _ _ _ _ _ _ _ M). assert (A := acc_pos). assert (L := len_nonneg). assert (V := velocity_pos).
  destruct (ofdiv _ _ _ (k_velocity_eq _ _ _ _ _ _ _ M)) as [_ Ev]. change (k_velocity _ _ _ _ _ _ _ M = (v : R) / 60) in Ev.
  destruct (ofsqrt _ _ (k_length_eq _ _ _ _ _ _ _ M)) as [L0 EL]. change (k_length _ _ _ _ _ _ _ M) with len_ in EL.
  match type of EL with _ = sqrt ?x => set (L2 := x : R) in EL, L0 end.
  assert (L2E: L2 = arc * arc + axis_c pl delta * axis_c pl delta + qe delta * qe delta) by reflexivity.
  assert (LL: len_ * len_ = L2) by (rewrite EL; now apply sqrt_sqrt).
  assert (Hle: forall x : R, x * x <= L2 -> Rabs x <= len_).
  { intros x Hx. rewrite EL, <- sqrt_Rsqr_abs. apply sqrt_le_1_alt. exact Hx. }
  assert (Dc: Rabs (axis_c pl delta) <= len_) by (apply Hle; rewrite L2E; nra).
  assert (De: Rabs (qe delta) <= len_) by (apply Hle; rewrite L2E; nra).
  assert (Dr: arc <= len_) by (apply Rle_trans with (Rabs arc); [apply Rle_abs|apply Hle; rewrite L2E; nra]).
  assert (L1: 0 < len_) by nra.
  assert (F: k_flz _ _ _ _ _ _ _ M = false).
  { rewrite (k_flz_eq _ _ _ _ _ _ _ M). change (Reqb len_ 0 = false). unfold Reqb. destruct (Req_EM_T len_ 0); [lra|reflexivity]. }
  assert (Part: forall x y : R, x <= len_ -> (if k_flz _ _ _ _ _ _ _ M then Ok (k_velocity _ _ _ _ _ _ _ M) else do! q <- div (p:=RN) x (k_length _ _ _ _ _ _ _ M); Ok (mul (p:=RN) q (k_velocity _ _ _ _ _ _ _ M))) = Ok y -> y <= (v : R) / 60).
  { intros x y Hx Hy. rewrite F in Hy. apply rbind_ok in Hy. destruct Hy as (q & Q & Hy). apply ofdiv in Q. destruct Q as [_ Q]. injection Hy as <-. cbn. fold len_ in Q. rewrite Ev.
    assert (q <= 1) by (rewrite Q; apply Rmult_le_reg_r with len_; [exact L1|]; unfold Rdiv; rewrite Rmult_assoc, Rinv_l by lra; lra).
    rewrite Ev in V. change (q * (v / 60) <= v / 60). nra. }
  assert (C1 := Part _ _ Dr (k_cv_eq _ _ _ _ _ _ _ M)). assert (C2 := Part _ _ Dc (k_v3_eq _ _ _ _ _ _ _ M)). assert (C3 := Part _ _ De (k_ev_eq _ _ _ _ _ _ _ M)).
  destruct vel_facts as (k & Vk & Hk & V0 & _). rewrite Ev in V.
  assert (T: 0 <= top vel <= (v : R) / 60).
  { destruct (top_is vel) as [m T]. rewrite T. split; [apply V0|]. assert (Vm := V0 m). rewrite Vk, qat_qmap in Vm |- *.
    match type of Vm with 0 <= ?z * _ => assert (Z1: z <= v / 60) by (destruct pl, m; assumption) end. nra. }
  destruct (ofdiv _ _ _ (k_acc0_eq _ _ _ _ _ _ _ M)) as [_ E0]. change (k_acc0 _ _ _ _ _ _ _ M = top vel / acc) in E0.
  rewrite F in P. cbn [sqr RN rbind] in P.
  change (ltb (p:=RN) (k_length _ _ _ _ _ _ _ M) (mul (p:=RN) (accel cfg) (k_acc0 _ _ _ _ _ _ _ M * k_acc0 _ _ _ _ _ _ _ M)))
    with (Rltb len_ (acc * ((k_acc0 _ _ _ _ _ _ _ M : R) * k_acc0 _ _ _ _ _ _ _ M))) in P.
  assert (S: acc * ((k_acc0 _ _ _ _ _ _ _ M : R) * k_acc0 _ _ _ _ _ _ _ M) < len_).
  { rewrite E0. replace (acc * (top vel / acc * (top vel / acc))) with (top vel * top vel / acc) by (field; lra).
    apply Rmult_lt_reg_r with acc; [exact A|]. unfold Rdiv. rewrite Rmult_assoc, Rinv_l, Rmult_1_r by lra. nra. }
  destruct (Rltb len_ _) eqn:E; [apply Rltb_true in E; lra|].
  apply rbind_ok in P. destruct P as (s & S1 & P). apply rbind_ok in P. destruct P as (w & W1 & P). injection P as P1 P2 P3. rewrite <- P2.
  apply ofdiv in W1. destruct W1 as [NZ ->]. change (k_length _ _ _ _ _ _ _ M) with len_. change (accel (N:=RN) cfg) with acc.
  apply Rmult_integral_contrapositive_currified; [|now apply Rinv_neq_0_compat]. cbn. lra.
Qed.
Lemma planar_acceptable : axis_c pl delta = (0 : R) -> qe delta = (0 : R) -> too_fast (N:=RN) cfg (gen_max_velocity (GCircular g)) = false.
Proof.
  intros Z1 Z2. destruct vel_facts as (k & Ev & Hk & N0 & L). destruct profile_cases as [[E _]|[(w & E & Hw & _)|E]].
  - apply (acceptable (Quad 0 0 0 0)); [|exact E]. intros m. assert (S := sane_vel cfg Hc m). apply (IZR_lt 0) in S. destruct m; cbn [qat qx qy qz qe] in *; lra.
  - apply (acceptable (qmap (fun x => if Rltb 0 x then w else x) vel)); [|exact E]. intros m. rewrite qat_qmap. destruct (Rltb 0 (qat m vel)) eqn:Hm; [|apply L].
    apply Rltb_true in Hm. destruct (k_flz _ _ _ _ _ _ _ M) eqn:F.
    + (* all axes at the same velocity *)
      assert (V := conj (k_cv_eq _ _ _ _ _ _ _ M) (conj (k_v3_eq _ _ _ _ _ _ _ M) (k_ev_eq _ _ _ _ _ _ _ M))). rewrite F in V. destruct V as (V1 & V2 & V3).
      injection V1 as V1. injection V2 as V2. injection V3 as V3. rewrite <- V1, <- V2, <- V3 in Ev.
      destruct (top_is vel) as [m' T]. rewrite T in Hw. apply Rle_trans with (qat m' vel * 60); [lra|].
      replace (qat m' vel) with (qat m vel); [apply L|]. rewrite Ev, !qat_qmap. destruct pl, m, m'; reflexivity.
    + assert (V := conj (k_v3_eq _ _ _ _ _ _ _ M) (k_ev_eq _ _ _ _ _ _ _ M)). rewrite F in V. destruct V as (V2 & V3).
      apply rbind_ok in V2. destruct V2 as (q2 & Q2 & V2). apply rbind_ok in V3. destruct V3 as (q3 & Q3 & V3).
      apply ofdiv in Q2, Q3. destruct Q2 as [_ Q2]. destruct Q3 as [_ Q3]. injection V2 as V2. injection V3 as V3.
      change (q2 = Rabs (axis_c pl delta) / len_) in Q2. change (q3 = Rabs (qe delta) / len_) in Q3.
      rewrite Z1, Rabs_R0 in Q2. rewrite Z2, Rabs_R0 in Q3. unfold Rdiv in Q2, Q3. rewrite Rmult_0_l in Q2, Q3. subst q2 q3. cbn in V2, V3. rewrite Rmult_0_l in V2, V3.
      rewrite <- V2, <- V3 in Ev. set (x := (k_cv _ _ _ _ _ _ _ M : R)) in *.
      destruct (top_is vel) as [m' T].
      assert (C: qat m' vel <= qat m vel).
      { rewrite Ev in Hm |- *. rewrite !qat_qmap in *. destruct pl, m, m'; cbn [qat from_axes qx qy qz qe] in *; lra. }
      apply Rle_trans with (qat m vel * 60); [lra|apply L].
  - exact (acceptable vel L E).
Qed.
End Real.
