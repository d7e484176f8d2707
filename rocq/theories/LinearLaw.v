(** The linear pulse generator in exact arithmetic: the facts behind C22 and
    C30-C34. *)
From Coq Require Import ZArith Bool List Lia Reals Lra Sorted.
From Flocq Require Import Core BinarySingleNaN.
From Verif Require Import PyBase PyNum PyFloatFacts Config Coordinates Pulses GMachine PulseSpec LinearGen LinearReal LinearRun.
From Coq Require Import List.
From Flocq Require Import Core BinarySingleNaN.
Import ListNotations.
Local Open Scope R_scope.

Section Law.
Variable cfg : config.
Hypothesis Hc : sane_cfg cfg.
Variable delta : quad R.
Hypothesis Hd : exists m, qat m delta <> 0.
Variable v : R.
Hypothesis Hv : 0 < v.
Notation total_ m := (ZnearestE (Rabs (qat m delta) * IZR (qat m (ppm cfg)))).
Notation d_ m := (Rabs (qat m delta)).
Notation p_ m := (IZR (qat m (ppm cfg))).

Lemma emits_exists : exists g l, emits (N:=RN) cfg delta v g l.
Proof.
  destruct (make_linear_R cfg Hc delta Hd v Hv) as (g & kap & kap0 & acc & lin & c & E & P).
  destruct (run_R cfg Hc delta Hd v g kap kap0 acc lin c P _ (Nat.lt_succ_diag_r _)) as (l & E2 & _).
  exists g. eexists. split; [exact E|]. eexists. exact E2.
Qed.

Lemma emits_good g l : emits (N:=RN) cfg delta v g l ->
  exists kap kap0 acc lin c l', profile cfg delta v g kap kap0 acc lin c /\
    l = Dir (invert_dirs cfg (l_dir g)) :: l' /\ good_run cfg delta g kap acc lin c (-1) zero4 l'.
Proof.
  intros [E [f Ef]].
  destruct (make_linear_R cfg Hc delta Hd v Hv) as (g' & kap & kap0 & acc & lin & c & E' & P).
  rewrite E in E'. injection E' as <-.
  destruct (run_R cfg Hc delta Hd v g kap kap0 acc lin c P _ (Nat.lt_succ_diag_r _)) as (l' & E2 & G).
  exists kap, kap0, acc, lin, c, l'. split; [exact P|]. split; [|exact G]. eapply run_gen_det; eauto.
Qed.

Section Emits.
Variable g : linear_gen RN.
Variable l : list (item RN).
Hypothesis He : emits (N:=RN) cfg delta v g l.

Lemma emits_steps : exists l', l = Dir (invert_dirs cfg (qmap (fun x => if Rlt_dec x 0 then -1 else 1)%Z delta)) :: l' /\
  Forall is_pulse l' /\ forall m, steps m l' = total_ m.
Proof.
  destruct (emits_good g l He) as (kap & kap0 & acc & lin & c & l' & P & -> & G). exists l'.
  rewrite (pf_dir _ _ _ _ _ _ _ _ _ P). split; [reflexivity|]. split.
  - destruct (good_run_times cfg Hc delta Hd v g kap kap0 acc lin c P _ _ _ G) as (ts & F & _). clear - F.
    induction F; constructor; auto. eexists. eassumption.
  - intros m. pose proof (good_run_steps cfg delta g kap acc lin c _ _ _ m G) as S.
    rewrite (total_is cfg delta v g kap kap0 acc lin c P) in S. replace (qat m zero4) with 0%Z in S by (destruct m; reflexivity). lia.
Qed.

Lemma emits_times : exists d l' ts, l = Dir d :: l' /\ Forall2 (fun it t => pulse_at (N:=RN) t it) l' ts /\ StronglySorted Rlt ts /\
  Forall (fun t => 0 <= t <= total_time_s (GLinear g)) ts /\ (forall t ts', ts = t :: ts' -> t = 0).
Proof.
  destruct (emits_good g l He) as (kap & kap0 & acc & lin & c & l' & P & -> & G). eexists. exists l'.
  destruct (good_run_times cfg Hc delta Hd v g kap kap0 acc lin c P _ _ _ G) as (ts & F & S & B). exists ts.
  split; [reflexivity|]. split; [exact F|]. split; [exact S|]. split.
  - apply Forall_forall. intros t Ht. rewrite Forall_forall in B. destruct (B t Ht) as (y & _ & Y & ->).
    pose proof (warp_range cfg Hc delta Hd v g kap kap0 acc lin c P y ltac:(lra)) as W.
    unfold total_time_s. cbn [gen_acc gen_lin]. rewrite (pf_acc _ _ _ _ _ _ _ _ _ P), (pf_lin _ _ _ _ _ _ _ _ _ P).
    change (@two RN) with 2. change (mul (p:=RN)) with Rmult. change (add (p:=RN)) with Rplus. lra.
  - intros t ts' ->. inversion F as [|it ? l1 ? Fh Ft]; subst. destruct Fh as (q & -> & (m & Hm) & _).
    inversion G as [|? ? y ? ? _ Y Q M _]; subst. destruct (Q m) as [(E & _ & K)|(E & _)]; [|congruence].
    rewrite E in Hm. injection Hm as <-. replace (qat m zero4) with 0%Z in K by (destruct m; reflexivity).
    rewrite tau_0 in K. rewrite <- K. apply (warp_0 cfg Hc delta Hd v g kap kap0 acc lin c P).
Qed.

(** Straightness. *)
Lemma emits_straight l1 q l2 : l = l1 ++ Pulse q :: l2 ->
  exists a, 0 <= a <= 1 /\ forall m, Rabs (IZR (steps m (l1 ++ [Pulse q])) - a * d_ m * p_ m) <= 1.
Proof.
  intros E. destruct (emits_good g l He) as (kap & kap0 & acc & lin & c & l' & P & E' & G).
  rewrite E in E'. destruct l1 as [|it l1]; [discriminate E'|]. injection E' as -> <-.
  assert (B0: behind cfg delta kap (-1) zero4) by (intros m; replace (qat m zero4) with 0%Z by (destruct m; reflexivity); lia).
  destruct (good_run_split cfg delta g kap acc lin c (-1) zero4 l1 q l2 G B0) as (y & _ & Y & Q & T).
  pose proof (pf_kap _ _ _ _ _ _ _ _ _ P) as K.
  assert (YK: y * kap < 1). { replace 1 with (/ kap * kap) by (field; lra). apply Rmult_lt_compat_r; lra. }
  exists (y * kap). split; [split; [nra|lra]|]. intros m. cbn [app steps fold_right step_of]. fold (steps m (l1 ++ [Pulse q])).
  specialize (Q m). specialize (T m). replace (qat m zero4) with 0%Z in * by (destruct m; reflexivity). cbv zeta in T. rewrite !Z.add_0_l in *.
  assert (S1: steps m (l1 ++ [Pulse q]) = (steps m l1 + step_of (N:=RN) m (Pulse q))%Z).
  { rewrite steps_app. cbn [steps fold_right]. lia. }
  pose proof (steps_nonneg (N:=RN) m l1) as NN1. pose proof (steps_nonneg (N:=RN) m (l1 ++ [Pulse q])) as NN2.
  pose proof (total_close cfg delta v g kap kap0 acc lin c P m) as C. apply Rabs_le_inv in C.
  set (n := steps m (l1 ++ [Pulse q])) in *.
  assert (W: (n <= qat m (l_total g))%Z) by (cbn [step_of] in S1; destruct Q as [(Eq & Lt & _)|(Eq & [Lt|(Lt & _)])]; rewrite Eq in S1; lia).
  pose proof (ppm_pos cfg Hc m) as PP. pose proof (Rabs_pos (qat m delta)) as DP.
  assert (X0: 0 <= d_ m * p_ m) by nra.
  assert (X1: y * kap * d_ m * p_ m <= d_ m * p_ m).
  { rewrite (Rmult_assoc (y * kap)). rewrite <- (Rmult_1_l (d_ m * p_ m)) at 2. apply Rmult_le_compat_r; lra. }
  assert (X2: 0 <= y * kap * d_ m * p_ m) by (rewrite (Rmult_assoc (y * kap)); apply Rmult_le_pos; nra).
  assert (Up: IZR n <= y * kap * d_ m * p_ m + 1).
  { destruct (Z_lt_le_dec 0 n) as [Hn|Hn].
    - assert (T0: (0 < qat m (l_total g))%Z) by lia. specialize (T ltac:(lia)).
      pose proof (tau_lt cfg Hc delta v g kap kap0 acc lin c P m (n - 1) y T0) as [_ TL].
      apply Rnot_lt_le. intros Z. assert (Z1: y * kap * d_ m * p_ m < IZR (n - 1)) by (rewrite minus_IZR; lra). apply TL in Z1. lra.
    - apply IZR_le in Hn. clear - Hn X2. change (IZR 0) with 0 in Hn. lra. }
  assert (Lo: y * kap * d_ m * p_ m <= IZR n + 1).
  { destruct (Z_lt_le_dec n (qat m (l_total g))) as [Hn|Hn].
    - assert (T0: (0 < qat m (l_total g))%Z) by lia.
      assert (Z: y < tau cfg delta kap m n).
      { cbn [step_of] in S1. destruct Q as [(Eq & _ & Ey)|(Eq & [Lt|(_ & Ey)])]; rewrite Eq in S1; [|lia|].
        - rewrite <- Ey. apply (tau_mono cfg Hc delta v g kap kap0 acc lin c P m); lia.
        - replace n with (steps m l1) by lia. exact Ey. }
      apply (tau_lt cfg Hc delta v g kap kap0 acc lin c P m n y T0) in Z. lra.
    - apply IZR_le in Hn. lra. }
  apply Rabs_le. lra.
Qed.

(** The motion. *)
Lemma emits_motion : exists kap kap0 acc lin c, profile cfg delta v g kap kap0 acc lin c /\
  motion cfg delta l (fun t => kap * travel acc lin c t) (fun t => kap * rate acc lin c t).
Proof.
  destruct (emits_good g l He) as (kap & kap0 & acc & lin & c & l' & P & E' & G).
  exists kap, kap0, acc, lin, c. split; [exact P|]. split.
  - rewrite (travel_0 cfg delta v g kap kap0 acc lin c P). ring.
  - intros t. apply (derivable_pt_lim_scal (travel acc lin c)). apply travel_deriv.
  - intros l1 q l2 m t E Hq. rewrite E in E'. destruct l1 as [|it l1]; [discriminate E'|]. injection E' as -> <-.
    assert (B0: behind cfg delta kap (-1) zero4) by (intros m'; replace (qat m' zero4) with 0%Z by (destruct m'; reflexivity); lia).
    destruct (good_run_split cfg delta g kap acc lin c (-1) zero4 l1 q l2 G B0) as (y & _ & Y & Q & _).
    replace (steps m (Dir (invert_dirs cfg (l_dir g)) :: l1)) with (steps (N:=RN) m l1) by reflexivity.
    destruct (Q m) as [(Eq & Lt & Ey)|(Eq & _)]; [|congruence]. rewrite Eq in Hq. injection Hq as <-.
    rewrite (travel_warp cfg Hc delta Hd v g kap kap0 acc lin c P) by lra.
    replace (qat m zero4) with 0%Z in * by (destruct m; reflexivity). rewrite Z.add_0_l in *.
    rewrite (Rmult_comm kap y). pose proof (steps_nonneg (N:=RN) m l1) as NN. apply (tau_inv cfg Hc delta v g kap kap0 acc lin c P m); [lia|exact Ey].
Qed.
(** Limits. *)
Lemma profile_rate kap kap0 acc lin c t : profile cfg delta v g kap kap0 acc lin c ->
  0 <= kap * rate acc lin c t <= kap0.
Proof.
  intros P. pose proof (rate_bounds cfg Hc delta Hd v g kap kap0 acc lin c P t) as B.
  pose proof (c_pos cfg Hc delta Hd v g kap kap0 acc lin c P) as C.
  pose proof (pf_kap _ _ _ _ _ _ _ _ _ P) as K. split; [nra|].
  apply Rle_trans with (kap * (2 * acc / c)); [apply Rmult_le_compat_l; lra|].
  pose proof (A_pos cfg Hc) as HA; cbv zeta in HA. pose proof (D_L delta Hd) as HD; cbv zeta in HD; destruct HD as [HD _]. set (DD := top (qmap Rabs delta)) in *.
  rewrite (pf_c _ _ _ _ _ _ _ _ _ P). fold DD. set (AA := IZR (max_acceleration cfg)) in *.
  replace (kap * (2 * acc / (2 * (DD * kap) / AA))) with (acc * AA / DD) by (field; lra).
  destruct (pf_case _ _ _ _ _ _ _ _ _ P) as [(-> & -> & _)|(_ & _ & _ & Lt)].
  - fold DD AA. right. field. lra.
  - fold DD AA in Lt. apply Rmult_le_reg_r with (DD / AA); [apply Rdiv_lt_0_compat; lra|].
    replace (acc * AA / DD * (DD / AA)) with acc by (field; lra). replace (kap0 * (DD / AA)) with (kap0 * DD / AA) by (field; lra). lra.
Qed.
Lemma profile_accel kap kap0 acc lin c t u m : profile cfg delta v g kap kap0 acc lin c ->
  Rabs (kap * rate acc lin c t * d_ m - kap * rate acc lin c u * d_ m) <= IZR (max_acceleration cfg) * Rabs (t - u).
Proof.
  intros P. pose proof (rate_lipschitz cfg Hc delta Hd v g kap kap0 acc lin c P t u) as B.
  pose proof (c_pos cfg Hc delta Hd v g kap kap0 acc lin c P) as C.
  pose proof (pf_kap _ _ _ _ _ _ _ _ _ P) as K. pose proof (A_pos cfg Hc) as HA; cbv zeta in HA. pose proof (D_L delta Hd) as HD; cbv zeta in HD; destruct HD as [HD _].
  pose proof (top_ge (qmap Rabs delta) m) as TG. rewrite qat_qmap in TG. set (DD := top (qmap Rabs delta)) in *.
  pose proof (Rabs_pos (qat m delta)) as DP. pose proof (Rabs_pos (t - u)) as TP.
  replace (kap * rate acc lin c t * d_ m - kap * rate acc lin c u * d_ m) with (kap * d_ m * (rate acc lin c t - rate acc lin c u)) by ring.
  rewrite Rabs_mult, Rabs_pos_eq by nra.
  apply Rle_trans with (kap * d_ m * (2 / c * Rabs (t - u))); [apply Rmult_le_compat_l; [nra|exact B]|].
  rewrite (pf_c _ _ _ _ _ _ _ _ _ P). fold DD. set (AA := IZR (max_acceleration cfg)) in *.
  replace (kap * d_ m * (2 / (2 * (DD * kap) / AA) * Rabs (t - u))) with (AA * Rabs (t - u) * (d_ m / DD)) by (field; lra).
  rewrite <- (Rmult_1_r (AA * Rabs (t - u))) at 2. apply Rmult_le_compat_l; [nra|].
  apply Rmult_le_reg_r with DD; [exact HD|]. unfold Rdiv. rewrite Rmult_assoc, Rinv_l by lra. lra.
Qed.
(** Requested velocities and their common reduction. *)
Lemma profile_kap0 kap kap0 acc lin c : profile cfg delta v g kap kap0 acc lin c ->
  kap <= kap0 /\ kap0 <= v / 60 / len delta /\
  (auto_velocity cfg = true -> forall m, kap0 * d_ m * 60 <= IZR (qat m (max_velocity_min cfg))) /\
  (auto_velocity cfg = false -> kap0 = v / 60 / len delta).
Proof.
  intros P. pose proof (pf_kap _ _ _ _ _ _ _ _ _ P) as K. pose proof (A_pos cfg Hc) as HA; cbv zeta in HA. pose proof (D_L delta Hd) as HD; cbv zeta in HD; destruct HD as [HD HL].
  pose proof (L_pos delta Hd) as LP; cbv zeta in LP. set (DD := top (qmap Rabs delta)) in *. set (LL := len delta) in *.
  assert (V: 0 < v / 60 / LL) by (apply Rdiv_lt_0_compat; lra).
  destruct (pf_slow _ _ _ _ _ _ _ _ _ P) as (k & Ek & Sk). fold LL in Ek, Sk. unfold slow_factor in Sk. destruct Sk as [Bk Sk].
  split; [|split; [|split]].
  - destruct (pf_case _ _ _ _ _ _ _ _ _ P) as [(_ & -> & _)|(Ea & -> & _ & Lt)]; [lra|]. fold LL DD in Ea, Lt. set (AA := IZR (max_acceleration cfg)) in *.
    pose proof (pf_accp _ _ _ _ _ _ _ _ _ P) as AP.
    apply Rmult_le_reg_r with acc; [exact AP|]. rewrite Rinv_l by lra.
    assert (Lt2: acc * AA < kap0 * DD). { apply Rmult_lt_reg_r with (/ AA); [now apply Rinv_0_lt_compat|]. unfold Rdiv in Lt. rewrite (Rmult_assoc acc), Rinv_r by lra. lra. }
    apply Rmult_le_reg_r with DD; [exact HD|].
    assert (LA: LL <= kap0 * DD * acc). { rewrite <- Ea. rewrite (Rmult_assoc acc acc), (Rmult_comm (kap0 * DD)). apply Rmult_le_compat_l; lra. }
    lra.
  - rewrite Ek. rewrite <- (Rmult_1_r (v / 60 / LL)) at 2. apply Rmult_le_compat_l; lra.
  - intros Ha. rewrite Ha in Sk. intros m. destruct Sk as [Sk _]. specialize (Sk m). rewrite qat_qmap in Sk. rewrite Ek. lra.
  - intros Ha. rewrite Ha in Sk. rewrite Ek, Sk. ring.
Qed.

(** End of the path. *)
Notation rho := (top (qmap Rabs delta) / len delta).
Lemma profile_end kap kap0 acc lin c : profile cfg delta v g kap kap0 acc lin c ->
  let te := warp acc lin c (/ kap) in
  0 <= te <= 2 * acc + lin /\ kap * travel acc lin c te = 1 /\
  rate acc lin c te * rate acc lin c te = (2 * acc / c) * (2 * acc / c) * (2 * (1 - rho)).
Proof.
  intros P te. pose proof (T_bounds cfg Hc delta Hd v g kap kap0 acc lin c P) as TB; cbv zeta in TB.
  pose proof (T_pos cfg delta v g kap kap0 acc lin c P) as TP; cbv zeta in TP.
  pose proof (c_pos cfg Hc delta Hd v g kap kap0 acc lin c P) as C.
  pose proof (q0_c cfg Hc delta Hd v g kap kap0 acc lin c P) as QC; cbv zeta in QC.
  pose proof (q0_pos cfg Hc delta Hd v g kap kap0 acc lin c P) as QP; cbv zeta in QP.
  pose proof (pf_kap _ _ _ _ _ _ _ _ _ P) as K. pose proof (pf_accp _ _ _ _ _ _ _ _ _ P) as AP. pose proof (pf_linp _ _ _ _ _ _ _ _ _ P) as LN.
  split; [apply (warp_range cfg Hc delta Hd v g kap kap0 acc lin c P); lra|]. split.
  { unfold te. rewrite (travel_warp cfg Hc delta Hd v g kap kap0 acc lin c P) by lra. field. lra. }
  assert (R: rate acc lin c te * rate acc lin c te = 4 / (c * c) * (2 * (acc * acc) - c * (/ kap - lin))).
  { set (q0 := acc * acc / c) in *. set (T := / kap) in *.
    set (u := sqrt (acc * acc - c * (T - q0 - lin))).
    assert (A0: 0 <= acc * acc - c * (T - q0 - lin)) by (rewrite <- QC; nra).
    assert (U2: u * u = acc * acc - c * (T - q0 - lin)) by (apply sqrt_sqrt; exact A0).
    assert (U0: 0 <= u) by apply sqrt_pos.
    assert (RU: rate acc lin c te = 2 / c * u).
    { unfold te, warp. fold q0. destruct (Rle_dec T q0) as [B|B].
      - assert (lin = 0) by lra. assert (ET: T = q0) by lra. assert (Eu: u = acc).
        { unfold u. replace (acc * acc - c * (T - q0 - lin)) with (acc * acc) by (rewrite ET, H; ring). apply sqrt_square. lra. }
        rewrite Eu, ET, QC. rewrite sqrt_square by lra. unfold rate, pp. rewrite H. f_equal.
        unfold Rmax; repeat match goal with |- context [Rle_dec ?a ?b] => destruct (Rle_dec a b) end; lra.
      - destruct (Rle_dec T (q0 + lin)) as [B2|B2].
        + assert (ET: T = q0 + lin) by lra. assert (Eu: u = acc).
          { unfold u. replace (acc * acc - c * (T - q0 - lin)) with (acc * acc) by (rewrite ET; ring). apply sqrt_square. lra. }
          rewrite Eu, ET. unfold rate, pp. f_equal.
          unfold Rmax; repeat match goal with |- context [Rle_dec ?a ?b] => destruct (Rle_dec a b) end; lra.
        + fold u. assert (U1: u <= acc). { apply (root_le cfg delta v g kap kap0 acc lin c P). nra. }
          unfold rate, pp. f_equal. unfold Rmax; repeat match goal with |- context [Rle_dec ?a ?b] => destruct (Rle_dec a b) end; lra. }
    rewrite RU. replace (2 / c * u * (2 / c * u)) with (4 / (c * c) * (u * u)) by (field; lra). f_equal. rewrite U2. lra. }
  rewrite R. clear R.
  pose proof (A_pos cfg Hc) as HA; cbv zeta in HA. pose proof (D_L delta Hd) as HD; cbv zeta in HD; destruct HD as [HD HL].
  pose proof (L_pos delta Hd) as LP; cbv zeta in LP. set (DD := top (qmap Rabs delta)) in *. set (LL := len delta) in *.
  set (AA := IZR (max_acceleration cfg)) in *.
  pose proof (pf_c _ _ _ _ _ _ _ _ _ P) as EC. fold DD AA in EC.
  destruct (pf_case _ _ _ _ _ _ _ _ _ P) as [(Ea & _ & El)|(Ea & Ek & El & _)]; fold DD AA in Ea; try fold LL in Ea; rewrite El.
  - fold LL AA. assert (EC2: c = 2 * acc) by (rewrite EC, Ea; field; lra). rewrite EC2.
    replace (2 * (acc * acc) - 2 * acc * (/ kap - (LL - acc * acc * AA) / (LL * kap)))
      with (2 * (acc * acc) * (1 - acc * AA / (LL * kap))) by (field; lra).
    replace (acc * AA / (LL * kap)) with (DD / LL) by (rewrite Ea; field; lra). field. lra.
  - rewrite Ek, Rinv_inv.
    assert (EC2: c = 2 * acc * (DD / LL)). { rewrite EC, Ek, <- Ea. field; repeat split; lra. }
    rewrite EC2 at 3. field. lra.
Qed.
Lemma profile_symmetric kap kap0 acc lin c t : profile cfg delta v g kap kap0 acc lin c -> 0 <= t <= 2 * acc + lin ->
  rate acc lin c (2 * acc + lin - t) = rate acc lin c t.
Proof.
  intros P Ht. pose proof (pf_accp _ _ _ _ _ _ _ _ _ P) as AP. pose proof (pf_linp _ _ _ _ _ _ _ _ _ P) as LN.
  unfold rate, pp. f_equal. unfold Rmax; repeat match goal with |- context [Rle_dec ?a ?b] => destruct (Rle_dec a b) end; lra.
Qed.
Lemma profile_total kap kap0 acc lin c : profile cfg delta v g kap kap0 acc lin c ->
  (total_time_s (GLinear g) : R) = 2 * acc + lin.
Proof.
  intros P. unfold total_time_s. cbn [gen_acc gen_lin]. rewrite (pf_acc _ _ _ _ _ _ _ _ _ P), (pf_lin _ _ _ _ _ _ _ _ _ P).
  change (@two RN) with 2. change (mul (p:=RN)) with Rmult. change (add (p:=RN)) with Rplus. ring.
Qed.
Lemma rate_end kap kap0 acc lin c : profile cfg delta v g kap kap0 acc lin c -> rate acc lin c (2 * acc + lin) = 0.
Proof.
  intros P. pose proof (pf_accp _ _ _ _ _ _ _ _ _ P) as AP. pose proof (pf_linp _ _ _ _ _ _ _ _ _ P) as LN.
  unfold rate, pp. replace (Rmax 0 _ - _ - _ + _) with 0; [ring|].
  unfold Rmax; repeat match goal with |- context [Rle_dec ?a ?b] => destruct (Rle_dec a b) end; lra.
Qed.
Lemma rho_range : 0 < rho <= 1.
Proof.
  pose proof (D_L delta Hd) as HD; cbv zeta in HD; destruct HD as [HD HL]. pose proof (L_pos delta Hd) as LP; cbv zeta in LP.
  split; [apply Rdiv_lt_0_compat; lra|]. apply Rmult_le_reg_r with (len delta); [exact LP|]. unfold Rdiv. rewrite Rmult_assoc, Rinv_l by lra. lra.
Qed.
(** The ratio is 1 exactly when one axis moves. *)
Lemma rho_one m : (forall m', m' <> m -> qat m' delta = 0) -> rho = 1.
Proof.
  intros H. pose proof (L_pos delta Hd) as LP; cbv zeta in LP. pose proof (D_L delta Hd) as HD; cbv zeta in HD; destruct HD as [HD HL].
  assert (E: len delta = d_ m).
  { unfold len. rewrite <- sqrt_Rsqr_abs. f_equal. unfold Rsqr.
    destruct m; cbn [qat]; rewrite ?(H MX ltac:(discriminate) : qx delta = 0), ?(H MY ltac:(discriminate) : qy delta = 0),
      ?(H MZ ltac:(discriminate) : qz delta = 0), ?(H ME ltac:(discriminate) : qe delta = 0); ring. }
  assert (G: d_ m <= top (qmap Rabs delta)) by (rewrite <- (qat_qmap Rabs); apply top_ge).
  replace (top (qmap Rabs delta)) with (len delta) by lra. field. lra.
Qed.
Lemma rho_less m1 m2 : m1 <> m2 -> qat m1 delta <> 0 -> qat m2 delta <> 0 -> rho < 1.
Proof.
  intros N H1 H2. pose proof (L_pos delta Hd) as LP; cbv zeta in LP. pose proof (D_L delta Hd) as HD; cbv zeta in HD; destruct HD as [HD HL].
  assert (S: top (qmap Rabs delta) * top (qmap Rabs delta) < len delta * len delta).
  { rewrite len_sq. destruct (top_is (qmap Rabs delta)) as [m ->]. rewrite qat_qmap, <- Rabs_mult, Rabs_pos_eq by nra.
    assert (P1: 0 < qat m1 delta * qat m1 delta) by nra. assert (P2: 0 < qat m2 delta * qat m2 delta) by nra.
    destruct m1, m2; try congruence; destruct m; cbn [qat] in *; nra. }
  apply Rmult_lt_reg_r with (len delta); [exact LP|]. unfold Rdiv. rewrite Rmult_assoc, Rinv_l by lra. nra.
Qed.
End Emits.
End Law.

(* ---------- statements of the properties ---------- *)
Lemma pulses_exact : forall cfg delta v,
  sane_cfg cfg -> (exists m, qat m delta <> 0) -> 0 < v ->
  exists g l, emits (N:=RN) cfg delta v g (Dir (invert_dirs cfg (qmap (fun x => if Rlt_dec x 0 then -1 else 1)%Z delta)) :: l) /\
    (forall m, steps m l = ZnearestE (Rabs (qat m delta) * IZR (qat m (ppm cfg)))) /\
    Forall (fun it => exists t, pulse_at t it) l.
Proof.
  intros cfg delta v Hc Hd Hv. destruct (emits_exists cfg Hc delta Hd v Hv) as (g & l & H).
  destruct (emits_steps cfg Hc delta Hd v Hv g l H) as (l' & -> & F & S). exists g, l'. auto.
Qed.

Lemma adjusted_acceptable : forall cfg delta v,
  sane_cfg cfg -> auto_velocity cfg = true -> (exists m, qat m delta <> 0) -> 0 < v ->
  exists g k, make_linear (N:=RN) cfg delta v = Ok g /\
    too_fast (N:=RN) cfg (gen_max_velocity (GLinear g)) = false /\
    0 < k <= 1 /\ forall m, (qat m (l_vel g) : R) = k * (v / 60 * (Rabs (qat m delta) / len delta)).
Proof.
  intros cfg delta v Hc Ha Hd Hv.
  destruct (make_linear_R cfg Hc delta Hd v Hv) as (g & kap & kap0 & acc & lin & c & E & P).
  destruct (profile_kap0 cfg Hc delta Hd v Hv g kap kap0 acc lin c P) as (K1 & K2 & K3 & _).
  pose proof (pf_kap _ _ _ _ _ _ _ _ _ P) as K. pose proof (L_pos delta Hd) as LP; cbv zeta in LP.
  assert (V: 0 < v / 60 / len delta) by (apply Rdiv_lt_0_compat; lra).
  exists g, (kap / (v / 60 / len delta)). split; [exact E|]. split; [|split; [split|]].
  - assert (G: forall m, Rltb (IZR (qat m (max_velocity_min cfg))) (qat m (l_vel g) * 60) = false).
    { intros m. apply Rltb_false. rewrite (pf_vel _ _ _ _ _ _ _ _ _ P), qat_qmap. specialize (K3 Ha m).
      pose proof (Rabs_pos (qat m delta)). apply Rle_trans with (kap0 * Rabs (qat m delta) * 60); [|exact K3]. nra. }
    unfold too_fast, gen_max_velocity. cbn [gen_vel]. rewrite cmul_R. change (@sixty RN) with 60.
    rewrite !orb_false_iff. exact (conj (conj (conj (G MX) (G MY)) (G MZ)) (G ME)).
  - now apply Rdiv_lt_0_compat.
  - apply Rmult_le_reg_r with (v / 60 / len delta); [exact V|]. unfold Rdiv at 1. rewrite Rmult_assoc, Rinv_l by lra. lra.
  - intros m. rewrite (pf_vel _ _ _ _ _ _ _ _ _ P), qat_qmap. field. lra.
Qed.

Lemma motion_limits : forall cfg delta v g l,
  sane_cfg cfg -> (exists m, qat m delta <> 0) -> 0 < v -> emits (N:=RN) cfg delta v g l ->
  exists s s', motion cfg delta l s s' /\
    (forall t m, 0 <= s' t * Rabs (qat m delta) <= v / 60 * (Rabs (qat m delta) / len delta)) /\
    (auto_velocity cfg = true -> forall t m, s' t * Rabs (qat m delta) <= IZR (qat m (max_velocity_min cfg)) / 60) /\
    (forall t u m, Rabs (s' t * Rabs (qat m delta) - s' u * Rabs (qat m delta)) <= IZR (max_acceleration cfg) * Rabs (t - u)).
Proof.
  intros cfg delta v g l Hc Hd Hv He.
  destruct (emits_motion cfg Hc delta Hd v Hv g l He) as (kap & kap0 & acc & lin & c & P & M).
  destruct (profile_kap0 cfg Hc delta Hd v Hv g kap kap0 acc lin c P) as (K1 & K2 & K3 & _).
  pose proof (L_pos delta Hd) as LP; cbv zeta in LP.
  assert (V: 0 < v / 60 / len delta) by (apply Rdiv_lt_0_compat; lra).
  eexists; eexists. split; [exact M|]. split; [|split].
  - intros t m. pose proof (profile_rate cfg Hc delta Hd v g kap kap0 acc lin c t P) as B. pose proof (Rabs_pos (qat m delta)) as DP.
    split; [apply Rmult_le_pos; lra|].
    replace (v / 60 * (Rabs (qat m delta) / len delta)) with (v / 60 / len delta * Rabs (qat m delta)) by (field; lra).
    apply Rmult_le_compat_r; lra.
  - intros Ha t m. pose proof (profile_rate cfg Hc delta Hd v g kap kap0 acc lin c t P) as B. pose proof (Rabs_pos (qat m delta)) as DP.
    specialize (K3 Ha m). apply Rle_trans with (kap0 * Rabs (qat m delta)); [apply Rmult_le_compat_r; lra|lra].
  - intros t u m. exact (profile_accel cfg Hc delta Hd v g kap kap0 acc lin c t u m P).
Qed.

Lemma brakes_single : forall cfg delta v g l m,
  sane_cfg cfg -> qat m delta <> 0 -> (forall m', m' <> m -> qat m' delta = 0) -> 0 < v -> emits (N:=RN) cfg delta v g l ->
  exists s s', motion cfg delta l s s' /\
    let T := total_time_s (GLinear g) : R in
    s T = 1 /\ s' T = 0 /\ forall t, 0 <= t <= T -> s' (T - t) = s' t.
Proof.
  intros cfg delta v g l m Hc Hm Ho Hv He. assert (Hd: exists m, qat m delta <> 0) by (exists m; exact Hm).
  destruct (emits_motion cfg Hc delta Hd v Hv g l He) as (kap & kap0 & acc & lin & c & P & M).
  eexists; eexists. split; [exact M|]. cbv zeta. rewrite (profile_total cfg delta v g kap kap0 acc lin c P).
  pose proof (profile_end cfg Hc delta Hd v g kap kap0 acc lin c P) as (E1 & E2 & E3). set (te := warp acc lin c (/ kap)) in *.
  rewrite (rho_one delta Hd m Ho) in E3. replace (2 * (1 - 1)) with 0 in E3 by ring. rewrite Rmult_0_r in E3.
  assert (R0: rate acc lin c te = 0) by nra.
  pose proof (pf_accp _ _ _ _ _ _ _ _ _ P) as AP. pose proof (pf_linp _ _ _ _ _ _ _ _ _ P) as LN.
  pose proof (c_pos cfg Hc delta Hd v g kap kap0 acc lin c P) as C.
  pose proof (pf_kap _ _ _ _ _ _ _ _ _ P) as K.
  assert (ET: te = 2 * acc + lin).
  { assert (Z: pp te - pp (te - acc) - pp (te - (acc + lin)) + pp (te - (2 * acc + lin)) = 0).
    { unfold rate in R0. apply Rmult_integral in R0. destruct R0 as [R0|R0]; [|exact R0].
      exfalso. assert (0 < 2 / c) by (apply Rdiv_lt_0_compat; lra). lra. }
    destruct (Req_dec te 0) as [T0|T0].
    - exfalso. rewrite T0, (travel_0 cfg delta v g kap kap0 acc lin c P) in E2. lra.
    - unfold pp, Rmax in Z. repeat match goal with H : context [Rle_dec ?a ?b] |- _ => destruct (Rle_dec a b) end; lra. }
  split; [rewrite <- ET; exact E2|]. split.
  - rewrite (rate_end cfg delta v g kap kap0 acc lin c P). ring.
  - intros t Ht. now rewrite (profile_symmetric cfg delta v g kap kap0 acc lin c t P Ht).
Qed.

Lemma brakes_not : forall cfg delta v g l m1 m2,
  sane_cfg cfg -> m1 <> m2 -> qat m1 delta <> 0 -> qat m2 delta <> 0 -> 0 < v -> emits (N:=RN) cfg delta v g l ->
  exists s s' t0 te D, motion cfg delta l s s' /\
    0 <= te <= total_time_s (GLinear g) /\ s te = 1 /\
    (forall t, s' t <= s' t0) /\ 0 < s' t0 /\
    (forall m, Rabs (qat m delta) <= D) /\ D < len delta /\
    0 < s' te /\ s' te = s' t0 * sqrt (2 * (1 - D / len delta)).
Proof.
  intros cfg delta v g l m1 m2 Hc Hn H1 H2 Hv He. assert (Hd: exists m, qat m delta <> 0) by (exists m1; exact H1).
  destruct (emits_motion cfg Hc delta Hd v Hv g l He) as (kap & kap0 & acc & lin & c & P & M).
  pose proof (profile_end cfg Hc delta Hd v g kap kap0 acc lin c P) as (E1 & E2 & E3). set (te := warp acc lin c (/ kap)) in *.
  pose proof (pf_accp _ _ _ _ _ _ _ _ _ P) as AP. pose proof (pf_linp _ _ _ _ _ _ _ _ _ P) as LN.
  pose proof (c_pos cfg Hc delta Hd v g kap kap0 acc lin c P) as C. pose proof (pf_kap _ _ _ _ _ _ _ _ _ P) as K.
  pose proof (L_pos delta Hd) as LP; cbv zeta in LP. pose proof (rho_less delta Hd m1 m2 Hn H1 H2) as RL.
  eexists; eexists. exists acc, te, (top (qmap Rabs delta)). split; [exact M|].
  rewrite (profile_total cfg delta v g kap kap0 acc lin c P).
  assert (RA: rate acc lin c acc = 2 * acc / c).
  { unfold rate, pp. replace (Rmax 0 acc - _ - _ + _) with acc; [field; lra|].
    unfold Rmax; repeat match goal with |- context [Rle_dec ?a ?b] => destruct (Rle_dec a b) end; lra. }
  assert (PK: 0 < 2 * acc / c) by (apply Rdiv_lt_0_compat; lra).
  assert (RT: rate acc lin c te = 2 * acc / c * sqrt (2 * (1 - top (qmap Rabs delta) / len delta))).
  { set (x := 2 * (1 - top (qmap Rabs delta) / len delta)) in *. assert (X: 0 < x) by (unfold x; lra).
    pose proof (rate_bounds cfg Hc delta Hd v g kap kap0 acc lin c P te) as B.
    rewrite <- (sqrt_square (rate acc lin c te)) by lra. rewrite E3. rewrite sqrt_mult by nra. now rewrite sqrt_square by lra. }
  assert (SP: 0 < sqrt (2 * (1 - top (qmap Rabs delta) / len delta))) by (apply sqrt_lt_R0; lra).
  rewrite RA, RT. repeat split.
  - apply E1.
  - apply E1.
  - exact E2.
  - intros t. apply Rmult_le_compat_l; [lra|]. apply (rate_bounds cfg Hc delta Hd v g kap kap0 acc lin c P).
  - now apply Rmult_lt_0_compat.
  - intros m. rewrite <- (qat_qmap Rabs). apply top_ge.
  - apply Rmult_lt_reg_r with (/ len delta); [now apply Rinv_0_lt_compat|]. rewrite Rinv_r by lra. exact RL.
  - apply Rmult_lt_0_compat; [exact K|]. now apply Rmult_lt_0_compat.
  - ring.
Qed.

Lemma no_braking : exists g l,
  emits (N:=RN) default_config (Quad (1/100) (1/100) (1/100) (1/100)) 1200 g l /\ steps MZ l = 4%Z /\
  exists a, 0 < a /\ forall l1 q l2 t, l = l1 ++ Pulse q :: l2 -> qat MZ q = Some t -> t = a * sqrt (IZR (steps MZ l1)).
Proof.
  set (delta := Quad (1/100) (1/100) (1/100) (1/100)). pose proof default_sane as Hc.
  assert (Hd: exists m, qat m delta <> 0) by (exists MX; cbn; lra). assert (Hv: 0 < 1200) by lra.
  destruct (emits_exists _ Hc delta Hd _ Hv) as (g & l & He). exists g, l. split; [exact He|].
  assert (Q: forall m, Rabs (qat m delta) = 1 / 100) by (intros []; cbn [qat delta qx qy qz qe]; apply Rabs_pos_eq; lra).
  split.
  { destruct (emits_steps _ Hc delta Hd _ Hv g l He) as (l' & -> & _ & S). cbn [steps fold_right step_of]. fold (steps (N:=RN) MZ l').
    rewrite (S MZ), Q. cbn [qat ppm default_config qz]. replace (1 / 100 * 400) with (IZR 4) by lra.
    rewrite (Zrnd_IZR ZnearestE). reflexivity. }
  destruct (emits_good _ Hc delta Hd _ Hv g l He) as (kap & kap0 & acc & lin & c & l' & P & El & G).
  assert (TD: top (qmap Rabs delta) = 1 / 100) by (destruct (top_is (qmap Rabs delta)) as [m ->]; rewrite qat_qmap; apply Q).
  assert (LD: len delta = 2 / 100).
  { unfold len, delta. cbn [qx qy qz qe]. replace (_ + _ + _ + _) with (2 / 100 * (2 / 100)) by field. apply sqrt_square. lra. }
  pose proof (pf_accp _ _ _ _ _ _ _ _ _ P) as AP. pose proof (pf_linp _ _ _ _ _ _ _ _ _ P) as LN.
  pose proof (pf_kap _ _ _ _ _ _ _ _ _ P) as KP.
  pose proof (pf_c _ _ _ _ _ _ _ _ _ P) as EC. rewrite TD in EC. cbn [max_acceleration default_config] in EC.
  assert (K0: kap0 = 1000).
  { destruct (pf_slow _ _ _ _ _ _ _ _ _ P) as (k & Ek & Bk & Sk). rewrite LD in Ek, Sk. cbn [auto_velocity default_config] in Sk.
    replace (1200 / 60 / (2 / 100)) with 1000 in Ek, Sk by field.
    destruct Sk as [S1 S2]. rewrite Ek. destruct S2 as [->|[m S2]]; [ring|].
    pose proof (S1 MZ) as SZ. rewrite qat_qmap, Q in S2. rewrite qat_qmap, Q in SZ.
    cbn [qat max_velocity_min default_config qx qy qz qe] in S2, SZ. destruct m; cbn in S2; lra. }
  destruct (pf_case _ _ _ _ _ _ _ _ _ P) as [(Ea & Ek & Eli)|(Ea & Ek & Eli & _)].
  { exfalso. rewrite TD in Ea. rewrite LD in Eli. cbn [max_acceleration default_config] in Ea, Eli. rewrite Ek, K0 in Ea. rewrite Ek, K0 in Eli. assert (acc = / 300) by lra. subst acc.
    assert (X: (2 / 100 - / 300 * / 300 * 3000) / (2 / 100 * 1000) < 0) by lra. lra. }
  rewrite LD in Ea. cbn [max_acceleration default_config] in Ea. exists (acc / 2). split; [lra|]. intros l1 q l2 t E Hq.
  rewrite El in E. destruct l1 as [|it l1]; [discriminate E|]. injection E as <- E. subst l'.
  assert (B0: behind default_config delta kap (-1) zero4) by (intros m'; replace (qat m' zero4) with 0%Z by (destruct m'; reflexivity); lia).
  destruct (good_run_split default_config delta g kap acc lin c (-1) zero4 l1 q l2 G B0) as (y & _ & Y & Qs & _).
  replace (steps MZ (Dir (invert_dirs default_config (l_dir g)) :: l1)) with (steps (N:=RN) MZ l1) by reflexivity.
  destruct (Qs MZ) as [(Eq & Lt & Ey)|(Eq & _)]; [|congruence]. rewrite Eq in Hq. injection Hq as <-.
  pose proof (steps_nonneg (N:=RN) MZ l1) as NN.
  apply (tau_inv default_config Hc delta _ g kap kap0 acc lin c P MZ) in Ey; [|change (qat MZ zero4) with 0%Z in Lt; lia].
  rewrite Q in Ey. change (qat MZ zero4) with 0%Z in Ey. change (qat MZ (ppm default_config)) with 400%Z in Ey. rewrite Z.add_0_l in Ey. rewrite <- Ey.
  assert (C2: c = acc). { rewrite EC, Ek. apply Rmult_eq_reg_r with (acc * 3000); [|nra]. replace (2 * (1 / 100 * / acc) / 3000 * (acc * 3000)) with (2 / 100) by (field; lra). lra. }
  assert (KA: kap * acc = 1) by (rewrite Ek; field; lra).
  unfold warp. rewrite C2. replace (acc * acc / acc) with acc by (field; lra).
  rewrite Ek, Rinv_inv in Y. destruct (Rle_dec y acc) as [_|n]; [|lra].
  rewrite Ek. replace (y * / acc * (1 / 100) * 400) with (y * acc * ((2 / acc) * (2 / acc))) by (field; lra).
  assert (A2: 0 < 2 / acc) by (apply Rdiv_lt_0_compat; lra).
  rewrite (sqrt_mult (y * acc)) by nra. rewrite sqrt_square by lra.
  match goal with |- @eq _ ?a ?b => change (@eq R a b) end. field. lra.
Qed.

(* ---------- binary64 ---------- *)
Lemma f_lt_irrefl x : f_lt x x = false.
Proof.
  destruct x as [s|s| |s m e H]; try (now destruct s); try reflexivity. unfold f_lt.
  rewrite Bltb_correct by reflexivity. apply Rlt_bool_false. lra.
Qed.
Lemma f_mul_fin (x y : f64) : fin (f_mul x y) -> val (f_mul x y) = rd (val x * val y).
Proof.
  intros H. unfold f_mul in *. generalize (Bmult_correct prec64 emax64 _ _ mode_NE x y). case Rlt_bool_spec; intros _.
  - intros [-> _]. reflexivity.
  - intros E. exfalso. unfold fin in H. apply (f_equal is_finite_SF) in E. rewrite is_finite_SF_B2SF, H in E.
    unfold binary_overflow in E. cbn in E. discriminate E.
Qed.
Lemma f_rnd_fin x n : f_rnd x = Ok n -> fin x.
Proof. destruct x; cbn; try discriminate; reflexivity. Qed.
Lemma f_rnd10_nonneg x : fin x -> 0 <= val x -> 0 <= val (f_rnd10 x).
Proof.
  intros F H. destruct (f_rnd10_val x F) as (_ & -> & _). rewrite <- rd_0. apply rd_le.
  apply Rmult_le_pos; [|left; apply Rinv_0_lt_compat; unfold e10; lra]. apply (IZR_le 0). unfold dec10.
  rewrite <- (ZnearestE_IZR 0). apply (Zrnd_le ZnearestE). unfold e10. nra.
Qed.
Lemma f_ofZ_nonneg n : (0 <= n)%Z -> 0 <= val (f_ofZ n).
Proof.
  intros H. unfold f_ofZ. generalize (binary_normalize_correct prec64 emax64 prec64_gt_0 prec64_lt_emax mode_NE n 0 false).
  assert (E: F2R (Float radix2 n 0) = IZR n) by (unfold F2R; simpl; ring).
  cbv zeta. rewrite E. fold (rd (IZR n)). destruct (Rlt_bool _ _).
  - intros [-> _]. rewrite <- rd_0. apply rd_le. now apply (IZR_le 0).
  - intros K. destruct (binary_normalize _ _ _ _ _ _ _ _); cbn; try lra. exfalso.
    unfold binary_overflow in K. cbn in K. discriminate K.
Qed.

Section F.
Variable acos : f64 -> f64.
Notation N := (F64 acos).
Lemma make_linear_counts cfg (d : quad N) v g : make_linear cfg d v = Ok g ->
  (forall m, f_rnd (f_mul (f_rnd10 (Babs (qat m d))) (f_ofZ (qat m (ppm cfg)))) = Ok (qat m (l_total g))) /\
  l_dir g = qmap f_copysign1 d.
Proof.
  unfold make_linear. intros H.
  repeat match type of H with
  | rbind ?c _ = Ok _ => let E := fresh "E" in destruct c eqn:E; cbn [rbind] in H; [|discriminate H]
  | (match ?c with pair _ _ => _ end) = Ok _ => destruct c
  end.
  injection H as <-. split; [|reflexivity]. intros []; cbn [l_total qat]; assumption.
Qed.
Lemma count_nonneg (x : f64) p n : (0 <= p)%Z -> f_rnd (f_mul (f_rnd10 (Babs x)) (f_ofZ p)) = Ok n -> (0 <= n)%Z.
Proof.
  intros Hp H. pose proof (f_rnd_fin _ _ H) as F. rewrite (f_rnd_val _ F) in H. injection H as <-.
  rewrite (f_mul_fin _ _ F). rewrite <- (ZnearestE_IZR 0). apply (Zrnd_le ZnearestE). rewrite <- rd_0. apply rd_le.
  apply Rmult_le_pos; [|now apply f_ofZ_nonneg].
  destruct (is_finite (Babs x)) eqn:Fx.
  - apply f_rnd10_nonneg; [exact Fx|]. rewrite val_abs. apply Rabs_pos.
  - rewrite f_rnd10_nonfinite; [|unfold fin; rewrite Fx; discriminate]. rewrite val_abs. apply Rabs_pos.
Qed.
End F.

Lemma pulses_float : forall acos cfg (delta : quad f64) (v : f64) g,
  (forall m, 0 <= qat m (ppm cfg))%Z -> make_linear (N:=F64 acos) cfg delta v = Ok g ->
  exists n, forall fuel, (n <= fuel)%nat ->
  match run_gen (N:=F64 acos) cfg fuel (GLinear g) with
  | Finished l => exists l', l = Dir (invert_dirs cfg (qmap f_copysign1 delta)) :: l' /\
      (forall m, f_rnd (f_mul (f_rnd10 (Babs (qat m delta))) (f_ofZ (qat m (ppm cfg)))) = Ok (steps m l')) /\
      Forall (fun it => exists t, pulse_at t it) l'
  | Failed l e => l = [] \/ exists l', l = Dir (invert_dirs cfg (qmap f_copysign1 delta)) :: l' /\
      (forall m, exists n, f_rnd (f_mul (f_rnd10 (Babs (qat m delta))) (f_ofZ (qat m (ppm cfg)))) = Ok n /\ (steps m l' <= n)%Z) /\
      Forall (fun it => exists t, pulse_at t it) l'
  | OutOfFuel => False
  end.
Proof.
  intros acos cfg delta v g Hp Hg. destruct (make_linear_counts acos cfg delta v g Hg) as [Hn Hdir].
  exists (Z.to_nat (pending g zero4) + 2)%nat. intros fuel Hf.
  pose proof (@run_linear (F64 acos) f_lt_irrefl cfg g fuel) as R. rewrite Hdir in R.
  assert (T: forall m, (0 <= qat m (l_total g))%Z) by (intros m; eapply count_nonneg; [apply (Hp m)|apply Hn]).
  specialize (R T ltac:(lia)). destruct (run_gen cfg fuel (GLinear g)) as [l|l e|]; [| |exact R].
  - destruct R as (l' & -> & S & F). exists l'. split; [reflexivity|]. split; [|exact F]. intros m. rewrite S. apply Hn.
  - destruct R as [->|(l' & -> & S & F)]; [now left|right]. exists l'. split; [reflexivity|]. split; [|exact F].
    intros m. exists (qat m (l_total g)). split; [apply Hn|apply S].
Qed.

Lemma zero_velocity : exists (delta : quad f64) (v : f64), forall acos,
  exists g, make_linear (N:=F64 acos) default_config delta v = Ok g /\
    forall fuel, (2 <= fuel)%nat -> run_gen (N:=F64 acos) default_config fuel (GLinear g) = Failed [] ZeroDivisionError.
Proof.
  exists (Quad (f_ratio false 1 100) (f_ofZ 0) (f_ofZ 0) (f_ofZ 100000000)), (f_ofZ 1). intros acos.
  set (d := Quad (f_ratio false 1 100) (f_ofZ 0) (f_ofZ 0) (f_ofZ 100000000)).
  assert (H: match make_linear (N:=F64 acos) default_config d (f_ofZ 1) with
             | Ok g => match iter_start default_config (GLinear g) with
                       | Ok s => match next (N:=F64 acos) default_config (GLinear g) s with Raise ZeroDivisionError => true | _ => false end
                       | Raise _ => false end
             | Raise _ => false end = true) by (vm_compute; reflexivity).
  destruct (make_linear (N:=F64 acos) default_config d (f_ofZ 1)) as [g|e]; [|discriminate H].
  exists g. split; [reflexivity|]. intros fuel Hf. unfold run_gen. destruct (iter_start default_config (GLinear g)) as [s|e]; [|discriminate H].
  destruct fuel as [|f]; [lia|]. cbn [iterate]. destruct (next default_config (GLinear g) s) as [r|e]; [discriminate H|].
  destruct e; try discriminate H. reflexivity.
Qed.
