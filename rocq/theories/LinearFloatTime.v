(** Straight moves in binary64: the times of the pulses. *)
From Coq Require Import ZArith Bool Reals Lra Lia List Sorted Psatz.
From Flocq Require Import Core BinarySingleNaN.
From Verif Require Import PyBase PyNum PyFloatFacts Config Coordinates Pulses PulseSpec Decimal MachineArc ArcDone FloatRel FloatWarp LinearGen LinearLaw LinearFloat LinearFloatRun.
From Coq Require Import List.
From Flocq Require Import Core.
Import ListNotations.
Local Open Scope R_scope.

(** The times of one motor's pulses. *)
Definition motor_times {N : PyNum} (m : motor) (l : list (item N)) : list N :=
  flat_map (fun it => match it with Dir _ => [] | Pulse q => match qat m q with Some t => [t] | None => [] end end) l.

Section Time.
Variable acos : f64 -> f64.
Notation N := (F64 acos).
Variable cfg : config.
Hypothesis Hc : lin_cfg cfg.
Variable delta : quad f64.
Variable v : f64.
Hypothesis Hm : fit_move cfg delta v.
Variable g : linear_gen N.
Variable kap : R.
Hypothesis P : fprof acos cfg delta g kap.
Variable c : f64.
Notation A := (IZR (max_acceleration cfg)).
Notation V := (val (find_max (N:=N) (l_vel g))).
Hypothesis Hap : ap 7 (-27) 94 c (2 * V / A).

Notation a := (val (l_acc g)).
Notation L := (val (l_lin g)).
Notation C := (val c).
Notation dst := (dst acos delta).
Notation d m := (val (qat m dst)).
Notation p m := (IZR (qat m (ppm cfg))).
Notation vel m := (val (qat m (l_vel g : quad f64))).
Notation total m := (qat m (l_total g)).
Notation tm := (tm acos cfg g).

Lemma fa : rd a = a. Proof. apply rd_val. Qed.
Lemma Ba : bpow radix2 (-28) <= a. Proof. apply (fp_acc _ _ _ _ _ P). Qed.
Lemma Ba2 : a <= bpow radix2 93. Proof. apply (fp_acc _ _ _ _ _ P). Qed.
Lemma Fa : fin (l_acc g). Proof. apply (fp_acc _ _ _ _ _ P). Qed.
Lemma BL : 0 <= L <= bpow radix2 22. Proof. apply (fp_lin _ _ _ _ _ P). Qed.
Lemma FL : fin (l_lin g). Proof. apply (fp_lin _ _ _ _ _ P). Qed.
Lemma ap0 : 0 < a. Proof. eapply Rlt_le_trans; [apply bpow_gt_0|exact Ba]. Qed.
Lemma BC : 99 / 100 * a <= C <= 201 / 100 * a.
Proof.
  destruct (fp_ratio _ _ _ _ _ P) as [R1 R2]. assert (A0 := ap0). destruct Hap as (_ & [C1 C2] & _). set (r := 2 * V / A) in *.
  assert (r0: 0 < r) by lra. assert (7 * ep * r <= / 1000 * r) by (apply Rmult_le_compat_r; [lra|unfold ep; lra]). lra.
Qed.
Lemma C_up : C <= bpow radix2 95.
Proof. destruct (ap_bounds 7 (-27) 94 _ _ ltac:(lra) Hap) as [[_ U] _]. eapply Rle_trans; [exact U|]. change 2 with (bpow radix2 1). rewrite <- bpow_plus. apply bpow_le. lia. Qed.
Lemma Cp : 0 < C. Proof. pose proof BC. pose proof ap0. lra. Qed.

Notation W := (W a L C).
Notation Q := (Q a C).
Notation M := (M a L).

(* ---------- the program computes W ---------- *)
Lemma le_pow e f x : (e <= f)%Z -> Rabs x <= bpow radix2 e -> Rabs x <= bpow radix2 f.
Proof. intros H. intros. eapply Rle_trans; [eassumption|]. now apply bpow_le. Qed.
Lemma sum_pow e x y : Rabs x <= bpow radix2 e -> Rabs y <= bpow radix2 e -> Rabs (x + y) <= bpow radix2 (e + 1).
Proof. intros Hx Hy. eapply Rle_trans; [apply Rabs_triang|]. rewrite bpow_plus. change (bpow radix2 1) with 2. lra. Qed.
Lemma dif_pow e x y : Rabs x <= bpow radix2 e -> Rabs y <= bpow radix2 e -> Rabs (x - y) <= bpow radix2 (e + 1).
Proof. intros Hx Hy. apply (sum_pow e x (- y)); [exact Hx|now rewrite Rabs_Ropp]. Qed.
Lemma mul_pow e f x y : Rabs x <= bpow radix2 e -> Rabs y <= bpow radix2 f -> Rabs (x * y) <= bpow radix2 (e + f).
Proof. intros Hx Hy. rewrite Rabs_mult, bpow_plus. apply Rmult_le_compat; auto using Rabs_pos. Qed.
Lemma to_big e x : (e <= 1000)%Z -> Rabs x <= bpow radix2 e -> Rabs x <= big.
Proof. intros H1 H2. eapply Rle_trans; [exact H2|]. now apply big_le. Qed.
Lemma Aa : Rabs a <= bpow radix2 93. Proof. pose proof ap0. rewrite Rabs_pos_eq by lra. apply Ba2. Qed.
Lemma AC : Rabs C <= bpow radix2 95. Proof. pose proof Cp. rewrite Rabs_pos_eq by lra. apply C_up. Qed.
Lemma AL : Rabs L <= bpow radix2 22. Proof. destruct BL. now rewrite Rabs_pos_eq. Qed.

Lemma warp_val (x am : f64) : fin x -> 0 <= val x <= bpow radix2 58 -> warps acos g c x am -> fin am /\ val am = W (val x).
Proof.
  intros Fx [X0 X1] H. unfold warps, to_accelerated_time in H. cbn [sqrtn mul F64 leb sqr div add sub ltb] in H.
  assert (Fc := proj1 Hap). assert (Ax: Rabs (val x) <= bpow radix2 58) by now rewrite Rabs_pos_eq. assert (c0 := Cp).
  (* the root *)
  destruct (f_mul_val x c Fx Fc) as [F1 V1]; [eapply (to_big (58 + 95)); [lia|]; apply mul_pow; [exact Ax|exact AC]|].
  destruct (f_sqrt_val (f_mul x c) F1) as (t & Et & Ft & Vt). { rewrite V1. apply rd_pos. apply Rmult_le_pos; lra. }
  change (num N) with f64 in H. rewrite Et in H. cbn [rbind] in H. rewrite V1 in Vt. fold (tA C (val x)) in Vt.
  unfold FloatWarp.W. destruct (f_le t (l_acc g)) eqn:E1.
  { apply f_le_true in E1; [|exact Ft|exact Fa]. injection H as <-. rewrite Vt in E1. destruct (Rle_dec (tA C (val x)) a) as [_|Nn]; [|lra]. auto. }
  apply f_le_false in E1; [|exact Ft|exact Fa]. rewrite Vt in E1. destruct (Rle_dec (tA C (val x)) a) as [Nn|_]; [lra|]. clear t Et Ft Vt F1 V1 E1.
  (* the linear phase *)
  destruct (f_mul_val (l_acc g) (l_acc g) Fa Fa) as [F2 V2]; [eapply (to_big (93 + 93)); [lia|]; apply mul_pow; exact Aa|].
  rewrite (sqr_ok (l_acc g) F2) in H. cbn [rbind] in H. fold (acc2 a) in V2.
  assert (q1: Rabs (acc2 a / C) <= bpow radix2 95).
  { assert (A2 := acc2_cl a Ba). destruct A2 as [A21 A22]. assert (A0 := ap0). assert (Q0 := Q_bounds a C Ba BC). assert (QC := QC a C Ba BC).
    assert (aa: 0 <= a * a) by (apply Rmult_le_pos; lra). assert (ep * (a * a) <= / 1000 * (a * a)) by (apply Rmult_le_compat_r; [exact aa|unfold ep; lra]).
    rewrite Rabs_pos_eq. 2: { apply Rmult_le_pos; [|apply Rlt_le, Rinv_0_lt_compat; exact c0]. lra. }
    apply Rmult_le_reg_r with C; [exact c0|]. unfold Rdiv. rewrite Rmult_assoc, Rinv_l, Rmult_1_r by (apply Rgt_not_eq; exact c0).
    apply Rle_trans with (2 * (Q * C)); [lra|]. rewrite <- Rmult_assoc. apply Rmult_le_compat_r; [lra|]. change 95%Z with (2 + 93)%Z. rewrite bpow_plus. change (bpow radix2 2) with 4. pose proof Ba2. lra. }
  destruct (f_div_val (f_mul (l_acc g) (l_acc g)) c F2 Fc) as (q0 & Eq & Fq & Vq); [apply Rgt_not_eq; exact c0|rewrite V2; apply (to_big 95); [lia|exact q1]|].
  rewrite V2 in Vq. fold (q a C) in Vq. replace (f_div (f_mul (l_acc g) (l_acc g)) c) with (Ok q0) in H by (symmetry; exact Eq). cbn [rbind] in H.
  assert (B3: Rabs (a + val x) <= bpow radix2 (93 + 1)) by (apply sum_pow; [exact Aa|apply (le_pow 58); [lia|exact Ax]]).
  destruct (f_add_val (l_acc g) x Fa Fx) as [F3 V3]; [apply (to_big (93 + 1)); [lia|exact B3]|].
  assert (B4: Rabs (rd (a + val x) - q a C) <= bpow radix2 (95 + 1)).
  { apply dif_pow; [apply rd_abs_le; [lia|apply (le_pow (93 + 1)); [lia|exact B3]]|]. apply rd_abs_le; [lia|exact q1]. }
  destruct (f_sub_val (f_add (l_acc g) x) q0 F3 Fq) as [F4 V4]; [rewrite V3, Vq; apply (to_big (95 + 1)); [lia|exact B4]|].
  rewrite V3, Vq in V4. fold (tB a C (val x)) in V4. assert (B5: Rabs (tB a C (val x)) <= bpow radix2 96) by (apply rd_abs_le; [lia|exact B4]).
  assert (B6: Rabs (tB a C (val x) - a) <= bpow radix2 (96 + 1)) by (apply dif_pow; [exact B5|apply (le_pow 93); [lia|exact Aa]]).
  set (t := f_sub (f_add (l_acc g) x) q0) in *. cbv zeta in H.
  destruct (f_sub_val t (l_acc g) F4 Fa) as [F5 V5]; [rewrite V4; apply (to_big (96 + 1)); [lia|exact B6]|]. rewrite V4 in V5.
  assert (B7: Rabs (rd (tB a C (val x) - a) - L) <= bpow radix2 (97 + 1)) by (apply dif_pow; [apply rd_abs_le; [lia|exact B6]|apply (le_pow 22); [lia|exact AL]]).
  destruct (f_sub_val (f_sub t (l_acc g)) (l_lin g) F5 FL) as [F6 V6]; [rewrite V5; apply (to_big (97 + 1)); [lia|exact B7]|]. rewrite V5 in V6. fold (bt a L C (val x)) in V6.
  assert (B8: Rabs (bt a L C (val x)) <= bpow radix2 98) by (apply rd_abs_le; [lia|exact B7]).
  destruct (f_ofZ_val 0) as [Fz Vz]; [lia|]. change (@zero N) with (f_ofZ 0) in H. set (b := f_sub (f_sub t (l_acc g)) (l_lin g)) in *.
  destruct (f_le b (f_ofZ 0)) eqn:E2.
  { apply f_le_true in E2; [|exact F6|exact Fz]. injection H as <-. rewrite V6, Vz in E2. destruct (Rle_dec (bt a L C (val x)) 0) as [_|Nn]; [auto|lra]. }
  apply f_le_false in E2; [|exact F6|exact Fz]. rewrite V6, Vz in E2. destruct (Rle_dec (bt a L C (val x)) 0) as [Nn|_]; [lra|].
  (* the braking phase *)
  assert (B9: Rabs (C * bt a L C (val x)) <= bpow radix2 (95 + 98)) by (apply mul_pow; [exact AC|exact B8]).
  destruct (f_mul_val c b Fc F6) as [F7 V7]; [rewrite V6; apply (to_big (95 + 98)); [lia|exact B9]|]. rewrite V6 in V7.
  assert (B10: Rabs (acc2 a - rd (C * bt a L C (val x))) <= bpow radix2 (193 + 1)).
  { apply dif_pow; [apply rd_abs_le; [lia|apply (le_pow (93 + 93)); [lia|apply mul_pow; exact Aa]]|apply rd_abs_le; [lia|exact B9]]. }
  destruct (f_sub_val (f_mul (l_acc g) (l_acc g)) (f_mul c b) F2 F7) as [F8 V8]; [rewrite V2, V7; apply (to_big (193 + 1)); [lia|exact B10]|].
  rewrite V2, V7 in V8. fold (dd a L C (val x)) in V8. set (D := f_sub (f_mul (l_acc g) (l_acc g)) (f_mul c b)) in *.
  assert (BD: Rabs (dd a L C (val x)) <= bpow radix2 194) by (apply rd_abs_le; [lia|exact B10]).
  assert (S: exists s, (if f_lt (f_ofZ 0) D then f_sqrt D else Ok (f_ofZ 0)) = Ok s /\ fin s /\ val s = ss a L C (val x) /\ Rabs (ss a L C (val x)) <= bpow radix2 195).
  { unfold ss. destruct (f_lt (f_ofZ 0) D) eqn:E3.
    - apply f_lt_true in E3; [|exact Fz|exact F8]. rewrite V8, Vz in E3. destruct (Rlt_dec 0 (dd a L C (val x))) as [_|Nn]; [|simpl in E3; lra].
      destruct (f_sqrt_val D F8) as (s & Es & Fs & Vs); [rewrite V8; simpl in E3; lra|]. exists s. rewrite V8 in Vs. split; [exact Es|]. split; [exact Fs|]. split; [exact Vs|].
      apply rd_abs_le; [lia|]. rewrite Rabs_pos_eq by apply sqrt_pos. rewrite Rabs_pos_eq in BD by (simpl in E3; lra).
      assert (Sq := sqrt_sqrt (dd a L C (val x)) ltac:(simpl in E3; lra)). assert (Sp := sqrt_pos (dd a L C (val x))). change 195%Z with (1 + 194)%Z. rewrite bpow_plus. change (bpow radix2 1) with 2.
      assert (1 <= bpow radix2 194) by (change 1 with (bpow radix2 0); apply bpow_le; lia). nra.
    - apply f_lt_false in E3; [|exact Fz|exact F8]. rewrite V8, Vz in E3. destruct (Rlt_dec 0 (dd a L C (val x))) as [Nn|_]; [simpl in E3; lra|].
      exists (f_ofZ 0). split; [reflexivity|]. split; [exact Fz|]. split; [rewrite Vz; reflexivity|]. rewrite Rabs_R0. apply bpow_ge_0. }
  destruct S as (s & Es & Fs & Vs & Bs). replace (if f_lt (f_ofZ 0) D then f_sqrt D else Ok (f_ofZ 0)) with (Ok s) in H by (symmetry; exact Es). cbn [rbind] in H. injection H as <-.
  destruct (f_ofZ_val 2) as [F9 V9]; [lia|]. change (@two N) with (f_ofZ 2).
  assert (B11: Rabs (2 * a) <= bpow radix2 (1 + 93)) by (apply mul_pow; [rewrite Rabs_pos_eq by lra; simpl; lra|exact Aa]).
  destruct (f_mul_val (f_ofZ 2) (l_acc g) F9 Fa) as [F10 V10]; [rewrite V9; apply (to_big (1 + 93)); [lia|exact B11]|]. rewrite V9 in V10.
  assert (B12: Rabs (rd (2 * a) + L) <= bpow radix2 (94 + 1)) by (apply sum_pow; [apply rd_abs_le; [lia|exact B11]|apply (le_pow 22); [lia|exact AL]]).
  destruct (f_add_val (f_mul (f_ofZ 2) (l_acc g)) (l_lin g) F10 FL) as [F11 V11]; [rewrite V10; apply (to_big (94 + 1)); [lia|exact B12]|]. rewrite V10 in V11. fold (T a L) in V11.
  destruct (f_sub_val (f_add (f_mul (f_ofZ 2) (l_acc g)) (l_lin g)) s F11 Fs) as [F12 V12].
  { rewrite V11, Vs. apply (to_big (195 + 1)); [lia|]. apply dif_pow; [apply (le_pow (94 + 1)); [lia|apply rd_abs_le; [lia|exact B12]]|exact Bs]. }
  rewrite V11, Vs in V12. fold (tC a L C (val x)) in V12. auto.
Qed.
Lemma total_spec : fin (total_time_s (N:=N) (GLinear g)) /\ val (total_time_s (N:=N) (GLinear g)) = T a L.
Proof.
  unfold total_time_s. cbn [gen_acc gen_lin add mul F64]. change (@two N) with (f_ofZ 2). destruct (f_ofZ_val 2) as [F9 V9]; [lia|].
  assert (B11: Rabs (a * 2) <= bpow radix2 (93 + 1)) by (apply mul_pow; [exact Aa|rewrite Rabs_pos_eq by lra; simpl; lra]).
  destruct (f_mul_val (l_acc g) (f_ofZ 2) Fa F9) as [F10 V10]; [rewrite V9; apply (to_big (93 + 1)); [lia|exact B11]|]. rewrite V9 in V10.
  assert (B12: Rabs (rd (a * 2) + L) <= bpow radix2 (94 + 1)) by (apply sum_pow; [apply rd_abs_le; [lia|exact B11]|apply (le_pow 22); [lia|exact AL]]).
  destruct (f_add_val (f_mul (l_acc g) (f_ofZ 2)) (l_lin g) F10 FL) as [F11 V11]; [rewrite V10; apply (to_big (94 + 1)); [lia|exact B12]|]. rewrite V10 in V11.
  split; [exact F11|]. unfold T. rewrite (Rmult_comm 2). exact V11.
Qed.
Lemma total_val : val (total_time_s (N:=N) (GLinear g)) = T a L. Proof. apply total_spec. Qed.
Lemma total_fin : fin (total_time_s (N:=N) (GLinear g)). Proof. apply total_spec. Qed.

(* ---------- the times before the acceleration ---------- *)
Lemma pv_up m : p m * vel m <= kap * 4097001.
Proof.
  assert (PB := p_bounds cfg Hc m). assert (K := fp_kap _ _ _ _ _ P). assert (Nr := fp_near _ _ _ _ _ P m). apply Rabs_le_inv in Nr.
  assert (BD := dp_bound acos cfg Hc delta v Hm m). set (u := d m * p m) in *.
  assert (E1: p m * vel m <= p m * (kap * d m + (103 / 1000000000000 + 40 * ep * (kap * d m)))) by (apply Rmult_le_compat_l; lra).
  replace (p m * (kap * d m + (103 / 1000000000000 + 40 * ep * (kap * d m)))) with (kap * (u + 40 * ep * u) + p m * (103 / 1000000000000)) in E1 by (unfold u; ring).
  assert (E3: p m * (103 / 1000000000000) <= kap * (52 / 1000)) by (apply Rle_trans with (1000 * (103 / 1000000000000)); [apply Rmult_le_compat_r; lra|lra]).
  assert (E4: 40 * ep * u <= / 1000) by (apply Rle_trans with (40 * ep * 4097000); [apply Rmult_le_compat_l; [unfold ep; lra|lra]|unfold ep; lra]).
  assert (kap * (u + 40 * ep * u) <= kap * (4097000 + / 1000)) by (apply Rmult_le_compat_l; lra). lra.
Qed.
Lemma kx_strict m i : (0 <= i < total m)%Z -> kap * val (tm m i) <= 1 - 106 / 1000000000.
Proof.
  intros J. destruct (tm_spec acos cfg Hc delta v Hm g kap P m i J) as [_ (_ & [_ U] & _)]. assert (T0 := tm_fin acos cfg Hc delta v Hm g kap P m i J).
  destruct (moving acos cfg Hc delta v Hm g kap P m ltac:(lia)) as [D Vl]. assert (PB := p_bounds cfg Hc m). assert (B := bpow_gt_0 radix2 (-35)).
  assert (K := fp_kap _ _ _ _ _ P). assert (Nr := fp_near _ _ _ _ _ P m). apply Rabs_le_inv in Nr. assert (Cl := total_close acos cfg Hc delta v Hm g kap P m). apply Rabs_le_inv in Cl.
  assert (BD := dp_bound acos cfg Hc delta v Hm m). set (u := d m * p m) in *.
  assert (J1: IZR i <= u - 499 / 1000).
  { assert (IZR i <= IZR (total m) - 1) by (rewrite <- minus_IZR; apply IZR_le; lia).
    assert (3 * ep * u <= / 1000) by (apply Rle_trans with (3 * ep * 4097000); [apply Rmult_le_compat_l; [unfold ep; lra|lra]|unfold ep; lra]). lra. }
  assert (J0: 0 <= IZR i) by (apply (IZR_le 0); lia).
  assert (PV: kap * (u - 54 / 1000) <= p m * vel m).
  { assert (E1: p m * (kap * d m - (103 / 1000000000000 + 40 * ep * (kap * d m))) <= p m * vel m) by (apply Rmult_le_compat_l; lra).
    assert (E2: p m * (kap * d m - (103 / 1000000000000 + 40 * ep * (kap * d m))) = kap * u - p m * (103 / 1000000000000) - kap * (40 * ep * u)) by (unfold u; ring).
    assert (E3: p m * (103 / 1000000000000) <= kap * (52 / 1000)) by (apply Rle_trans with (1000 * (103 / 1000000000000)); [apply Rmult_le_compat_r; lra|lra]).
    assert (E4: kap * (40 * ep * u) <= kap * (1 / 1000)).
    { apply Rmult_le_compat_l; [lra|]. apply Rle_trans with (40 * ep * 4097000); [apply Rmult_le_compat_l; [unfold ep; lra|lra]|unfold ep; lra]. }
    lra. }
  assert (PV0: 0 < p m * vel m) by (apply Rmult_lt_0_compat; lra).
  assert (XV: val (tm m i) * (p m * vel m) <= (1 + 8 * ep) * IZR i).
  { apply Rle_trans with ((1 + 8 * ep) * (IZR i / p m / vel m) * (p m * vel m)); [apply Rmult_le_compat_r; lra|]. right. field. split; apply Rgt_not_eq; lra. }
  assert (I1: (1 + 8 * ep) * IZR i <= IZR i + / 1000).
  { rewrite Rmult_plus_distr_r, Rmult_1_l. apply Rplus_le_compat_l. apply Rle_trans with (8 * ep * 4097000); [apply Rmult_le_compat_l; [unfold ep; lra|lra]|unfold ep; lra]. }
  set (x := val (tm m i)) in *. set (pv := p m * vel m) in *.
  apply Rmult_le_reg_r with (u - 54 / 1000); [lra|]. apply Rle_trans with (x * pv).
  - rewrite (Rmult_comm kap), Rmult_assoc. apply Rmult_le_compat_l; [apply T0|exact PV].
  - assert (106 / 1000000000 * (u - 54 / 1000) <= 106 / 1000000000 * 4097000) by (apply Rmult_le_compat_l; lra). lra.
Qed.
Lemma tm_gap1 m i j : (0 <= i < j)%Z -> (j < total m)%Z -> 99 / 100 <= (val (tm m j) - val (tm m i)) * (p m * vel m).
Proof.
  intros I J. destruct (tm_spec acos cfg Hc delta v Hm g kap P m i ltac:(lia)) as [_ (_ & [_ U] & _)]. destruct (tm_spec acos cfg Hc delta v Hm g kap P m j ltac:(lia)) as [_ (_ & [Lo _] & _)].
  destruct (moving acos cfg Hc delta v Hm g kap P m ltac:(lia)) as [_ Vl]. assert (PB := p_bounds cfg Hc m). assert (B := bpow_gt_0 radix2 (-35)). assert (TB := total_bounds acos cfg Hc delta v Hm g kap P m).
  assert (PV0: 0 < p m * vel m) by (apply Rmult_lt_0_compat; lra).
  assert (RR: forall i, IZR i / p m / vel m * (p m * vel m) = IZR i) by (intros k; field; split; apply Rgt_not_eq; lra).
  set (x := val (tm m i)) in *. set (y := val (tm m j)) in *. set (pv := p m * vel m) in *.
  assert (X1: x * pv <= (1 + 8 * ep) * IZR i) by (rewrite <- (RR i), <- (Rmult_assoc (1 + 8 * ep)); apply Rmult_le_compat_r; lra).
  assert (Y1: (1 - 8 * ep) * IZR j <= y * pv) by (rewrite <- (RR j), <- (Rmult_assoc (1 - 8 * ep)); apply Rmult_le_compat_r; lra).
  assert (IJ: 0 <= IZR i /\ IZR i + 1 <= IZR j /\ IZR j <= 4194304) by (split; [apply (IZR_le 0); lia|split; [rewrite <- plus_IZR; apply IZR_le; lia|apply (IZR_le _ 4194304); lia]]).
  assert (8 * ep * IZR i <= 8 * ep * 4194304) by (apply Rmult_le_compat_l; [unfold ep; lra|lra]). assert (8 * ep * IZR j <= 8 * ep * 4194304) by (apply Rmult_le_compat_l; [unfold ep; lra|lra]).
  assert (8 * ep * 4194304 <= / 1000) by (unfold ep; lra). lra.
Qed.
Lemma tm_gap m i j : (0 <= i < j)%Z -> (j < total m)%Z -> 26 / 1000000000 * M <= val (tm m j) - val (tm m i).
Proof.
  intros I J. assert (G := tm_gap1 m i j I J). destruct (moving acos cfg Hc delta v Hm g kap P m ltac:(lia)) as [_ Vl]. assert (PB := p_bounds cfg Hc m). assert (B := bpow_gt_0 radix2 (-35)).
  assert (PV := pv_up m). assert (Up := fp_upper _ _ _ _ _ P). fold M in Up. assert (M0: 0 < M) by (unfold FloatWarp.M; pose proof ap0; pose proof BL; lra).
  assert (PV0: 0 < p m * vel m) by (apply Rmult_lt_0_compat; lra). set (pv := p m * vel m) in *.
  apply Rmult_le_reg_r with pv; [exact PV0|]. eapply Rle_trans; [|exact G].
  apply Rle_trans with (26 / 1000000000 * M * (kap * 4097001)); [apply Rmult_le_compat_l; [lra|exact PV]|].
  replace (26 / 1000000000 * M * (kap * 4097001)) with (26 / 1000000000 * 4097001 * (kap * M)) by ring. apply Rle_trans with (26 / 1000000000 * 4097001 * 9); [apply Rmult_le_compat_l; lra|lra].
Qed.
Lemma tm_room m i : (0 <= i < total m)%Z ->
  inside a L C (val (tm m i)) /\ normal (val (tm m i)) /\ room a L C (val (tm m i)) /\ val (tm m i) <= bpow radix2 58.
Proof.
  intros J. assert (K := kx_strict m i J). assert (T0 := tm_fin acos cfg Hc delta v Hm g kap P m i J). destruct (tm_spec acos cfg Hc delta v Hm g kap P m i J) as [_ Ap].
  set (x := val (tm m i)) in *. assert (Kp := fp_kap _ _ _ _ _ P). assert (A0 := ap0). assert (c0 := Cp). assert (QB := Q_bounds a C Ba BC). assert (BLb := BL).
  assert (Rm: room a L C x).
  { assert (E := fp_end _ _ _ _ _ P). destruct Hap as (_ & [_ C2] & _). set (r := 2 * V / A) in *.
    assert (r0: 0 < r). { destruct (fp_ratio _ _ _ _ _ P) as [R1 _]. fold r in R1. lra. }
    assert (R2: 0 < V /\ 0 < A).
    { destruct (find_max_top acos (l_vel g) (fp_vel _ _ _ _ _ P) (fp_top _ _ _ _ _ P)) as [_ Tp]. split; [lra|]. destruct (lc_acc cfg Hc). apply IZR_lt. lia. }
    assert (Er: a * a * A / V = 2 * (a * a / r)) by (unfold r; field; split; apply Rgt_not_eq; lra).
    assert (Eq: a * a / r <= (1 + 7 * ep) * Q).
    { apply Rmult_le_reg_r with r; [exact r0|]. replace (a * a / r * r) with (a * a) by (field; apply Rgt_not_eq; lra). rewrite <- (QC a C Ba BC).
      replace ((1 + 7 * ep) * Q * r) with (Q * ((1 + 7 * ep) * r)) by ring. apply Rmult_le_compat_l; lra. }
    rewrite Er in E. unfold room. apply Rmult_le_reg_l with kap; [lra|]. eapply Rle_trans; [exact K|].
    assert (G: kap * (2 * (a * a / r) + L) <= (1 + 7 * ep) * (kap * (2 * Q + L))).
    { replace ((1 + 7 * ep) * (kap * (2 * Q + L))) with (kap * (2 * ((1 + 7 * ep) * Q) + (1 + 7 * ep) * L)) by ring. apply Rmult_le_compat_l; [lra|].
      assert (0 <= ep * L) by (apply Rmult_le_pos; [unfold ep; lra|lra]). lra. }
    set (z := kap * (2 * Q + L)) in *. replace (kap * ((2 * Q + L) * (1 - 5 / 100000000))) with (z * (1 - 5 / 100000000)) by (unfold z; ring).
    assert (z1: 1 - 51 / 1000000000 <= z). { apply Rmult_le_reg_l with (1 + 7 * ep); [unfold ep; lra|]. apply Rle_trans with (1 - 5 / 100000000); [unfold ep; lra|lra]. }
    lra. }
  split; [|split; [|split; [exact Rm|]]].
  - split; [apply T0|]. unfold room in Rm. lra.
  - assert (R0 := ap_r0 _ _ _ _ _ Ap). destruct (ap_bounds 8 (-102) 57 _ _ ltac:(lra) Ap) as [_ B2]. destruct Ap as (_ & [c1 c2] & [Z|_] & _).
    + left. rewrite Z, !Rmult_0_r in *. fold x in c1, c2. lra.
    + destruct (Req_dec (IZR i / p m / vel m) 0) as [Z|Z]; [left; rewrite Z, !Rmult_0_r in *; fold x in c1, c2; lra|right].
      eapply Rle_trans; [|exact (B2 Z)]. change (/ 2) with (bpow radix2 (-1)). rewrite <- bpow_plus. apply bpow_le. lia.
  - destruct (ap_bounds 8 (-102) 57 _ _ ltac:(lra) Ap) as [[_ U] _]. eapply Rle_trans; [exact U|]. change 2 with (bpow radix2 1). rewrite <- bpow_plus. apply bpow_le. lia.
Qed.
Lemma W_strict m i j : (0 <= i < j)%Z -> (j < total m)%Z -> W (val (tm m i)) < W (val (tm m j)).
Proof.
  intros I J. destruct (tm_room m i ltac:(lia)) as (I1 & N1 & R1 & _). destruct (tm_room m j ltac:(lia)) as (I2 & N2 & R2 & _). assert (G := tm_gap m i j I J).
  assert (M0: 0 < M) by (unfold FloatWarp.M; pose proof ap0; pose proof BL; lra).
  assert (O1 := om_close a L C Ba BL BC _ I1 N1 R1). assert (O2 := om_close a L C Ba BL BC _ I2 N2 R2). apply Rabs_le_inv in O1, O2.
  assert (Sl := om_slope a L C Ba BL BC _ _ I1 I2 ltac:(lra)). lra.
Qed.

(* ---------- the times of the items ---------- *)
Definition timed (r : R) (t : f64) : Prop := exists m j, (0 <= j < total m)%Z /\ r <= val (tm m j) /\ fin t /\ val t = W (val (tm m j)).
Lemma frun_times r i l xs : frun acos cfg g c r i l xs -> exists ts, Forall2 (fun it t => pulse_at (N:=N) t it) l ts /\ Forall (timed r) ts /\
  StronglySorted (fun t u => val t <= val u * (1 + 80 * ep)) ts.
Proof.
  intros H. induction H as [r i E|r i x am q l xs Fx X0 Lr Wa Hq [m0 Hx] Hr (ts & F2 & Fa' & So)].
  - exists []. split; [constructor|]. split; constructor.
  - destruct (Hq m0) as [(_ & J & Ev)|(E & _)]; [|congruence].
    destruct (tm_room m0 _ J) as (I1 & N1 & R1 & U1). assert (T0 := tm_fin acos cfg Hc delta v Hm g kap P m0 _ J).
    destruct (warp_val x am Fx ltac:(rewrite <- Ev; split; [apply T0|exact U1]) Wa) as [Fam Vam].
    exists (am :: ts). split; [|split].
    + constructor; [|exact F2]. exists q. split; [reflexivity|]. split; [eauto|]. intros m t' Et. destruct (Hq m) as [(E & _)|(E & _)]; congruence.
    + constructor; [exists m0, (qat m0 i); rewrite Ev; auto|]. eapply Forall_impl; [|exact Fa']. intros t (m & j & Jj & Rj & Ft & Vt). exists m, j. split; [exact Jj|]. split; [lra|auto].
    + constructor; [exact So|]. eapply Forall_impl; [|exact Fa']. intros t (m & j & Jj & Rj & Ft & Vt). rewrite Vam, Vt. destruct (tm_room m j Jj) as (I2 & N2 & R2 & _).
      rewrite <- Ev in *. apply W_order; auto using Ba, BL, BC.
Qed.
Lemma frun_first l xs t ts : frun acos cfg g c 0 (Quad 0 0 0 0)%Z l xs -> Forall2 (fun it t => pulse_at (N:=N) t it) l (t :: ts) -> val t = 0.
Proof.
  intros H F2. inversion F2 as [|it t' l' ts' (q' & -> & [m1 E1] & Al) _]; subst. inversion H as [|? ? x am ? ? ? Fx X0 Lr Wa Hq [m0 Hx] Hr]; subst.
  destruct (Hq m1) as [(E & J & Ev)|(E & _)]; [|change (num N) with f64 in *; congruence]. assert (am = t) by (change (num N) with f64 in *; congruence). subst am.
  replace (qat m1 (Quad 0 0 0 0)%Z) with 0%Z in * by (destruct m1; reflexivity). destruct (tm_room m1 _ J) as (_ & _ & _ & U1).
  assert (Z := tm_zero acos cfg Hc delta v Hm g kap P m1 ltac:(lia)). destruct (warp_val x t Fx ltac:(lra) Wa) as [_ ->]. rewrite <- Ev, Z. apply (W_0 a L C Ba).
Qed.
Lemma frun_motor m r i l xs : frun acos cfg g c r i l xs ->
  Forall (fun t : f64 => exists j, (qat m i <= j < total m)%Z /\ val t = W (val (tm m j))) (motor_times m l) /\ StronglySorted (fun t u : f64 => val t < val u) (motor_times m l).
Proof.
  intros H. induction H as [r i E|r i x am q l xs Fx X0 Lr Wa Hq [m0 Hx] Hr [IH1 IH2]]; [split; constructor|].
  cbn [motor_times flat_map]. fold (motor_times m l). rewrite qat_fmoved in IH1. cbn [step_of] in IH1. destruct (Hq m) as [(E & J & Ev)|(E & _)]; rewrite E in *; cbn [app].
  - assert (T0 := tm_fin acos cfg Hc delta v Hm g kap P m _ J). destruct (tm_room m _ J) as (_ & _ & _ & U1).
    destruct (warp_val x am Fx ltac:(rewrite <- Ev; split; [apply T0|exact U1]) Wa) as [_ Vam]. rewrite <- Ev in Vam. split.
    + constructor; [exists (qat m i); split; [lia|exact Vam]|]. eapply Forall_impl; [|exact IH1]. intros t (j & Jj & Vt). exists j. split; [lia|exact Vt].
    + constructor; [exact IH2|]. eapply Forall_impl; [|exact IH1]. intros t (j & Jj & Vt). cbv beta in *. rewrite Vam, Vt. apply W_strict; lia.
  - split; [|exact IH2]. eapply Forall_impl; [|exact IH1]. intros t (j & Jj & Vt). exists j. split; [lia|exact Vt].
Qed.
End Time.

Lemma times_float acos cfg delta v g l : lin_cfg cfg -> fit_move cfg delta v -> emits (N:=F64 acos) cfg delta v g l ->
  exists d l' (ts : list f64), l = Dir d :: l' /\ Forall2 (fun it t => pulse_at (N:=F64 acos) t it) l' ts /\
    (forall t ts', ts = t :: ts' -> val t = 0) /\ Forall (fun t => 0 <= val t <= val (total_time_s (N:=F64 acos) (GLinear g))) ts /\
    (forall m, StronglySorted (fun t u : f64 => val t < val u) (motor_times m l')) /\
    StronglySorted (fun t u => val t <= val u * (1 + 80 * ep)) ts.
Proof.
  intros Hc Hm He. destruct (emits_float_inv acos cfg Hc delta v Hm g l He) as (kap & c & l' & xs & -> & P & Ac & Hl).
  destruct (frun_times acos cfg Hc delta v Hm g kap P c Ac _ _ _ _ Hl) as (ts & F2 & Fa & So).
  exists (invert_dirs cfg (l_dir g)), l', ts. split; [reflexivity|]. split; [exact F2|]. split; [|split; [|split; [|exact So]]].
  - intros t ts' ->. exact (frun_first acos cfg Hc delta v Hm g kap P c Ac l' xs t ts' Hl F2).
  - eapply Forall_impl; [|exact Fa]. intros t (m & j & J & _ & _ & Vt). rewrite Vt. destruct (tm_room acos cfg Hc delta v Hm g kap P c Ac m j J) as (I1 & N1 & _ & _).
    rewrite (total_val acos cfg delta g kap P). split.
    + apply W_nonneg; auto; [exact (Ba acos cfg delta g kap P)|exact (BL acos cfg delta g kap P)|exact (BC acos cfg delta g kap P c Ac)].
    + apply W_le_T; auto; [exact (fa acos g)|exact (Ba acos cfg delta g kap P)|exact (BL acos cfg delta g kap P)|exact (BC acos cfg delta g kap P c Ac)].
  - intros m. exact (proj2 (frun_motor acos cfg Hc delta v Hm g kap P c Ac m _ _ _ _ Hl)).
Qed.
