(** Pauses between the pulses of a straight move in binary64. *)
From Coq Require Import ZArith Bool Reals Lra Lia List Psatz Sorted.
From Flocq Require Import Core BinarySingleNaN.
From Verif Require Import PyBase PyNum PyFloatFacts Config Coordinates Pulses PulseSpec Decimal MachineArc ArcDone FloatRel LinearLaw LinearGen ArcFloat LinearFloat LinearFloatRun FloatWarp LinearFloatTime.
From Coq Require Import List.
From Flocq Require Import Core.
Import ListNotations.
Local Open Scope R_scope.

Lemma sqrt_sub u w h : 0 <= u -> 0 <= h -> w <= u + h -> sqrt w - sqrt u <= sqrt h.
Proof.
  intros U H L. assert (sqrt w <= sqrt u + sqrt h); [|lra]. assert (S1 := sqrt_pos u). assert (S2 := sqrt_pos h).
  rewrite <- (sqrt_square (sqrt u + sqrt h)) by lra. apply sqrt_le_1_alt. replace ((sqrt u + sqrt h) * (sqrt u + sqrt h)) with (sqrt u * sqrt u + sqrt h * sqrt h + 2 * (sqrt u * sqrt h)) by ring.
  rewrite !sqrt_sqrt by assumption. assert (0 <= sqrt u * sqrt h) by now apply Rmult_le_pos. lra.
Qed.

Section Modulus.
Variables a L C : R.
Hypothesis Ba : bpow radix2 (-28) <= a.
Hypothesis BL : 0 <= L <= bpow radix2 22.
Hypothesis BC : 99 / 100 * a <= C <= 201 / 100 * a.
Lemma om_up x y : inside a L C x -> inside a L C y -> x <= y -> om a L C y - om a L C x <= (y - x) + 2 * sqrt (C * (y - x)).
Proof.
  intros [X0 X1] [Y0 Y1] H. pose proof (a0 a Ba) as A0. pose proof (C0 a C Ba BC) as c0. pose proof (Q_bounds a C Ba BC) as QB. assert (QC' := QC a C Ba BC). set (Q := Q a C) in *.
  assert (D0: 0 <= C * (y - x)) by (apply Rmult_le_pos; lra).
  assert (P1: sqrt (Rmin y Q * C) - sqrt (Rmin x Q * C) <= sqrt (C * (y - x))).
  { assert (0 <= Rmin x Q) by (apply Rmin_glb; lra). apply sqrt_sub; [apply Rmult_le_pos; lra|exact D0|].
    replace (Rmin x Q * C + C * (y - x)) with ((Rmin x Q + (y - x)) * C) by ring. apply Rmult_le_compat_r; [lra|].
    unfold Rmin. destruct (Rle_dec y Q), (Rle_dec x Q); lra. }
  assert (P2: Rmax 0 (Rmin (y - Q) L) - Rmax 0 (Rmin (x - Q) L) <= y - x).
  { unfold Rmin. destruct (Rle_dec (y - Q) L), (Rle_dec (x - Q) L); unfold Rmax; repeat match goal with |- context [Rle_dec ?u ?w] => destruct (Rle_dec u w) end; lra. }
  assert (P3: sqrt (a * a - C * Rmax 0 (x - Q - L)) - sqrt (a * a - C * Rmax 0 (y - Q - L)) <= sqrt (C * (y - x))).
  { assert (My: 0 <= Rmax 0 (y - Q - L) <= Q) by (split; [apply Rmax_l|apply Rmax_lub; lra]).
    assert (Z: C * Rmax 0 (y - Q - L) <= a * a) by (rewrite <- QC', (Rmult_comm Q); apply Rmult_le_compat_l; lra).
    apply sqrt_sub; [lra|exact D0|]. assert (C * Rmax 0 (y - Q - L) <= C * Rmax 0 (x - Q - L) + C * (y - x)); [|lra].
    rewrite <- Rmult_plus_distr_l. apply Rmult_le_compat_l; [lra|]. unfold Rmax. destruct (Rle_dec 0 (y - Q - L)), (Rle_dec 0 (x - Q - L)); lra. }
  unfold om. fold Q. lra.
Qed.
End Modulus.

Section Pause.
Variable acos : f64 -> f64.
Notation N := (F64 acos).
Variable cfg : config.
Hypothesis Hc : lin_cfg cfg.
Hypothesis H4 : forall m, (4 <= qat m (ppm cfg))%Z.
Variable delta : quad f64.
Variable v : f64.
Hypothesis Hm : fit_move cfg delta v.
Variable g : linear_gen N.
Variable kap : R.
Hypothesis P : fprof acos cfg delta g kap.
Variable c : f64.
Notation A := (IZR (max_acceleration cfg)).
Notation V := (val (find_max (N:=N) (l_vel g))).
Hypothesis Hap : ap 7 (-27) 94 c (2 * V / A).

Notation a := (val (l_acc g)).
Notation L := (val (l_lin g)).
Notation C := (val c).
Notation dst := (dst acos delta).
Notation d m := (val (qat m dst)).
Notation p m := (IZR (qat m (ppm cfg))).
Notation vel m := (val (qat m (l_vel g : quad f64))).
Notation total m := (qat m (l_total g)).
Notation tm := (tm acos cfg g).
Notation W := (W a L C).
Notation M := (M a L).

(** The axis with the greatest velocity. *)
Lemma fast : exists m, vel m = V /\ / 122 <= vel m.
Proof.
  destruct (find_max_top acos (l_vel g) (fp_vel _ _ _ _ _ P) (fp_top _ _ _ _ _ P)) as [_ T].
  destruct (find_max_val acos (l_vel g)) as ([m E] & _); [intros m; apply (fp_vel _ _ _ _ _ P)|]. exists m. rewrite E in *. split; [reflexivity|exact T].
Qed.
Lemma p4 m : 4 <= p m <= 1000.
Proof. destruct (p_bounds cfg Hc m). split; [now apply (IZR_le 4)|lra]. Qed.

(** Before the acceleration, two successive items are less than 1.7 steps of the fastest
    axis apart. *)
Lemma x_step m r i (x am : f64) (q : quad (option N)) : / 122 <= vel m -> 0 <= r -> fbehind acos cfg g r i ->
  (forall m, (0 <= qat m i)%Z) ->
  (forall m, (qat m q = Some am /\ (0 <= qat m i < total m)%Z /\ val (tm m (qat m i)) = val x) \/
             (qat m q = None /\ (qat m i = total m \/ (0 <= qat m i < total m)%Z /\ val x < val (tm m (qat m i))))) ->
  (exists m, qat m q = Some am) -> (val x - r) * (p m * vel m) <= 17 / 10.
Proof.
  intros Vm R0 Be I0 Q [m0 M0].
  assert (PB := p4 m). assert (PV0: 0 < p m * vel m) by (apply Rmult_lt_0_compat; lra).
  assert (RR: forall i, IZR i / p m / vel m * (p m * vel m) = IZR i) by (intros k; field; split; apply Rgt_not_eq; lra).
  assert (Next: (0 <= qat m i < total m)%Z -> val x <= val (tm m (qat m i)) -> (val x - r) * (p m * vel m) <= 17 / 10).
  { intros J Le. destruct (Z.eq_dec (qat m i) 0) as [Z|Z].
    - rewrite Z in Le. rewrite (tm_zero acos cfg Hc delta v Hm g kap P m ltac:(lia)) in Le.
      apply Rle_trans with 0; [|lra]. rewrite <- (Rmult_0_l (p m * vel m)). apply Rmult_le_compat_r; lra.
    - destruct (Be m ltac:(lia)) as [_ Br]. destruct (tm_spec acos cfg Hc delta v Hm g kap P m (qat m i - 1) ltac:(lia)) as [_ (_ & [Lo _] & _)].
      destruct (tm_spec acos cfg Hc delta v Hm g kap P m (qat m i) ltac:(lia)) as [_ (_ & [_ Up] & _)]. assert (TB := total_bounds acos cfg Hc delta v Hm g kap P m).
      assert (X1: val x * (p m * vel m) <= (1 + 8 * ep) * IZR (qat m i)) by (rewrite <- (RR (qat m i)), <- (Rmult_assoc (1 + 8 * ep)); apply Rmult_le_compat_r; lra).
      assert (Y1: (1 - 8 * ep) * IZR (qat m i - 1) <= r * (p m * vel m)) by (rewrite <- (RR (qat m i - 1)%Z), <- (Rmult_assoc (1 - 8 * ep)); apply Rmult_le_compat_r; lra).
      rewrite minus_IZR in Y1. assert (IB: 1 <= IZR (qat m i) <= 4194304) by (split; apply IZR_le; lia).
      assert (8 * ep * IZR (qat m i) <= / 1000) by (apply Rle_trans with (8 * ep * 4194304); [apply Rmult_le_compat_l; [unfold ep; lra|lra]|unfold ep; lra]).
      assert (0 <= 8 * ep) by (unfold ep; lra). rewrite Rmult_minus_distr_r. lra. }
  destruct (Q m) as [(_ & J & E)|(_ & [E|(J & E)])]; [apply Next; [exact J|lra]| |apply Next; [exact J|lra]].
  clear Next. destruct (Q m0) as [(_ & J0 & E0)|(E0 & _)]; [|congruence].
  destruct (kx_le acos cfg Hc delta v Hm g kap P x (qat m0 i + 1) m0 ltac:(lia)) as [X0 KX]; [replace (qat m0 i + 1 - 1)%Z with (qat m0 i) by lia; now rewrite E0|].
  assert (K := fp_kap _ _ _ _ _ P). assert (Nr := fp_near _ _ _ _ _ P m). apply Rabs_le_inv in Nr. assert (Cl := total_close acos cfg Hc delta v Hm g kap P m). apply Rabs_le_inv in Cl.
  assert (BD := dp_bound acos cfg Hc delta v Hm m). set (u := d m * p m) in *.
  assert (U1: 3 * ep * u <= / 1000) by (apply Rle_trans with (3 * ep * 4097000); [apply Rmult_le_compat_l; [unfold ep; lra|lra]|unfold ep; lra]).
  assert (PV: p m * vel m <= kap * (u + 6 / 100)).
  { assert (E1: p m * vel m <= p m * (kap * d m + (103 / 1000000000000 + 40 * ep * (kap * d m)))) by (apply Rmult_le_compat_l; lra).
    replace (p m * (kap * d m + (103 / 1000000000000 + 40 * ep * (kap * d m)))) with (kap * (u + 40 * ep * u) + p m * (103 / 1000000000000)) in E1 by (unfold u; ring).
    assert (E3: p m * (103 / 1000000000000) <= kap * (52 / 1000)) by (apply Rle_trans with (1000 * (103 / 1000000000000)); [apply Rmult_le_compat_r; lra|lra]).
    assert (E4: 40 * ep * u <= / 1000) by (apply Rle_trans with (40 * ep * 4097000); [apply Rmult_le_compat_l; [unfold ep; lra|lra]|unfold ep; lra]).
    assert (kap * (u + 40 * ep * u) <= kap * (u + / 1000)) by (apply Rmult_le_compat_l; lra). lra. }
  assert (XU: val x * (p m * vel m) <= u + 6 / 100).
  { apply Rle_trans with (val x * (kap * (u + 6 / 100))); [apply Rmult_le_compat_l; lra|].
    replace (val x * (kap * (u + 6 / 100))) with (kap * val x * (u + 6 / 100)) by ring. rewrite <- (Rmult_1_l (u + 6 / 100)) at 2. apply Rmult_le_compat_r; lra. }
  assert (RL: IZR (total m) - 1 - / 1000 <= r * (p m * vel m)).
  { destruct (Z.eq_dec (total m) 0) as [Z|Z]; [rewrite Z; assert (0 <= r * (p m * vel m)) by (apply Rmult_le_pos; lra); lra|].
    specialize (I0 m). destruct (Be m ltac:(lia)) as [_ Br]. rewrite E in Br. destruct (tm_spec acos cfg Hc delta v Hm g kap P m (total m - 1) ltac:(lia)) as [_ (_ & [Lo _] & _)].
    assert (TB := total_bounds acos cfg Hc delta v Hm g kap P m).
    assert (Y1: (1 - 8 * ep) * IZR (total m - 1) <= r * (p m * vel m)) by (rewrite <- (RR (total m - 1)%Z), <- (Rmult_assoc (1 - 8 * ep)); apply Rmult_le_compat_r; lra).
    rewrite minus_IZR in Y1. assert (IB: 1 <= IZR (total m) <= 4194304) by (split; apply IZR_le; lia).
    assert (8 * ep * (IZR (total m) - 1) <= / 1000) by (apply Rle_trans with (8 * ep * 4194304); [apply Rmult_le_compat_l; [unfold ep; lra|lra]|unfold ep; lra]). lra. }
  rewrite Rmult_minus_distr_r. lra.
Qed.

(** Instants at which the profile was computed well. *)
Definition fine (x : R) : Prop := inside a L C x /\ normal x /\ room a L C x.
Lemma fine_0 : fine 0.
Proof.
  assert (A0 := ap0 acos cfg delta g kap P). assert (B := Ba acos cfg delta g kap P). assert (BLb := BL acos cfg delta g kap P). assert (QB := Q_bounds a C B (BC acos cfg delta g kap P c Hap)).
  split; [split; lra|]. split; [now left|]. unfold room. apply Rmult_le_pos; lra.
Qed.
Lemma M_up : 0 <= M <= 4500000.
Proof.
  assert (Up := fp_upper _ _ _ _ _ P). fold M in Up. assert (K := fp_kap _ _ _ _ _ P). assert (M0: 0 < M) by (unfold FloatWarp.M; pose proof (ap0 acos cfg delta g kap P); pose proof (BL acos cfg delta g kap P); lra).
  split; [lra|]. assert (/ 500000 * M <= kap * M) by (apply Rmult_le_compat_r; lra). lra.
Qed.
Lemma W_pause m r x : vel m = V -> / 122 <= vel m -> fine r -> fine x -> r <= x -> (x - r) * (p m * vel m) <= 17 / 10 -> W x - W r <= 54.
Proof.
  intros EV Vm (I1 & N1 & R1) (I2 & N2 & R2) Le X. assert (B := Ba acos cfg delta g kap P). assert (BLb := BL acos cfg delta g kap P). assert (BCb := BC acos cfg delta g kap P c Hap).
  assert (O1 := om_close a L C B BLb BCb _ I1 N1 R1). assert (O2 := om_close a L C B BLb BCb _ I2 N2 R2). apply Rabs_le_inv in O1, O2.
  assert (Up := om_up a L C B BLb BCb r x I1 I2 Le). assert (MU := M_up).
  assert (PB := p4 m). assert (Ab := A_bounds cfg Hc).
  assert (D1: x - r <= 519 / 10).
  { apply Rmult_le_reg_r with (4 * / 122); [lra|]. apply Rle_trans with ((x - r) * (p m * vel m)); [|lra]. apply Rmult_le_compat_l; [lra|]. apply Rmult_le_compat; lra. }
  assert (S1: sqrt (C * (x - r)) <= 1).
  { rewrite <- sqrt_1. apply sqrt_le_1_alt. destruct Hap as (_ & [_ C2] & _).
    assert (E: 2 * V / A <= 2 * V). { apply Rmult_le_reg_r with A; [lra|]. replace (2 * V / A * A) with (2 * V) by (field; apply Rgt_not_eq; lra). rewrite <- (Rmult_1_r (2 * V)) at 1. apply Rmult_le_compat_l; lra. }
    assert (C3: C <= 21 / 10 * vel m).
    { eapply Rle_trans; [exact C2|]. apply Rle_trans with ((1 + 7 * ep) * (2 * V)); [apply Rmult_le_compat_l; [unfold ep; lra|exact E]|]. rewrite <- EV.
      replace ((1 + 7 * ep) * (2 * vel m)) with ((1 + 7 * ep) * 2 * vel m) by ring. apply Rmult_le_compat_r; [lra|unfold ep; lra]. }
    apply Rle_trans with (21 / 10 * vel m * (x - r)); [apply Rmult_le_compat_r; lra|].
    assert (0 <= vel m * (x - r)) by (apply Rmult_le_pos; lra). assert (4 * (vel m * (x - r)) <= p m * (vel m * (x - r))) by (apply Rmult_le_compat_r; lra). lra. }
  lra.
Qed.
End Pause.
