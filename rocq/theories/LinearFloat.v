(** Straight moves in binary64: the constructor. *)
From Coq Require Import ZArith Bool Reals Lra Lia List Psatz.
From Flocq Require Import Core BinarySingleNaN.
From Verif Require Import PyBase PyNum PyFloatFacts Config Coordinates Pulses PulseSpec Decimal MachineArc ArcDone FloatRel LinearLaw ArcFloat.
From Coq Require Import List.
From Flocq Require Import Core.
Import ListNotations.
Local Open Scope R_scope.

(** Machines for which the statements are made: up to 1000 steps per mm,
    accelerations up to 2^20 mm/s^2. *)
Record lin_cfg (cfg : config) : Prop := {
  lc_ppm : forall m, (1 <= qat m (ppm cfg) <= 1000)%Z;
  lc_acc : (1 <= max_acceleration cfg <= 2 ^ 20)%Z;
  lc_max : forall m, (1 <= qat m (max_velocity_min cfg) <= 2 ^ 40)%Z }.
(** Moves: up to 4096 mm on every axis, at least a step (but for 0.1 percent, steps
    being rounded to ten decimals) on one of them, a feed rate
    of at least 1 mm per minute. *)
Record fit_move (cfg : config) (delta : quad f64) (v : f64) : Prop := {
  fm_delta : forall m, fin (qat m delta) /\ Rabs (val (qat m delta)) <= 4096;
  fm_step : exists m, 999 / 1000 <= Rabs (val (qat m delta)) * IZR (qat m (ppm cfg));
  fm_feed : fin v /\ 1 <= val v <= bpow radix2 60 }.

Section Build.
Variable acos : f64 -> f64.
Notation N := (F64 acos).
Variable cfg : config.
Hypothesis Hc : lin_cfg cfg.

Notation M m := (IZR (qat m (max_velocity_min cfg))).
Notation A := (IZR (max_acceleration cfg)).
Lemma M_bounds m : 1 <= M m <= bpow radix2 40.
Proof.
  destruct (lc_max cfg Hc m) as [L U]. split; [now apply (IZR_le 1)|]. rewrite <- (IZR_Zpower radix2) by lia. now apply IZR_le.
Qed.
Lemma A_bounds : 1 <= A <= bpow radix2 20.
Proof.
  destruct (lc_acc cfg Hc) as [L U]. split; [now apply (IZR_le 1)|]. rewrite <- (IZR_Zpower radix2) by lia. now apply IZR_le.
Qed.
Lemma A_ap : ap 0 0 20 (f_ofZ (max_acceleration cfg)) A.
Proof. apply ap_ofZ; try apply (lc_acc cfg Hc); lia. Qed.
Lemma M_ap m : ap 0 0 40 (f_ofZ (qat m (max_velocity_min cfg))) (M m).
Proof. apply ap_ofZ; try apply (lc_max cfg Hc); lia. Qed.
Lemma sixty_nz : 60 <> 0. Proof. apply Rgt_not_eq. lra. Qed.
Lemma ofZ60_ap : ap 0 0 6 (f_ofZ 60) 60.
Proof. apply ap_ofZ; lia. Qed.

(** A quadruple of numbers of ten decimals. *)
Definition dq (b : Z) (q : quad f64) : Prop :=
  forall m, fin (qat m q) /\ (val (qat m q) = 0 \/ bpow radix2 (-35) <= val (qat m q)) /\ val (qat m q) <= bpow radix2 b.
Lemma dq_ap b q m : dq b q -> ap 0 (-35) b (qat m q) (val (qat m q)).
Proof. intros H. destruct (H m) as (F & L & U). now apply ap_exact. Qed.
Lemma dq_pos b q m : dq b q -> 0 <= val (qat m q).
Proof. intros H. exact (ap_r0 _ _ _ _ _ (dq_ap b q m H)). Qed.

Lemma dq_weak b b' q : (b <= b')%Z -> dq b q -> dq b' q.
Proof. intros B H m. destruct (H m) as (F & L & U). split; [exact F|]. split; [exact L|]. eapply Rle_trans; [exact U|]. now apply bpow_le. Qed.

(** Euclidean length. *)
Definition len2 (q : quad f64) : R := val (qx q) * val (qx q) + val (qy q) * val (qy q) + val (qz q) * val (qz q) + val (qe q) * val (qe q).
Lemma len2_ge q m : val (qat m q) * val (qat m q) <= len2 q.
Proof.
  unfold len2. assert (X := Rle_0_sqr (val (qx q))). assert (Y := Rle_0_sqr (val (qy q))). assert (Z := Rle_0_sqr (val (qz q))).
  assert (E := Rle_0_sqr (val (qe q))). unfold Rsqr in *. destruct m; cbn [qat]; lra.
Qed.
Lemma length_ap b q : dq b q -> (0 <= b <= 100)%Z ->
  exists l, Coordinates.length (N:=N) q = Ok l /\ ap 11 (-35) (b + 1) l (sqrt (len2 q)).
Proof.
  intros H B. unfold Coordinates.length. cbn [sqrtn F64].
  assert (S: forall m, ap 3 (-70) (b + b) (f_mul (qat m q) (qat m q)) (val (qat m q) * val (qat m q))).
  { intros m. assert (D := dq_ap b q m H).
    assert (T := ap_mul 0 0 (-35) b (-35) b _ _ _ _ ltac:(lra) ltac:(lra) ltac:(lra) ltac:(lia) ltac:(lia) D D).
    replace (0 + 0 + 3) with 3 in T by ring. exact T. }
  assert (X := S MX). assert (Y := S MY). assert (Z := S MZ). assert (E := S ME). cbn [qat] in X, Y, Z, E. clear S.
  assert (A1 := ap_add 3 (-70) (b + b) _ _ _ _ ltac:(lra) ltac:(lia) ltac:(lia) X Y).
  assert (A2 := ap_add (3 + 2) (-70) (b + b + 1) _ _ _ _ ltac:(lra) ltac:(lia) ltac:(lia) A1 (ap_weak 3 (-70) (b + b) (3 + 2) (-70) (b + b + 1) _ _ ltac:(lra) ltac:(lia) ltac:(lia) Z)).
  assert (A3 := ap_add (3 + 2 + 2) (-70) (b + b + 1 + 1) _ _ _ _ ltac:(lra) ltac:(lia) ltac:(lia) A2 (ap_weak 3 (-70) (b + b) (3 + 2 + 2) (-70) (b + b + 1 + 1) _ _ ltac:(lra) ltac:(lia) ltac:(lia) E)).
  destruct (ap_sqrt 9 (-35) (b + 1) (f_add (f_add (f_add (f_mul (qx q) (qx q)) (f_mul (qy q) (qy q))) (f_mul (qz q) (qz q))) (f_mul (qe q) (qe q))) (len2 q) ltac:(lra) ltac:(lia)) as (l & El & Al).
  { split; [apply A3|]. destruct A3 as (_ & C & L & _). split; [unfold len2; replace 9 with (3 + 2 + 2 + 2) by ring; exact C|]. split; [exact L|].
    unfold len2. assert (Q: forall m, val (qat m q) * val (qat m q) <= bpow radix2 (b + b)).
    { intros m. rewrite bpow_plus. destruct (H m) as (_ & _ & U). apply Rmult_le_compat; auto using (dq_pos b q m H). }
    assert (X1 := Q MX). assert (X2 := Q MY). assert (X3 := Q MZ). assert (X4 := Q ME). cbn [qat] in X1, X2, X3, X4.
    replace (b + 1 + (b + 1))%Z with (b + b + 2)%Z by lia. rewrite (bpow_plus _ (b + b)). change (bpow radix2 2) with 4. lra. }
  exists l. split; [exact El|]. replace 11 with (9 + 2) by ring. exact Al.
Qed.

(** find_max. *)
Lemma find_max_val (q : quad f64) : (forall m, fin (qat m q)) ->
  (exists m, find_max (N:=N) q = qat m q) /\ forall m, val (qat m q) <= val (find_max (N:=N) q).
Proof.
  intros F. assert (P: forall x y : f64, fin x -> fin y -> (pmax (N:=N) x y = x \/ pmax (N:=N) x y = y) /\ val x <= val (pmax (N:=N) x y) /\ val y <= val (pmax (N:=N) x y)).
  { intros x y Fx Fy. unfold pmax. cbn [ltb F64]. destruct (f_lt x y) eqn:E; [apply f_lt_true in E|apply f_lt_false in E]; auto; repeat split; auto; lra. }
  unfold find_max. change (num N) with f64. assert (FX := F MX). assert (FY := F MY). assert (FZ := F MZ). assert (FE := F ME). cbn [qat] in *.
  destruct (P _ _ FX FY) as (C1 & L1 & L2). assert (F1: fin (pmax (N:=N) (qx q) (qy q))) by (destruct C1 as [->| ->]; assumption).
  destruct (P _ _ F1 FZ) as (C2 & L3 & L4). assert (F2: fin (pmax (N:=N) (pmax (N:=N) (qx q) (qy q)) (qz q))) by (destruct C2 as [->| ->]; assumption).
  destruct (P _ _ F2 FE) as (C3 & L5 & L6). split.
  - destruct C3 as [->| ->]; [|exists ME; reflexivity]. destruct C2 as [->| ->]; [|exists MZ; reflexivity].
    destruct C1 as [->| ->]; [exists MX|exists MY]; reflexivity.
  - intros []; cbn [qat]; lra.
Qed.

(* ---------- _adjust_velocity ---------- *)
Definition limits (w : quad f64) (k : f64) (j : motor) : Prop :=
  M j * (1 - 3 * ep) <= val (qat j w) * 60 /\ cl 8 (val k) (M j / val (qat j w) / 60).
Definition within_limit (w : quad f64) (k : f64) (j : motor) : Prop :=
  val (f_mul (qat j w) (f_ofZ 60)) <= M j \/ val k <= (1 + 8 * ep) * (M j / val (qat j w) / 60).
Definition good_k (w : quad f64) (k : f64) : Prop :=
  fin k /\ bpow radix2 (-100) <= val k <= 1 /\ (val k = 1 \/ exists j, limits w k j).
Lemma within_less w k k' j : val k' <= val k -> within_limit w k j -> within_limit w k' j.
Proof. unfold within_limit. intros L [H|H]; [now left|right; lra]. Qed.
Lemma adjust1_spec (w : quad f64) (k : f64) (j : motor) : dq 90 w -> good_k w k ->
  exists k', adjust1 (N:=N) k (qat j w) (f_ofZ (qat j (max_velocity_min cfg))) = Ok k' /\ good_k w k' /\ within_limit w k' j /\ val k' <= val k.
Proof.
  intros Hw (Fk & Bk & Ck). unfold adjust1. cbn [ltb mul F64 div]. change (@sixty N) with (f_ofZ 60).
  assert (Aw := dq_ap 90 w j Hw). assert (AM := M_ap j). assert (BM := M_bounds j).
  assert (A60 := ap_mul 0 0 (-35) 90 0 6 _ _ _ _ ltac:(lra) ltac:(lra) ltac:(lra) ltac:(lia) ltac:(lia) Aw ofZ60_ap).
  assert (VM: val (f_ofZ (qat j (max_velocity_min cfg))) = M j). { destruct (lc_max cfg Hc j). apply f_ofZ_val. lia. }
  destruct (f_lt _ _) eqn:L.
  - apply f_lt_true in L; [|apply AM|apply A60]. rewrite VM in L. destruct A60 as (F60 & [_ C60] & _).
    assert (W0: val (qat j w) <> 0). { intros E. rewrite E in C60. lra. }
    destruct (ap_div 0 0 0 40 (-35) 90 _ _ _ _ ltac:(lra) ltac:(lra) ltac:(lra) ltac:(lia) ltac:(lia) W0 AM Aw) as (a & -> & Aa). cbn [rbind].
    destruct (ap_div (0 + 0 + 4) 0 (0 - 90) (40 - -35) 0 6 _ _ _ _ ltac:(lra) ltac:(lra) ltac:(lra) ltac:(lia) ltac:(lia) sixty_nz Aa ofZ60_ap) as (b & -> & Ab). cbn [rbind].
    replace (0 + 0 + 4 + 0 + 4) with 8 in Ab by ring.
    assert (Wp: 0 < val (qat j w)) by (pose proof (dq_pos 90 w j Hw); lra).
    assert (Qp: 0 < M j / val (qat j w) / 60) by (apply Rdiv_lt_0_compat; [apply Rdiv_lt_0_compat; lra|lra]).
    assert (b0: bpow radix2 (-100) <= val b).
    { assert (X := ap_bounds 8 (0 - 90 - 6) (40 - -35 - 0) b _ ltac:(lra) Ab). destruct X as [_ X]. eapply Rle_trans; [|apply X, Rgt_not_eq; lra].
      change (/ 2) with (bpow radix2 (-1)). rewrite <- bpow_plus. apply bpow_le. lia. }
    destruct Ab as (Fb & Cb & _).
    unfold pmin. cbn [ltb F64]. destruct (f_lt b k) eqn:Lb.
    + apply f_lt_true in Lb; auto. exists b. split; [reflexivity|]. split; [|split; [right; apply Cb|lra]].
      split; [exact Fb|]. split; [lra|]. right. exists j. split; [|exact Cb].
      assert (ZZ: (1 - 3 * ep) * ((1 + 3 * ep) * (val (qat j w) * 60)) <= val (qat j w) * 60).
      { rewrite <- Rmult_assoc. rewrite <- (Rmult_1_l (val (qat j w) * 60)) at 2. apply Rmult_le_compat_r; [lra|]. unfold ep. lra. }
      apply Rle_trans with ((1 - 3 * ep) * ((1 + 3 * ep) * (val (qat j w) * 60))); [|exact ZZ]. rewrite (Rmult_comm (M j)). apply Rmult_le_compat_l; [unfold ep; lra|].
      replace (0 + 0 + 3) with 3 in C60 by ring. lra.
    + apply f_lt_false in Lb; auto. exists k. split; [reflexivity|]. split; [split; auto|]. split; [right; destruct Cb; lra|lra].
  - apply f_lt_false in L; [|apply AM|apply A60]. rewrite VM in L. exists k. split; [reflexivity|]. split; [split; auto|]. split; [left; exact L|lra].
Qed.
Lemma limits_other w k j : limits w k j -> limits w k j. Proof. auto. Qed.
Lemma adjust_spec (w : quad f64) : dq 90 w ->
  exists vel, adjust_velocity (N:=N) cfg w = Ok vel /\
    (auto_velocity cfg = false /\ vel = w \/
     exists k, vel = cmul (N:=N) w k /\ good_k w k /\ forall j, within_limit w k j).
Proof.
  intros Hw. unfold adjust_velocity. destruct (auto_velocity cfg); cbn [negb]; [|exists w; split; [reflexivity|now left]].
  assert (K0: good_k w (@one N)). { destruct (f_ofZ_val 1) as [F V]; [lia|]. change (@one N) with (f_ofZ 1). split; [exact F|]. rewrite V. split; [split; [exact (bpow_le radix2 (-100) 0 ltac:(lia))|simpl; lra]|now left]. }
  destruct (adjust1_spec w _ MX Hw K0) as (k1 & E1 & K1 & W1 & _). destruct (adjust1_spec w _ MY Hw K1) as (k2 & E2 & K2 & W2 & L2).
  destruct (adjust1_spec w _ MZ Hw K2) as (k3 & E3 & K3 & W3 & L3). destruct (adjust1_spec w _ ME Hw K3) as (k4 & E4 & K4 & W4 & L4).
  cbn [qat] in E1, E2, E3, E4. change (num N) with f64 in *.
  match goal with |- context [rbind ?r _] => replace r with (Ok k1) by (symmetry; exact E1) end. cbn [rbind].
  match goal with |- context [rbind ?r _] => replace r with (Ok k2) by (symmetry; exact E2) end. cbn [rbind].
  match goal with |- context [rbind ?r _] => replace r with (Ok k3) by (symmetry; exact E3) end. cbn [rbind].
  match goal with |- context [rbind ?r _] => replace r with (Ok k4) by (symmetry; exact E4) end. cbn [rbind].
  exists (cmul (N:=N) w k4). split; [reflexivity|]. right. exists k4. split; [reflexivity|]. split; [exact K4|].
  intros []; [apply (within_less w k1)|apply (within_less w k2)|apply (within_less w k3)|]; auto; lra.
Qed.

(* ---------- the constructor ---------- *)
Variable delta : quad f64.
Variable v : f64.
Hypothesis Hm : fit_move cfg delta v.

Definition dst : quad f64 := cabs (N:=N) delta.
Notation d m := (val (qat m dst)).
Lemma dst_at m : qat m dst = f_rnd10 (Babs (qat m delta)).
Proof. destruct m; reflexivity. Qed.
Lemma rnd10_ap k a b x r : 0 <= k <= 100 -> (0 <= b <= 100)%Z -> ap k a b x r ->
  fin (f_rnd10 x) /\ (val (f_rnd10 x) = 0 \/ bpow radix2 (-35) <= val (f_rnd10 x)) /\ val (f_rnd10 x) <= bpow radix2 (b + 2) /\
  Rabs (val (f_rnd10 x) - r) <= 51 / 1000000000000 + (k + 2) * ep * r.
Proof.
  intros K B H. assert (R0 := ap_r0 _ _ _ _ _ H). assert (X := ap_bounds k a b x r ltac:(lra) H). destruct H as (F & [C1 C2] & _ & U).
  destruct X as [[X0 X1] _]. destruct (rnd10_close x F X0) as (F' & P & L & C). split; [exact F'|]. split; [exact L|].
  assert (C': Rabs (val (f_rnd10 x) - r) <= 51 / 1000000000000 + (k + 2) * ep * r).
  { replace (val (f_rnd10 x) - r) with ((val (f_rnd10 x) - val x) + (val x - r)) by ring. eapply Rle_trans; [apply Rabs_triang|].
    assert (Rabs (val x - r) <= k * ep * r) by (apply Rabs_le; lra).
    assert (ep * val x <= 2 * ep * r).
    { replace (2 * ep * r) with (ep * (2 * r)) by ring. apply Rmult_le_compat_l; [unfold ep; lra|].
      assert (k * ep * r <= 1 * r) by (apply Rmult_le_compat_r; [exact R0|unfold ep; lra]). lra. }
    lra. }
  split; [|exact C']. apply Rabs_le_inv in C'. assert ((k + 2) * ep * r <= 1 * r) by (apply Rmult_le_compat_r; [exact R0|unfold ep; lra]).
  rewrite bpow_plus. change (bpow radix2 2) with 4. assert (Y := bpow_le radix2 0 b ltac:(lia)). change (bpow radix2 0) with 1 in Y. lra.
Qed.
Lemma dst_close m : Rabs (d m - Rabs (val (qat m delta))) <= 53 / 1000000000000.
Proof.
  destruct (fm_delta _ _ _ Hm m) as [F B]. rewrite dst_at. apply fin_abs in F.
  destruct (rnd10_close (Babs (qat m delta)) F) as (F' & P & L & C). { rewrite val_abs. apply Rabs_pos. }
  rewrite val_abs in C. assert (ep * Rabs (val (qat m delta)) <= 1 / 1000000000000).
  { apply Rle_trans with (ep * 4096); [apply Rmult_le_compat_l; [unfold ep; lra|exact B]|unfold ep; lra]. }
  lra.
Qed.
Lemma dst_le m : d m <= 4097.
Proof. destruct (fm_delta _ _ _ Hm m) as [F B]. assert (C := dst_close m). apply Rabs_le_inv in C. lra. Qed.
Lemma dst_dq : dq 13 dst.
Proof.
  intros m. assert (D := dst_le m). destruct (fm_delta _ _ _ Hm m) as [F B]. apply fin_abs in F.
  destruct (rnd10_close (Babs (qat m delta)) F) as (F' & P & L & C). { rewrite val_abs. apply Rabs_pos. }
  rewrite dst_at in *. split; [exact F'|]. split; [exact L|]. change (bpow radix2 13) with 8192. lra.
Qed.
Lemma d_pos m : 0 <= d m. Proof. exact (dq_pos 13 dst m dst_dq). Qed.
Lemma dst_big : exists m, / 1024 <= d m.
Proof.
  destruct (fm_step _ _ _ Hm) as [m H]. exists m. destruct (lc_ppm cfg Hc m) as [L U]. apply IZR_le in L, U.
  assert (C := dst_close m). apply Rabs_le_inv in C. assert (Q := Rabs_pos (val (qat m delta))).
  assert (Rabs (val (qat m delta)) * IZR (qat m (ppm cfg)) <= Rabs (val (qat m delta)) * 1000) by (apply Rmult_le_compat_l; assumption). lra.
Qed.

Definition S : R := sqrt (len2 dst).
Lemma d_le_S m : d m <= S.
Proof. unfold S. rewrite <- (sqrt_square (d m)) by apply d_pos. apply sqrt_le_1_alt. apply len2_ge. Qed.
Lemma S_le : S <= 8194.
Proof.
  unfold S. rewrite <- (sqrt_square 8194) by lra. apply sqrt_le_1_alt. unfold len2.
  assert (Q: forall m, d m * d m <= 4097 * 4097) by (intros m; apply Rmult_le_compat; auto using d_pos, dst_le).
  assert (X := Q MX). assert (Y := Q MY). assert (Z := Q MZ). assert (E := Q ME). cbn [qat] in *. change (num N) with f64 in *. lra.
Qed.
Lemma S_ge : / 1024 <= S.
Proof. destruct dst_big as [m H]. assert (X := d_le_S m). lra. Qed.
Lemma d_half : exists m, S / 2 <= d m.
Proof.
  destruct (find_max_val dst) as [[m E] T]. { intros m. apply dst_dq. }
  exists m. rewrite E in T. unfold S. apply Rmult_le_reg_r with 2; [lra|]. replace (sqrt (len2 dst) / 2 * 2) with (sqrt (len2 dst)) by field.
  rewrite <- (sqrt_square (d m * 2)) by (pose proof (d_pos m); lra). apply sqrt_le_1_alt. unfold len2.
  assert (Q: forall m', d m' * d m' <= d m * d m) by (intros m'; apply Rmult_le_compat; auto using d_pos).
  assert (X := Q MX). assert (Y := Q MY). assert (Z := Q MZ). assert (E' := Q ME). cbn [qat] in X, Y, Z, E'. change (num N) with f64 in *. lra.
Qed.
Lemma total_ap : exists l, Coordinates.length (N:=N) dst = Ok l /\ ap 11 (-10) 14 l S.
Proof.
  destruct (length_ap 13 dst dst_dq ltac:(lia)) as (l & E & H). exists l. split; [exact E|]. destruct H as (F & C & _).
  split; [exact F|]. split; [exact C|]. assert (X := S_ge). assert (Y := S_le). unfold S in *. change (bpow radix2 (-10)) with (/ 1024). change (bpow radix2 14) with 16384. lra.
Qed.
Definition kap0 : R := val v / 60 / S.
Lemma S_nz : S <> 0. Proof. assert (X := S_ge). apply Rgt_not_eq. lra. Qed.
Lemma k_ap l : ap 11 (-10) 14 l S -> exists v60 k, f_div v (f_ofZ 60) = Ok v60 /\ f_div v60 l = Ok k /\ ap 19 (-20) 70 k kap0.
Proof.
  intros Hl. destruct (fm_feed _ _ _ Hm) as (Fv & Bv). assert (Av: ap 0 0 60 v (val v)) by (apply ap_exact; [exact Fv|right; apply Bv|apply Bv]).
  destruct (ap_div 0 0 0 60 0 6 _ _ _ _ ltac:(lra) ltac:(lra) ltac:(lra) ltac:(lia) ltac:(lia) sixty_nz Av ofZ60_ap) as (v60 & E1 & A1).
  destruct (ap_div (0 + 0 + 4) 11 (0 - 6) (60 - 0) (-10) 14 _ _ _ _ ltac:(lra) ltac:(lra) ltac:(lra) ltac:(lia) ltac:(lia) S_nz A1 Hl) as (k & E2 & A2).
  exists v60, k. split; [exact E1|]. split; [exact E2|]. replace 19 with (0 + 0 + 4 + 11 + 4) by ring. exact A2.
Qed.
Lemma kap0_ge : / 491640 <= kap0.
Proof.
  unfold kap0. destruct (fm_feed _ _ _ Hm) as (Fv & Bv). assert (X := S_ge). assert (Y := S_le).
  apply Rmult_le_reg_r with S; [lra|]. unfold Rdiv at 1. rewrite (Rmult_assoc _ (/ S)), Rinv_l, Rmult_1_r by exact S_nz. lra.
Qed.
(** The requested velocity. *)
Lemma w_ok k : ap 19 (-20) 70 k kap0 -> let w := cmul (N:=N) dst k in
  dq 90 w /\ forall m, Rabs (val (qat m w) - kap0 * d m) <= 51 / 1000000000000 + 24 * ep * (kap0 * d m).
Proof.
  intros Hk w. assert (Q: forall m, qat m w = f_rnd10 (f_mul (qat m dst) k)) by (intros []; reflexivity).
  assert (G: forall m, ap 22 (-55) 83 (f_mul (qat m dst) k) (kap0 * d m)).
  { intros m. rewrite (Rmult_comm kap0). replace 22 with (0 + 19 + 3) by ring.
    exact (ap_mul 0 19 (-35) 13 (-20) 70 _ _ _ _ ltac:(lra) ltac:(lra) ltac:(lra) ltac:(lia) ltac:(lia) (dq_ap 13 _ m dst_dq) Hk). }
  split; intros m; rewrite Q; destruct (rnd10_ap 22 (-55) 83 _ _ ltac:(lra) ltac:(lia) (G m)) as (F & L & U & C).
  - split; [exact F|]. split; [exact L|]. eapply Rle_trans; [exact U|]. apply bpow_le. lia.
  - replace 24 with (22 + 2) by ring. exact C.
Qed.
(** The velocity allowed by the limits of the axes. *)
Definition near (vel : quad f64) (kap : R) : Prop :=
  forall m, Rabs (val (qat m vel) - kap * d m) <= 103 / 1000000000000 + 40 * ep * (kap * d m).
Lemma limit_kap w k j : (forall m, Rabs (val (qat m w) - kap0 * d m) <= 51 / 1000000000000 + 24 * ep * (kap0 * d m)) ->
  limits w k j -> M j / 61 <= kap0 * val k * d j /\ / 62 <= kap0 * d j.
Proof.
  intros C [L1 [L2 _]]. assert (BM := M_bounds j). assert (K0 := kap0_ge). specialize (C j). apply Rabs_le_inv in C.
  set (wj := val (qat j w)) in *. set (t := kap0 * d j) in *.
  assert (T0: 0 <= t) by (apply Rmult_le_pos; [lra|apply d_pos]).
  assert (M j * (1 - 3 * ep) >= M j * (999 / 1000)) by (apply Rle_ge, Rmult_le_compat_l; [lra|unfold ep; lra]).
  assert (24 * ep * t <= / 1000000 * t) by (apply Rmult_le_compat_r; [lra|unfold ep; lra]).
  assert (W: 999 / 60000 <= wj) by lra.
  assert (T1: / 62 <= t) by lra. split; [|exact T1].
  assert (WT: wj <= t * (1001 / 1000)) by lra.
  assert (E: M j / wj / 60 * wj = M j / 60) by (field; apply Rgt_not_eq; lra).
  assert (Kp: 0 <= M j / wj / 60) by (apply Rmult_le_pos; [apply Rmult_le_pos; [lra|apply Rlt_le, Rinv_0_lt_compat; lra]|lra]).
  assert (L3: 999 / 1000 * (M j / wj / 60) <= val k).
  { eapply Rle_trans; [|exact L2]. apply Rmult_le_compat_r; [exact Kp|unfold ep; lra]. }
  replace (kap0 * val k * d j) with (val k * t) by (unfold t; ring).
  set (u := M j / wj / 60) in *. clearbody u.
  apply Rle_trans with (999 / 1000 * u * (wj * (1000 / 1001))).
  - replace (999 / 1000 * u * (wj * (1000 / 1001))) with (999 / 1001 * (u * wj)) by field. rewrite E. lra.
  - apply Rmult_le_compat; lra.
Qed.
Lemma vel_ok w vel : dq 90 w -> (forall m, Rabs (val (qat m w) - kap0 * d m) <= 51 / 1000000000000 + 24 * ep * (kap0 * d m)) ->
  adjust_velocity (N:=N) cfg w = Ok vel ->
  exists kap, / 500000 <= kap <= kap0 /\ dq 92 vel /\ near vel kap /\ exists m, / 122 <= val (qat m vel).
Proof.
  intros Hw Cw E. assert (K0 := kap0_ge).
  destruct (adjust_spec w Hw) as (vel' & E' & A'). assert (vel' = vel) by (rewrite E in E'; now injection E'). subst vel'. clear E E'.
  assert (T0: forall m, 0 <= kap0 * d m) by (intros m; apply Rmult_le_pos; [lra|apply d_pos]).
  assert (half: exists m, / 120 <= kap0 * d m).
  { destruct d_half as [m H]. exists m. destruct (fm_feed _ _ _ Hm) as (_ & Bv).
    apply Rle_trans with (kap0 * (S / 2)); [|apply Rmult_le_compat_l; lra]. unfold kap0.
    replace (val v / 60 / S * (S / 2)) with (val v / 120) by (field; exact S_nz). lra. }
  destruct A' as [[_ ->]|(k & -> & (Fk & Bk & Ck) & _)].
  - exists kap0. split; [lra|]. split; [apply (dq_weak 90); [lia|exact Hw]|]. split.
    + intros m. eapply Rle_trans; [apply Cw|]. assert (T := T0 m).
      assert (24 * ep * (kap0 * d m) <= 40 * ep * (kap0 * d m)) by (apply Rmult_le_compat_r; [exact T|unfold ep; lra]). lra.
    + destruct half as [m H]. exists m. assert (C := Cw m). apply Rabs_le_inv in C. 
      assert (24 * ep * (kap0 * d m) <= / 1000000 * (kap0 * d m)) by (apply Rmult_le_compat_r; [apply T0|unfold ep; lra]). change (num N) with f64 in *. set (t := kap0 * d m) in *. lra.
  - assert (Q: forall m, qat m (cmul (N:=N) w k : quad f64) = f_rnd10 (f_mul (qat m w) k)) by (intros []; reflexivity).
    assert (k0: 0 < val k) by (pose proof (bpow_gt_0 radix2 (-100)); lra).
    assert (T1: forall m, 0 <= kap0 * val k * d m) by (intros m; apply Rmult_le_pos; [apply Rmult_le_pos; lra|apply d_pos]).
    assert (Ak: ap 0 (-100) 0 k (val k)) by (apply ap_exact; [exact Fk|right; lra|simpl; lra]).
    assert (G: forall m, ap 3 (-135) 90 (f_mul (qat m w) k) (val (qat m w) * val k)).
    { intros m. replace 3 with (0 + 0 + 3) by ring.
      exact (ap_mul 0 0 (-35) 90 (-100) 0 _ _ _ _ ltac:(lra) ltac:(lra) ltac:(lra) ltac:(lia) ltac:(lia) (dq_ap 90 _ m Hw) Ak). }
    exists (kap0 * val k).
    assert (NR: near (cmul (N:=N) w k) (kap0 * val k)).
    { intros m. rewrite Q. destruct (rnd10_ap 3 (-135) 90 _ _ ltac:(lra) ltac:(lia) (G m)) as (_ & _ & _ & C).
      specialize (Cw m). set (x := val (f_rnd10 (f_mul (qat m w) k))) in *. set (wm := val (qat m w)) in *. set (t := kap0 * d m) in *.
      replace (kap0 * val k * d m) with (t * val k) by (unfold t; ring).
      assert (tt: 0 <= t) by apply T0.
      assert (D: Rabs (wm * val k - t * val k) <= 51 / 1000000000000 + 24 * ep * (t * val k)).
      { rewrite <- Rmult_minus_distr_r, Rabs_mult, (Rabs_pos_eq (val k)) by lra.
        apply Rle_trans with ((51 / 1000000000000 + 24 * ep * t) * val k); [apply Rmult_le_compat_r; lra|].
        rewrite Rmult_plus_distr_r, Rmult_assoc. apply Rplus_le_compat_r. lra. }
      assert (tk: 0 <= t * val k) by (apply Rmult_le_pos; lra). set (y := t * val k) in *. set (z := wm * val k) in *. clearbody x y z.
      replace (x - y) with ((x - z) + (z - y)) by ring. eapply Rle_trans; [apply Rabs_triang|].
      assert (Z: z <= y + 51 / 1000000000000 + 24 * ep * y) by (apply Rabs_le_inv in D; lra).
      assert ((3 + 2) * ep * z <= (3 + 2) * ep * (y + 51 / 1000000000000 + 24 * ep * y)) by (apply Rmult_le_compat_l; [unfold ep; lra|exact Z]).
      assert ((3 + 2) * ep * (y + 51 / 1000000000000 + 24 * ep * y) <= 1 / 1000000000000 + 10 * ep * y).
      { replace ((3 + 2) * ep * (y + 51 / 1000000000000 + 24 * ep * y)) with (5 * ep * (51 / 1000000000000) + 5 * ep * (1 + 24 * ep) * y) by field.
        apply Rplus_le_compat; [unfold ep; lra|]. apply Rmult_le_compat_r; [exact tk|]. unfold ep. lra. }
      assert (Q34: 34 * ep * y <= 40 * ep * y) by (apply Rmult_le_compat_r; [exact tk|unfold ep; lra]).
      lra. }
    assert (D90: dq 92 (cmul (N:=N) w k)).
    { intros m. rewrite Q. destruct (rnd10_ap 3 (-135) 90 _ _ ltac:(lra) ltac:(lia) (G m)) as (F & L & U & _). auto. }
    assert (top: forall m, / 120 <= kap0 * val k * d m -> / 122 <= val (qat m (cmul (N:=N) w k : quad f64))).
    { intros m H. assert (C := NR m). apply Rabs_le_inv in C.
      assert (40 * ep * (kap0 * val k * d m) <= / 1000000 * (kap0 * val k * d m)) by (apply Rmult_le_compat_r; [apply T1|unfold ep; lra]). lra. }
    destruct Ck as [Ck|[j Ck]].
    + rewrite Ck in *. rewrite Rmult_1_r in *. split; [lra|]. split; [exact D90|]. split; [exact NR|].
      destruct half as [m H]. exists m. now apply top.
    + destruct (limit_kap w k j Cw Ck) as [L1 _]. assert (BM := M_bounds j). split; [|split; [exact D90|split; [exact NR|exists j; apply top; lra]]].
      split; [|rewrite <- (Rmult_1_r kap0) at 2; apply Rmult_le_compat_l; lra].
      assert (D := dst_le j). assert (D0 := d_pos j). assert (Dj: 0 < d j). { destruct (Rle_lt_or_eq_dec _ _ D0) as [|D1]; [assumption|]. rewrite <- D1, Rmult_0_r in L1. lra. }
      apply Rmult_le_reg_r with (d j); [exact Dj|]. lra.
Qed.

(** What the constructor computes. [kap] is the velocity per millimetre of
    displacement, [top] the greatest of the velocities allowed by the limits. *)
Record fprof (g : linear_gen N) (kap : R) : Prop := {
  fp_kap : / 500000 <= kap;
  fp_vel : dq 92 (l_vel g);
  fp_near : near (l_vel g) kap;
  fp_top : exists m, / 122 <= val (qat m (l_vel g : quad f64));
  fp_acc : fin (l_acc g) /\ bpow radix2 (-28) <= val (l_acc g) <= bpow radix2 93;
  fp_lin : nn 22 (l_lin g);
  fp_ratio : val (l_acc g) * (1 - / 10000000) <= 2 * val (find_max (N:=N) (l_vel g)) / A <= 2 * val (l_acc g) * (1 + / 10000000);
  fp_end : 1 - 5 / 100000000 <= kap * (val (l_acc g) * val (l_acc g) * A / val (find_max (N:=N) (l_vel g)) + val (l_lin g));
  fp_upper : kap * (val (l_acc g) + val (l_lin g)) <= 9;
  fp_count : forall m, f_rnd (f_mul (qat m dst) (f_ofZ (qat m (ppm cfg)))) = Ok (qat m (l_total g));
  fp_dir : l_dir g = dirs_of (N:=N) delta }.

Lemma sqr_ok x : fin (f_mul x x) -> f_sqr x = Ok (f_mul x x).
Proof. intros F. unfold f_sqr. unfold fin in F. rewrite F. now rewrite andb_false_r. Qed.
Lemma find_max_top q : dq 92 q -> (exists m, / 122 <= val (qat m q)) -> ap 0 (-7) 92 (find_max (N:=N) q) (val (find_max (N:=N) q)) /\ / 122 <= val (find_max (N:=N) q).
Proof.
  intros H [m T]. destruct (find_max_val q) as [[m' E] G]; [intros m'; apply H|]. specialize (G m). rewrite E in *. destruct (H m') as (F & _ & U).
  split; [|lra]. apply ap_exact; [exact F| |exact U]. right. change (bpow radix2 (-7)) with (/ 128). lra.
Qed.
Lemma counts_ok : exists c : quad Z, forall m, pulses_of (N:=N) (qat m dst) (qat m (ppm cfg)) = Ok (qat m c).
Proof.
  assert (G: forall m, exists n, pulses_of (N:=N) (qat m dst) (qat m (ppm cfg)) = Ok n).
  { intros m. unfold pulses_of. cbn [rnd mul ofZ F64]. assert (Ap: ap 0 0 10 (f_ofZ (qat m (ppm cfg))) (IZR (qat m (ppm cfg)))).
    { destruct (lc_ppm cfg Hc m). apply ap_ofZ; lia. }
    assert (T := ap_mul 0 0 (-35) 13 0 10 _ _ _ _ ltac:(lra) ltac:(lra) ltac:(lra) ltac:(lia) ltac:(lia) (dq_ap 13 _ m dst_dq) Ap).
    eexists. apply f_rnd_val. apply T. }
  destruct (G MX) as [a Ea]. destruct (G MY) as [b Eb]. destruct (G MZ) as [c Ec]. destruct (G ME) as [e Ee].
  exists (Quad a b c e). intros []; assumption.
Qed.

(* ---------- the acceleration and the velocities ---------- *)
Lemma near_top q kap m : 0 <= kap -> near q kap -> val (qat m q) <= kap * S * (1 + 40 * ep) + 103 / 1000000000000.
Proof.
  intros K H. specialize (H m). apply Rabs_le_inv in H. assert (kap * d m <= kap * S) by (apply Rmult_le_compat_l; [lra|apply d_le_S]).
  assert (40 * ep * (kap * d m) <= 40 * ep * (kap * S)) by (apply Rmult_le_compat_l; [unfold ep; lra|assumption]). lra.
Qed.
Lemma near_length q kap b : 0 <= kap -> dq b q -> near q kap -> sqrt (len2 q) <= kap * S * (1 + 40 * ep) + 206 / 1000000000000.
Proof.
  intros K D H. assert (SB := S_ge). assert (ks: 0 <= kap * S * (1 + 40 * ep)) by (apply Rmult_le_pos; [apply Rmult_le_pos; lra|unfold ep; lra]).
  set (e := 103 / 1000000000000). set (k := kap * (1 + 40 * ep)). assert (k0: 0 <= k) by (apply Rmult_le_pos; [lra|unfold ep; lra]).
  assert (e0: 0 < e) by (unfold e; lra).
  replace (kap * S * (1 + 40 * ep) + 206 / 1000000000000) with (k * S + 2 * e) by (unfold k, e; field).
  rewrite <- (sqrt_square (k * S + 2 * e)) by (assert (0 <= k * S) by (apply Rmult_le_pos; lra); lra). apply sqrt_le_1_alt.
  assert (Q: forall m, val (qat m q) * val (qat m q) <= (k * d m + e) * (k * d m + e)).
  { intros m. assert (0 <= val (qat m q) <= k * d m + e). { split; [exact (dq_pos b q m D)|]. specialize (H m). apply Rabs_le_inv in H. unfold k, e. lra. }
    apply Rmult_le_compat; lra. }
  assert (X := Q MX). assert (Y := Q MY). assert (Z := Q MZ). assert (E := Q ME). unfold len2. cbn [qat] in X, Y, Z, E.
  assert (SS: S * S = len2 dst). { unfold S. apply sqrt_sqrt. unfold len2. pose proof (Rle_0_sqr (val (qx dst))). pose proof (Rle_0_sqr (val (qy dst))). pose proof (Rle_0_sqr (val (qz dst))). pose proof (Rle_0_sqr (val (qe dst))). unfold Rsqr in *. lra. }
  unfold len2 in SS. set (dx := val (qx dst)) in *. set (dy := val (qy dst)) in *. set (dz := val (qz dst)) in *. set (de := val (qe dst)) in *.
  assert (CS: dx + dy + dz + de <= 2 * S).
  { assert (Z1 := Rle_0_sqr (dx - dy)). assert (Z2 := Rle_0_sqr (dx - dz)). assert (Z3 := Rle_0_sqr (dx - de)). assert (Z4 := Rle_0_sqr (dy - dz)). assert (Z5 := Rle_0_sqr (dy - de)). assert (Z6 := Rle_0_sqr (dz - de)).
    unfold Rsqr in *. apply Rnot_lt_le. intros Lt. assert (2 * S * (2 * S) < (dx + dy + dz + de) * (dx + dy + dz + de)) by (apply Rmult_le_0_lt_compat; lra). lra. }
  replace ((k * S + 2 * e) * (k * S + 2 * e)) with (k * k * (S * S) + 2 * k * e * (2 * S) + 4 * (e * e)) by ring. rewrite SS.
  assert (2 * k * e * (dx + dy + dz + de) <= 2 * k * e * (2 * S)) by (apply Rmult_le_compat_l; [apply Rmult_le_pos; [lra|lra]|exact CS]).
  lra.
Qed.
(** The greatest velocity is at least half of the length of the velocities. *)
Lemma length_top q b : dq b q -> sqrt (len2 q) <= 2 * val (find_max (N:=N) q) /\ val (find_max (N:=N) q) <= sqrt (len2 q).
Proof.
  intros H. destruct (find_max_val q) as [[m E] G]; [intros m; apply H|]. rewrite E in *. assert (P := fun m => dq_pos b q m H). split.
  - rewrite <- (sqrt_square (2 * val (qat m q))) by (specialize (P m); lra). apply sqrt_le_1_alt. unfold len2.
    assert (Q: forall m', val (qat m' q) * val (qat m' q) <= val (qat m q) * val (qat m q)) by (intros m'; apply Rmult_le_compat; auto).
    assert (X := Q MX). assert (Y := Q MY). assert (Z := Q MZ). assert (E' := Q ME). cbn [qat] in X, Y, Z, E'. lra.
  - rewrite <- (sqrt_square (val (qat m q))) by apply P. apply sqrt_le_1_alt. apply len2_ge.
Qed.
Lemma long_facts kap V W a t X L : 0 <= kap -> / 122 <= V <= W -> W <= 2 * V -> W <= kap * S * (1 + 40 * ep) + 206 / 1000000000000 ->
  cl 4 a (V / A) -> cl 11 t S -> cl 14 X (V * V / A) -> X <= t -> cl 17 L ((t - X) / W) ->
  a * (1 - / 10000000) <= 2 * V / A <= 2 * a * (1 + / 10000000) /\ 1 - 5 / 100000000 <= kap * (a * a * A / V + L).
Proof.
  intros K [V0 VW] W2 WS [a1 a2] [t1 t2] [X1 X2] XT [L1 L2]. assert (A0 := A_bounds). assert (SB := S_ge).
  assert (R0: 0 < V / A) by (apply Rdiv_lt_0_compat; lra). set (r := V / A) in *.
  assert (VA: 2 * V / A = 2 * r) by (unfold r; field; apply Rgt_not_eq; lra).
  assert (VV: V * V / A = V * r) by (unfold r; field; apply Rgt_not_eq; lra).
  assert (E1: 4 * ep * r <= / 1000000000 * r) by (apply Rmult_le_compat_r; [lra|unfold ep; lra]).
  split; [rewrite VA; lra|]. rewrite VV in *.
  assert (rA: A / V = / r) by (unfold r; field; split; apply Rgt_not_eq; lra).
  assert (a3: (1 - 8 * ep) * r <= a * a * A / V).
  { replace (a * a * A / V) with (a * a * / r) by (rewrite <- rA; field; apply Rgt_not_eq; lra).
    assert ((1 - 4 * ep) * r * ((1 - 4 * ep) * r) <= a * a) by (apply Rmult_le_compat; [| |lra|lra]; apply Rmult_le_pos; try (unfold ep; lra); lra).
    apply Rle_trans with ((1 - 4 * ep) * r * ((1 - 4 * ep) * r) * / r); [|apply Rmult_le_compat_r; [apply Rlt_le, Rinv_0_lt_compat; lra|lra]].
    replace ((1 - 4 * ep) * r * ((1 - 4 * ep) * r) * / r) with ((1 - 8 * ep + 16 * ep * ep) * r) by (field; apply Rgt_not_eq; lra).
    apply Rmult_le_compat_r; [lra|unfold ep; lra]. }
  assert (SW: 0 < S / W) by (apply Rdiv_lt_0_compat; lra). set (z := S / W) in *.
  assert (Vr: 0 < V * r) by (apply Rmult_lt_0_compat; lra).
  assert (rz: r <= 3 * z).
  { (* V r <= 1.1 t <= 1.2 S *)
    assert (V * r <= 12 / 10 * S). { assert (ep * (V * r) <= / 1000 * (V * r)) by (apply Rmult_le_compat_r; [lra|unfold ep; lra]). assert (ep * S <= / 1000 * S) by (apply Rmult_le_compat_r; [lra|unfold ep; lra]). lra. }
    apply Rmult_le_reg_r with W; [lra|]. unfold z. replace (3 * (S / W) * W) with (3 * S) by (field; apply Rgt_not_eq; lra).
    assert (r * W <= r * (2 * V)) by (apply Rmult_le_compat_l; lra). lra. }
  assert (L3: (1 - 30 * ep) * z - (1 + 14 * ep) * r <= L).
  { eapply Rle_trans; [|exact L1]. assert (TX: ((1 - 11 * ep) * S - (1 + 14 * ep) * (V * r)) / W <= (t - X) / W).
    { apply Rmult_le_compat_r; [apply Rlt_le, Rinv_0_lt_compat; lra|lra]. }
    assert (TX2: (1 - 11 * ep) * z - (1 + 14 * ep) * r <= ((1 - 11 * ep) * S - (1 + 14 * ep) * (V * r)) / W).
    { replace (((1 - 11 * ep) * S - (1 + 14 * ep) * (V * r)) / W) with ((1 - 11 * ep) * z - (1 + 14 * ep) * (V * r * / W)) by (unfold z, Rdiv; ring).
      apply Rplus_le_compat_l, Ropp_le_contravar. apply Rmult_le_compat_l; [unfold ep; lra|].
      apply Rmult_le_reg_r with W; [lra|]. rewrite Rmult_assoc, Rinv_l by (apply Rgt_not_eq; lra). rewrite Rmult_1_r, Rmult_comm. apply Rmult_le_compat_l; lra. }
    set (y := (t - X) / W) in *. assert (Y: (1 - 17 * ep) * ((1 - 11 * ep) * z - (1 + 14 * ep) * r) <= (1 - 17 * ep) * y) by (apply Rmult_le_compat_l; [unfold ep; lra|lra]).
    eapply Rle_trans; [|exact Y].
    replace ((1 - 17 * ep) * ((1 - 11 * ep) * z - (1 + 14 * ep) * r)) with ((1 - 28 * ep + 187 * ep * ep) * z - (1 - 3 * ep - 238 * ep * ep) * r) by ring.
    assert ((1 - 30 * ep) * z <= (1 - 28 * ep + 187 * ep * ep) * z) by (apply Rmult_le_compat_r; [lra|unfold ep; lra]).
    assert ((1 - 3 * ep - 238 * ep * ep) * r <= (1 + 14 * ep) * r) by (apply Rmult_le_compat_r; [lra|unfold ep; lra]). lra. }
  assert (Sum: (1 - 100 * ep) * z <= a * a * A / V + L).
  { assert (22 * ep * r <= 22 * ep * (3 * z)) by (apply Rmult_le_compat_l; [unfold ep; lra|lra]). assert (0 <= ep * z) by (apply Rmult_le_pos; [unfold ep; lra|lra]). lra. }
  assert (KZ: 1 - 3 / 100000000 <= kap * z).
  { unfold z. apply Rmult_le_reg_r with W; [lra|]. replace (kap * (S / W) * W) with (kap * S) by (field; apply Rgt_not_eq; lra).
    assert (ks: 0 <= kap * S) by (apply Rmult_le_pos; lra). assert (40 * ep * (kap * S) <= / 10000000000 * (kap * S)) by (apply Rmult_le_compat_r; [lra|unfold ep; lra]). lra. }
  apply Rle_trans with (kap * ((1 - 100 * ep) * z)); [|apply Rmult_le_compat_l; lra].
  replace (kap * ((1 - 100 * ep) * z)) with ((1 - 100 * ep) * (kap * z)) by ring.
  apply Rle_trans with ((1 - 100 * ep) * (1 - 3 / 100000000)); [unfold ep; lra|apply Rmult_le_compat_l; [unfold ep; lra|lra]].
Qed.
Lemma short_facts a V m : let s := sqrt (S / A) in cl 17 a s -> / 122 <= V -> V <= / s * S * (1 + 40 * ep) + 103 / 1000000000000 ->
  S / 2 <= d m -> / s * d m - (103 / 1000000000000 + 40 * ep * (/ s * d m)) <= V ->
  a * (1 - / 10000000) <= 2 * V / A <= 2 * a * (1 + / 10000000) /\ 1 - 5 / 100000000 <= / s * (a * a * A / V + 0).
Proof.
  intros s [a1 a2] V0 VU Hd VL. assert (A0 := A_bounds). assert (SB := S_ge). assert (Anz: A <> 0) by (apply Rgt_not_eq; lra).
  assert (Q0: 0 < S / A) by (apply Rdiv_lt_0_compat; lra). assert (s0: 0 < s) by exact (sqrt_lt_R0 _ Q0).
  assert (SS: S = s * s * A) by (unfold s; rewrite sqrt_sqrt by lra; field; exact Anz).
  assert (kS: / s * S = s * A) by (rewrite SS at 1; field; apply Rgt_not_eq; exact s0).
  assert (sA: 0 < s * A) by (apply Rmult_lt_0_compat; lra).
  rewrite kS in VU. assert (E1: 40 * ep * (s * A) <= / 10000000000 * (s * A)) by (apply Rmult_le_compat_r; [lra|unfold ep; lra]).
  assert (T: / 123 <= s * A) by lra.
  assert (E2: 17 * ep * s <= / 10000000000 * s) by (apply Rmult_le_compat_r; [lra|unfold ep; lra]).
  assert (kd: s * A / 2 <= / s * d m). { rewrite <- kS. replace (/ s * S / 2) with (/ s * (S / 2)) by (unfold Rdiv; ring). apply Rmult_le_compat_l; [apply Rlt_le, Rinv_0_lt_compat; exact s0|exact Hd]. }
  assert (kd0: 0 <= / s * d m) by lra.
  assert (E3: 40 * ep * (/ s * d m) <= / 10000000000 * (/ s * d m)) by (apply Rmult_le_compat_r; [lra|unfold ep; lra]).
  assert (VL2: s * A / 2 * (1 - 4 / 100000000) <= V) by lra.
  assert (VA: 2 * V / A * A = 2 * V) by (field; exact Anz).
  split; [split|].
  - apply Rmult_le_reg_r with A; [lra|]. rewrite VA. assert (a * (1 - / 10000000) * A <= s * (1 + / 1000000000) * (1 - / 10000000) * A).
    { apply Rmult_le_compat_r; [lra|]. apply Rmult_le_compat_r; lra. }
    replace (s * (1 + / 1000000000) * (1 - / 10000000) * A) with (s * A * ((1 + / 1000000000) * (1 - / 10000000))) in H by ring. lra.
  - apply Rmult_le_reg_r with A; [lra|]. rewrite VA. assert (2 * (s * (1 - / 1000000000)) * (1 + / 10000000) * A <= 2 * a * (1 + / 10000000) * A).
    { apply Rmult_le_compat_r; [lra|]. apply Rmult_le_compat_r; lra. }
    replace (2 * (s * (1 - / 1000000000)) * (1 + / 10000000) * A) with (s * A * (2 * (1 - / 1000000000) * (1 + / 10000000))) in H by ring. lra.
  - rewrite Rplus_0_r. assert (a * a >= s * (1 - / 1000000000) * (s * (1 - / 1000000000))).
    { apply Rle_ge, Rmult_le_compat; [| |lra|lra]; apply Rmult_le_pos; lra. }
    apply Rmult_le_reg_r with V; [lra|]. replace (/ s * (a * a * A / V) * V) with (/ s * (a * a) * A) by (field; split; apply Rgt_not_eq; lra).
    assert (G: / s * (s * (1 - / 1000000000) * (s * (1 - / 1000000000))) * A <= / s * (a * a) * A).
    { apply Rmult_le_compat_r; [lra|]. apply Rmult_le_compat_l; [apply Rlt_le, Rinv_0_lt_compat; exact s0|lra]. }
    replace (/ s * (s * (1 - / 1000000000) * (s * (1 - / 1000000000))) * A) with (s * A * ((1 - / 1000000000) * (1 - / 1000000000))) in G by (field; apply Rgt_not_eq; exact s0).
    lra.
Qed.

Lemma near_half q kap V : 0 <= kap -> near q kap -> (forall m, val (qat m q) <= V) -> / 122 <= V -> kap * S <= 201 / 100 * V.
Proof.
  intros K H U V0. destruct d_half as [m Hd]. specialize (H m). specialize (U m). apply Rabs_le_inv in H.
  assert (T: kap * (S / 2) <= kap * d m) by (apply Rmult_le_compat_l; [exact K|exact Hd]). assert (T0: 0 <= kap * d m) by (apply Rmult_le_pos; [exact K|apply d_pos]).
  assert (40 * ep * (kap * d m) <= / 1000000 * (kap * d m)) by (apply Rmult_le_compat_r; [exact T0|unfold ep; lra]).
  set (u := kap * d m) in *. set (x := val (qat m q)) in *. clearbody u x. lra.
Qed.
Lemma long_upper kap V W a t X L : 0 <= kap -> / 122 <= V <= W -> kap * S <= 201 / 100 * V ->
  cl 4 a (V / A) -> cl 11 t S -> cl 14 X (V * V / A) -> X <= t -> cl 17 L ((t - X) / W) -> kap * (a + L) <= 9.
Proof.
  intros K [V0 VW] KS [_ a2] [_ t2] [X1 _] XT [_ L2]. assert (A0 := A_bounds). assert (SB := S_ge).
  assert (R0: 0 < V / A) by (apply Rdiv_lt_0_compat; lra). set (r := V / A) in *.
  assert (VV: V * V / A = V * r) by (unfold r; field; apply Rgt_not_eq; lra). rewrite VV in *. assert (Vr: 0 < V * r) by (apply Rmult_lt_0_compat; lra).
  assert (E1: ep * (V * r) <= / 1000 * (V * r)) by (apply Rmult_le_compat_r; [lra|unfold ep; lra]). assert (E2: ep * S <= / 1000 * S) by (apply Rmult_le_compat_r; [lra|unfold ep; lra]).
  assert (rz: r <= 12 / 10 * (S / V)).
  { apply Rmult_le_reg_r with V; [lra|]. replace (12 / 10 * (S / V) * V) with (12 / 10 * S) by (field; apply Rgt_not_eq; lra). lra. }
  assert (iW: 0 < / W) by (apply Rinv_0_lt_compat; lra). assert (iV: / W <= / V) by (apply Rinv_le_contravar; lra).
  assert (Lz: L <= 11 / 10 * (S / V)).
  { eapply Rle_trans; [exact L2|]. unfold Rdiv at 1. rewrite <- Rmult_assoc. apply Rle_trans with ((1 + 17 * ep) * (102 / 100 * S) * / V).
    - apply Rmult_le_compat; [apply Rmult_le_pos; [unfold ep; lra|lra]|lra| |exact iV]. apply Rmult_le_compat_l; [unfold ep; lra|lra].
    - replace (11 / 10 * (S / V)) with (11 / 10 * S * / V) by (unfold Rdiv; ring). apply Rmult_le_compat_r; [apply Rlt_le, Rinv_0_lt_compat; lra|].
      rewrite <- Rmult_assoc. apply Rmult_le_compat_r; [lra|unfold ep; lra]. }
  assert (E3: 4 * ep * r <= / 1000 * r) by (apply Rmult_le_compat_r; [lra|unfold ep; lra]).
  apply Rle_trans with (kap * (4 * (S / V))); [apply Rmult_le_compat_l; lra|].
  replace (kap * (4 * (S / V))) with (4 * (kap * S) * / V) by (unfold Rdiv; ring).
  apply Rmult_le_reg_r with V; [lra|]. rewrite Rmult_assoc, Rinv_l by (apply Rgt_not_eq; lra). lra.
Qed.

Lemma build : exists g kap, make_linear (N:=N) cfg delta v = Ok g /\ fprof g kap.
Proof.
  destruct total_ap as (total & E1 & At). destruct (k_ap total At) as (v60 & k & E2 & E3 & Ak). destruct (w_ok k Ak) as [Hw Cw].
  destruct (adjust_spec _ Hw) as (vel & E4 & _). destruct (vel_ok _ vel Hw Cw E4) as (kap & Kb & Dv & Nv & Tv).
  destruct (find_max_top vel Dv Tv) as [Am Tm]. set (vmax := find_max (N:=N) vel) in *.
  assert (A0 := A_bounds). assert (Anz: A <> 0) by (apply Rgt_not_eq; lra).
  destruct (ap_div 0 0 (-7) 92 0 20 _ _ _ _ ltac:(lra) ltac:(lra) ltac:(lra) ltac:(lia) ltac:(lia) Anz Am A_ap) as (acc0 & E5 & Aa).
  assert (A2 := ap_mul (0 + 0 + 4) (0 + 0 + 4) (-7 - 20) (92 - 0) (-7 - 20) (92 - 0) _ _ _ _ ltac:(lra) ltac:(lra) ltac:(lra) ltac:(lia) ltac:(lia) Aa Aa).
  assert (E6 := sqr_ok acc0 (proj1 A2)). set (acc2 := f_mul acc0 acc0) in *.
  destruct counts_ok as [cnt Hcnt].
  set (Asz := f_ofZ (max_acceleration cfg)) in *.
  assert (A3 := ap_mul 0 (0 + 0 + 4 + (0 + 0 + 4) + 3) 0 20 (-7 - 20 + (-7 - 20)) (92 - 0 + (92 - 0)) _ _ _ _ ltac:(lra) ltac:(lra) ltac:(lra) ltac:(lia) ltac:(lia) A_ap A2). fold Asz in A3.
  assert (SB := S_ge). assert (SU := S_le).
  assert (X: exists (acc lin : f64) (vel2 : quad f64) (kap2 : R),
    rbind (f_sqr acc0) (fun acc2 => if f_lt total (f_mul Asz acc2)
       then rbind (f_div total Asz) (fun q => rbind (f_sqrt q) (fun acc => rbind (cdiv (N:=N) dst acc) (fun vel => Ok (acc, f_ofZ 0, vel : quad f64))))
       else rbind (Coordinates.length (N:=N) vel) (fun vl => rbind (f_div (f_sub total (f_mul acc2 Asz)) vl) (fun lin => Ok (acc0, lin, vel : quad f64))))
    = Ok (acc, lin, vel2) /\ / 500000 <= kap2 /\ dq 92 vel2 /\ near vel2 kap2 /\ (exists m, / 122 <= val (qat m (vel2 : quad f64))) /\
    (fin acc /\ bpow radix2 (-28) <= val acc <= bpow radix2 93) /\ nn 22 lin /\
    val acc * (1 - / 10000000) <= 2 * val (find_max (N:=N) vel2) / A <= 2 * val acc * (1 + / 10000000) /\
    (1 - 5 / 100000000 <= kap2 * (val acc * val acc * A / val (find_max (N:=N) vel2) + val lin) /\ kap2 * (val acc + val lin) <= 9)).
  { cbn [sqr F64]. rewrite E6. cbn [rbind]. fold acc2. destruct (f_lt total (f_mul Asz acc2)) eqn:Lt.
    - destruct (ap_div 11 0 (-10) 14 0 20 _ _ _ _ ltac:(lra) ltac:(lra) ltac:(lra) ltac:(lia) ltac:(lia) Anz At A_ap) as (q & Eq & Aq).
      fold Asz in Eq. rewrite Eq. cbn [rbind].
      destruct (ap_sqrt (11 + 0 + 4) (-15) 7 q _ ltac:(lra) ltac:(lia) Aq) as (acc & Es & Asq). rewrite Es. cbn [rbind].
      assert (Q0: 0 < S / A) by (apply Rdiv_lt_0_compat; lra). assert (sq0 := sqrt_lt_R0 _ Q0).
      assert (G: forall m, exists x, f_div (qat m dst) acc = Ok x /\ ap 21 (-42) 28 x (d m / sqrt (S / A))).
      { intros m. replace 21 with (0 + (11 + 0 + 4 + 2) + 4) by ring.
        exact (ap_div 0 (11 + 0 + 4 + 2) (-35) 13 (-15) 7 _ _ _ _ ltac:(lra) ltac:(lra) ltac:(lra) ltac:(lia) ltac:(lia) (Rgt_not_eq _ _ sq0) (dq_ap 13 _ m dst_dq) Asq). }
      destruct (G MX) as (x & Ex & Ax). destruct (G MY) as (y & Ey & Ay). destruct (G MZ) as (z & Ez & Az). destruct (G ME) as (e & Ee & Ae).
      assert (C: cdiv (N:=N) dst acc = Ok (coords (N:=N) x y z e)).
      { unfold cdiv. cbn [div F64]. cbn [qat] in Ex, Ey, Ez, Ee. change (num N) with f64. rewrite Ex. cbn [rbind]. rewrite Ey. cbn [rbind]. rewrite Ez. cbn [rbind]. rewrite Ee. reflexivity. }
      rewrite C. cbn [rbind]. set (vel2 := coords (N:=N) x y z e). assert (Q: forall m, exists u, qat m (vel2 : quad f64) = f_rnd10 u /\ ap 21 (-42) 28 u (d m / sqrt (S / A))).
      { intros []; eexists; (split; [reflexivity|assumption]). }
      exists acc, (f_ofZ 0), vel2, (/ sqrt (S / A)). split; [reflexivity|].
      assert (sqU: sqrt (S / A) <= 128).
      { rewrite <- (sqrt_square 128) by lra. apply sqrt_le_1_alt. apply Rmult_le_reg_r with A; [lra|]. unfold Rdiv. rewrite Rmult_assoc, Rinv_l, Rmult_1_r by exact Anz. nra. }
      assert (K2: / 128 <= / sqrt (S / A)) by (apply Rinv_le_contravar; lra).
      assert (N2: near vel2 (/ sqrt (S / A))).
      { intros m. destruct (Q m) as (u & -> & Au). destruct (rnd10_ap 21 (-42) 28 _ _ ltac:(lra) ltac:(lia) Au) as (_ & _ & _ & Cu).
        rewrite (Rmult_comm (/ _)). fold (Rdiv (d m) (sqrt (S / A))). set (t := d m / sqrt (S / A)) in *.
        assert (0 <= t) by (apply Rmult_le_pos; [apply d_pos|apply Rlt_le, Rinv_0_lt_compat; exact sq0]).
        assert ((21 + 2) * ep * t <= 40 * ep * t) by (apply Rmult_le_compat_r; [assumption|unfold ep; lra]). lra. }
      assert (D2: dq 92 vel2).
      { intros m. destruct (Q m) as (u & -> & Au). destruct (rnd10_ap 21 (-42) 28 _ _ ltac:(lra) ltac:(lia) Au) as (F & L & U & _).
        split; [exact F|]. split; [exact L|]. eapply Rle_trans; [exact U|]. apply bpow_le. lia. }
      assert (T2: exists m, / 122 <= val (qat m (vel2 : quad f64))).
      { destruct d_half as [m Hd]. exists m. assert (C2 := N2 m). apply Rabs_le_inv in C2.
        assert (T: / 64 <= / sqrt (S / A) * d m).
        { apply Rle_trans with (/ sqrt (S / A) * (S / 2)); [|apply Rmult_le_compat_l; [lra|exact Hd]].
          assert (SS: S = sqrt (S / A) * sqrt (S / A) * A) by (rewrite sqrt_sqrt by lra; field; exact Anz).
          assert (E: / sqrt (S / A) * (S / 2) = sqrt (S / A) * A / 2).
          { rewrite SS at 2. field. apply Rgt_not_eq. exact sq0. }
          rewrite E. assert (V: / 32 <= sqrt (S / A) * A); [|lra].
          assert (Z1: (sqrt (S / A) * A) * (sqrt (S / A) * A) = S * A) by (rewrite SS at 3; ring).
          assert (Z2: 0 < sqrt (S / A) * A) by (apply Rmult_lt_0_compat; lra).
          assert (Z3: / 1024 <= S * A) by (rewrite <- (Rmult_1_r (/ 1024)); apply Rmult_le_compat; lra).
          set (u := sqrt (S / A) * A) in *. clearbody u. destruct (Rle_lt_dec (/ 32) u) as [|Hu]; [assumption|].
          assert (u * u < / 32 * / 32) by (apply Rmult_le_0_lt_compat; lra). lra. }
        assert (40 * ep * (/ sqrt (S / A) * d m) <= / 1000000 * (/ sqrt (S / A) * d m)) by (apply Rmult_le_compat_r; [lra|unfold ep; lra]). lra. }
      split; [lra|]. split; [exact D2|]. split; [exact N2|]. split; [exact T2|]. split; [|split].
      + split; [apply Asq|]. destruct (ap_bounds _ _ _ _ _ (ltac:(lra) : 0 <= 11 + 0 + 4 + 2 <= 1000) Asq) as [[_ B1] B2]. specialize (B2 (Rgt_not_eq _ _ sq0)). split.
        * eapply Rle_trans; [|exact B2]. change (/ 2) with (bpow radix2 (-1)). rewrite <- bpow_plus. apply bpow_le. lia.
        * eapply Rle_trans; [exact B1|]. rewrite Rmult_comm. change 2 with (bpow radix2 1). rewrite <- bpow_plus. apply bpow_le. lia.
      + destruct (f_ofZ_val 0) as [F0 V0]; [lia|]. split; [exact F0|]. rewrite V0. split; [simpl; lra|]. exact (bpow_ge_0 radix2 22).
      + destruct (find_max_top vel2 D2 T2) as [_ Tm2]. destruct (f_ofZ_val 0) as [F0 V0]; [lia|]. rewrite V0.
        destruct (find_max_val vel2) as [[m1 E1'] G1]; [intros m1; apply D2|]. destruct d_half as [m Hd].
        rewrite <- and_assoc. split; [|rewrite Rplus_0_r; destruct Asq as (_ & [_ U17] & _); apply Rle_trans with (/ sqrt (S / A) * ((1 + (11 + 0 + 4 + 2) * ep) * sqrt (S / A)));
          [apply Rmult_le_compat_l; lra|rewrite (Rmult_comm (1 + _)), <- Rmult_assoc, Rinv_l, Rmult_1_l by (apply Rgt_not_eq; exact sq0); unfold ep; lra]].
        apply (short_facts (val acc) (val (find_max (N:=N) vel2)) m).
        * replace 17 with (11 + 0 + 4 + 2) by ring. apply Asq.
        * exact Tm2.
        * rewrite E1'. apply near_top; [lra|exact N2].
        * exact Hd.
        * specialize (G1 m). assert (C2 := N2 m). apply Rabs_le_inv in C2. lra.
    - assert (Ft := proj1 At). apply f_lt_false in Lt; [|exact Ft|apply A3].
      destruct (length_ap 92 vel Dv ltac:(lia)) as (vl & El & Al). rewrite El. cbn [rbind].
      assert (Vs: / 122 <= sqrt (len2 vel)).
      { destruct Tv as [m T]. assert (G := len2_ge vel m). apply Rle_trans with (val (qat m vel)); [exact T|]. rewrite <- (sqrt_square (val (qat m vel))) by lra. now apply sqrt_le_1_alt. }
      assert (Vv: / 128 <= val vl).
      { destruct Al as (_ & [C _] & _). eapply Rle_trans; [|exact C]. apply Rle_trans with ((1 - 11 * ep) * / 122); [unfold ep; lra|]. apply Rmult_le_compat_l; [unfold ep; lra|exact Vs]. }
      assert (CM: val (f_mul acc2 Asz) = val (f_mul Asz acc2) /\ fin (f_mul acc2 Asz)).
      { assert (A4 := ap_mul (0 + 0 + 4 + (0 + 0 + 4) + 3) 0 (-7 - 20 + (-7 - 20)) (92 - 0 + (92 - 0)) 0 20 _ _ _ _ ltac:(lra) ltac:(lra) ltac:(lra) ltac:(lia) ltac:(lia) A2 A_ap).
        fold Asz in A4. split; [|apply A4]. rewrite (LinearLaw.f_mul_fin _ _ (proj1 A3)), (LinearLaw.f_mul_fin _ _ (proj1 A4)). now rewrite Rmult_comm. }
      destruct CM as [CM Fm]. assert (P3 := ap_bounds _ _ _ _ _ (ltac:(lra) : 0 <= 0 + (0 + 0 + 4 + (0 + 0 + 4) + 3) + 3 <= 1000) A3).
      assert (T14: val total <= 8195).
      { destruct At as (_ & [_ C] & _). eapply Rle_trans; [exact C|]. apply Rle_trans with ((1 + 11 * ep) * 8194); [apply Rmult_le_compat_l; [unfold ep; lra|exact SU]|unfold ep; lra]. }
      destruct (f_sub_val total (f_mul acc2 Asz) Ft Fm) as [Fs Vsb].
      { rewrite CM. apply Rle_trans with (bpow radix2 14); [|apply big_le; lia]. change (bpow radix2 14) with 16384. apply Rabs_le. lra. }
      assert (Ns: nn 14 (f_sub total (f_mul acc2 Asz))).
      { split; [exact Fs|]. rewrite Vsb, CM. split; [rewrite <- rd_0; apply rd_le; lra|]. rewrite <- (rd_bpow 14) by lia. apply rd_le. change (bpow radix2 14) with 16384. lra. }
      destruct (nn_div 14 (-7) _ vl ltac:(lia) Ns (proj1 Al) Vv) as (lin & Ed & Nl). rewrite Ed. cbn [rbind].
      assert (Al17: cl 17 (val lin) ((val total - val (f_mul Asz acc2)) / sqrt (len2 vel))).
      { assert (As: ap 2 (-112) 14 (f_sub total (f_mul acc2 Asz)) (val total - val (f_mul Asz acc2))).
        { assert (G: val total - val (f_mul Asz acc2) = 0 \/ bpow radix2 (-112) <= val total - val (f_mul Asz acc2)).
          { destruct (Rle_lt_or_eq_dec _ _ Lt) as [Lt'|Lt']; [right|left; lra].
            assert (X3: bpow radix2 (-60) <= val (f_mul Asz acc2)).
            { destruct P3 as [_ P3]. eapply Rle_trans; [|apply P3]; [change (/ 2) with (bpow radix2 (-1)); rewrite <- bpow_plus; apply bpow_le; lia|].
              apply Rgt_not_eq, Rmult_lt_0_compat; [lra|]. apply Rmult_lt_0_compat; apply Rdiv_lt_0_compat; lra. }
            assert (RB := rd_below (val total) (-60) (val (f_mul Asz acc2)) (val_format _) ltac:(lia) ltac:(lra) (val_format _) Lt' X3).
            change (-60 - 52)%Z with (-112)%Z in RB. lra. }
          split; [exact Fs|]. split; [|split; [exact G|]].
          - rewrite Vsb, CM. replace 2 with (0 + 2) by ring. apply cl_rd; [lra| |apply cl_refl; lra]. destruct G as [G|G]; [now left|right]. eapply Rle_trans; [|exact G]. apply bpow_le. lia.
          - change (bpow radix2 14) with 16384. lra. }
        destruct (ap_div 2 11 (-112) 14 (-35) (92 + 1) _ _ _ _ ltac:(lra) ltac:(lra) ltac:(lra) ltac:(lia) ltac:(lia) (Rgt_not_eq _ _ (Rlt_le_trans _ _ _ (Rinv_0_lt_compat 122 ltac:(lra)) Vs)) As Al) as (lin' & Ed' & Al').
        rewrite Ed in Ed'. injection Ed' as <-. replace 17 with (2 + 11 + 4) by ring. apply Al'. }
      exists acc0, lin, vel, kap. split; [reflexivity|]. split; [lra|]. split; [exact Dv|]. split; [exact Nv|]. split; [exact Tv|]. split.
      + split; [apply Aa|]. destruct (ap_bounds _ _ _ _ _ (ltac:(lra) : 0 <= 0 + 0 + 4 <= 1000) Aa) as [[_ B1] B2].
        assert (Z: val vmax / A <> 0) by (apply Rgt_not_eq, Rdiv_lt_0_compat; lra). specialize (B2 Z). split.
        * eapply Rle_trans; [|exact B2]. change (/ 2) with (bpow radix2 (-1)). rewrite <- bpow_plus. apply bpow_le. lia.
        * eapply Rle_trans; [exact B1|]. rewrite Rmult_comm. change 2 with (bpow radix2 1). rewrite <- bpow_plus. apply bpow_le. lia.
      + split; [apply (nn_weak (14 - -7)); [exact Nl|lia]|]. fold vmax.
        destruct (length_top vel 92 Dv) as [LT1 LT2]. fold vmax in LT1, LT2.
        rewrite <- and_assoc. split; [|apply (long_upper kap (val vmax) (sqrt (len2 vel)) (val acc0) (val total) (val (f_mul Asz acc2)) (val lin)); try lra].
        2: { apply (near_half vel kap); [lra|exact Nv| |exact Tm]. apply (find_max_val vel). intros m. apply Dv. }
        2: { replace 4 with (0 + 0 + 4) by ring. apply Aa. }
        2: { apply At. }
        2: { replace 14 with (0 + (0 + 0 + 4 + (0 + 0 + 4) + 3) + 3) by ring. replace (val vmax * val vmax / A) with (A * (val vmax / A * (val vmax / A))) by (field; exact Anz). apply A3. }
        2: { exact Al17. }
        apply (long_facts kap (val vmax) (sqrt (len2 vel)) (val acc0) (val total) (val (f_mul Asz acc2)) (val lin)); try lra.
        * apply (near_length vel kap 92); [lra|exact Dv|exact Nv].
        * replace 4 with (0 + 0 + 4) by ring. apply Aa.
        * apply At.
        * replace 14 with (0 + (0 + 0 + 4 + (0 + 0 + 4) + 3) + 3) by ring. replace (val vmax * val vmax / A) with (A * (val vmax / A * (val vmax / A))) by (field; exact Anz). apply A3.
        * exact Al17. }
  destruct X as (acc & lin & vel2 & kap2 & EX & K2 & D2 & N2 & T2 & B2 & L2 & R2 & E2' & U2').
  exists {| l_acc := acc : N; l_lin := lin : N; l_vel := vel2; l_total := cnt; l_dir := dirs_of (N:=N) delta; l_delta := delta |}, kap2.
  split.
  - unfold make_linear. fold dst. cbn [div F64]. change (@sixty N) with (f_ofZ 60). rewrite E1. cbn [rbind]. rewrite E2. cbn [rbind]. rewrite E3. cbn [rbind]. rewrite E4. cbn [rbind].
    fold vmax. change (accel (N:=N) cfg) with Asz. rewrite E5. cbn [rbind].
    match goal with |- rbind ?r _ = _ => replace r with (Ok (acc, lin, vel2)) by (symmetry; exact EX) end. cbn [rbind].
    assert (PX := Hcnt MX). assert (PY := Hcnt MY). assert (PZ := Hcnt MZ). assert (PE := Hcnt ME). cbn [qat] in PX, PY, PZ, PE.
    repeat match goal with |- rbind ?r _ = _ => first [replace r with (Ok (qx cnt)) by (symmetry; exact PX)|replace r with (Ok (qy cnt)) by (symmetry; exact PY)
      |replace r with (Ok (qz cnt)) by (symmetry; exact PZ)|replace r with (Ok (qe cnt)) by (symmetry; exact PE)]; cbn [rbind] end.
    destruct cnt; reflexivity.
  - constructor; cbn [l_acc l_lin l_vel l_total l_dir]; auto.
Qed.
End Build.
