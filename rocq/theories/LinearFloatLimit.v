(** Straight moves in binary64: the adjusted velocities and the limits of the axes. *)
From Coq Require Import ZArith Bool Reals Lra Lia List Psatz.
From Flocq Require Import Core BinarySingleNaN.
From Verif Require Import PyBase PyNum PyFloatFacts Config Coordinates Pulses PulseSpec GMachine Decimal MachineArc ArcDone FloatRel LinearLaw ArcFloat LinearFloat.
From Coq Require Import List.
From Flocq Require Import Core.
Import ListNotations.
Local Open Scope R_scope.

(** Limits that are whole numbers of mm/s, up to 1000 mm/s. *)
Definition sec_limits (cfg : config) : Prop :=
  forall m, exists n, qat m (max_velocity_min cfg) = (60 * n)%Z /\ (1 <= n <= 1000)%Z.

(** A number less than half a digit above an integer is rounded to at most it. *)
Lemma snap x n : fin x -> (0 <= n <= 100000)%Z -> val x <= IZR n + 49 / 1000000000000 -> val (f_rnd10 x) <= IZR n.
Proof.
  intros F N H. destruct (f_rnd10_val x F) as (_ & -> & _).
  assert (E: rd (IZR n) = IZR n) by (apply rd_IZR; lia).
  rewrite <- E. apply rd_le. unfold dec10, e10.
  assert (Z: (ZnearestE (val x * 10000000000) <= n * 10000000000)%Z).
  { assert (G: (ZnearestE (val x * 10000000000) <= ZnearestE (IZR (n * 10000000000) + 49 / 100))%Z).
    { apply Zrnd_le; [apply valid_rnd_N|]. rewrite mult_IZR. lra. }
    rewrite (Znearest_imp (fun x => negb (Z.even x)) (IZR (n * 10000000000) + 49 / 100) (n * 10000000000)) in G; [exact G|].
    match goal with |- Rabs ?a < _ => replace a with (49 / 100) by ring end. rewrite Rabs_pos_eq; lra. }
  apply IZR_le in Z. rewrite mult_IZR in Z. lra.
Qed.

Section Limit.
Variable acos : f64 -> f64.
Notation N := (F64 acos).
Variable cfg : config.
Hypothesis Hc : lin_cfg cfg.
Hypothesis Hl : sec_limits cfg.
Hypothesis Ha : auto_velocity cfg = true.
Variable delta : quad f64.
Variable v : f64.
Hypothesis Hm : fit_move cfg delta v.
Notation M m := (IZR (qat m (max_velocity_min cfg))).
Notation A := (IZR (max_acceleration cfg)).
Notation dst := (dst acos delta).
Notation d m := (val (qat m dst)).
Notation S := (S acos delta).
Notation kap0 := (kap0 acos delta v).

(** The greatest velocity the check accepts. *)
Lemma accepted (q : quad f64) : (forall m, fin (qat m q) /\ 0 <= val (qat m q) <= M m / 60) ->
  too_fast (N:=N) cfg (cmul (N:=N) q (@sixty N)) = false.
Proof.
  intros H.
  assert (G: forall m, f_lt (f_ofZ (qat m (max_velocity_min cfg))) (qat m (cmul (N:=N) q (@sixty N) : quad f64)) = false).
  { intros m. destruct (H m) as (F & B0 & B1). destruct (Hl m) as (n & En & Bn). rewrite En in *. rewrite mult_IZR in B1.
    assert (Q: qat m (cmul (N:=N) q (@sixty N) : quad f64) = f_rnd10 (f_mul (qat m q) (f_ofZ 60))) by (destruct m; reflexivity).
    change (num N) with f64 in *. rewrite Q. clear Q. destruct (f_ofZ_val 60) as [F6 V6]; [lia|]. destruct (f_ofZ_val (60 * n)) as [Fn Vn]; [lia|].
    destruct Bn as [n1 n2]. apply IZR_le in n1, n2.
    destruct (f_mul_val (qat m q) (f_ofZ 60) F F6) as [Fm Vm].
    { rewrite V6. apply Rle_trans with (bpow radix2 17); [|apply big_le; lia]. change (bpow radix2 17) with 131072. apply Rabs_le. lra. }
    assert (U: val (f_mul (qat m q) (f_ofZ 60)) <= IZR (60 * n)).
    { rewrite Vm, V6, <- Vn. rewrite <- (rd_val (f_ofZ (60 * n))). apply rd_le. rewrite Vn, mult_IZR. lra. }
    apply f_lt_false; [exact Fn|apply (f_rnd10_val _ Fm)|]. rewrite Vn. apply snap; [exact Fm| |lra]. apply le_IZR in n1, n2. lia. }
  unfold too_fast, maxv. cbn [ltb ofZ F64].
  assert (X := G MX). assert (Y := G MY). assert (Z := G MZ). assert (E := G ME). cbn [qat] in X, Y, Z, E. change (num N) with f64 in *.
  rewrite X, Y, Z, E. reflexivity.
Qed.

(** The adjusted velocities. *)
Lemma adjusted_limit w k j : dq 90 w -> good_k cfg w k -> within_limit cfg w k j -> val (qat j w) * val k <= M j / 60 * (1 + 8 * ep).
Proof.
  intros Hw (Fk & Bk & _) W. assert (P := dq_pos 90 w j Hw). assert (BM := M_bounds cfg Hc j). assert (k0: 0 < val k) by (pose proof (bpow_gt_0 radix2 (-100)); lra).
  destruct W as [W|W].
  - assert (A60 := ap_mul 0 0 (-35) 90 0 6 _ _ _ _ ltac:(lra) ltac:(lra) ltac:(lra) ltac:(lia) ltac:(lia) (dq_ap 90 w j Hw) ofZ60_ap).
    destruct A60 as (_ & [C _] & _). replace (0 + 0 + 3) with 3 in C by ring. set (wj := val (qat j w)) in *.
    assert (wj * val k <= wj * 1) by (apply Rmult_le_compat_l; lra).
    assert (wj <= M j / 60 * (1 + 8 * ep)); [|lra].
    assert (L: (1 - 3 * ep) * (wj * 60) <= M j) by lra.
    apply Rmult_le_reg_l with (1 - 3 * ep); [unfold ep; lra|].
    apply Rle_trans with (M j / 60); [lra|]. replace ((1 - 3 * ep) * (M j / 60 * (1 + 8 * ep))) with ((1 - 3 * ep) * (1 + 8 * ep) * (M j / 60)) by ring.
    rewrite <- (Rmult_1_l (M j / 60)) at 1. apply Rmult_le_compat_r; [lra|unfold ep; lra].
  - destruct (Rle_lt_or_eq_dec _ _ P) as [P'|P'].
    + apply Rle_trans with (val (qat j w) * ((1 + 8 * ep) * (M j / val (qat j w) / 60))); [apply Rmult_le_compat_l; lra|].
      right. field. apply Rgt_not_eq. lra.
    + rewrite <- P', Rmult_0_l. apply Rmult_le_pos; [lra|unfold ep; lra].
Qed.

(** Axes that are not the fastest one, in moves that do not reach their velocity. *)
Lemma short_other dj dx n V kap : 0 <= dj -> 0 <= dx -> dj * dj + dx * dx <= S * S -> 1 <= n -> 0 <= V <= 1000 -> 0 <= kap ->
  V <= kap * dx * (1 + 40 * ep) + 103 / 1000000000000 -> kap * dj <= n + 120 / 1000000000000 -> dj / S * (V * (1 + 16 * ep)) <= n.
Proof.
  intros J X P Nn Vb K HV HK. assert (SB := S_ge acos cfg Hc delta v Hm). assert (Snz: S <> 0) by (apply Rgt_not_eq; lra).
  set (r := dj / S). assert (Er: dj = r * S) by (unfold r; field; exact Snz). assert (R0: 0 <= r) by (apply Rmult_le_pos; [lra|apply Rlt_le, Rinv_0_lt_compat; lra]).
  set (y := dx / S). assert (Ey: dx = y * S) by (unfold y; field; exact Snz). assert (Y0: 0 <= y) by (apply Rmult_le_pos; [lra|apply Rlt_le, Rinv_0_lt_compat; lra]).
  clearbody r y. subst dj dx.
  assert (Q: r * r + y * y <= 1).
  { apply Rmult_le_reg_r with (S * S); [apply Rmult_lt_0_compat; lra|]. lra. }
  assert (r1: r <= 1) by nra. assert (y1: y <= 1 - r * r / 2) by nra.
  destruct (Rle_lt_dec r (/ 2000)) as [S2|B2].
  - apply Rle_trans with (/ 2000 * (1000 * (1 + 16 * ep))); [|unfold ep; lra].
    apply Rmult_le_compat; [exact R0|apply Rmult_le_pos; [lra|unfold ep; lra]|exact S2|]. apply Rmult_le_compat_r; [unfold ep; lra|lra].
  - assert (rr: / 2000 * / 2000 <= r * r) by (apply Rmult_le_compat; lra).
    assert (y2: y <= 1 - 125 / 1000000000) by lra.
    set (t := kap * (r * S)) in *. assert (T0: 0 <= t) by (unfold t; apply Rmult_le_pos; [lra|]; apply Rmult_le_pos; lra).
    assert (rV: r * V <= t * y * (1 + 40 * ep) + 103 / 1000000000000).
    { apply Rle_trans with (r * (kap * (y * S) * (1 + 40 * ep) + 103 / 1000000000000)); [apply Rmult_le_compat_l; lra|].
      rewrite Rmult_plus_distr_l. apply Rplus_le_compat; [right; unfold t; ring|lra]. }
    assert (ty: t * y <= (n + 120 / 1000000000000) * (1 - 125 / 1000000000)) by (apply Rmult_le_compat; lra).
    assert (ty2: t * y * (1 + 40 * ep) <= (n + 120 / 1000000000000) * (1 - 125 / 1000000000) * (1 + 40 * ep)) by (apply Rmult_le_compat_r; [unfold ep; lra|exact ty]).
    rewrite <- Rmult_assoc.
    apply Rle_trans with (((n + 120 / 1000000000000) * (1 - 125 / 1000000000) * (1 + 40 * ep) + 103 / 1000000000000) * (1 + 16 * ep)); [apply Rmult_le_compat_r; [unfold ep; lra|lra]|].
    unfold ep. lra.
Qed.

Lemma len2_two q i j : i <> j -> val (qat i q) * val (qat i q) + val (qat j q) * val (qat j q) <= len2 q.
Proof.
  intros H. unfold len2. pose proof (Rle_0_sqr (val (qx q))). pose proof (Rle_0_sqr (val (qy q))). pose proof (Rle_0_sqr (val (qz q))). pose proof (Rle_0_sqr (val (qe q))).
  unfold Rsqr in *. destruct i, j; try (elim H; reflexivity); cbn [qat]; lra.
Qed.

Lemma limit_build : exists g kap, make_linear (N:=N) cfg delta v = Ok g /\ too_fast (N:=N) cfg (gen_max_velocity (N:=N) (GLinear g)) = false /\
  (forall m, val (qat m (l_vel g : quad f64)) <= M m / 60) /\ 0 < kap /\ kap * S <= val v / 60 * (1 + / 10000000) /\
  forall m, Rabs (val (qat m (l_vel g : quad f64)) - kap * d m) <= 12 / 100000000000.
Proof.
  destruct (total_ap acos cfg Hc delta v Hm) as (total & E1 & At). destruct (k_ap acos cfg Hc delta v Hm total At) as (v60 & k1 & E2 & E3 & Ak). destruct (w_ok acos cfg delta v Hm k1 Ak) as [Hw Cw].
  set (w := cmul (N:=N) dst k1) in *. change (num N) with f64 in *.
  destruct (adjust_spec acos cfg Hc w Hw) as (vel & E4 & A'). destruct (vel_ok acos cfg Hc delta v Hm w vel Hw Cw E4) as (kap & Kb & Dv & Nv & Tv).
  destruct A' as [[Z _]|(k & Ev & Gk & Wk)]; [congruence|].
  assert (K0 := kap0_ge acos cfg Hc delta v Hm).
  assert (Fk := proj1 Gk). assert (k0: 0 < val k <= 1) by (destruct Gk as (_ & Bk & _); pose proof (bpow_gt_0 radix2 (-100)); lra).
  assert (VL: forall m, val (qat m vel) <= M m / 60).
  { intros m. assert (Q: qat m vel = f_rnd10 (f_mul (qat m w) k)) by (rewrite Ev; destruct m; reflexivity). rewrite Q.
    assert (L := adjusted_limit w k m Hw Gk (Wk m)). assert (P := dq_pos 90 w m Hw).
    assert (Ak2: ap 0 (-100) 0 k (val k)) by (apply ap_exact; [exact Fk|right; apply Gk|simpl; lra]).
    assert (G := ap_mul 0 0 (-35) 90 (-100) 0 _ _ _ _ ltac:(lra) ltac:(lra) ltac:(lra) ltac:(lia) ltac:(lia) (dq_ap 90 w m Hw) Ak2).
    destruct G as (Fg & [_ Cg] & _). replace (0 + 0 + 3) with 3 in Cg by ring.
    destruct (Hl m) as (n & En & Bn). rewrite En in *. rewrite mult_IZR in *. destruct Bn as [n1 n2].
    replace (60 * IZR n / 60) with (IZR n) in * by field. apply snap; [exact Fg|lia|]. apply IZR_le in n1, n2.
    apply Rle_trans with ((1 + 3 * ep) * (IZR n * (1 + 8 * ep))).
    - eapply Rle_trans; [exact Cg|]. apply Rmult_le_compat_l; [unfold ep; lra|exact L].
    - unfold ep. lra. }
  assert (LM: forall m, 1 <= M m / 60 <= 1000).
  { intros m. destruct (Hl m) as (n & En & n1 & n2). rewrite En, mult_IZR. apply IZR_le in n1, n2. lra. }
  destruct (find_max_top acos vel Dv Tv) as [Am Tm]. set (vmax := find_max (N:=N) vel) in *.
  assert (A0 := A_bounds cfg Hc). assert (Anz: A <> 0) by (apply Rgt_not_eq; lra).
  destruct (ap_div 0 0 (-7) 92 0 20 _ _ _ _ ltac:(lra) ltac:(lra) ltac:(lra) ltac:(lia) ltac:(lia) Anz Am (A_ap cfg Hc)) as (acc0 & E5 & Aa).
  assert (A2 := ap_mul (0 + 0 + 4) (0 + 0 + 4) (-7 - 20) (92 - 0) (-7 - 20) (92 - 0) _ _ _ _ ltac:(lra) ltac:(lra) ltac:(lra) ltac:(lia) ltac:(lia) Aa Aa).
  assert (E6 := sqr_ok acc0 (proj1 A2)). set (acc2 := f_mul acc0 acc0) in *.
  set (Asz := f_ofZ (max_acceleration cfg)) in *.
  assert (A3 := ap_mul 0 (0 + 0 + 4 + (0 + 0 + 4) + 3) 0 20 (-7 - 20 + (-7 - 20)) (92 - 0 + (92 - 0)) _ _ _ _ ltac:(lra) ltac:(lra) ltac:(lra) ltac:(lia) ltac:(lia) (A_ap cfg Hc) A2). fold Asz in A3.
  assert (SB := S_ge acos cfg Hc delta v Hm). assert (SU := S_le acos cfg delta v Hm).
  destruct (build acos cfg Hc delta v Hm) as (g & kg & Eg & Pg).
  assert (B: exists kap2, (forall m, val (qat m (l_vel g : quad f64)) <= M m / 60) /\ 0 < kap2 /\ kap2 * S <= val v / 60 * (1 + / 10000000) /\
     forall m, Rabs (val (qat m (l_vel g : quad f64)) - kap2 * d m) <= 12 / 100000000000).
  { assert (VLg: l_vel g = vel \/ exists q acc, f_lt total (f_mul Asz acc2) = true /\ f_div total Asz = Ok q /\ f_sqrt q = Ok acc /\ cdiv (N:=N) dst acc = Ok (l_vel g : quad f64)).
    { clear Pg. revert Eg. unfold make_linear. change (cabs (N:=N) delta) with dst. cbn [div F64]. change (@sixty N) with (f_ofZ 60). rewrite E1. cbn [rbind]. rewrite E2. cbn [rbind]. rewrite E3. cbn [rbind].
      change (cmul (N:=N) dst k1) with w. rewrite E4. cbn [rbind]. change (find_max (N:=N) vel) with vmax. change (accel (N:=N) cfg) with Asz.
      match goal with |- rbind ?r _ = _ -> _ => replace r with (Ok acc0) by (symmetry; exact E5) end. cbn [rbind sqr F64 ltb mul sqrtn]. rewrite E6. cbn [rbind].
      destruct (f_lt total (f_mul Asz acc2)) eqn:Lt.
      - destruct (f_div total Asz) as [q|e] eqn:Eq; [|discriminate]. cbn [rbind]. destruct (f_sqrt q) as [acc|e] eqn:Es; [|discriminate]. cbn [rbind].
        destruct (cdiv (N:=N) dst acc) as [v2|e] eqn:Ed; [|discriminate]. cbn [rbind]. intros H. right. exists q, acc. split; [reflexivity|]. split; [reflexivity|]. split; [exact Es|].
        repeat match type of H with rbind ?r _ = _ => destruct r; [cbn [rbind] in H|discriminate H] end. injection H as <-. exact Ed.
      - destruct (Coordinates.length (N:=N) vel) as [vl|e]; [|discriminate]. cbn [rbind]. destruct (f_div _ vl) as [lin|e]; [|discriminate]. cbn [rbind]. intros H. left.
        repeat match type of H with rbind ?r _ = _ => destruct r; [cbn [rbind] in H|discriminate H] end. injection H as <-. reflexivity. }
    assert (NV: forall m, kap * d m <= M m / 60 + 120 / 1000000000000).
    { intros m. assert (C := Nv m). specialize (VL m). specialize (LM m). assert (P := d_pos acos cfg delta v Hm m). assert (T: 0 <= kap * d m) by (apply Rmult_le_pos; lra). apply Rabs_le_inv in C.
      set (t := kap * d m) in *. unfold ep in C. change (num N) with f64 in *. lra. }
    assert (KS: kap * S <= val v / 60).
    { apply Rle_trans with (kap0 * S); [apply Rmult_le_compat_r; lra|]. unfold LinearFloat.kap0. right. field. apply Rgt_not_eq. lra. }
    destruct VLg as [->|(q & acc & Lt & Eq & Es & Ed)].
    - exists kap. split; [exact VL|]. split; [lra|]. split.
      + destruct (fm_feed _ _ _ Hm) as (_ & Bv). lra.
      + intros m. eapply Rle_trans; [apply Nv|]. specialize (NV m). specialize (LM m). set (t := kap * d m) in *. unfold ep. lra.
    - apply f_lt_true in Lt; [|apply At|apply A3].
      destruct (ap_div 11 0 (-10) 14 0 20 _ _ _ _ ltac:(lra) ltac:(lra) ltac:(lra) ltac:(lia) ltac:(lia) Anz At (A_ap cfg Hc)) as (q' & Eq' & Aq).
      fold Asz in Eq'. assert (q' = q) by congruence. subst q'.
      destruct (ap_sqrt (11 + 0 + 4) (-15) 7 q _ ltac:(lra) ltac:(lia) Aq) as (acc' & Es' & Asq). assert (acc' = acc) by congruence. subst acc'.
      assert (Q0: 0 < S / A) by (apply Rdiv_lt_0_compat; lra). assert (sq0 := sqrt_lt_R0 _ Q0). set (s := sqrt (S / A)) in *.
      assert (SS: S = s * s * A) by (unfold s; rewrite sqrt_sqrt by lra; field; exact Anz).
      (* s A <= V (1 + 16 ep) *)
      assert (sV: s * A <= val vmax * (1 + 16 * ep)).
      { destruct At as (_ & [t1 _] & _). destruct A3 as (_ & [_ a1] & _). replace (0 + (0 + 0 + 4 + (0 + 0 + 4) + 3) + 3) with 14 in a1 by ring.
        replace (A * (val vmax / A * (val vmax / A))) with (val vmax * val vmax / A) in a1 by (field; exact Anz).
        assert (H: (1 - 11 * ep) * S <= (1 + 14 * ep) * (val vmax * val vmax / A)) by lra.
        assert (H2: (1 - 11 * ep) * (s * A * (s * A)) <= (1 + 14 * ep) * (val vmax * val vmax)).
        { replace (s * A * (s * A)) with (S * A) by (rewrite SS at 1; ring).
          replace (val vmax * val vmax) with (val vmax * val vmax / A * A) by (field; exact Anz). rewrite <- !Rmult_assoc. apply Rmult_le_compat_r; [lra|]. lra. }
        apply Rnot_lt_le. intros Gt. assert (P1: 0 <= val vmax * (1 + 16 * ep)) by (apply Rmult_le_pos; [lra|unfold ep; lra]).
        assert (H3: val vmax * (1 + 16 * ep) * (val vmax * (1 + 16 * ep)) < s * A * (s * A)) by (apply Rmult_le_0_lt_compat; lra).
        assert (V2: 0 < val vmax * val vmax) by (apply Rmult_lt_0_compat; lra). set (V := val vmax) in *. set (Y := s * A * (s * A)) in *.
        replace (V * (1 + 16 * ep) * (V * (1 + 16 * ep))) with ((1 + 16 * ep) * (1 + 16 * ep) * (V * V)) in H3 by ring.
        assert (H4: (1 - 11 * ep) * ((1 + 16 * ep) * (1 + 16 * ep) * (V * V)) < (1 - 11 * ep) * Y) by (apply Rmult_lt_compat_l; [unfold ep; lra|exact H3]).
        replace ((1 - 11 * ep) * ((1 + 16 * ep) * (1 + 16 * ep) * (V * V))) with ((1 - 11 * ep) * (1 + 16 * ep) * (1 + 16 * ep) * (V * V)) in H4 by ring.
        assert (H5: (1 + 14 * ep) * (V * V) <= (1 - 11 * ep) * (1 + 16 * ep) * (1 + 16 * ep) * (V * V)) by (apply Rmult_le_compat_r; [lra|unfold ep; lra]). lra. }
      assert (kS: / s * S = s * A) by (rewrite SS at 1; field; apply Rgt_not_eq; exact sq0).
      destruct (find_max_val acos vel) as [[mx Emx] Gmx]; [intros m; apply Dv|]. fold vmax in Emx, Gmx.
      assert (Vb: 0 <= val vmax <= 1000) by (split; [lra|rewrite Emx; specialize (VL mx); specialize (LM mx); change (num N) with f64 in *; lra]).
      assert (DL: forall m, d m / s <= M m / 60 * (1 + 16 * ep)).
      { intros m. assert (P := d_pos acos cfg delta v Hm m).
        assert (DS: d m / s <= d m / S * (val vmax * (1 + 16 * ep))).
        { replace (d m / s) with (d m / S * (s * A)); [apply Rmult_le_compat_l; [apply Rmult_le_pos; [lra|apply Rlt_le, Rinv_0_lt_compat; lra]|exact sV]|].
          rewrite <- kS. field. split; apply Rgt_not_eq; lra. }
        eapply Rle_trans; [exact DS|]. specialize (LM m).
        assert (DC: {m = mx} + {m <> mx}) by (destruct m, mx; (left; reflexivity) || (right; discriminate)). destruct DC as [->|Ne].
        - assert (VM: val vmax <= M mx / 60) by (rewrite Emx; apply VL). assert (R1: d mx / S <= 1).
          { apply Rmult_le_reg_r with S; [lra|]. unfold Rdiv. rewrite Rmult_assoc, Rinv_l by (apply Rgt_not_eq; lra). assert (Z := d_le_S acos cfg delta v Hm mx). lra. }
          apply Rle_trans with (1 * (val vmax * (1 + 16 * ep))); [apply Rmult_le_compat_r; [apply Rmult_le_pos; [lra|unfold ep; lra]|exact R1]|].
          rewrite Rmult_1_l. apply Rmult_le_compat_r; [unfold ep; lra|exact VM].
        - apply Rle_trans with (M m / 60); [|rewrite <- (Rmult_1_r (M m / 60)) at 1; apply Rmult_le_compat_l; [lra|unfold ep; lra]].
          apply (short_other (d m) (d mx) (M m / 60) (val vmax) kap); try lra.
          + apply (d_pos acos cfg delta v Hm).
          + unfold LinearFloat.S. rewrite sqrt_sqrt; [apply (len2_two dst m mx Ne)|].
            unfold len2. pose proof (Rle_0_sqr (val (qx dst))). pose proof (Rle_0_sqr (val (qy dst))). pose proof (Rle_0_sqr (val (qz dst))). pose proof (Rle_0_sqr (val (qe dst))). unfold Rsqr in *. lra.
          + rewrite Emx. assert (C := Nv mx). apply Rabs_le_inv in C. change (num N) with f64 in *. lra.
          + apply NV. }
      assert (G: forall m, exists x, qat m (l_vel g : quad f64) = f_rnd10 x /\ ap 21 (-42) 28 x (d m / s)).
      { assert (G0: forall m, exists x, f_div (qat m dst) acc = Ok x /\ ap 21 (-42) 28 x (d m / s)).
        { intros m. replace 21 with (0 + (11 + 0 + 4 + 2) + 4) by ring.
          exact (ap_div 0 (11 + 0 + 4 + 2) (-35) 13 (-15) 7 _ _ _ _ ltac:(lra) ltac:(lra) ltac:(lra) ltac:(lia) ltac:(lia) (Rgt_not_eq _ _ sq0) (dq_ap 13 _ m (dst_dq acos cfg delta v Hm)) Asq). }
        destruct (G0 MX) as (x & Ex & Ax). destruct (G0 MY) as (y & Ey & Ay). destruct (G0 MZ) as (z & Ez & Az). destruct (G0 ME) as (e & Ee & Ae).
        assert (C: l_vel g = coords (N:=N) x y z e).
        { revert Ed. unfold cdiv. cbn [div F64]. cbn [qat] in Ex, Ey, Ez, Ee. change (num N) with f64. rewrite Ex. cbn [rbind]. rewrite Ey. cbn [rbind]. rewrite Ez. cbn [rbind]. rewrite Ee. cbn [rbind]. intros H. injection H as <-. reflexivity. }
        rewrite C. intros []; eexists; (split; [reflexivity|assumption]). }
      exists (/ s). split; [|split; [|split]].
      + intros m. destruct (G m) as (x & -> & (Fx & [_ Cx] & _)). specialize (DL m). destruct (Hl m) as (n & En & n1 & n2). rewrite En in *. rewrite mult_IZR in *.
        replace (60 * IZR n / 60) with (IZR n) in * by field. apply snap; [exact Fx|lia|]. apply IZR_le in n1, n2.
        apply Rle_trans with ((1 + 21 * ep) * (IZR n * (1 + 16 * ep))); [|unfold ep; lra].
        eapply Rle_trans; [exact Cx|]. apply Rmult_le_compat_l; [unfold ep; lra|exact DL].
      + now apply Rinv_0_lt_compat.
      + rewrite kS. eapply Rle_trans; [exact sV|]. assert (NT := near_top acos cfg delta v Hm vel kap mx ltac:(lra) Nv). rewrite <- Emx in NT.
        destruct (fm_feed _ _ _ Hm) as (_ & Bv). set (V := val vmax) in *.
        assert (kap * S * (1 + 40 * ep) <= val v / 60 * (1 + 40 * ep)) by (apply Rmult_le_compat_r; [unfold ep; lra|exact KS]).
        apply Rle_trans with ((val v / 60 * (1 + 40 * ep) + 103 / 1000000000000) * (1 + 16 * ep)); [apply Rmult_le_compat_r; [unfold ep; lra|change (num N) with f64 in *; lra]|]. unfold ep. lra.
      + intros m. destruct (G m) as (x & -> & Au). destruct (rnd10_ap 21 (-42) 28 _ _ ltac:(lra) ltac:(lia) Au) as (_ & _ & _ & Cu).
        rewrite (Rmult_comm (/ _)). fold (Rdiv (d m) s). specialize (DL m). specialize (LM m). set (t := d m / s) in *.
        eapply Rle_trans; [exact Cu|]. unfold ep in *. lra. }
  destruct B as (kap2 & B1 & B2 & B3 & B4).
  exists g, kap2. split; [exact Eg|]. split; [|auto].
  unfold gen_max_velocity. cbn [gen_vel]. apply accepted. intros m. destruct (fp_vel _ _ _ _ _ Pg m) as (F & [G|G] & _).
  - split; [exact F|]. split; [rewrite G; lra|apply B1].
  - split; [exact F|]. split; [|apply B1]. eapply Rle_trans; [apply (bpow_ge_0 radix2 (-35))|exact G].
Qed.
End Limit.

(** The displacement of an axis and the length of a move, rounded to ten decimals
    per axis. *)
Definition dist10 (delta : quad f64) (m : motor) : R := val (f_rnd10 (Babs (qat m delta))).
Definition len10 (delta : quad f64) : R :=
  sqrt (dist10 delta MX * dist10 delta MX + dist10 delta MY * dist10 delta MY + dist10 delta MZ * dist10 delta MZ + dist10 delta ME * dist10 delta ME).
Lemma adjusted_float : forall acos cfg delta v, lin_cfg cfg -> sec_limits cfg -> auto_velocity cfg = true -> fit_move cfg delta v ->
  exists g kap, make_linear (N:=F64 acos) cfg delta v = Ok g /\
    too_fast (N:=F64 acos) cfg (gen_max_velocity (N:=F64 acos) (GLinear g)) = false /\
    (forall m, val (qat m (l_vel g : quad f64)) <= IZR (qat m (max_velocity_min cfg)) / 60) /\
    0 < kap /\ kap * len10 delta <= val v / 60 * (1 + / 10000000) /\
    forall m, Rabs (val (qat m (l_vel g : quad f64)) - kap * dist10 delta m) <= 12 / 100000000000.
Proof.
  intros acos cfg delta v Hc Hl Ha Hm. destruct (limit_build acos cfg Hc Hl Ha delta v Hm) as (g & kap & E & T & L & K & KS & C).
  exists g, kap. split; [exact E|]. split; [exact T|]. split; [exact L|]. split; [exact K|]. split; [exact KS|].
  intros m. specialize (C m). rewrite dst_at in C. exact C.
Qed.
