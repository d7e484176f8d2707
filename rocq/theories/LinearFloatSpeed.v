(** Straight moves in binary64: the motors are not driven faster than the limits allow. *)
From Coq Require Import ZArith Bool Reals Lra Lia List Psatz Sorted.
From Flocq Require Import Core BinarySingleNaN.
From Verif Require Import PyBase PyNum PyFloatFacts Config Coordinates Pulses PulseSpec GMachine Decimal MachineArc ArcDone FloatRel LinearLaw LinearGen ArcFloat LinearFloat LinearFloatLimit LinearFloatRun FloatWarp LinearFloatTime.
From Coq Require Import List.
From Flocq Require Import Core.
Import ListNotations.
Local Open Scope R_scope.

Section Speed.
Variable acos : f64 -> f64.
Notation N := (F64 acos).
Variable cfg : config.
Hypothesis Hc : lin_cfg cfg.
Variable delta : quad f64.
Variable v : f64.
Hypothesis Hm : fit_move cfg delta v.
Notation A := (IZR (max_acceleration cfg)).
Notation dst := (dst acos delta).
Notation d m := (val (qat m dst)).
Notation S := (S acos delta).
Notation kap0 := (kap0 acos delta v).

(** Arithmetic of a move that does not reach its velocity: [s] is the time of the
    acceleration, [k] the factor of the velocities asked for, [x] the fastest axis. *)
Lemma short_speed s k Vx dm dx vm V' a B : 0 < s -> S = s * s * A -> / 500000 <= k -> / 122 <= Vx -> / 60 <= B ->
  0 <= dm <= S -> k * S <= 201 / 100 * Vx -> Rabs (Vx - k * dx) <= 103 / 1000000000000 + 40 * ep * (k * dx) -> 0 <= dx ->
  s * A <= Vx * (1 + 16 * ep) -> k * dm <= B + 2 / 10000000000 ->
  0 <= vm -> vm <= / s * dm + (103 / 1000000000000 + 40 * ep * (/ s * dm)) ->
  / s * dx - (103 / 1000000000000 + 40 * ep * (/ s * dx)) <= V' -> / 123 <= s * A ->
  0 <= a <= s * (1 + 17 * ep) -> vm * 2 * a <= 2 * V' / A * (B * (1 + / 10000000)).
Proof.
  intros s0 SS K VX B0 [dm0 dmS] KS NX DX0 SA KB vm0 VM VP sA [a0 aS]. assert (A0 := A_bounds cfg Hc). assert (SB := S_ge acos cfg Hc delta v Hm).
  apply Rabs_le_inv in NX.
  (* S <= 2.4 dx *)
  assert (KD: 0 <= k * dx) by (apply Rmult_le_pos; lra).
  assert (E40: 40 * ep * (k * dx) <= / 1000000 * (k * dx)) by (apply Rmult_le_compat_r; [lra|unfold ep; lra]).
  assert (S24: S <= 24 / 10 * dx).
  { apply Rmult_le_reg_l with k; [lra|]. replace (k * (24 / 10 * dx)) with (24 / 10 * (k * dx)) by ring.
    assert (/ 500000 * / 1024 <= k * S) by (apply Rmult_le_compat; lra). lra. }
  assert (dx0: 0 < dx) by lra.
  assert (is0: 0 < / s) by now apply Rinv_0_lt_compat.
  assert (kS: / s * S = s * A) by (rewrite SS at 1; field; apply Rgt_not_eq; exact s0).
  set (y := / s * dx) in *. assert (Y0: s * A <= 24 / 10 * y).
  { rewrite <- kS. unfold y. replace (24 / 10 * (/ s * dx)) with (/ s * (24 / 10 * dx)) by ring. apply Rmult_le_compat_l; lra. }
  assert (Y1: / 296 <= y) by lra.
  assert (VP2: y * (1 - 31 / 1000000000) <= V').
  { eapply Rle_trans; [|exact VP]. assert (40 * ep * y <= / 1000000000 * y / 10) by (replace (/ 1000000000 * y / 10) with (/ 10000000000 * y) by field; apply Rmult_le_compat_r; [lra|unfold ep; lra]). lra. }
  (* dm s A <= dx (B + ...) *)
  assert (D1: dm * (s * A) <= dx * (B + 46 / 100000000000) * (1 + 60 * ep)).
  { apply Rle_trans with (dm * ((k * dx + (103 / 1000000000000 + 40 * ep * (k * dx))) * (1 + 16 * ep))).
    - apply Rmult_le_compat_l; [lra|]. eapply Rle_trans; [exact SA|]. apply Rmult_le_compat_r; [unfold ep; lra|lra].
    - replace (dm * ((k * dx + (103 / 1000000000000 + 40 * ep * (k * dx))) * (1 + 16 * ep)))
        with ((k * dm) * dx * ((1 + 40 * ep) * (1 + 16 * ep)) + dm * (103 / 1000000000000 * (1 + 16 * ep))) by ring.
      assert (T1: k * dm * dx * ((1 + 40 * ep) * (1 + 16 * ep)) <= (B + 2 / 10000000000) * dx * (1 + 60 * ep)).
      { apply Rmult_le_compat; [apply Rmult_le_pos; [apply Rmult_le_pos; lra|lra]|unfold ep; lra|apply Rmult_le_compat_r; lra|unfold ep; lra]. }
      assert (T2: dm * (103 / 1000000000000 * (1 + 16 * ep)) <= 24 / 10 * dx * (104 / 1000000000000)).
      { apply Rmult_le_compat; [lra|unfold ep; lra|lra|unfold ep; lra]. }
      assert (T3: dx * (26 / 100000000000) <= dx * (26 / 100000000000) * (1 + 60 * ep)).
      { rewrite <- (Rmult_1_r (dx * (26 / 100000000000))) at 1. apply Rmult_le_compat_l; [lra|unfold ep; lra]. }
      replace (dx * (B + 46 / 100000000000) * (1 + 60 * ep)) with ((B + 2 / 10000000000) * dx * (1 + 60 * ep) + dx * (26 / 100000000000) * (1 + 60 * ep)) by field. lra. }
  (* the product *)
  assert (P1: vm * (a * A) <= (/ s * dm * (1 + 40 * ep) + 103 / 1000000000000) * (s * A * (1 + 17 * ep))).
  { apply Rmult_le_compat; [exact vm0|apply Rmult_le_pos; lra|lra|]. replace (s * A * (1 + 17 * ep)) with (s * (1 + 17 * ep) * A) by ring. apply Rmult_le_compat_r; lra. }
  assert (P2: (/ s * dm * (1 + 40 * ep) + 103 / 1000000000000) * (s * A * (1 + 17 * ep)) <= y * (B * (1 + 6 / 100000000))).
  { replace ((/ s * dm * (1 + 40 * ep) + 103 / 1000000000000) * (s * A * (1 + 17 * ep)))
      with (/ s * (dm * (s * A)) * ((1 + 40 * ep) * (1 + 17 * ep)) + 103 / 1000000000000 * (1 + 17 * ep) * (s * A)) by ring.
    assert (T1: / s * (dm * (s * A)) * ((1 + 40 * ep) * (1 + 17 * ep)) <= y * (B + 46 / 100000000000) * (1 + / 1000000000)).
    { apply Rle_trans with (y * (B + 46 / 100000000000) * (1 + 60 * ep) * ((1 + 40 * ep) * (1 + 17 * ep))).
      - apply Rmult_le_compat_r; [unfold ep; lra|]. unfold y. replace (/ s * dx * (B + 46 / 100000000000) * (1 + 60 * ep)) with (/ s * (dx * (B + 46 / 100000000000) * (1 + 60 * ep))) by ring.
        apply Rmult_le_compat_l; lra.
      - rewrite Rmult_assoc. apply Rmult_le_compat_l; [apply Rmult_le_pos; lra|unfold ep; lra]. }
    assert (T2: 103 / 1000000000000 * (1 + 17 * ep) * (s * A) <= 104 / 1000000000000 * (24 / 10 * y)) by (apply Rmult_le_compat; [unfold ep; lra|lra|unfold ep; lra|lra]).
    assert (T3: / 60 * y <= y * B) by (rewrite (Rmult_comm y); apply Rmult_le_compat_r; lra).
    replace (y * (B * (1 + 6 / 100000000))) with (y * B + 6 / 100000000 * (y * B)) by ring.
    replace (y * (B + 46 / 100000000000) * (1 + / 1000000000)) with (y * B * (1 + / 1000000000) + y * (46 / 100000000000 * (1 + / 1000000000))) in T1 by ring.
    lra. }
  apply Rmult_le_reg_r with A; [lra|]. replace (2 * V' / A * (B * (1 + / 10000000)) * A) with (2 * (V' * (B * (1 + / 10000000)))) by (field; apply Rgt_not_eq; lra).
  replace (vm * 2 * a * A) with (2 * (vm * (a * A))) by ring. apply Rmult_le_compat_l; [lra|].
  eapply Rle_trans; [exact P1|]. eapply Rle_trans; [exact P2|].
  apply Rle_trans with (y * (1 - 31 / 1000000000) * (B * (1 + / 10000000))); [|apply Rmult_le_compat_r; [apply Rmult_le_pos; lra|exact VP2]].
  rewrite (Rmult_assoc y). apply Rmult_le_compat_l; [lra|]. lra.
Qed.

(** What a pulse of the axis may cost, for every bound [B] on the velocity asked for. *)
Lemma speed_build : exists g kap kl, make_linear (N:=N) cfg delta v = Ok g /\ fprof acos cfg delta g kap /\ 0 < kl <= kap0 /\
  (auto_velocity cfg = true -> forall m, kl * d m <= IZR (qat m (max_velocity_min cfg)) / 60 * (1 + / 1000000000) + 2 / 10000000000) /\
  forall m B, / 60 <= B -> kl * d m <= B + 2 / 10000000000 ->
    val (qat m (l_vel g : quad f64)) * 2 * val (l_acc g) <= 2 * val (find_max (N:=N) (l_vel g)) / A * (B * (1 + / 10000000)).
Proof.
  destruct (total_ap acos cfg Hc delta v Hm) as (total & E1 & At). destruct (k_ap acos cfg Hc delta v Hm total At) as (v60 & k1 & E2 & E3 & Ak). destruct (w_ok acos cfg delta v Hm k1 Ak) as [Hw Cw].
  set (w := cmul (N:=N) dst k1) in *. change (num N) with f64 in *.
  destruct (adjust_spec acos cfg Hc w Hw) as (vel & E4 & A'). destruct (vel_ok acos cfg Hc delta v Hm w vel Hw Cw E4) as (kap & Kb & Dv & Nv & Tv).
  destruct (find_max_top acos vel Dv Tv) as [Am Tm]. set (vmax := find_max (N:=N) vel) in *.
  assert (A0 := A_bounds cfg Hc). assert (Anz: A <> 0) by (apply Rgt_not_eq; lra).
  destruct (ap_div 0 0 (-7) 92 0 20 _ _ _ _ ltac:(lra) ltac:(lra) ltac:(lra) ltac:(lia) ltac:(lia) Anz Am (A_ap cfg Hc)) as (acc0 & E5 & Aa).
  assert (A2 := ap_mul (0 + 0 + 4) (0 + 0 + 4) (-7 - 20) (92 - 0) (-7 - 20) (92 - 0) _ _ _ _ ltac:(lra) ltac:(lra) ltac:(lra) ltac:(lia) ltac:(lia) Aa Aa).
  assert (E6 := sqr_ok acc0 (proj1 A2)). set (acc2 := f_mul acc0 acc0) in *.
  set (Asz := f_ofZ (max_acceleration cfg)) in *.
  assert (A3 := ap_mul 0 (0 + 0 + 4 + (0 + 0 + 4) + 3) 0 20 (-7 - 20 + (-7 - 20)) (92 - 0 + (92 - 0)) _ _ _ _ ltac:(lra) ltac:(lra) ltac:(lra) ltac:(lia) ltac:(lia) (A_ap cfg Hc) A2). fold Asz in A3.
  assert (SB := S_ge acos cfg Hc delta v Hm). assert (SU := S_le acos cfg delta v Hm).
  destruct (build acos cfg Hc delta v Hm) as (g & kg & Eg & Pg).
  exists g, kg, kap. split; [exact Eg|]. split; [exact Pg|]. split; [lra|]. split.
  { intros Au m. destruct A' as [[Z _]|(k & Ev & Gk & Wk)]; [congruence|].
    assert (Fk := proj1 Gk). assert (k0: 0 < val k <= 1) by (destruct Gk as (_ & Bk & _); pose proof (bpow_gt_0 radix2 (-100)); lra).
    assert (Q: qat m vel = f_rnd10 (f_mul (qat m w) k)) by (rewrite Ev; destruct m; reflexivity).
    assert (L := adjusted_limit cfg Hc w k m Hw Gk (Wk m)). assert (P := dq_pos 90 w m Hw).
    assert (Ak2: ap 0 (-100) 0 k (val k)) by (apply ap_exact; [exact Fk|right; apply Gk|simpl; lra]).
    assert (G := ap_mul 0 0 (-35) 90 (-100) 0 _ _ _ _ ltac:(lra) ltac:(lra) ltac:(lra) ltac:(lia) ltac:(lia) (dq_ap 90 w m Hw) Ak2).
    destruct (rnd10_ap (0 + 0 + 3) (-35 + -100) (90 + 0) _ _ ltac:(lra) ltac:(lia) G) as (_ & _ & _ & Cu). rewrite <- Q in Cu. apply Rabs_le_inv in Cu.
    assert (C := Nv m). apply Rabs_le_inv in C. assert (BM := M_bounds cfg Hc m). set (Mm := IZR (qat m (max_velocity_min cfg)) / 60) in *.
    assert (M0: 0 < Mm) by (unfold Mm; lra). assert (D0 := d_pos acos cfg delta v Hm m). assert (T: 0 <= kap * d m) by (apply Rmult_le_pos; lra). set (t := kap * d m) in *.
    assert (wk: 0 <= val (qat m w) * val k <= Mm * (1 + 8 * ep)) by (split; [apply Rmult_le_pos; lra|exact L]).
    assert (X1: (0 + 0 + 3 + 2) * ep * (val (qat m w) * val k) <= 5 * ep * (Mm * (1 + 8 * ep))) by (replace (0 + 0 + 3 + 2) with 5 by ring; apply Rmult_le_compat_l; [unfold ep; lra|lra]).
    assert (X2: 40 * ep * t <= / 10000000000 * t) by (apply Rmult_le_compat_r; [lra|unfold ep; lra]).
    assert (X3: Mm * (1 + 8 * ep) + 5 * ep * (Mm * (1 + 8 * ep)) <= Mm * (1 + / 10000000000)).
    { replace (Mm * (1 + 8 * ep) + 5 * ep * (Mm * (1 + 8 * ep))) with (Mm * ((1 + 8 * ep) * (1 + 5 * ep))) by ring. apply Rmult_le_compat_l; [lra|unfold ep; lra]. }
    change (num N) with f64 in *. lra. }
  intros m B B0 KB.
  assert (VLg: (l_vel g = vel /\ l_acc g = acc0) \/ exists q acc, f_lt total (f_mul Asz acc2) = true /\ f_div total Asz = Ok q /\ f_sqrt q = Ok acc /\ cdiv (N:=N) dst acc = Ok (l_vel g : quad f64) /\ l_acc g = acc).
  { clear Pg. revert Eg. unfold make_linear. change (cabs (N:=N) delta) with dst. cbn [div F64]. change (@sixty N) with (f_ofZ 60). rewrite E1. cbn [rbind]. rewrite E2. cbn [rbind]. rewrite E3. cbn [rbind].
    change (cmul (N:=N) dst k1) with w. rewrite E4. cbn [rbind]. change (find_max (N:=N) vel) with vmax. change (accel (N:=N) cfg) with Asz.
    match goal with |- rbind ?r _ = _ -> _ => replace r with (Ok acc0) by (symmetry; exact E5) end. cbn [rbind sqr F64 ltb mul sqrtn]. rewrite E6. cbn [rbind].
    destruct (f_lt total (f_mul Asz acc2)) eqn:Lt.
    - destruct (f_div total Asz) as [q|e] eqn:Eq; [|discriminate]. cbn [rbind]. destruct (f_sqrt q) as [acc|e] eqn:Es; [|discriminate]. cbn [rbind].
      destruct (cdiv (N:=N) dst acc) as [v2|e] eqn:Ed; [|discriminate]. cbn [rbind]. intros H. right. exists q, acc. split; [reflexivity|]. split; [reflexivity|]. split; [exact Es|].
      repeat match type of H with rbind ?r _ = _ => destruct r; [cbn [rbind] in H|discriminate H] end. injection H as <-. split; [exact Ed|reflexivity].
    - destruct (Coordinates.length (N:=N) vel) as [vl|e]; [|discriminate]. cbn [rbind]. destruct (f_div _ vl) as [lin|e]; [|discriminate]. cbn [rbind]. intros H. left.
      repeat match type of H with rbind ?r _ = _ => destruct r; [cbn [rbind] in H|discriminate H] end. injection H as <-. split; reflexivity. }
  assert (D0 := d_pos acos cfg delta v Hm m). assert (T: 0 <= kap * d m) by (apply Rmult_le_pos; lra).
  destruct VLg as [[EV EA]|(q & acc & Lt & Eq & Es & Ed & EA)].
  - rewrite EV, EA. fold vmax. destruct Aa as (_ & [_ Aa] & _). replace (0 + 0 + 4) with 4 in Aa by ring.
    assert (C := Nv m). apply Rabs_le_inv in C. set (t := kap * d m) in *.
    assert (X2: 40 * ep * t <= 40 * ep * (B + 2 / 10000000000)) by (apply Rmult_le_compat_l; [unfold ep; lra|lra]).
    assert (X3: 40 * ep * (B + 2 / 10000000000) <= / 10000000000 * B) by (unfold ep; lra).
    assert (U: val (qat m vel) <= B * (1 + 3 / 100000000)) by (change (num N) with f64 in *; lra).
    assert (V0 := dq_pos 92 vel m Dv). set (r := val vmax / A) in *. assert (R0: 0 < r) by (apply Rdiv_lt_0_compat; lra).
    replace (2 * val vmax / A * (B * (1 + / 10000000))) with (2 * (B * (1 + / 10000000) * r)) by (unfold r; field; exact Anz).
    apply Rle_trans with (2 * (val (qat m vel) * val acc0)); [right; change (num N) with f64; ring|]. apply Rmult_le_compat_l; [lra|].
    apply Rle_trans with (B * (1 + 3 / 100000000) * ((1 + 4 * ep) * r)).
    + apply Rle_trans with (val (qat m vel) * ((1 + 4 * ep) * r)); [apply Rmult_le_compat_l; [exact V0|exact Aa]|]. apply Rmult_le_compat_r; [apply Rmult_le_pos; [unfold ep; lra|lra]|exact U].
    + rewrite <- Rmult_assoc. apply Rmult_le_compat_r; [lra|]. rewrite Rmult_assoc. apply Rmult_le_compat_l; [lra|unfold ep; lra].
  - rewrite EA. apply f_lt_true in Lt; [|apply At|apply A3].
    destruct (ap_div 11 0 (-10) 14 0 20 _ _ _ _ ltac:(lra) ltac:(lra) ltac:(lra) ltac:(lia) ltac:(lia) Anz At (A_ap cfg Hc)) as (q' & Eq' & Aq).
    fold Asz in Eq'. assert (q' = q) by congruence. subst q'.
    destruct (ap_sqrt (11 + 0 + 4) (-15) 7 q _ ltac:(lra) ltac:(lia) Aq) as (acc' & Es' & Asq). assert (acc' = acc) by congruence. subst acc'.
    assert (Q0: 0 < S / A) by (apply Rdiv_lt_0_compat; lra). assert (sq0 := sqrt_lt_R0 _ Q0). set (s := sqrt (S / A)) in *.
    assert (SS: S = s * s * A) by (unfold s; rewrite sqrt_sqrt by lra; field; exact Anz).
    assert (sV: s * A <= val vmax * (1 + 16 * ep)).
    { destruct At as (_ & [t1 _] & _). destruct A3 as (_ & [_ a1] & _). replace (0 + (0 + 0 + 4 + (0 + 0 + 4) + 3) + 3) with 14 in a1 by ring.
      replace (A * (val vmax / A * (val vmax / A))) with (val vmax * val vmax / A) in a1 by (field; exact Anz).
      assert (H: (1 - 11 * ep) * S <= (1 + 14 * ep) * (val vmax * val vmax / A)) by lra.
      assert (H2: (1 - 11 * ep) * (s * A * (s * A)) <= (1 + 14 * ep) * (val vmax * val vmax)).
      { replace (s * A * (s * A)) with (S * A) by (rewrite SS at 1; ring).
        replace (val vmax * val vmax) with (val vmax * val vmax / A * A) by (field; exact Anz). rewrite <- !Rmult_assoc. apply Rmult_le_compat_r; [lra|]. lra. }
      apply Rnot_lt_le. intros Gt. assert (P1: 0 <= val vmax * (1 + 16 * ep)) by (apply Rmult_le_pos; [lra|unfold ep; lra]).
      assert (H3: val vmax * (1 + 16 * ep) * (val vmax * (1 + 16 * ep)) < s * A * (s * A)) by (apply Rmult_le_0_lt_compat; lra).
      assert (V2: 0 < val vmax * val vmax) by (apply Rmult_lt_0_compat; lra). set (V := val vmax) in *. set (Y := s * A * (s * A)) in *.
      replace (V * (1 + 16 * ep) * (V * (1 + 16 * ep))) with ((1 + 16 * ep) * (1 + 16 * ep) * (V * V)) in H3 by ring.
      assert (H4: (1 - 11 * ep) * ((1 + 16 * ep) * (1 + 16 * ep) * (V * V)) < (1 - 11 * ep) * Y) by (apply Rmult_lt_compat_l; [unfold ep; lra|exact H3]).
      replace ((1 - 11 * ep) * ((1 + 16 * ep) * (1 + 16 * ep) * (V * V))) with ((1 - 11 * ep) * (1 + 16 * ep) * (1 + 16 * ep) * (V * V)) in H4 by ring.
      assert (H5: (1 + 14 * ep) * (V * V) <= (1 - 11 * ep) * (1 + 16 * ep) * (1 + 16 * ep) * (V * V)) by (apply Rmult_le_compat_r; [lra|unfold ep; lra]). lra. }
    assert (kS: / s * S = s * A) by (rewrite SS at 1; field; apply Rgt_not_eq; exact sq0).
    destruct (find_max_val acos vel) as [[mx Emx] Gmx]; [intros m'; apply Dv|]. fold vmax in Emx, Gmx.
    assert (G: forall m, exists x, qat m (l_vel g : quad f64) = f_rnd10 x /\ ap 21 (-42) 28 x (d m / s)).
    { assert (G0: forall m, exists x, f_div (qat m dst) acc = Ok x /\ ap 21 (-42) 28 x (d m / s)).
      { intros m'. replace 21 with (0 + (11 + 0 + 4 + 2) + 4) by ring.
        exact (ap_div 0 (11 + 0 + 4 + 2) (-35) 13 (-15) 7 _ _ _ _ ltac:(lra) ltac:(lra) ltac:(lra) ltac:(lia) ltac:(lia) (Rgt_not_eq _ _ sq0) (dq_ap 13 _ m' (dst_dq acos cfg delta v Hm)) Asq). }
      destruct (G0 MX) as (x & Ex & Ax). destruct (G0 MY) as (y & Ey & Ay). destruct (G0 MZ) as (z & Ez & Az). destruct (G0 ME) as (e & Ee & Ae).
      assert (C: l_vel g = coords (N:=N) x y z e).
      { revert Ed. unfold cdiv. cbn [div F64]. cbn [qat] in Ex, Ey, Ez, Ee. change (num N) with f64. rewrite Ex. cbn [rbind]. rewrite Ey. cbn [rbind]. rewrite Ez. cbn [rbind]. rewrite Ee. cbn [rbind]. intros H. injection H as <-. reflexivity. }
      rewrite C. intros []; eexists; (split; [reflexivity|assumption]). }
    assert (N2: forall m, Rabs (val (qat m (l_vel g : quad f64)) - / s * d m) <= 103 / 1000000000000 + 40 * ep * (/ s * d m)).
    { intros m'. destruct (G m') as (u & -> & Au). destruct (rnd10_ap 21 (-42) 28 _ _ ltac:(lra) ltac:(lia) Au) as (_ & _ & _ & Cu).
      rewrite (Rmult_comm (/ _)). fold (Rdiv (d m') s). set (t := d m' / s) in *.
      assert (0 <= t) by (apply Rmult_le_pos; [apply (d_pos acos cfg delta v Hm)|apply Rlt_le, Rinv_0_lt_compat; exact sq0]).
      assert ((21 + 2) * ep * t <= 40 * ep * t) by (apply Rmult_le_compat_r; [assumption|unfold ep; lra]). lra. }
    assert (N2m := N2 m). assert (N2x := N2 mx). apply Rabs_le_inv in N2m, N2x.
    destruct (find_max_val acos (l_vel g)) as [_ Gg]; [intros m'; apply (fp_vel _ _ _ _ _ Pg)|]. specialize (Gg mx).
    destruct (find_max_top acos (l_vel g) (fp_vel _ _ _ _ _ Pg) (fp_top _ _ _ _ _ Pg)) as [_ Tg].
    assert (Vg: val (find_max (N:=N) (l_vel g)) <= / s * S * (1 + 40 * ep) + 103 / 1000000000000).
    { destruct (find_max_val acos (l_vel g)) as [[m' ->] _]; [intros m''; apply (fp_vel _ _ _ _ _ Pg)|].
      apply (near_top acos cfg delta v Hm (l_vel g) (/ s) m'); [apply Rlt_le, Rinv_0_lt_compat; exact sq0|exact N2]. }
    rewrite kS in Vg. assert (sA0: 0 < s * A) by (apply Rmult_lt_0_compat; lra).
    assert (E40: 40 * ep * (s * A) <= / 10000000000 * (s * A)) by (apply Rmult_le_compat_r; [lra|unfold ep; lra]).
    apply (short_speed s kap (val vmax) (d m) (d mx) (val (qat m (l_vel g : quad f64))) (val (find_max (N:=N) (l_vel g))) (val acc) B); try lra.
    + split; [exact D0|apply (d_le_S acos cfg delta v Hm)].
    + apply (near_half acos cfg delta v Hm vel kap (val vmax)); [lra|exact Nv|exact Gmx|exact Tm].
    + rewrite Emx. apply Nv.
    + apply (d_pos acos cfg delta v Hm).
    + apply (dq_pos 92 (l_vel g) m (fp_vel _ _ _ _ _ Pg)).
    + destruct Asq as (_ & [a1 a2] & _). replace (11 + 0 + 4 + 2) with 17 in * by ring. split; [|lra]. eapply Rle_trans; [|exact a1]. apply Rmult_le_pos; [unfold ep; lra|lra].
Qed.
End Speed.

(** The profile of the times never runs slower than its slowest phase. *)
Lemma om_slope2 a L C r x y : bpow radix2 (-28) <= a -> 0 <= L <= bpow radix2 22 -> 99 / 100 * a <= C <= 201 / 100 * a -> 0 <= r <= 1 -> r <= C / (2 * a) ->
  inside a L C x -> inside a L C y -> x <= y -> r * (y - x) <= om a L C y - om a L C x.
Proof.
  intros Ba BL BC [r0 r1] Sl [X0 X1] [Y0 Y1] H. assert (A0 := a0 a Ba). assert (C0' := C0 a C Ba BC). assert (QB := Q_bounds a C Ba BC). assert (QC' := QC a C Ba BC). set (Q := Q a C) in *.
  assert (P1: r * (Rmin y Q - Rmin x Q) <= sqrt (Rmin y Q * C) - sqrt (Rmin x Q * C)).
  { assert (Mx: 0 <= Rmin x Q <= Rmin y Q) by (split; [apply Rmin_glb; lra|apply Rle_min_compat_r; exact H]). assert (My := Rmin_r y Q).
    assert (G := sqrt_gap a (Rmin x Q * C) (Rmin y Q * C) A0 ltac:(split; [apply Rmult_le_pos; lra|apply Rmult_le_compat_r; lra]) ltac:(rewrite <- QC'; apply Rmult_le_compat_r; lra)).
    replace ((Rmin y Q * C - Rmin x Q * C) / (2 * a)) with (C / (2 * a) * (Rmin y Q - Rmin x Q)) in G by (field; apply Rgt_not_eq; lra).
    eapply Rle_trans; [|exact G]. apply Rmult_le_compat_r; lra. }
  assert (P3: r * (Rmax 0 (y - Q - L) - Rmax 0 (x - Q - L)) <= sqrt (a * a - C * Rmax 0 (x - Q - L)) - sqrt (a * a - C * Rmax 0 (y - Q - L))).
  { assert (Mx: 0 <= Rmax 0 (x - Q - L) <= Rmax 0 (y - Q - L)) by (split; [apply Rmax_l|apply Rle_max_compat_l; lra]).
    assert (My: Rmax 0 (y - Q - L) <= Q) by (apply Rmax_lub; lra).
    assert (Z: C * Rmax 0 (y - Q - L) <= a * a) by (rewrite <- QC', (Rmult_comm Q); apply Rmult_le_compat_l; lra).
    assert (Z2: C * Rmax 0 (x - Q - L) <= C * Rmax 0 (y - Q - L)) by (apply Rmult_le_compat_l; lra).
    assert (Z3: 0 <= C * Rmax 0 (x - Q - L)) by (apply Rmult_le_pos; lra).
    assert (G := sqrt_gap a (a * a - C * Rmax 0 (y - Q - L)) (a * a - C * Rmax 0 (x - Q - L)) A0 ltac:(lra) ltac:(lra)).
    replace ((a * a - C * Rmax 0 (x - Q - L) - (a * a - C * Rmax 0 (y - Q - L))) / (2 * a)) with (C / (2 * a) * (Rmax 0 (y - Q - L) - Rmax 0 (x - Q - L))) in G by (field; apply Rgt_not_eq; lra).
    eapply Rle_trans; [|exact G]. apply Rmult_le_compat_r; lra. }
  assert (P2: r * (Rmax 0 (Rmin (y - Q) L) - Rmax 0 (Rmin (x - Q) L)) <= Rmax 0 (Rmin (y - Q) L) - Rmax 0 (Rmin (x - Q) L)).
  { assert (Rmax 0 (Rmin (x - Q) L) <= Rmax 0 (Rmin (y - Q) L)) by (apply Rle_max_compat_l, Rle_min_compat_r; lra).
    assert (T0: 0 <= Rmax 0 (Rmin (y - Q) L) - Rmax 0 (Rmin (x - Q) L)) by lra. set (t := Rmax 0 (Rmin (y - Q) L) - Rmax 0 (Rmin (x - Q) L)) in *. apply Rle_trans with (1 * t); [apply Rmult_le_compat_r; lra|lra]. }
  assert (Sum: forall z, Rmin z Q + Rmax 0 (Rmin (z - Q) L) + Rmax 0 (z - Q - L) = z).
  { intros z. unfold Rmin. destruct (Rle_dec z Q), (Rle_dec (z - Q) L); unfold Rmax; repeat match goal with |- context [Rle_dec ?u ?w] => destruct (Rle_dec u w) end; lra. }
  assert (Sx := Sum x). assert (Sy := Sum y). unfold om. fold Q.
  rewrite <- Sx at 1. rewrite <- Sy at 1.
  match goal with |- r * (?p + ?q + ?s - (?p' + ?q' + ?s')) <= _ => replace (r * (p + q + s - (p' + q' + s'))) with (r * (p - p') + r * (q - q') + r * (s - s')) by ring end. lra.
Qed.

Section Gap.
Variable acos : f64 -> f64.
Notation N := (F64 acos).
Variable cfg : config.
Hypothesis Hc : lin_cfg cfg.
Variable delta : quad f64.
Variable v : f64.
Hypothesis Hm : fit_move cfg delta v.
Variable g : linear_gen N.
Variable kap : R.
Hypothesis P : fprof acos cfg delta g kap.
Variable c : f64.
Notation A := (IZR (max_acceleration cfg)).
Notation V := (val (find_max (N:=N) (l_vel g))).
Hypothesis Hap : ap 7 (-27) 94 c (2 * V / A).
Notation a := (val (l_acc g)).
Notation L := (val (l_lin g)).
Notation C := (val c).
Notation dst := (dst acos delta).
Notation d m := (val (qat m dst)).
Notation p m := (IZR (qat m (ppm cfg))).
Notation vel m := (val (qat m (l_vel g : quad f64))).
Notation total m := (qat m (l_total g)).
Notation tm := (tm acos cfg g).
Notation W := (W a L C).
Notation M := (M a L).

Lemma tm_gap2 m j : (0 <= j)%Z -> (j + 1 < total m)%Z -> 1 - 2 / 100000000 <= (val (tm m (j + 1)) - val (tm m j)) * (p m * vel m).
Proof.
  intros I J. destruct (tm_spec acos cfg Hc delta v Hm g kap P m j ltac:(lia)) as [_ (_ & [_ U] & _)]. destruct (tm_spec acos cfg Hc delta v Hm g kap P m (j + 1) ltac:(lia)) as [_ (_ & [Lo _] & _)].
  destruct (moving acos cfg Hc delta v Hm g kap P m ltac:(lia)) as [_ Vl]. assert (PB := p_bounds cfg Hc m). assert (B := bpow_gt_0 radix2 (-35)). assert (TB := total_bounds acos cfg Hc delta v Hm g kap P m).
  assert (PV0: 0 < p m * vel m) by (apply Rmult_lt_0_compat; lra).
  assert (RR: forall i, IZR i / p m / vel m * (p m * vel m) = IZR i) by (intros k; field; split; apply Rgt_not_eq; lra).
  set (x := val (tm m j)) in *. set (y := val (tm m (j + 1))) in *. set (pv := p m * vel m) in *.
  assert (X1: x * pv <= (1 + 8 * ep) * IZR j) by (rewrite <- (RR j), <- (Rmult_assoc (1 + 8 * ep)); apply Rmult_le_compat_r; lra).
  assert (Y1: (1 - 8 * ep) * IZR (j + 1) <= y * pv) by (rewrite <- (RR (j + 1)%Z), <- (Rmult_assoc (1 - 8 * ep)); apply Rmult_le_compat_r; lra).
  rewrite plus_IZR in Y1. assert (IJ: 0 <= IZR j <= 4194303) by (split; [apply (IZR_le 0); lia|apply (IZR_le _ 4194303); lia]).
  unfold ep in *. lra.
Qed.

(** Two consecutive pulses of one motor. *)
Lemma W_gap m B j : / 60 <= B -> vel m * 2 * a <= 2 * V / A * (B * (1 + / 10000000)) -> (0 <= j)%Z -> (j + 1 < total m)%Z ->
  1 - / 1000000 - IZR (total m) / 25000000 <= (W (val (tm m (j + 1))) - W (val (tm m j))) * (p m * B).
Proof.
  intros B0 HB J0 J1. assert (Ba := Ba acos cfg delta g kap P). assert (BL := BL acos cfg delta g kap P). assert (BC := BC acos cfg delta g kap P c Hap). assert (A0 := ap0 acos cfg delta g kap P).
  destruct (tm_room acos cfg Hc delta v Hm g kap P c Hap m j ltac:(lia)) as (I1 & N1 & R1 & _). destruct (tm_room acos cfg Hc delta v Hm g kap P c Hap m (j + 1) ltac:(lia)) as (I2 & N2 & R2 & _).
  assert (O1 := om_close a L C Ba BL BC _ I1 N1 R1). assert (O2 := om_close a L C Ba BL BC _ I2 N2 R2). apply Rabs_le_inv in O1, O2.
  assert (St := W_strict acos cfg Hc delta v Hm g kap P c Hap m j (j + 1) ltac:(lia) J1). assert (Ts := tm_strict acos cfg Hc delta v Hm g kap P m j J0 J1).
  assert (G := tm_gap2 m j J0 J1).
  destruct (moving acos cfg Hc delta v Hm g kap P m ltac:(lia)) as [Dm Vl]. assert (PB := p_bounds cfg Hc m). assert (Vp := bpow_gt_0 radix2 (-35)).
  assert (PV0: 0 < p m * vel m) by (apply Rmult_lt_0_compat; lra).
  (* the slope *)
  set (r := C / (2 * a) * (1 - 2 / 10000000)).
  assert (Ap := Hap). destruct Ap as (_ & [c1 c2] & _). destruct (fp_ratio _ _ _ _ _ P) as [R3 R4]. set (q := 2 * V / A) in *.
  assert (E0: 0 < ep < / 1000000000000) by (unfold ep; lra).
  assert (Cu: C <= 2 * a * (1 + 11 / 100000000)).
  { eapply Rle_trans; [exact c2|]. apply Rle_trans with ((1 + 7 * ep) * (2 * a * (1 + / 10000000))); [apply Rmult_le_compat_l; lra|]. rewrite <- Rmult_assoc, (Rmult_comm _ (2 * a)), Rmult_assoc. apply Rmult_le_compat_l; [lra|unfold ep; lra]. }
  assert (Cl: C / (2 * a) * (2 * a) = C) by (field; apply Rgt_not_eq; lra).
  assert (Cr: 49 / 100 <= C / (2 * a) <= 1 + 11 / 100000000) by (split; (apply Rmult_le_reg_r with (2 * a); [lra|]; rewrite Cl; lra)).
  assert (r0: 48 / 100 <= r <= 1).
  { unfold r. split; [apply Rle_trans with (49 / 100 * (1 - 2 / 10000000)); [lra|apply Rmult_le_compat_r; lra]|].
    apply Rle_trans with ((1 + 11 / 100000000) * (1 - 2 / 10000000)); [apply Rmult_le_compat_r; lra|lra]. }
  assert (Sl: r * (val (tm m (j + 1)) - val (tm m j)) <= om a L C (val (tm m (j + 1))) - om a L C (val (tm m j))).
  { apply om_slope2; try assumption; try lra. unfold r. rewrite <- (Rmult_1_r (C / (2 * a))) at 2. apply Rmult_le_compat_l; lra. }
  (* the velocity *)
  assert (vB: vel m <= r * (B * (1 + 4 / 10000000))).
  { apply Rmult_le_reg_r with (2 * a); [lra|]. apply Rle_trans with (q * (B * (1 + / 10000000))); [lra|].
    replace (r * (B * (1 + 4 / 10000000)) * (2 * a)) with (C * (1 - 2 / 10000000) * (B * (1 + 4 / 10000000))) by (unfold r; rewrite <- Cl at 1; ring).
    assert (qC: q <= C * (1 + 8 * ep)).
    { apply Rmult_le_reg_l with (1 - 7 * ep); [unfold ep; lra|]. apply Rle_trans with C; [exact c1|]. replace ((1 - 7 * ep) * (C * (1 + 8 * ep))) with (C * ((1 - 7 * ep) * (1 + 8 * ep))) by ring.
      rewrite <- (Rmult_1_r C) at 1. apply Rmult_le_compat_l; [lra|unfold ep; lra]. }
    apply Rle_trans with (C * (1 + 8 * ep) * (B * (1 + / 10000000))); [apply Rmult_le_compat_r; [apply Rmult_le_pos; lra|exact qC]|].
    replace (C * (1 + 8 * ep) * (B * (1 + / 10000000))) with (C * B * ((1 + 8 * ep) * (1 + / 10000000))) by ring.
    replace (C * (1 - 2 / 10000000) * (B * (1 + 4 / 10000000))) with (C * B * ((1 - 2 / 10000000) * (1 + 4 / 10000000))) by ring.
    apply Rmult_le_compat_l; [apply Rmult_le_pos; lra|unfold ep; lra]. }
  (* the error of the times *)
  assert (Kp := fp_kap _ _ _ _ _ P). assert (Nr := fp_near _ _ _ _ _ P m). apply Rabs_le_inv in Nr. assert (Tc := total_close acos cfg Hc delta v Hm g kap P m). apply Rabs_le_inv in Tc.
  assert (BD := dp_bound acos cfg Hc delta v Hm m). assert (Up := fp_upper _ _ _ _ _ P). fold M in Up. assert (M0: 0 < M) by (unfold FloatWarp.M; lra).
  set (u := d m * p m) in *. set (n := IZR (total m)) in *.
  assert (PV: p m * vel m <= kap * (u + 54 / 1000)).
  { assert (E1: p m * vel m <= p m * (kap * d m + (103 / 1000000000000 + 40 * ep * (kap * d m)))) by (apply Rmult_le_compat_l; lra).
    replace (p m * (kap * d m + (103 / 1000000000000 + 40 * ep * (kap * d m)))) with (kap * (u + 40 * ep * u) + p m * (103 / 1000000000000)) in E1 by (unfold u; ring).
    assert (E3: p m * (103 / 1000000000000) <= kap * (52 / 1000)) by (apply Rle_trans with (1000 * (103 / 1000000000000)); [apply Rmult_le_compat_r; lra|lra]).
    assert (E4: 40 * ep * u <= / 1000) by (apply Rle_trans with (40 * ep * 4097000); [apply Rmult_le_compat_l; lra|unfold ep; lra]).
    assert (kap * (u + 40 * ep * u) <= kap * (u + / 1000)) by (apply Rmult_le_compat_l; lra). lra. }
  assert (un: u <= n + 51 / 100).
  { assert (3 * ep * u <= 3 * ep * 4097000) by (apply Rmult_le_compat_l; lra). assert (3 * ep * 4097000 <= / 1000) by (unfold ep; lra). lra. }
  assert (MP: M * (p m * vel m) <= 9 * (n + 57 / 100)).
  { apply Rle_trans with (M * (kap * (u + 54 / 1000))); [apply Rmult_le_compat_l; lra|]. rewrite <- Rmult_assoc, (Rmult_comm M). apply Rle_trans with (9 * (u + 54 / 1000)); [apply Rmult_le_compat_r; lra|lra]. }
  set (x := val (tm m j)) in *. set (y := val (tm m (j + 1))) in *. set (w := W y - W x) in *.
  assert (w0: r * (y - x) - 2 / 1000000000 * M <= w) by (unfold w; lra).
  (* together *)
  assert (Z1: r * (1 - 2 / 100000000) - 2 / 1000000000 * (9 * (n + 57 / 100)) <= w * (p m * vel m)).
  { apply Rle_trans with ((r * (y - x) - 2 / 1000000000 * M) * (p m * vel m)); [|apply Rmult_le_compat_r; lra].
    replace ((r * (y - x) - 2 / 1000000000 * M) * (p m * vel m)) with (r * ((y - x) * (p m * vel m)) - 2 / 1000000000 * (M * (p m * vel m))) by ring.
    assert (r * (1 - 2 / 100000000) <= r * ((y - x) * (p m * vel m))) by (apply Rmult_le_compat_l; lra). lra. }
  assert (wp: 0 <= w * p m) by (apply Rmult_le_pos; unfold w; lra).
  assert (Z2: w * (p m * vel m) <= r * (w * (p m * B) * (1 + 4 / 10000000))).
  { replace (w * (p m * vel m)) with (w * p m * vel m) by ring. replace (r * (w * (p m * B) * (1 + 4 / 10000000))) with (w * p m * (r * (B * (1 + 4 / 10000000)))) by ring. apply Rmult_le_compat_l; assumption. }
  assert (n0: 0 <= n) by (unfold n; apply (IZR_le 0); lia).
  assert (Z3: (1 - 2 / 100000000) - 3751 / 100000000000 * (n + 57 / 100) <= w * (p m * B) * (1 + 4 / 10000000)).
  { apply Rmult_le_reg_l with r; [lra|]. eapply Rle_trans; [|eapply Rle_trans; [exact Z1|exact Z2]].
    assert (2 / 1000000000 * (9 * (n + 57 / 100)) <= r * (3751 / 100000000000 * (n + 57 / 100))); [|lra].
    apply Rle_trans with (48 / 100 * (3751 / 100000000000 * (n + 57 / 100))); [lra|]. apply Rmult_le_compat_r; lra. }
  assert (w2: 0 <= w * (p m * B)) by (rewrite <- Rmult_assoc; apply Rmult_le_pos; lra). set (z := w * (p m * B)) in *.
  destruct (Rle_lt_dec (1 - / 1000000 - n / 25000000) 0) as [Z|Z]; [lra|].
  assert (n / 25000000 = n * / 25000000) by reflexivity. lra.
Qed.

(** Consecutive elements of a list. *)
Lemma frun_spaced m B r i l xs : / 60 <= B -> vel m * 2 * a <= 2 * V / A * (B * (1 + / 10000000)) -> (0 <= qat m i)%Z -> frun acos cfg g c r i l xs ->
  (motor_times m l = [] \/ exists t ts, motor_times m l = t :: ts /\ (qat m i < total m)%Z /\ val t = W (val (tm m (qat m i)))) /\
  forall ts1 t u ts2, motor_times m l = ts1 ++ t :: u :: ts2 -> 1 - / 1000000 - IZR (total m) / 25000000 <= (val u - val t) * (p m * B).
Proof.
  intros B0 HB I0 H. induction H as [r i E|r i x am q l xs Fx X0 Lr Wa Hq [m0 Hx] Hr IH]; [split; [now left|intros [|? [|? ?]]; discriminate]|].
  cbn [motor_times flat_map]. fold (motor_times m l). rewrite qat_fmoved in IH. cbn [step_of] in IH. destruct (Hq m) as [(E & J & Ev)|(E & _)]; rewrite E in *; cbn [app].
  - destruct (IH ltac:(lia)) as [IH1 IH2]. assert (T0 := tm_fin acos cfg Hc delta v Hm g kap P m _ J). destruct (tm_room acos cfg Hc delta v Hm g kap P c Hap m _ J) as (_ & _ & _ & U1).
    destruct (warp_val acos cfg delta g kap P c Hap x am Fx ltac:(rewrite <- Ev; split; [apply T0|exact U1]) Wa) as [_ Vam]. rewrite <- Ev in Vam. split.
    + right. exists am, (motor_times m l). split; [reflexivity|]. split; [lia|exact Vam].
    + intros ts1 t u ts2 Es. destruct ts1 as [|t1 ts1]; cbn [app] in Es.
      * injection Es as <- Es. destruct IH1 as [IH1|(t' & ts' & Et & Jt & Vt)]; [rewrite IH1 in Es; discriminate|].
        rewrite Et in Es. injection Es as -> _. rewrite Vt, Vam. apply W_gap; try assumption; lia.
      * injection Es as <- Es. exact (IH2 _ _ _ _ Es).
  - rewrite Z.add_0_r in IH. exact (IH I0).
Qed.
End Gap.

Lemma speed_float acos cfg delta v g l m ts1 (t u : f64) ts2 : lin_cfg cfg -> fit_move cfg delta v -> emits (N:=F64 acos) cfg delta v g l ->
  motor_times m l = ts1 ++ t :: u :: ts2 ->
  1 - / 500000 - IZR (steps m l) / 25000000 <= (val u - val t) * (IZR (qat m (ppm cfg)) * (val v / 60)) /\
  (auto_velocity cfg = true -> 1 - / 500000 - IZR (steps m l) / 25000000 <= (val u - val t) * (IZR (qat m (ppm cfg)) * (IZR (qat m (max_velocity_min cfg)) / 60))).
Proof.
  intros Hc Hm He Et. destruct (emits_float_inv acos cfg Hc delta v Hm g l He) as (kap & c & l' & xs & -> & P & Ac & Hl).
  destruct (speed_build acos cfg Hc delta v Hm) as (g' & kap' & kl & Eg & P' & K & Au & Sp). assert (g' = g) by (destruct He; congruence). subst g'.
  change (motor_times m (Dir (invert_dirs cfg (l_dir g)) :: l')) with (motor_times (N:=F64 acos) m l') in Et.
  assert (St: steps m (Dir (invert_dirs cfg (l_dir g)) :: l') = qat m (l_total g)).
  { assert (X := frun_steps _ _ _ _ _ _ _ _ m Hl). replace (qat m (Quad 0 0 0 0)%Z) with 0%Z in X by (destruct m; reflexivity). cbn [steps step_of]. rewrite Z.add_0_l in *. exact X. }
  rewrite St. set (n := IZR (qat m (l_total g))). assert (n0: 0 <= n) by (unfold n; apply (IZR_le 0), (total_bounds acos cfg Hc delta v Hm g kap P m)).
  assert (G: forall B, / 60 <= B -> kl * val (qat m (dst acos delta)) <= B + 2 / 10000000000 -> 1 - / 1000000 - n / 25000000 <= (val u - val t) * (IZR (qat m (ppm cfg)) * B)).
  { intros B B0 KB. refine (proj2 (frun_spaced acos cfg Hc delta v Hm g kap P c Ac m B _ _ l' xs B0 (Sp m B B0 KB) _ Hl) ts1 t u ts2 Et). replace (qat m (Quad 0 0 0 0)%Z) with 0%Z by (destruct m; reflexivity). lia. }
  assert (PB := p_bounds cfg Hc m). set (p := IZR (qat m (ppm cfg))) in *. destruct (fm_feed _ _ _ Hm) as [_ [V1 _]]. split.
  - enough (1 - / 1000000 - n / 25000000 <= (val u - val t) * (p * (val v / 60))) by lra. apply G; [lra|].
    assert (SB := S_ge acos cfg Hc delta v Hm). assert (D0 := d_pos acos cfg delta v Hm m). assert (D1 := d_le_S acos cfg delta v Hm m).
    apply Rle_trans with (val v / 60); [|lra]. apply Rle_trans with (kap0 acos delta v * S acos delta); [apply Rmult_le_compat; lra|]. right. unfold kap0. field. apply Rgt_not_eq; lra.
  - intros Ha. assert (MB := M_bounds cfg Hc m). set (M := IZR (qat m (max_velocity_min cfg))) in *.
    assert (M60: / 60 <= M / 60 * (1 + / 1000000000)) by (fold M in MB; lra).
    assert (X := G (M / 60 * (1 + / 1000000000)) M60 (Au Ha m)).
    replace ((val u - val t) * (p * (M / 60 * (1 + / 1000000000)))) with ((val u - val t) * (p * (M / 60)) * (1 + / 1000000000)) in X by ring.
    set (z := (val u - val t) * (p * (M / 60))) in *.
    destruct (Rle_lt_dec z 2); [|lra]. lra.
Qed.
