(** Proofs about Thermistor.v. *)
From Coq Require Import ZArith Bool Lia Reals Lra.
From Flocq Require Import Core.
From Verif Require Import PyBase PyNum PyFloatFacts Thermistor.
Local Open Scope R_scope.

Lemma rinf_pos : 0 < rinf.
Proof. unfold rinf. apply Rmult_lt_0_compat; [lra|apply exp_pos]. Qed.

Lemma exp_sq x y z : 0 < x -> x <= exp y -> 0 < z -> z <= x * x -> z <= exp (y + y).
Proof. intros H0 H Hz Hx. rewrite exp_plus. apply Rle_trans with (1 := Hx). apply Rmult_le_compat; lra. Qed.

(** A bound of the resistance at infinite temperature. *)
Lemma rinf_small : rinf < 14 / 100.
Proof.
  unfold rinf, beta, kelvin.
  set (x := 4092 / (25 + 27315 / 100)).
  replace (- (4092) / (25 + 27315 / 100)) with (- x) by (unfold x; field).
  rewrite exp_Ropp.
  assert (H: 761000 <= exp x).
  { set (y := x / 512).
    assert (H0: 1.026805 <= exp y).
    { apply Rle_trans with (1 + y); [unfold y, x; lra|]. apply Rlt_le, exp_ineq1. unfold y, x. lra. }
    apply (exp_sq _ _ 1.054328) in H0; [|lra|lra|lra].
    apply (exp_sq _ _ 1.111607) in H0; [|lra|lra|lra].
    apply (exp_sq _ _ 1.23567) in H0; [|lra|lra|lra].
    apply (exp_sq _ _ 1.52688) in H0; [|lra|lra|lra].
    apply (exp_sq _ _ 2.331362) in H0; [|lra|lra|lra].
    apply (exp_sq _ _ 5.435248) in H0; [|lra|lra|lra].
    apply (exp_sq _ _ 29.54192) in H0; [|lra|lra|lra].
    apply (exp_sq _ _ 872.725) in H0; [|lra|lra|lra].
    apply (exp_sq _ _ 761000) in H0; [|lra|lra|lra].
    eapply Rle_trans; [exact H0|]. right. f_equal. unfold y. field. }
  apply Rle_lt_trans with (100000 * / 761000); [|lra].
  apply Rmult_le_compat_l; [lra|]. apply Rinv_le; lra.
Qed.

(** Resistance of the thermistor from the voltage of the divider. *)
Definition ohms (v : R) : R := v * 4700 / (vcc - v).

Lemma ohms_mono u v : 0 < u -> u < v -> v < vcc -> 0 < ohms u < ohms v.
Proof.
  unfold ohms, vcc. intros H0 H1 H2.
  assert (0 < / (33 / 10 - u)) by (apply Rinv_0_lt_compat; lra).
  assert (/ (33 / 10 - u) < / (33 / 10 - v)) by (apply Rinv_lt_contravar; [apply Rmult_lt_0_compat|]; lra).
  unfold Rdiv at 1 3. split; [apply Rmult_lt_0_compat; lra|].
  apply Rmult_gt_0_lt_compat; lra.
Qed.

Lemma get_ok v t : get_temperature v = Ok t ->
  0 < v < vcc /\ ln (ohms v / rinf) <> 0 /\ t = beta / ln (ohms v / rinf) - kelvin.
Proof.
  unfold get_temperature, ohms. destruct (Rle_dec vcc v); [discriminate|]. destruct (Rle_dec v 0); [discriminate|].
  cbv zeta. destruct (Req_EM_T _ 0); [discriminate|]. intros [= <-]. repeat split; try lra; try assumption.
Qed.

Lemma ln_pos_ohms v : 0 < v < vcc -> rinf < ohms v -> 0 < ln (ohms v / rinf).
Proof.
  intros H H1. pose proof rinf_pos. rewrite <- ln_1. apply ln_increasing; [lra|].
  apply Rmult_lt_reg_r with rinf; [lra|]. unfold Rdiv. rewrite Rmult_assoc, Rinv_l by lra. lra.
Qed.

Lemma get_works v : 0 < v < vcc -> rinf < ohms v ->
  get_temperature v = Ok (beta / ln (ohms v / rinf) - kelvin).
Proof.
  intros H H1. pose proof (ln_pos_ohms _ H H1) as HL. unfold get_temperature, ohms in *.
  destruct (Rle_dec vcc v); [lra|]. destruct (Rle_dec v 0); [lra|]. cbv zeta. destruct (Req_EM_T _ 0); [lra|reflexivity].
Qed.

Lemma get_refused v e : get_temperature v = Raise e -> ~ (0 < v < vcc) /\ e = IOErr \/ 0 < v < vcc /\ ohms v = rinf /\ e = ZeroDivisionError.
Proof.
  unfold get_temperature. destruct (Rle_dec vcc v); [intros [= <-]; left; split; [lra|reflexivity]|].
  destruct (Rle_dec v 0); [intros [= <-]; left; split; [lra|reflexivity]|].
  cbv zeta. destruct (Req_EM_T _ 0) as [E|]; [|discriminate]. intros [= <-]. right. split; [lra|]. split; [|reflexivity].
  fold (ohms v) in E. pose proof rinf_pos.
  assert (P: 0 < ohms v). { unfold ohms, vcc in *. apply Rmult_lt_0_compat; [|apply Rinv_0_lt_compat]; lra. }
  rewrite <- ln_1 in E. apply ln_inv in E; [|apply Rmult_lt_0_compat; [lra|now apply Rinv_0_lt_compat]|lra].
  apply Rmult_eq_reg_r with (/ rinf); [|apply Rinv_neq_0_compat; lra]. rewrite Rinv_r by lra. exact E.
Qed.

(** Where the resistance exceeds that of infinite temperature the reading decreases. *)
Lemma decreasing u v a b : 0 < u -> u < v -> v < vcc -> rinf < ohms u ->
  get_temperature u = Ok a -> get_temperature v = Ok b -> - kelvin < b < a.
Proof.
  intros H0 H1 H2 H3 HA HB. pose proof rinf_pos as RP.
  pose proof (ohms_mono u v H0 H1 H2) as HO.
  rewrite get_works in HA by lra. rewrite get_works in HB by lra. injection HA as <-. injection HB as <-.
  pose proof (ln_pos_ohms u ltac:(lra) H3) as L.
  assert (M: ln (ohms u / rinf) < ln (ohms v / rinf)).
  { apply ln_increasing; [apply Rmult_lt_0_compat; [lra|now apply Rinv_0_lt_compat]|].
    apply Rmult_lt_compat_r; [now apply Rinv_0_lt_compat|lra]. }
  unfold beta, Rdiv. pose proof (Rinv_0_lt_compat (ln (ohms v * / rinf))). pose proof (Rinv_0_lt_compat (ln (ohms u * / rinf))).
  unfold Rdiv in *.
  assert (/ ln (ohms v * / rinf) < / ln (ohms u * / rinf)) by (apply Rinv_lt_contravar; [apply Rmult_lt_0_compat|]; lra).
  lra.
Qed.

(** The smallest positive number of the converter is far enough from 0. *)
Lemma code_ok n : (1 <= n)%Z -> IZR n / 8000 < vcc -> rinf < ohms (IZR n / 8000).
Proof.
  intros H H1. apply Rlt_le_trans with (1 := rinf_small).
  assert (N: 1 <= IZR n) by now apply IZR_le.
  apply Rle_trans with (ohms (1 / 8000)); [unfold ohms, vcc; lra|].
  destruct (Req_dec (IZR n) 1) as [->|D]; [lra|].
  apply Rlt_le, ohms_mono; lra.
Qed.

(** For voltages very near 0 the formula turns over: a hotter reading at the higher
    voltage. *)
Lemma turns_over : exists u v a b, 0 < u /\ u < v /\ v < vcc /\
  get_temperature u = Ok a /\ get_temperature v = Ok b /\ a < - kelvin < b.
Proof.
  pose proof rinf_pos as RP. pose proof rinf_small as RS.
  (* the voltage at which the resistance is a given one *)
  set (volts := fun r : R => vcc * r / (r + 4700)).
  assert (OV: forall r, 0 < r -> 0 < volts r < vcc /\ ohms (volts r) = r).
  { intros r Hr. assert (B: 0 < volts r < vcc).
    { unfold volts, vcc. split; [apply Rmult_lt_0_compat; [lra|apply Rinv_0_lt_compat; lra]|].
      apply Rmult_lt_reg_r with (r + 4700); [lra|]. unfold Rdiv. rewrite Rmult_assoc, Rinv_l by lra. lra. }
    split; [exact B|]. unfold ohms. unfold volts, vcc in *. field. split; lra. }
  destruct (OV (rinf / 2)) as [B1 O1]; [lra|]. destruct (OV (2 * rinf)) as [B2 O2]; [lra|].
  exists (volts (rinf / 2)), (volts (2 * rinf)).
  assert (L1: ln (rinf / 2 / rinf) < 0).
  { rewrite <- ln_1. apply ln_increasing; replace (rinf / 2 / rinf) with (/ 2) by (field; lra); lra. }
  assert (G: get_temperature (volts (rinf / 2)) = Ok (beta / ln (rinf / 2 / rinf) - kelvin)).
  { pose proof O1 as O. unfold ohms in O. unfold get_temperature. destruct (Rle_dec vcc _); [lra|]. destruct (Rle_dec _ 0); [lra|].
    cbv zeta. rewrite O. destruct (Req_EM_T _ 0); [lra|reflexivity]. }
  pose proof (get_works (volts (2 * rinf)) B2) as G2. rewrite O2 in G2.
  do 2 eexists. split; [lra|]. split.
  - unfold volts, vcc. apply Rmult_lt_reg_r with (rinf / 2 + 4700); [lra|].
    replace (33 / 10 * (rinf / 2) / (rinf / 2 + 4700) * (rinf / 2 + 4700)) with (33 / 10 * (rinf / 2)) by (field; lra).
    apply Rmult_lt_reg_r with (2 * rinf + 4700); [lra|].
    replace (33 / 10 * (2 * rinf) / (2 * rinf + 4700) * (rinf / 2 + 4700) * (2 * rinf + 4700))
      with (33 / 10 * (2 * rinf) * (rinf / 2 + 4700)) by (field; lra).
    nra.
  - split; [lra|]. split; [exact G|]. split; [apply G2; lra|].
    assert (P: 0 < ln (2 * rinf / rinf)). { rewrite <- ln_1. apply ln_increasing; replace (2 * rinf / rinf) with 2 by (field; lra); lra. }
    unfold beta, kelvin, Rdiv at 1 4. split.
    + pose proof (Rinv_lt_0_compat _ L1). lra.
    + pose proof (Rinv_0_lt_compat _ P). lra.
Qed.

(** In binary64 the refusal is decided exactly. *)
Lemma refused_iff n : adc_code n -> (refused n = true <-> (n <= 0 \/ 26400 <= n)%Z).
Proof.
  intros H. unfold adc_code in H.
  assert (B: Rabs (IZR n) <= 32768) by (rewrite <- abs_IZR; apply IZR_le; lia).
  destruct (f_ofZ_val n) as (F1 & V1); [lia|]. destruct (f_ofZ_val 8000) as (F2 & V2); [lia|]. destruct (f_ofZ_val 0) as (F0 & V0); [lia|].
  destruct (f_div_val (f_ofZ n) (f_ofZ 8000) F1 F2) as (q & E & Fq & Vq); [rewrite V2; lra| |].
  { rewrite V1, V2. unfold Rdiv. rewrite Rabs_mult, (Rabs_pos_eq (/ 8000)) by lra.
    apply Rle_trans with (bpow radix2 53); [|apply bpow_le; lia]. change (bpow radix2 53) with (IZR (2 ^ 53)). change (2 ^ 53)%Z with 9007199254740992%Z. lra. }
  unfold refused. rewrite E. rewrite V1, V2 in Vq.
  destruct (f_ratio_val false 33 10) as (F3 & V3 & _); [lia| |].
  { rewrite Rabs_pos_eq by lra. apply Rle_trans with (bpow radix2 53); [|apply bpow_le; lia]. change (bpow radix2 53) with (IZR (2 ^ 53)). change (2 ^ 53)%Z with 9007199254740992%Z. lra. }
  assert (F33: f_ofdec false 33 1 = f_ratio false 33 10) by reflexivity.
  rewrite F33, orb_true_iff, !f_le_true by assumption. rewrite Vq, V3, V0, Rmult_1_l.
  destruct (Z_le_gt_dec 26400 n) as [G|G].
  - split; [lia|]. intros _. left. apply rd_le. apply (IZR_le 26400) in G. lra.
  - destruct (Z_le_gt_dec n 0) as [G0|G0].
    + split; [lia|]. intros _. right. rewrite <- rd_0. apply rd_le. apply IZR_le in G0. lra.
    + split; [|lia]. intros [K|K]; exfalso.
      * (* 26399/8000 rounds below 3.3 *)
        apply Rle_not_lt in K. apply K. clear K.
        assert (N: IZR n <= 26399) by (apply IZR_le; lia).
        apply Rle_lt_trans with (rd (26399 / 8000)); [apply rd_le; lra|].
        assert (E1: Rabs (rd (26399 / 8000) - 26399 / 8000) <= bpow radix2 (2 - 54))
          by (apply rd_error; [lia|change (bpow radix2 2) with 4; rewrite Rabs_pos_eq by lra; lra]).
        assert (E2: Rabs (rd (33 / 10) - 33 / 10) <= bpow radix2 (2 - 54))
          by (apply rd_error; [lia|change (bpow radix2 2) with 4; rewrite Rabs_pos_eq by lra; lra]).
        assert (E3: bpow radix2 (2 - 54) <= / 1048576) by (change (/ 1048576) with (bpow radix2 (-20)); apply bpow_le; lia).
        apply Rabs_le_inv in E1. apply Rabs_le_inv in E2. lra.
      * apply Rle_not_lt in K. apply K.
        assert (N: 1 <= IZR n) by (apply IZR_le; lia).
        apply Rlt_le_trans with (bpow radix2 (-13)); [apply bpow_gt_0|].
        rewrite <- (rd_bpow (-13)) by lia. apply rd_le. change (bpow radix2 (-13)) with (/ 8192). lra.
Qed.
