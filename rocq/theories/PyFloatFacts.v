(** Facts about the binary64 instance of Python numbers, in terms of reals. *)
From Coq Require Import ZArith Bool Reals Lra Lia Psatz.
From Flocq Require Import Core BinarySingleNaN Relative.
From Verif Require Import PyBase PyNum.
Open Scope R_scope.

(** Rounding of a real to binary64 (unbounded exponent range upwards). *)
Definition rd (x : R) : R :=
  round radix2 (SpecFloat.fexp prec64 emax64) (round_mode mode_NE) x.
Definition fin (x : f64) : Prop := is_finite x = true.
Notation val x := (B2R (x : f64)).

Lemma fexp_FLT : SpecFloat.fexp prec64 emax64 = FLT_exp (-1074) 53.
Proof. reflexivity. Qed.

#[global] Instance fexp64_valid : Valid_exp (SpecFloat.fexp prec64 emax64).
Proof. apply (fexp_correct prec64 emax64). apply prec64_gt_0. Qed.
#[global] Instance fexp64_mono : Monotone_exp (SpecFloat.fexp prec64 emax64).
Proof. apply (fexp_monotone prec64 emax64). Qed.

Lemma rd_le x y : x <= y -> rd x <= rd y.
Proof. intros H. apply round_le; auto with typeclass_instances. Qed.
Lemma rd_0 : rd 0 = 0.
Proof. apply round_0; auto with typeclass_instances. Qed.
Lemma rd_opp x : rd (- x) = - rd x.
Proof. unfold rd. simpl round_mode. apply round_NE_opp. Qed.
Lemma rd_abs x : rd (Rabs x) = Rabs (rd x).
Proof. unfold rd. simpl round_mode. apply round_NE_abs. auto with typeclass_instances. Qed.
Lemma rd_format x : generic_format radix2 (SpecFloat.fexp prec64 emax64) x -> rd x = x.
Proof. intros H. apply round_generic; auto with typeclass_instances. Qed.
Lemma rd_val (x : f64) : rd (val x) = val x.
Proof. apply rd_format. apply generic_format_B2R. Qed.
Lemma rd_idem x : rd (rd x) = rd x.
Proof. apply rd_format. unfold rd. apply generic_format_round; auto with typeclass_instances. Qed.

Lemma bpow_format e : (-1074 <= e)%Z -> generic_format radix2 (SpecFloat.fexp prec64 emax64) (bpow radix2 e).
Proof.
  intros H. apply generic_format_bpow. rewrite fexp_FLT. unfold FLT_exp. lia.
Qed.
Lemma rd_bpow e : (-1074 <= e)%Z -> rd (bpow radix2 e) = bpow radix2 e.
Proof. intros H. apply rd_format. now apply bpow_format. Qed.

Lemma rd_abs_le x e : (-1074 <= e)%Z -> Rabs x <= bpow radix2 e -> Rabs (rd x) <= bpow radix2 e.
Proof.
  intros He H. rewrite <- rd_abs. rewrite <- (rd_bpow e He). now apply rd_le.
Qed.

(** Integers up to 2^53 are exact. *)
Lemma IZR_format n : (Z.abs n <= 2 ^ 53)%Z -> generic_format radix2 (SpecFloat.fexp prec64 emax64) (IZR n).
Proof.
  intros H. rewrite fexp_FLT. apply generic_format_FLT.
  destruct (Z.eq_dec (Z.abs n) (2 ^ 53)) as [E|E].
  - exists (Float radix2 (Z.sgn n) 53).
    + unfold F2R. simpl Fnum. simpl Fexp. rewrite <- (IZR_Zpower radix2) by lia.
      rewrite <- mult_IZR. f_equal. change (radix2 ^ 53)%Z with (2 ^ 53)%Z. lia.
    + simpl. lia.
    + simpl. lia.
  - exists (Float radix2 n 0).
    + unfold F2R. simpl. ring.
    + simpl Fnum. change (radix2 ^ 53)%Z with (2^53)%Z. lia.
    + simpl. lia.
Qed.
Lemma rd_IZR n : (Z.abs n <= 2 ^ 53)%Z -> rd (IZR n) = IZR n.
Proof. intros H. apply rd_format. now apply IZR_format. Qed.

(** Error bounds. *)
Lemma rd_error x e : (-1021 <= e)%Z -> Rabs x <= bpow radix2 e ->
  Rabs (rd x - x) <= bpow radix2 (e - 54).
Proof.
  intros He Hx.
  destruct (Req_dec x 0) as [->|Hn0].
  { rewrite rd_0, Rminus_0_r, Rabs_R0. apply bpow_ge_0. }
  destruct (Rle_lt_or_eq_dec _ _ Hx) as [Hlt|Heq].
  - assert (H := error_le_half_ulp radix2 (SpecFloat.fexp prec64 emax64) (fun z => negb (Z.even z)) x).
    change (Rabs (rd x - x) <= / 2 * ulp radix2 (SpecFloat.fexp prec64 emax64) x) in H.
    eapply Rle_trans; [exact H|].
    rewrite ulp_neq_0 by auto. unfold cexp.
    assert (Hm: (mag radix2 x <= e)%Z) by now apply mag_le_bpow.
    assert (bpow radix2 (SpecFloat.fexp prec64 emax64 (mag radix2 x)) <= bpow radix2 (e - 53)).
    { apply bpow_le. rewrite fexp_FLT. unfold FLT_exp. lia. }
    replace (e - 54)%Z with (-1 + (e - 53))%Z by lia. rewrite bpow_plus.
    change (bpow radix2 (-1)) with (/2). lra.
  - assert (E: rd x = x).
    { unfold Rabs in Heq. destruct (Rcase_abs x).
      - assert (x = - bpow radix2 e) by lra. subst x. rewrite rd_opp, rd_bpow by lia. reflexivity.
      - subst x. apply rd_bpow. lia. }
    rewrite E, Rminus_diag_eq, Rabs_R0 by reflexivity. apply bpow_ge_0.
Qed.

(** Relative form. *)
Lemma rd_error_rel x : bpow radix2 (-1022) <= Rabs x ->
  Rabs (rd x - x) <= bpow radix2 (-53) * Rabs x.
Proof.
  intros H.
  assert (HR := relative_error_N_FLT radix2 (-1074) 53 eq_refl (fun z => negb (Z.even z)) x).
  change (bpow radix2 (-1074 + 53 - 1) <= Rabs x -> Rabs (rd x - x) <= / 2 * bpow radix2 (- (53) + 1) * Rabs x) in HR.
  specialize (HR H). replace (/2 * bpow radix2 (-(53)+1)) with (bpow radix2 (-53)) in HR.
  - exact HR.
  - change (/2) with (bpow radix2 (-1)). rewrite <- bpow_plus. reflexivity.
Qed.

(* ---------- overflow-free specifications ---------- *)
Definition big : R := bpow radix2 1000.

Lemma rd_small x : Rabs x <= big -> Rabs (rd x) < bpow radix2 emax64.
Proof.
  intros H. apply Rle_lt_trans with big.
  - apply rd_abs_le; auto. lia.
  - apply bpow_lt. reflexivity.
Qed.

Lemma f_add_val (x y : f64) : fin x -> fin y -> Rabs (val x + val y) <= big ->
  fin (f_add x y) /\ val (f_add x y) = rd (val x + val y).
Proof.
  intros Hx Hy H. generalize (Bplus_correct prec64 emax64 _ _ mode_NE x y Hx Hy).
  rewrite Rlt_bool_true by now apply rd_small. intros (H1 & H2 & _). split; assumption.
Qed.

Lemma f_sub_val (x y : f64) : fin x -> fin y -> Rabs (val x - val y) <= big ->
  fin (f_sub x y) /\ val (f_sub x y) = rd (val x - val y).
Proof.
  intros Hx Hy H. generalize (Bminus_correct prec64 emax64 _ _ mode_NE x y Hx Hy).
  rewrite Rlt_bool_true by now apply rd_small. intros (H1 & H2 & _). split; assumption.
Qed.

Lemma f_mul_val (x y : f64) : fin x -> fin y -> Rabs (val x * val y) <= big ->
  fin (f_mul x y) /\ val (f_mul x y) = rd (val x * val y).
Proof.
  intros Hx Hy H. generalize (Bmult_correct prec64 emax64 _ _ mode_NE x y).
  rewrite Rlt_bool_true by now apply rd_small. rewrite Hx, Hy.
  intros (H1 & H2 & _). split; assumption.
Qed.

Lemma is_zero_f_val (x : f64) : fin x -> (is_zero_f x = true <-> val x = 0).
Proof.
  unfold fin. destruct x as [s|s| |s m e H]; simpl; intros Hf; try discriminate; split; auto; try discriminate.
  intros E. exfalso. apply eq_0_F2R in E. destruct s; discriminate.
Qed.

Lemma f_div_val (x y : f64) : fin x -> fin y -> val y <> 0 -> Rabs (val x / val y) <= big ->
  exists q, f_div x y = Ok q /\ fin q /\ val q = rd (val x / val y).
Proof.
  intros Hx Hy H0 H. unfold f_div.
  destruct (is_zero_f y) eqn:E; [apply is_zero_f_val in E; auto; tauto|].
  eexists. split; [reflexivity|].
  generalize (Bdiv_correct prec64 emax64 _ _ mode_NE x y H0).
  rewrite Rlt_bool_true by now apply rd_small. rewrite Hx.
  intros (H1 & H2 & _). split; assumption.
Qed.

Lemma f_div_inv (x y q : f64) : f_div x y = Ok q -> is_zero_f y = false /\ q = Bdiv mode_NE x y.
Proof. unfold f_div. destruct is_zero_f; [discriminate|]. intros E. injection E as <-. auto. Qed.

Lemma f_sqrt_val (x : f64) : fin x -> 0 <= val x ->
  exists q, f_sqrt x = Ok q /\ fin q /\ val q = rd (sqrt (val x)).
Proof.
  intros Hx H. destruct (Bsqrt_correct prec64 emax64 _ _ mode_NE x) as (H1 & H2 & _).
  unfold f_sqrt. destruct x as [s|s| |s m e B]; try discriminate.
  - eexists. split; [reflexivity|]. split; assumption.
  - destruct s.
    + exfalso. simpl in H. apply Rle_not_lt in H. apply H.
      apply F2R_lt_0. reflexivity.
    + eexists. split; [reflexivity|]. split; assumption.
Qed.

Lemma f_ofZ_val n : (Z.abs n <= 2 ^ 53)%Z -> fin (f_ofZ n) /\ val (f_ofZ n) = IZR n.
Proof.
  intros H. unfold f_ofZ.
  generalize (binary_normalize_correct prec64 emax64 prec64_gt_0 prec64_lt_emax mode_NE n 0 false).
  assert (E: F2R (Float radix2 n 0) = IZR n) by (unfold F2R; simpl; ring).
  cbv zeta. rewrite E. fold (rd (IZR n)). rewrite rd_IZR by assumption.
  rewrite Rlt_bool_true.
  - intros (H1 & H2 & _). split; assumption.
  - apply Rle_lt_trans with (bpow radix2 53).
    + rewrite <- abs_IZR. rewrite <- (IZR_Zpower radix2) by lia. apply IZR_le. exact H.
    + apply bpow_lt. reflexivity.
Qed.

Lemma f_ofZ_sign n : (Z.abs n <= 2 ^ 53)%Z -> Bsign (f_ofZ n) = (n <? 0)%Z.
Proof.
  intros H. unfold f_ofZ.
  generalize (binary_normalize_correct prec64 emax64 prec64_gt_0 prec64_lt_emax mode_NE n 0 false).
  assert (E: F2R (Float radix2 n 0) = IZR n) by (unfold F2R; simpl; ring).
  cbv zeta. rewrite E. fold (rd (IZR n)). rewrite rd_IZR by assumption.
  rewrite Rlt_bool_true.
  - intros (_ & _ & ->). destruct (Rcompare_spec (IZR n) 0) as [Hc|Hc|Hc].
    + apply lt_IZR in Hc. symmetry. apply Z.ltb_lt. exact Hc.
    + apply eq_IZR in Hc. subst. reflexivity.
    + apply lt_IZR in Hc. symmetry. apply Z.ltb_ge. lia.
  - apply Rle_lt_trans with (bpow radix2 53).
    + rewrite <- abs_IZR. rewrite <- (IZR_Zpower radix2) by lia. apply IZR_le. exact H.
    + apply bpow_lt. reflexivity.
Qed.

Lemma fin_opp x : fin (Bopp x) <-> fin x.
Proof. unfold fin. now rewrite is_finite_Bopp. Qed.
Lemma fin_abs x : fin (Babs x) <-> fin x.
Proof. unfold fin. now rewrite is_finite_Babs. Qed.
Lemma val_opp x : val (Bopp x) = - val x. Proof. apply B2R_Bopp. Qed.
Lemma val_abs x : val (Babs x) = Rabs (val x). Proof. apply B2R_Babs. Qed.

Lemma f_lt_val x y : fin x -> fin y -> f_lt x y = Rlt_bool (val x) (val y).
Proof. intros Hx Hy. now apply Bltb_correct. Qed.
Lemma f_le_val x y : fin x -> fin y -> f_le x y = Rle_bool (val x) (val y).
Proof. intros Hx Hy. now apply Bleb_correct. Qed.
Lemma f_eq_val x y : fin x -> fin y -> f_eq x y = Req_bool (val x) (val y).
Proof. intros Hx Hy. now apply Beqb_correct. Qed.

Lemma f_lt_true x y : fin x -> fin y -> (f_lt x y = true <-> val x < val y).
Proof.
  intros Hx Hy. rewrite f_lt_val by assumption.
  case Rlt_bool_spec; intros H; split; auto; try discriminate. lra.
Qed.
Lemma f_lt_false x y : fin x -> fin y -> (f_lt x y = false <-> val y <= val x).
Proof.
  intros Hx Hy. rewrite f_lt_val by assumption.
  case Rlt_bool_spec; intros H; split; auto; try discriminate. lra.
Qed.
Lemma f_le_true x y : fin x -> fin y -> (f_le x y = true <-> val x <= val y).
Proof.
  intros Hx Hy. rewrite f_le_val by assumption.
  case Rle_bool_spec; intros H; split; auto; try discriminate. lra.
Qed.
Lemma f_le_false x y : fin x -> fin y -> (f_le x y = false <-> val y < val x).
Proof.
  intros Hx Hy. rewrite f_le_val by assumption.
  case Rle_bool_spec; intros H; split; auto; try discriminate. lra.
Qed.
Lemma f_eq_true x y : fin x -> fin y -> (f_eq x y = true <-> val x = val y).
Proof.
  intros Hx Hy. rewrite f_eq_val by assumption.
  case Req_bool_spec; intros H; split; auto; discriminate.
Qed.

(* ---------- decimal fractions ---------- *)
Lemma f_ratio_pos_val s n d : Rabs (IZR (Zpos n) / IZR (Zpos d)) <= big ->
  fin (f_ratio_pos s n d) /\
  val (f_ratio_pos s n d) = rd ((if s then -1 else 1) * (IZR (Zpos n) / IZR (Zpos d))) /\
  Bsign (f_ratio_pos s n d) = s.
Proof.
  intros H. unfold f_ratio_pos.
  generalize (Bdiv_correct_aux prec64 emax64 prec64_gt_0 prec64_lt_emax mode_NE s n 0 false d 0).
  cbv zeta.
  set (z := let '(mz, ez, lz) := SpecFloat.SFdiv_core_binary prec64 emax64 (Z.pos n) 0 (Z.pos d) 0 in
            binary_round_aux prec64 emax64 mode_NE (xorb s false) mz ez lz).
  intros [Hv HH]. unfold fin. rewrite is_finite_SF2B, B2R_SF2B, Bsign_SF2B.
  assert (E: F2R (Float radix2 (cond_Zopp s (Z.pos n)) 0) / F2R (Float radix2 (cond_Zopp false (Z.pos d)) 0)
             = (if s then -1 else 1) * (IZR (Zpos n) / IZR (Zpos d))).
  { unfold F2R. cbn [Fnum Fexp cond_Zopp]. change (bpow radix2 0) with 1. rewrite !Rmult_1_r.
    destruct s; cbn [cond_Zopp]; [rewrite opp_IZR|]; unfold Rdiv; ring. }
  rewrite E in HH.
  assert (Ha: Rabs ((if s then -1 else 1) * (IZR (Z.pos n) / IZR (Z.pos d))) <= big).
  { rewrite Rabs_mult. destruct s.
    - replace (Rabs (-1)) with 1 by (rewrite Rabs_left; lra). lra.
    - rewrite Rabs_R1. lra. }
  fold (rd ((if s then -1 else 1) * (IZR (Z.pos n) / IZR (Z.pos d)))) in HH.
  rewrite Rlt_bool_true in HH by now apply rd_small.
  destruct HH as (H1 & H2 & H3). rewrite xorb_false_r in H3. auto.
Qed.

Lemma f_ratio_val s n d : (0 <= n)%Z -> Rabs (IZR n / IZR (Zpos d)) <= big ->
  fin (f_ratio s n d) /\
  val (f_ratio s n d) = rd ((if s then -1 else 1) * (IZR n / IZR (Zpos d))) /\
  Bsign (f_ratio s n d) = s.
Proof.
  intros Hn H. destruct n as [|p|p]; [| now apply f_ratio_pos_val | lia].
  simpl. split; [reflexivity|]. split; [|reflexivity].
  unfold Rdiv. rewrite Rmult_0_l, Rmult_0_r, rd_0. reflexivity.
Qed.

(* ---------- integers out of floats ---------- *)
Lemma half_even_nearest n d : (0 < d)%Z -> half_even n d = ZnearestE (IZR n / IZR d).
Proof.
  intros Hd. unfold half_even, Znearest.
  assert (Hd': 0 < IZR d) by now apply IZR_lt.
  assert (Hf: Zfloor (IZR n / IZR d) = (n / d)%Z) by (apply Zfloor_div; lia).
  assert (Hmod: IZR n / IZR d - IZR (n / d) = IZR (n mod d) / IZR d).
  { rewrite Z.mod_eq by lia. rewrite minus_IZR, mult_IZR. field. lra. }
  rewrite Hf, Hmod.
  assert (Hceil: (n mod d <> 0)%Z -> Zceil (IZR n / IZR d) = (n / d + 1)%Z).
  { intros Hne. rewrite <- Hf. apply Zceil_floor_neq. rewrite Hf.
    intros E. apply Hne. assert (E': IZR (n mod d) / IZR d = 0) by (rewrite <- Hmod, E; lra).
    apply eq_IZR. apply (Rmult_eq_reg_r (/ IZR d)); [|apply Rinv_neq_0_compat; lra].
    unfold Rdiv in E'. lra. }
  assert (HM := Z.mod_pos_bound n d Hd).
  destruct (Rcompare_spec (IZR (n mod d) / IZR d) (/ 2)) as [H|H|H].
  - assert (H': IZR (n mod d) * 2 < IZR d).
    { apply (Rmult_lt_reg_r (/ IZR d)); [now apply Rinv_0_lt_compat|].
      rewrite Rinv_r by lra. unfold Rdiv in H. lra. }
    rewrite <- mult_IZR in H'. apply lt_IZR in H'.
    destruct (Z.compare_spec (2 * (n mod d)) d); try lia.
  - assert (H': IZR (n mod d) * 2 = IZR d).
    { apply (Rmult_eq_reg_r (/ IZR d)); [|apply Rinv_neq_0_compat; lra].
      rewrite Rinv_r by lra. unfold Rdiv in H. lra. }
    rewrite <- mult_IZR in H'. apply eq_IZR in H'.
    destruct (Z.compare_spec (2 * (n mod d)) d); try lia.
    rewrite Hceil by lia. destruct (Z.even (n / d)); reflexivity.
  - assert (H': IZR d < IZR (n mod d) * 2).
    { apply (Rmult_lt_reg_r (/ IZR d)); [now apply Rinv_0_lt_compat|].
      rewrite Rinv_r by lra. unfold Rdiv in H. lra. }
    rewrite <- mult_IZR in H'. apply lt_IZR in H'.
    destruct (Z.compare_spec (2 * (n mod d)) d); try lia.
Qed.

Lemma pow2_ratio m e : IZR (pow2_num m e) / IZR (Zpos (pow2_den e)) = F2R (Float radix2 (Zpos m) e).
Proof.
  unfold pow2_num, pow2_den, F2R. simpl Fnum. simpl Fexp.
  assert (H2: (0 < 2 ^ Z.max (- e) 0)%Z) by (apply Z.pow_pos_nonneg; lia).
  rewrite Z2Pos.id by assumption.
  destruct (Z.le_ge_cases 0 e).
  - rewrite Z.max_l by lia. rewrite Z.max_r by lia. simpl (2 ^ 0)%Z.
    rewrite mult_IZR. change 2%Z with (radix_val radix2). rewrite IZR_Zpower by lia. field.
  - rewrite Z.max_r by lia. rewrite Z.max_l by lia. simpl (2 ^ 0)%Z. rewrite Z.mul_1_r.
    change 2%Z with (radix_val radix2). rewrite IZR_Zpower by lia. rewrite bpow_opp.
    unfold Rdiv. rewrite Rinv_inv. reflexivity.
Qed.

Lemma ZnearestE_opp x : ZnearestE (- x) = (- ZnearestE x)%Z.
Proof.
  rewrite Znearest_opp. f_equal. unfold Znearest.
  destruct (Rcompare (x - IZR (Zfloor x)) (/2)); auto.
  rewrite Bool.negb_involutive.
  replace (- (Zfloor x + 1))%Z with (- Zfloor x - 1)%Z by lia.
  replace (Z.even (- Zfloor x - 1)) with (negb (Z.even (Zfloor x))).
  - destruct (Z.even (Zfloor x)); reflexivity.
  - rewrite Z.even_sub, Z.even_opp. simpl. destruct (Z.even (Zfloor x)); reflexivity.
Qed.

Lemma val_finite s m e H : val (B754_finite s m e H) = (if s then -1 else 1) * F2R (Float radix2 (Zpos m) e).
Proof.
  simpl. destruct s; unfold F2R; simpl; [change (Z.neg m) with (- Z.pos m)%Z; rewrite opp_IZR|]; ring.
Qed.

Lemma ZnearestE_IZR n : ZnearestE (IZR n) = n.
Proof. apply Zrnd_IZR. auto with typeclass_instances. Qed.

Lemma f_rnd_val x : fin x -> f_rnd x = Ok (ZnearestE (val x)).
Proof.
  unfold fin. destruct x as [s|s| |s m e H]; try discriminate; intros _.
  - simpl. f_equal. symmetry. change 0 with (IZR 0). apply ZnearestE_IZR.
  - rewrite val_finite. unfold f_rnd. f_equal. rewrite half_even_nearest by reflexivity.
    rewrite pow2_ratio. destruct s; simpl cond_opp.
    + replace (-1 * F2R (Float radix2 (Z.pos m) e)) with (- F2R (Float radix2 (Z.pos m) e)) by ring.
      now rewrite ZnearestE_opp.
    + f_equal. ring.
Qed.

Lemma f_trunc_val x : fin x -> f_trunc x = Ok (Ztrunc (val x)).
Proof.
  unfold fin. destruct x as [s|s| |s m e H]; try discriminate; intros _.
  - simpl. f_equal. symmetry. change 0 with (IZR 0). apply Ztrunc_IZR.
  - rewrite val_finite. unfold f_trunc. f_equal.
    assert (Hfl: (pow2_num m e / Z.pos (pow2_den e))%Z = Zfloor (F2R (Float radix2 (Z.pos m) e))).
    { rewrite <- pow2_ratio. symmetry. apply Zfloor_div. lia. }
    rewrite Hfl.
    assert (Hpos: 0 <= F2R (Float radix2 (Z.pos m) e)) by (apply F2R_ge_0; simpl; lia).
    destruct s; simpl cond_opp.
    + replace (-1 * F2R (Float radix2 (Z.pos m) e)) with (- F2R (Float radix2 (Z.pos m) e)) by ring.
      rewrite Ztrunc_opp. f_equal. symmetry. now apply Ztrunc_floor.
    + rewrite Rmult_1_l. symmetry. now apply Ztrunc_floor.
Qed.

(** round(x, 10) *)
Definition e10 : R := 10000000000.
Lemma e10_ten10 : IZR (Zpos ten10) = e10. Proof. reflexivity. Qed.

Definition dec10 (x : R) : Z := ZnearestE (x * e10).

Lemma dec10_opp x : dec10 (- x) = (- dec10 x)%Z.
Proof. unfold dec10. rewrite <- ZnearestE_opp. f_equal. ring. Qed.

Lemma ZnearestE_error x : Rabs (x - IZR (ZnearestE x)) <= / 2.
Proof. apply Znearest_half. Qed.

Lemma mantissa_bound m e : SpecFloat.bounded prec64 emax64 m e = true -> (Z.pos m < 2 ^ 53)%Z.
Proof.
  intros H. apply andb_prop in H. destruct H as [H _].
  unfold SpecFloat.canonical_mantissa in H. apply Zeq_bool_eq in H.
  rewrite fexp_FLT in H. unfold FLT_exp in H.
  rewrite Zpos_digits2_pos in H.
  assert (Hd := Zdigits_correct radix2 (Z.pos m)).
  assert (Hle: (Zdigits radix2 (Z.pos m) <= 53)%Z) by lia.
  apply Z.lt_le_trans with (2 ^ Zdigits radix2 (Z.pos m))%Z.
  - apply Hd.
  - apply Z.pow_le_mono_r; lia.
Qed.

Lemma f_rnd10_val x : fin x ->
  fin (f_rnd10 x) /\ val (f_rnd10 x) = rd (IZR (dec10 (val x)) / e10) /\ Bsign (f_rnd10 x) = Bsign x.
Proof.
  unfold fin. destruct x as [s|s| |s m e H]; try discriminate; intros _.
  - simpl. split; auto. split; auto. unfold dec10. rewrite Rmult_0_l.
    rewrite ZnearestE_IZR. unfold Rdiv. rewrite Rmult_0_l, rd_0. reflexivity.
  - unfold f_rnd10. destruct (Z.leb_spec 0 e) as [He|He].
    + split; auto. split; auto.
      set (x := B754_finite s m e H) in *.
      assert (Hint: val x = IZR (cond_Zopp s (Z.pos m) * 2 ^ e)).
      { unfold x. simpl. unfold F2R. simpl. rewrite mult_IZR. f_equal.
        change 2%Z with (radix_val radix2). now rewrite IZR_Zpower. }
      set (K := (cond_Zopp s (Z.pos m) * 2 ^ e)%Z) in *.
      unfold dec10. rewrite Hint. unfold e10 at 1.
      rewrite <- (mult_IZR K), ZnearestE_IZR, (mult_IZR K).
      replace (IZR K * 10000000000 / e10) with (IZR K) by (unfold e10; field).
      rewrite <- Hint. symmetry. apply rd_val.
    + rewrite half_even_nearest by reflexivity.
      set (y := F2R (Float radix2 (Z.pos m) e)).
      assert (Hy: 0 <= y) by (apply F2R_ge_0; simpl; lia).
      assert (Ey: IZR (Z.pos m * Z.pos ten10) / IZR (Z.pos (pow2_den e)) = y * e10).
      { unfold y. rewrite <- pow2_ratio. unfold pow2_num. rewrite Z.max_r by lia.
        simpl (2 ^ 0)%Z. rewrite !mult_IZR, e10_ten10. unfold Rdiv. ring. }
      rewrite Ey.
      assert (Hvy: val (B754_finite s m e H) = (if s then -1 else 1) * y) by apply val_finite.
      assert (Hyb: Rabs y <= bpow radix2 900).
      { rewrite Rabs_pos_eq by assumption. apply Rle_trans with (bpow radix2 53); [|apply bpow_le; lia].
        unfold y, F2R. simpl Fnum. simpl Fexp. apply Rle_trans with (IZR (Z.pos m) * bpow radix2 0).
        - apply Rmult_le_compat_l; [apply IZR_le; lia|apply bpow_le; lia].
        - change (bpow radix2 0) with 1. rewrite Rmult_1_r. rewrite <- (IZR_Zpower radix2) by lia.
          apply IZR_le. assert (Hmb := mantissa_bound _ _ H). change (radix2 ^ 53)%Z with (2^53)%Z. lia. }
      assert (Hd: IZR (ZnearestE (y * e10)) / e10 <= y + 1).
      { assert (Hz := ZnearestE_error (y * e10)).
        apply Rabs_le_inv in Hz. unfold e10 in *. lra. }
      assert (Hd0: (0 <= ZnearestE (y * e10))%Z).
      { assert (0 <= y * e10) by (apply Rmult_le_pos; [assumption|unfold e10; lra]).
        rewrite <- (ZnearestE_IZR 0). apply Zrnd_le; [auto with typeclass_instances|assumption]. }
      assert (Hb2: Rabs (IZR (ZnearestE (y * e10)) / IZR (Z.pos ten10)) <= big).
      { rewrite e10_ten10. rewrite Rabs_pos_eq.
        - apply Rle_trans with (y + 1); auto.
          rewrite Rabs_pos_eq in Hyb by assumption.
          apply Rle_trans with (bpow radix2 900 + bpow radix2 900).
          + apply Rplus_le_compat; auto. change 1 with (bpow radix2 0). apply bpow_le. lia.
          + unfold big. replace (bpow radix2 900 + bpow radix2 900) with (bpow radix2 901).
            * apply bpow_le. lia.
            * change 901%Z with (1 + 900)%Z. rewrite bpow_plus. change (bpow radix2 1) with 2. ring.
        - apply Rmult_le_pos; [now apply IZR_le|]. unfold e10. lra. }
      destruct (f_ratio_val s (ZnearestE (y * e10)) ten10 Hd0 Hb2) as (H1 & H2 & H3).
      split; [exact H1|]. split; [|rewrite H3; reflexivity].
      rewrite H2. rewrite e10_ten10, Hvy. f_equal. destruct s.
      * replace (-1 * y) with (- y) by ring. rewrite dec10_opp, opp_IZR. unfold dec10, Rdiv. ring.
      * rewrite !Rmult_1_l. reflexivity.
Qed.

Lemma f_rnd10_nonfinite x : ~ fin x -> f_rnd10 x = x.
Proof. unfold fin. destruct x; simpl; auto; intros H; exfalso; apply H; reflexivity. Qed.

(** ZnearestE picks the only integer within less than 1/2. *)
Lemma ZnearestE_unique x n : Rabs (x - IZR n) < / 2 -> ZnearestE x = n.
Proof. intros H. apply Znearest_imp. exact H. Qed.

Lemma f_eq_inj (x y : f64) : fin x -> fin y -> val x = val y -> Bsign x = Bsign y -> x = y.
Proof. intros. now apply B2R_Bsign_inj. Qed.

(** round(x, 10) twice is the same as once. *)
Lemma dec10_rd_small k : Rabs (IZR k / e10) <= bpow radix2 19 -> dec10 (rd (IZR k / e10)) = k.
Proof.
  intros H. unfold dec10. apply ZnearestE_unique.
  assert (He := rd_error (IZR k / e10) 19 ltac:(lia) H).
  change (bpow radix2 (19 - 54)) with (/ 34359738368) in He.
  set (r := rd (IZR k / e10)) in *. clearbody r.
  replace (r * e10 - IZR k) with ((r - IZR k / e10) * e10) by (unfold e10; field).
  rewrite Rabs_mult. rewrite (Rabs_pos_eq e10) by (unfold e10; lra).
  apply Rle_lt_trans with (/ 34359738368 * e10); [|unfold e10; lra].
  apply Rmult_le_compat_r; [unfold e10; lra|exact He].
Qed.

Lemma rd_nearest x y : generic_format radix2 (SpecFloat.fexp prec64 emax64) y ->
  Rabs (rd x - x) <= Rabs (y - x).
Proof.
  intros Hy. destruct (round_N_pt radix2 (SpecFloat.fexp prec64 emax64) (fun z => negb (Z.even z)) x) as [_ H].
  exact (H y Hy).
Qed.

(** Doubles at or above 2^e in magnitude are multiples of 2^(e-52). *)
Lemma format_multiple y e : generic_format radix2 (SpecFloat.fexp prec64 emax64) y ->
  (-1022 <= e)%Z -> bpow radix2 e <= Rabs y -> exists n, y = IZR n * bpow radix2 (e - 52).
Proof.
  intros Hy He H. rewrite Hy. unfold F2R. simpl Fnum. simpl Fexp.
  set (M := Ztrunc _). set (c := cexp radix2 _ y).
  assert (Hc: (e - 52 <= c)%Z).
  { unfold c, cexp. rewrite fexp_FLT. unfold FLT_exp.
    assert (e + 1 <= mag radix2 y)%Z by (apply mag_ge_bpow; replace (e + 1 - 1)%Z with e by lia; exact H).
    lia. }
  exists (M * 2 ^ (c - (e - 52)))%Z. rewrite mult_IZR.
  change 2%Z with (radix_val radix2) at 1. rewrite IZR_Zpower by lia.
  rewrite Rmult_assoc, <- bpow_plus. do 2 f_equal. lia.
Qed.

Lemma rd_format_rd x : generic_format radix2 (SpecFloat.fexp prec64 emax64) (rd x).
Proof. unfold rd. apply generic_format_round; auto with typeclass_instances. Qed.

Lemma dec10_rd_big_pos y : generic_format radix2 (SpecFloat.fexp prec64 emax64) y ->
  bpow radix2 19 <= y -> rd (IZR (dec10 y) / e10) = y.
Proof.
  intros Hy Hb. set (x' := IZR (dec10 y) / e10).
  assert (Hx: Rabs (x' - y) <= / 2 / e10).
  { assert (H := ZnearestE_error (y * e10)). fold (dec10 y) in H.
    apply Rabs_le_inv in H. apply Rabs_le. unfold x', e10 in *. lra. }
  destruct (format_multiple y 19 Hy ltac:(lia)) as (n & Hn).
  { rewrite Rabs_pos_eq; [exact Hb|]. apply Rle_trans with (2 := Hb). apply bpow_ge_0. }
  change (bpow radix2 (19 - 52)) with (/ 8589934592) in Hn.
  change (bpow radix2 19) with 524288 in Hb.
  destruct (Z_le_gt_dec n (524288 * 8589934592)) as [Hle|Hgt].
  - assert (E: y = IZR 524288).
    { apply IZR_le in Hle. rewrite mult_IZR in Hle. lra. }
    unfold x', dec10. rewrite E. unfold e10 at 1. rewrite <- mult_IZR, ZnearestE_IZR, mult_IZR.
    replace (524288 * 10000000000 / e10) with 524288 by (unfold e10; field).
    rewrite <- E. now apply rd_format.
  - assert (Hy1: 524288 + / 8589934592 <= y).
    { assert (H: (524288 * 8589934592 + 1 <= n)%Z) by lia. apply IZR_le in H.
      rewrite plus_IZR, mult_IZR in H. lra. }
    assert (Hx1: 524288 <= x').
    { apply Rabs_le_inv in Hx. unfold e10 in Hx. lra. }
    assert (Hr1: 524288 <= rd x').
    { rewrite <- (rd_IZR 524288) by lia. now apply rd_le. }
    destruct (format_multiple (rd x') 19 (rd_format_rd x') ltac:(lia)) as (n' & Hn').
    { rewrite Rabs_pos_eq by lra. exact Hr1. }
    change (bpow radix2 (19 - 52)) with (/ 8589934592) in Hn'.
    assert (Hr := rd_nearest x' y Hy).
    rewrite (Rabs_minus_sym y) in Hr.
    assert (Hd: Rabs (rd x' - y) <= / e10).
    { apply Rabs_le_inv in Hx. assert (Hr' := Rle_trans _ _ _ Hr (Rabs_le _ _ Hx)).
      apply Rabs_le_inv in Hr'. apply Rabs_le. unfold e10 in *. lra. }
    rewrite Hn, Hn' in Hd |- *.
    assert (n = n').
    { apply Rabs_le_inv in Hd. unfold e10 in Hd.
      assert (H1: IZR (n' - n) < 1) by (rewrite minus_IZR; lra).
      assert (H2: -1 < IZR (n' - n)) by (rewrite minus_IZR; lra).
      apply lt_IZR in H1. apply lt_IZR in H2. lia. }
    subst. reflexivity.
Qed.

Lemma dec10_idem x : rd (IZR (dec10 (rd (IZR (dec10 x) / e10))) / e10) = rd (IZR (dec10 x) / e10).
Proof.
  set (y := rd (IZR (dec10 x) / e10)).
  destruct (Rle_lt_dec (Rabs (IZR (dec10 x) / e10)) (bpow radix2 19)) as [H|H].
  - unfold y at 1. rewrite dec10_rd_small by exact H. reflexivity.
  - assert (Hy: bpow radix2 19 <= Rabs y).
    { unfold y. rewrite <- rd_abs, <- (rd_bpow 19) by lia. apply rd_le. lra. }
    assert (Hf: generic_format radix2 (SpecFloat.fexp prec64 emax64) y) by apply rd_format_rd.
    unfold Rabs in Hy. destruct (Rcase_abs y).
    + assert (E := dec10_rd_big_pos (- y) (generic_format_opp _ _ _ Hf) Hy).
      rewrite dec10_opp, opp_IZR in E.
      replace (- IZR (dec10 y) / e10) with (- (IZR (dec10 y) / e10)) in E by (unfold Rdiv; ring).
      rewrite rd_opp in E. lra.
    + now apply dec10_rd_big_pos.
Qed.

Lemma f_rnd10_idem x : f_rnd10 (f_rnd10 x) = f_rnd10 x.
Proof.
  destruct (is_finite x) eqn:E.
  - destruct (f_rnd10_val x E) as (H1 & H2 & H3).
    destruct (f_rnd10_val (f_rnd10 x) H1) as (H4 & H5 & H6).
    apply f_eq_inj; auto. rewrite H5, H2. apply dec10_idem.
  - rewrite (f_rnd10_nonfinite x) by (unfold fin; congruence).
    apply f_rnd10_nonfinite. unfold fin; congruence.
Qed.
