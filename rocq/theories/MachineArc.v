(** Arcs with radius words of moderate size keep the position on the grid and
    inside the table (C08), homing (C20). *)
From Coq Require Import String Ascii ZArith Bool Reals Lra Lia List.
From Flocq Require Import Core BinarySingleNaN.
From Verif Require Import PyBase PyNum PyFloatFacts Config Coordinates Pulses GCode GCodeSpec WordFacts GMachine GMachineProofs MachineFacts MachineRel MachineHist MachineFloat Decimal MachinePos.
From Coq Require Import List.
From Flocq Require Import Core.
Import ListNotations.
Local Open Scope R_scope.

(** Finite and at most 2^e in magnitude. *)
Definition bd (e : Z) (x : f64) : Prop := fin x /\ Rabs (val x) <= bpow radix2 e.

Lemma bd_weak e e' x : bd e x -> (e <= e')%Z -> bd e' x.
Proof. intros [F H] He. split; auto. eapply Rle_trans; [exact H|]. now apply bpow_le. Qed.
Lemma bd_big e x : Rabs x <= bpow radix2 e -> (e <= 1000)%Z -> Rabs x <= big.
Proof. intros H He. eapply Rle_trans; [exact H|]. now apply bpow_le. Qed.
Lemma bpow_double e : bpow radix2 e + bpow radix2 e = bpow radix2 (e + 1).
Proof. rewrite bpow_plus. change (bpow radix2 1) with 2. ring. Qed.
Lemma bd_add e x y : (-1074 <= e)%Z -> (e < 1000)%Z -> bd e x -> bd e y -> bd (e + 1) (f_add x y).
Proof.
  intros L He [Fx Hx] [Fy Hy].
  assert (B: Rabs (val x + val y) <= bpow radix2 (e + 1)).
  { rewrite <- bpow_double. eapply Rle_trans; [apply Rabs_triang|]. lra. }
  destruct (f_add_val x y Fx Fy) as [F V]; [eapply bd_big; eauto; lia|]. split; auto. rewrite V. apply rd_abs_le; [lia|exact B].
Qed.
Lemma bd_sub e x y : (-1074 <= e)%Z -> (e < 1000)%Z -> bd e x -> bd e y -> bd (e + 1) (f_sub x y).
Proof.
  intros L He [Fx Hx] [Fy Hy].
  assert (B: Rabs (val x - val y) <= bpow radix2 (e + 1)).
  { rewrite <- bpow_double. unfold Rminus. eapply Rle_trans; [apply Rabs_triang|]. rewrite Rabs_Ropp. lra. }
  destruct (f_sub_val x y Fx Fy) as [F V]; [eapply bd_big; eauto; lia|]. split; auto. rewrite V. apply rd_abs_le; [lia|exact B].
Qed.
Lemma bd_mul e1 e2 x y : (-1074 <= e1 + e2 <= 1000)%Z -> bd e1 x -> bd e2 y -> bd (e1 + e2) (f_mul x y).
Proof.
  intros He [Fx Hx] [Fy Hy].
  assert (B: Rabs (val x * val y) <= bpow radix2 (e1 + e2)).
  { rewrite Rabs_mult, bpow_plus. apply Rmult_le_compat; auto using Rabs_pos. }
  destruct (f_mul_val x y Fx Fy) as [F V]; [eapply bd_big; eauto; lia|]. split; auto. rewrite V. apply rd_abs_le; [lia|exact B].
Qed.
Lemma f_sqrt_nonneg x q : fin x -> f_sqrt x = Ok q -> 0 <= val x.
Proof.
  destruct x as [sx|sx| |sx mx ex Bx]; intros F; try discriminate; simpl; intros H; [lra|].
  destruct sx; [discriminate|]. apply F2R_ge_0. simpl. lia.
Qed.
Lemma bd_sqrt e x q : (-1074 <= e)%Z -> bd (e + e) x -> f_sqrt x = Ok q -> bd e q /\ 0 <= val q.
Proof.
  intros L [F H] E. assert (H0 := f_sqrt_nonneg x q F E).
  destruct (f_sqrt_val x F H0) as (q' & E' & Fq & Vq). rewrite E' in E. injection E as ->.
  assert (S: 0 <= sqrt (val x)) by apply sqrt_pos.
  assert (0 <= val q). { rewrite Vq, <- rd_0. now apply rd_le. }
  split; auto. split; auto. rewrite Vq. apply rd_abs_le; auto. rewrite Rabs_pos_eq by exact S.
  rewrite Rabs_pos_eq in H by exact H0. rewrite bpow_plus in H.
  rewrite <- (sqrt_square (bpow radix2 e)) by apply bpow_ge_0. now apply sqrt_le_1_alt.
Qed.
Lemma bd_opp e x : bd e x -> bd e (Bopp x).
Proof. intros [F H]. split; [now apply fin_opp|]. now rewrite val_opp, Rabs_Ropp. Qed.
Lemma bd_abs e x : bd e x -> bd e (Babs x).
Proof. intros [F H]. split; [now apply fin_abs|]. now rewrite val_abs, Rabs_Rabsolu. Qed.
Lemma bd_copysign e x y : bd e x -> bd e (f_copysign x y).
Proof. intros H. unfold f_copysign. destruct (Bsign y); [apply bd_opp|]; now apply bd_abs. Qed.
Lemma bd_rnd10 e x : (0 <= e)%Z -> bd e x -> bd e (f_rnd10 x).
Proof.
  intros L [F H]. destruct (f_rnd10_val x F) as (F' & V & _). split; auto. rewrite V. apply rd_abs_le; [lia|].
  assert (E: bpow radix2 e = IZR (2 ^ e)) by (symmetry; apply (IZR_Zpower radix2); lia).
  rewrite E in *. apply Rabs_le_inv in H. destruct H as [H1 H2].
  assert (G1 := dec10_ge (val x) (- 2 ^ e) ltac:(rewrite opp_IZR; lra)).
  assert (G2 := dec10_ge (- val x) (- 2 ^ e) ltac:(rewrite opp_IZR; lra)). rewrite dec10_opp in G2.
  unfold Rdiv. rewrite Rabs_mult, (Rabs_pos_eq (/ e10)), <- abs_IZR by (unfold e10; lra).
  apply Rmult_le_reg_r with e10; [unfold e10; lra|]. rewrite Rmult_assoc, Rinv_l, Rmult_1_r by (unfold e10; lra).
  change e10 with (IZR 10000000000). rewrite <- mult_IZR. apply IZR_le. lia.
Qed.

Section Arc.
Variable acos : f64 -> f64.
Notation N := (F64 acos).

(** Quotient by a number that is at least 1. *)
Lemma bd_div_ge1 e x y q : (-1074 <= e <= 1000)%Z -> bd e x -> fin y -> 1 <= val y -> f_div x y = Ok q -> bd e q.
Proof.
  intros He [Fx Hx] Fy Hy E.
  assert (B: Rabs (val x / val y) <= bpow radix2 e).
  { unfold Rdiv. rewrite Rabs_mult, (Rabs_pos_eq (/ val y)) by (left; apply Rinv_0_lt_compat; lra).
    apply Rle_trans with (Rabs (val x) * 1); [|lra]. apply Rmult_le_compat_l; [apply Rabs_pos|].
    rewrite <- Rinv_1. apply Rinv_le_contravar; lra. }
  destruct (f_div_val x y Fx Fy) as (q' & E' & F & V); [lra|eapply bd_big; eauto; lia|].
  rewrite E' in E. injection E as ->. split; auto. rewrite V. apply rd_abs_le; auto. lia.
Qed.

(** The end point on the circle is not far. [da - ra] and [db - rb] are either 0
    or not extremely small, because both are ten-decimals numbers. *)
Lemma circle_end_bound (r da db ra rb ea eb : N) eq kda kra :
  dec kda da -> small kda -> dec kra ra -> small kra ->
  bd 15 da -> bd 15 db -> bd 14 ra -> bd 14 rb -> bd 15 r ->
  circle_end_point (N:=N) r da db ra rb = Ok (ea, eb, eq) -> bd 16 ea /\ bd 16 eb.
Proof.
  intros Dd Sd Dr Sr Bda Bdb Bra Brb Br. unfold circle_end_point. cbn [eqb zero ofZ F64 sub add mul div absn sqrtn copysign].
  destruct (f_eq da (f_ofZ 0) && f_eq db (f_ofZ 0)) eqn:E0.
  { intros H. injection H as <- <- _. split; eapply bd_weak; eauto; lia. }
  clear E0.
  assert (Bda2: bd 16 (f_sub da ra)) by (apply (bd_sub 15); try lia; auto; eapply bd_weak; eauto; lia).
  assert (Bdb2: bd 16 (f_sub db rb)) by (apply (bd_sub 15); try lia; auto; eapply bd_weak; eauto; lia).
  assert (Brr: bd 30 (f_mul r r)) by (apply (bd_mul 15 15); try lia; auto).
  match goal with |- rbind ?c _ = _ -> _ => set (ear := c) end.
  assert (Hea: forall e, ear = Ok e -> bd 15 e).
  { unfold ear. intros e. destruct (f_eq (f_sub da ra) (f_ofZ 0)) eqn:Ez.
    - intros H. injection H as <-. split; [reflexivity|]. simpl. rewrite Rabs_R0. lra.
    - destruct (f_div (f_sub db rb) (f_sub da ra)) as [b|] eqn:Eb; [|discriminate]. cbn [rbind].
      assert (Hb: bd 51 b).
      { destruct Bda2 as [F1 H1], Bdb2 as [F2 H2].
        assert (Hge: bpow radix2 (-35) <= Rabs (val (f_sub da ra))).
        { destruct (f_sub_val da ra (proj1 Dd) (proj1 Dr)) as [Fs Vs].
          { apply big_27. destruct Bda as [_ Bda], Bra as [_ Bra]. unfold Rminus.
            eapply Rle_trans; [apply Rabs_triang|]. rewrite Rabs_Ropp. b2n. lra. }
          rewrite Vs. apply rd_ge; [lia|].
          assert (N0: val da - val ra <> 0).
          { intros E. assert (f_eq (f_sub da ra) (f_ofZ 0) = true); [|congruence].
            apply f_eq_zero; auto. rewrite Vs, E. apply rd_0. }
          assert (Hk: kda <> kra). { intros ->. apply N0. destruct Dd as [_ ->], Dr as [_ ->]. ring. }
          assert (E1 := dec_err _ _ Dd Sd). assert (E2 := dec_err _ _ Dr Sr).
          assert (E3: / e10 <= Rabs (IZR kda / e10 - IZR kra / e10)).
          { replace (IZR kda / e10 - IZR kra / e10) with (IZR (kda - kra) * / e10) by (rewrite minus_IZR; unfold Rdiv; ring).
            rewrite Rabs_mult, (Rabs_pos_eq (/ e10)), <- abs_IZR by (unfold e10; lra).
            assert (1 <= IZR (Z.abs (kda - kra))) by (apply IZR_le; lia).
            assert (0 < / e10) by (unfold e10; lra). nra. }
          b2n. replace (IZR kda / e10 - IZR kra / e10) with
            ((val da - val ra) - (val da - IZR kda / e10) + (val ra - IZR kra / e10)) in E3 by ring.
          assert (T := Rabs_triang (val da - val ra - (val da - IZR kda / e10)) (val ra - IZR kra / e10)).
          assert (T2 := Rabs_triang (val da - val ra) (- (val da - IZR kda / e10))). rewrite Rabs_Ropp in T2.
          unfold Rminus in *. assert (/ e10 >= / 17179869184) by (unfold e10; lra). lra. }
        assert (Hnz: val (f_sub da ra) <> 0).
        { intros E. rewrite E, Rabs_R0 in Hge. b2n. lra. }
        assert (B: Rabs (val (f_sub db rb) / val (f_sub da ra)) <= bpow radix2 51).
        { unfold Rdiv. rewrite Rabs_mult, Rabs_inv. change 51%Z with (16 + 35)%Z. rewrite bpow_plus.
          apply Rmult_le_compat; auto using Rabs_pos.
          - left. apply Rinv_0_lt_compat. now apply Rabs_pos_lt.
          - replace (bpow radix2 35) with (/ bpow radix2 (-35)) by (rewrite <- bpow_opp; reflexivity). apply Rinv_le_contravar; auto. apply bpow_gt_0. }
        destruct (f_div_val _ _ F2 F1 Hnz) as (q & Eq & Fq & Vq); [eapply bd_big; eauto; lia|].
        rewrite Eq in Eb. injection Eb as ->. split; auto. rewrite Vq. apply rd_abs_le; [lia|exact B]. }
      destruct (f_div (f_mul r r) (f_add (f_ofZ 1) (Babs b))) as [q|] eqn:Eq; [|discriminate]. cbn [rbind].
      destruct (f_sqrt q) as [s|] eqn:Es; [|discriminate]. cbn [rbind]. intros H. injection H as <-.
      apply bd_copysign. apply (bd_sqrt 15 q s); auto; try lia.
      destruct (f_ofZ_val 1) as [G1 V1]; [vm_compute; discriminate|].
      assert (Bs: bd 52 (f_add (f_ofZ 1) (Babs b))).
      { apply (bd_add 51); try lia; [|now apply bd_abs]. split; auto. rewrite V1, Rabs_pos_eq by lra.
        change 1 with (bpow radix2 0). apply bpow_le. lia. }
      apply (bd_div_ge1 30 (f_mul r r) (f_add (f_ofZ 1) (Babs b))); auto; try lia; [apply Bs|].
      destruct (f_add_val (f_ofZ 1) (Babs b)) as [_ Vs]; auto.
      { apply fin_abs. apply Hb. }
      { rewrite V1, val_abs, Rabs_pos_eq by (assert (X := Rabs_pos (val b)); lra).
        apply Rle_trans with (bpow radix2 51 + bpow radix2 51).
        - apply Rplus_le_compat; [|apply Hb]. change 1 with (bpow radix2 0). apply bpow_le. lia.
        - rewrite bpow_double. apply bpow_le. lia. }
      rewrite Vs, V1. change 1 with (bpow radix2 0) at 1. rewrite <- (rd_bpow 0) by lia. apply rd_le.
      change (bpow radix2 0) with 1. rewrite val_abs. assert (X := Rabs_pos (val b)). lra. }
  destruct ear as [e|]; [|discriminate]. cbn [rbind].
  specialize (Hea e eq_refl).
  destruct (f_sqrt (f_sub (f_mul r r) (f_mul e e))) as [s|] eqn:Es; [|discriminate]. cbn [rbind].
  intros H. injection H as <- <- _.
  assert (Hee: bd 30 (f_mul e e)) by (apply (bd_mul 15 15); try lia; auto).
  assert (Hsub: bd 30 (f_sub (f_mul r r) (f_mul e e))).
  { (* r*r - e*e is between 0 and r*r when the root exists *)
    assert (B31: bd 31 (f_sub (f_mul r r) (f_mul e e))) by (apply (bd_sub 30); try lia; auto).
    split; [apply B31|]. assert (P := f_sqrt_nonneg _ _ (proj1 B31) Es).
    rewrite Rabs_pos_eq by exact P.
    destruct (f_sub_val (f_mul r r) (f_mul e e)) as [_ V]; try apply Brr; try apply Hee.
    { unfold Rminus. eapply Rle_trans; [apply Rabs_triang|]. rewrite Rabs_Ropp.
      apply Rle_trans with (bpow radix2 30 + bpow radix2 30); [apply Rplus_le_compat; [apply Brr|apply Hee]|].
      rewrite bpow_double. apply bpow_le; lia. }
    rewrite V, <- (rd_bpow 30) by lia. apply rd_le.
    assert (0 <= val (f_mul e e)).
    { destruct (f_mul_val e e) as [_ V2]; try apply Hea.
      - destruct Hea as [_ Hx]. rewrite Rabs_mult. apply Rle_trans with (bpow radix2 15 * bpow radix2 15).
        + apply Rmult_le_compat; auto using Rabs_pos.
        + rewrite <- bpow_plus. apply bpow_le; lia.
      - rewrite V2, <- rd_0. apply rd_le. apply Rle_0_sqr. }
    destruct Brr as [_ Brr]. apply Rabs_le_inv in Brr. lra. }
  assert (Hs: bd 15 s) by (eapply (bd_sqrt 15); eauto; lia).
  split; apply (bd_add 15); try lia; auto; try (eapply bd_weak; eauto; lia).
  apply bd_copysign. exact Hs.
Qed.

Lemma adjust_bound (da db ra rb : N) rot pa pb ma mb ea eb kda kra :
  dec kda da -> small kda -> dec kra ra -> small kra ->
  bd 15 da -> bd 15 db -> bd 14 ra -> bd 14 rb ->
  adjust_circle (N:=N) da db ra rb rot pa pb ma mb = Ok (ea, eb) -> bd 16 ea /\ bd 16 eb.
Proof.
  intros Dd Sd Dr Sr Bda Bdb Bra Brb. unfold adjust_circle. cbn [sqrtn F64 add mul].
  destruct (f_sqrt (f_add (f_mul ra ra) (f_mul rb rb))) as [r|] eqn:Er; [|discriminate]. cbn [rbind].
  assert (Br: bd 15 r).
  { apply (bd_sqrt 15 (f_add (f_mul ra ra) (f_mul rb rb))); auto; try lia.
    apply (bd_weak 29); [|lia]. apply (bd_add 28); try lia; apply (bd_mul 14 14); auto; lia. }
  match goal with |- (if ?c then _ else _) = _ -> _ => destruct c; [discriminate|] end.
  destruct (circle_end_point (N:=N) r da db ra rb) as [[[ea' eb'] eq]|] eqn:Ec; [|discriminate]. cbn [rbind].
  destruct (quarters_ok 4 _ _ _ _ _ _ _ _ _ _); [|discriminate].
  intros H. injection H as <- <-. exact (circle_end_bound r da db ra rb _ _ eq kda kra Dd Sd Dr Sr Bda Bdb Bra Brb Br Ec).
Qed.

Variable cfg : config.
Hypothesis Hcfg : good_cfg cfg.
Notation p a := (ax a (ppm cfg)).
Notation t a := (table cfg a).
Notation acfg := (acfg cfg Hcfg).
Notation at_step := (at_step acos cfg).
Notation on_table := (on_table acos cfg).

(** A vector whose components along X, Y and Z are at most 2^e. *)
Definition bdq (e : Z) (q : quad N) : Prop := forall a, bd e (ax a q).

Lemma round_small e (d d' : quad N) a : (0 <= e <= 16)%Z -> round_to_grid cfg d = Ok d' -> bd e (ax a d) ->
  exists i, dec (i * step (p a)) (ax a d') /\ (Z.abs i <= 2 ^ e * p a)%Z.
Proof.
  intros He Hr [F B]. destruct (round_axes acos cfg Hcfg _ _ Hr a) as (b & y & Gb & Hy & E).
  assert (Hp := proj1 (acfg a)). assert (Hs := step_mul _ _ (acfg a)).
  assert (B16: Rabs (val (ax a d)) <= bpow radix2 16) by (eapply Rle_trans; [exact B|apply bpow_le; lia]).
  destruct (round1_val acos (p a) Hp b Gb _ F B16) as (i & E1 & E2 & E3 & _).
  rewrite E1 in Hy. injection Hy as <-. exists i. rewrite E. split.
  - apply (grid_mul (p a) Hp b Gb _ Hs). exact E3.
  - assert (Pp := p_pos (p a) Hp).
    enough (H: (Z.abs i < 2 ^ e * p a + 1)%Z) by lia.
    apply lt_IZR. rewrite abs_IZR, plus_IZR, mult_IZR. b2n.
    rewrite <- (IZR_Zpower radix2) in B by lia. change (IZR (radix2 ^ e)) with (IZR (2 ^ e)) in B.
    replace (IZR i) with ((IZR i - val (ax a d) * IZR (p a)) + val (ax a d) * IZR (p a)) by ring.
    eapply Rle_lt_trans; [apply Rabs_triang|].
    rewrite (Rabs_mult (val (ax a d))), (Rabs_pos_eq (IZR (p a))) by lra.
    assert (Rabs (val (ax a d)) * IZR (p a) <= IZR (2 ^ e) * IZR (p a)) by (apply Rmult_le_compat_r; lra).
    assert (IZR (p a) <= 1000) by (apply IZR_le; lia). lra.
Qed.

Lemma at_step_bd m a n : at_step m a n -> bd 12 (ax a (m_position m)).
Proof.
  intros [D I]. split; [apply D|]. rewrite (proj2 D). apply rd_abs_le; [lia|].
  assert (Hp := proj1 (acfg a)). assert (Hs := step_mul _ _ (acfg a)).
  assert (S := inside_small _ _ (acfg a) _ I). rewrite (step_R (p a) Hp _ Hs). assert (Pp := p_pos (p a) Hp).
  unfold Rdiv. rewrite Rabs_mult, (Rabs_pos_eq (/ IZR (p a))), <- abs_IZR by (left; now apply Rinv_0_lt_compat).
  apply Rmult_le_reg_r with (IZR (p a)); [lra|]. rewrite Rmult_assoc, Rinv_l, Rmult_1_r by lra.
  change (bpow radix2 12) with 4096. rewrite <- mult_IZR. now apply IZR_le.
Qed.
Lemma step_bd e j a x : dec (j * step (p a)) x -> (0 <= e)%Z -> (Z.abs j <= 2 ^ e * p a)%Z -> bd e x.
Proof.
  intros D He S. split; [apply D|]. rewrite (proj2 D). apply rd_abs_le; [lia|].
  assert (Hp := proj1 (acfg a)). assert (Hs := step_mul _ _ (acfg a)).
  rewrite (step_R (p a) Hp _ Hs). assert (Pp := p_pos (p a) Hp).
  unfold Rdiv. rewrite Rabs_mult, (Rabs_pos_eq (/ IZR (p a))), <- abs_IZR by (left; now apply Rinv_0_lt_compat).
  apply Rmult_le_reg_r with (IZR (p a)); [lra|]. rewrite Rmult_assoc, Rinv_l, Rmult_1_r by lra.
  rewrite <- (IZR_Zpower radix2) by lia. rewrite <- mult_IZR. apply IZR_le. exact S.
Qed.

(** The plane's axes. *)
Definition pa_ (pl : plane) : axis := match pl with PlaneXY => AX | PlaneYZ => AY | PlaneZX => AZ end.
Definition pb_ (pl : plane) : axis := match pl with PlaneXY => AY | PlaneYZ => AZ | PlaneZX => AX end.
Lemma axis_a_ax {A} pl (q : quad A) : axis_a pl q = ax (pa_ pl) q. Proof. now destruct pl. Qed.
Lemma axis_b_ax {A} pl (q : quad A) : axis_b pl q = ax (pb_ pl) q. Proof. now destruct pl. Qed.

Lemma circular_axes delta radius v rot m ce ld g lg :
  on_table m -> bdq 14 radius -> circular_ok cfg delta radius v rot m ce ld g lg ->
  forall a n, at_step m a n ->
  exists j d, round_to_grid cfg delta = Ok d /\ dec (j * step (p a)) (ax a d) /\ (Z.abs j <= 4096 * p a)%Z /\
    at_step (set_position m (cadd (cadd (m_position m) ce) ld)) a (n + j).
Proof.
  intros Hm Hrad [d rr ea eb Hd Hrr Hbox Had Hce Hg Hf Hld Hlg] a n Hn.
  assert (Hj: forall a n, at_step m a n -> exists j, dec (j * step (p a)) (ax a d) /\ (Z.abs j <= 4096 * p a)%Z
             /\ at_step (set_position m (cadd (m_position m) d)) a (n + j)).
  { clear a n Hn. intros a n Hn. destruct (linear_axis acos cfg Hcfg m delta d a n Hn Hd Hbox) as (j & Dj & _ & Hm').
    exists j. split; [exact Dj|]. split; [|exact Hm'].
    destruct Hn as [_ I1], Hm' as [_ I2]. unfold inside in I1, I2. destruct (acfg a) as (H1 & _ & H2). assert (t a * p a <= 4096 * p a)%Z by (apply Z.mul_le_mono_nonneg_r; lia). lia. }
  destruct (Hj a n Hn) as (j & Dj & Sj & Hnj). exists j, d. split; [exact Hd|]. split; [exact Dj|]. split; [exact Sj|]. split; [|apply Hnj].
  assert (Hp := proj1 (acfg a)). assert (Hs := step_mul _ _ (acfg a)).
  (* the rounded radius *)
  assert (Hrr2: forall a, exists i, dec (i * step (p a)) (ax a rr) /\ (Z.abs i <= 16384 * p a)%Z).
  { intros a0. apply (round_small 14 radius); auto; lia. }
  (* the end of the arc is at most 2^16 away *)
  assert (Hv: bd 16 (ax a (from_axes (m_plane m) ea eb (axis_c (m_plane m) d) (qe d)))).
  { assert (Hd15: forall a, bd 12 (ax a d)).
    { intros a0. destruct (Hm a0) as (n0 & Hn0). destruct (Hj a0 n0 Hn0) as (j0 & Dj0 & Sj0 & _).
      eapply step_bd; eauto; lia. }
    assert (Hab: bd 16 ea /\ bd 16 eb).
    { rewrite !axis_a_ax, !axis_b_ax in Had.
      destruct (Hm (pa_ (m_plane m))) as (n0 & Hn0). destruct (Hj _ n0 Hn0) as (j0 & Dj0 & Sj0 & _).
      destruct (Hrr2 (pa_ (m_plane m))) as (i0 & Di0 & Si0).
      assert (Hr14: forall a, bd 14 (ax a rr)).
      { intros a0. destruct (Hrr2 a0) as (i1 & Di1 & Si1). eapply step_bd; eauto; lia. }
      eapply (adjust_bound _ _ _ _ _ _ _ _ _ _ _ (j0 * step (p (pa_ (m_plane m)))) (i0 * step (p (pa_ (m_plane m)))));
        try exact Had; auto.
      - apply (step_small (p (pa_ (m_plane m))) (proj1 (acfg _))); [exact (step_mul _ _ (acfg (pa_ (m_plane m))))|destruct (acfg (pa_ (m_plane m))); lia].
      - apply (step_small (p (pa_ (m_plane m))) (proj1 (acfg _))); [exact (step_mul _ _ (acfg (pa_ (m_plane m))))|destruct (acfg (pa_ (m_plane m))); lia].
      - eapply bd_weak; [apply Hd15|lia].
      - eapply bd_weak; [apply Hd15|lia]. }
    destruct Hab as [Ha Hb].
    assert (Hc: bd 16 (axis_c (m_plane m) d)).
    { assert (X := Hd15 (match m_plane m with PlaneXY => AZ | PlaneYZ => AX | PlaneZX => AY end)).
      destruct (m_plane m); cbn [ax axis_c] in *; eapply bd_weak; try exact X; lia. }
    destruct a, (m_plane m); cbn [from_axes ax qx qy qz]; assumption. }
  destruct (round_small 16 _ ce a ltac:(lia) Hce Hv) as (i & Di & Si).
  destruct Hn as [Dn In]. assert (Sn := inside_small _ _ (acfg a) _ In).
  assert (K: forall z, (Z.abs z <= 131072 * p a)%Z -> small (z * step (p a))) by (intros; now apply (step_small (p a) Hp)).
  cbn [m_position set_position]. subst ld. rewrite !ax_cadd, ax_csub.
  assert (A1 := dec_add _ _ _ _ Dn Di ltac:(apply K; lia) ltac:(apply K; lia)).
  assert (A2 := dec_sub _ _ _ _ Dj Di ltac:(apply K; lia) ltac:(apply K; lia)).
  rewrite <- Z.mul_add_distr_r in A1. rewrite <- Z.mul_sub_distr_r in A2.
  assert (A3 := dec_add _ _ _ _ A1 A2 ltac:(apply K; lia) ltac:(apply K; lia)).
  rewrite <- Z.mul_add_distr_r in A3. replace (n + i + (j - i))%Z with (n + j)%Z in A3 by ring. exact A3.
Qed.

(* ---------- the invariant over histories ---------- *)
Definition inch : f64 := f_ofdec false 254 1.
Definition units_ok (m : machine N) : Prop := m_convert m = f_ofZ 1 \/ m_convert m = inch.

Lemma inch_val : fin inch /\ 25 <= val inch <= 26.
Proof.
  destruct (ofdec_val false 254 1) as [F V]; [lia| |].
  - apply big_27. unfold sgn. b2n. rewrite Rabs_pos_eq; simpl; lra.
  - split; [exact F|]. unfold inch. rewrite V. unfold sgn.
    rewrite <- (rd_IZR 25), <- (rd_IZR 26) by lia. split; apply rd_le; simpl; lra.
Qed.
Lemma one_val : fin (f_ofZ 1) /\ val (f_ofZ 1) = 1.
Proof. apply f_ofZ_val. lia. Qed.
Lemma units_val m : units_ok m -> fin (m_convert m) /\ 1 <= val (m_convert m) <= 26.
Proof.
  intros [->| ->].
  - destruct one_val as [F V]. split; [exact F|]. rewrite V. lra.
  - destruct inch_val as [F V]. split; [exact F|]. lra.
Qed.

Lemma exec_units hw g c d rr v m l m' l' r :
  exec_cmd cfg hw g c d rr v m l = (m', l', r) -> units_ok m -> units_ok m'.
Proof.
  intros H U. destruct (writes_units c) eqn:W.
  - destruct c; try discriminate W; cbn [exec_cmd] in H; apply modify_inv in H; destruct H as (-> & _).
    + right. reflexivity.
    + left. reflexivity.
    + left. reflexivity.
  - unfold units_ok. rewrite (frame_units cfg hw g c d rr v W _ _ _ _ _ H). exact U.
Qed.
Lemma command_units hw gc m m' es r : run_command cfg hw gc m = (m', es, r) -> units_ok m -> units_ok m'.
Proof.
  intros H U. unfold run_command in H. destruct gc as [g|].
  - apply do_command_inv in H. destruct H; auto. eapply exec_units in H5; eauto. destruct r; auto.
  - apply ret_inv in H. now destruct H as (-> & _).
Qed.
Lemma history_units P m es : history_where (N:=N) P cfg m es -> units_ok m.
Proof. intros H. induction H; [left; reflexivity|]. eapply command_units; eauto. Qed.

(** Words with letters [ks] are at most [b] in magnitude. *)
Definition words_at_most (ks : list ascii) (b : R) (g : gcode) : Prop :=
  forall k lit x, In k ks -> lookup g k = Some lit -> LiteralValue lit x -> Rabs x <= b.

Lemma get_scaled ks (b : Z) g k (dflt y : N) m : (0 <= b <= 1000000)%Z ->
  words_at_most ks (IZR b) g -> In k ks -> units_ok m ->
  get (N:=N) g k dflt (m_convert m) = Ok y ->
  (lookup g k = None /\ y = dflt) \/ (fin y /\ Rabs (val y) <= IZR (b * 26)).
Proof.
  intros Hb Hw Hk U H. assert (H' := H). apply get_cases in H'. destruct H' as [H'|(lit & s & n & dd & Hl & Hd & ->)]; [now left|right].
  destruct (decimal_LiteralValue _ _ _ _ Hd) as [Hn Hlv].
  assert (B := Hw k lit _ Hk Hl Hlv).
  assert (Hb2: Rabs (sgn s * (IZR n / 10 ^ dd)) <= big).
  { apply big_27. eapply Rle_trans; [exact B|]. b2n. destruct Hb as [_ Hb]. apply IZR_le in Hb. lra. }
  destruct (ofdec_val s n dd Hn Hb2) as [Fy Vy].
  assert (By: Rabs (val (f_ofdec s n dd)) <= IZR b).
  { rewrite Vy, <- rd_abs, <- (rd_IZR b) by lia. now apply rd_le. }
  destruct (units_val m U) as [Fc Bc].
  assert (Bm: Rabs (val (f_ofdec s n dd) * val (m_convert m)) <= IZR (b * 26)).
  { rewrite Rabs_mult, mult_IZR. apply Rmult_le_compat; auto using Rabs_pos. rewrite Rabs_pos_eq; lra. }
  destruct (f_mul_val _ _ Fy Fc) as [F V].
  { apply big_27. eapply Rle_trans; [exact Bm|]. rewrite mult_IZR. b2n. destruct Hb as [_ Hb]. apply IZR_le in Hb. lra. }
  split; [exact F|]. rewrite V, <- rd_abs, <- (rd_IZR (b * 26)) by lia. now apply rd_le.
Qed.

Definition radius_letters : list ascii := ["I"; "J"; "K"]%char.
(** If the line is an arc, its radius words are at most 600 (mm or inches). *)
Definition small_radius (gc : option gcode) : Prop :=
  no_arc gc \/ match gc with None => True | Some g => words_at_most radius_letters 600 g end.

Lemma bd_zero e : bd e (f_ofZ 0).
Proof.
  destruct (f_ofZ_val 0) as [F V]; [lia|]. split; [exact F|]. rewrite V, Rabs_R0. apply bpow_ge_0.
Qed.
Lemma radius_bound g m rr : words_at_most radius_letters 600 g -> units_ok m ->
  get_radius (N:=N) g coords0 (m_convert m) = Ok rr -> bdq 14 rr.
Proof.
  intros Hw U H. unfold get_radius in H.
  destruct (get g "I" _ _) as [i|] eqn:Ei; [|discriminate]. cbn [rbind] in H.
  destruct (get g "J" _ _) as [j|] eqn:Ej; [|discriminate]. cbn [rbind] in H.
  destruct (get g "K" _ _) as [k|] eqn:Ek; [|discriminate]. cbn [rbind] in H. injection H as <-.
  assert (G: forall c (x : N), In c radius_letters -> (forall d, bd 14 d -> get (N:=N) g c d (m_convert m) = Ok x -> bd 14 x)).
  { intros c x Hc d0 Bd Hg. apply (get_scaled radius_letters 600) in Hg; auto; try lia.
    destruct Hg as [(_ & ->)|[F B]]; auto. split; auto. b2n. eapply Rle_trans; [exact B|]. simpl. lra. }
  assert (Z14: bd 14 (f_rnd10 (f_ofZ 0))) by (apply bd_rnd10; [lia|apply bd_zero]).
  intros a. destruct a; cbn [ax coords qx qy qz]; apply bd_rnd10; try lia.
  - eapply (G "I"%char); [|exact Z14|exact Ei]. simpl. auto.
  - eapply (G "J"%char); [|exact Z14|exact Ej]. simpl. auto.
  - eapply (G "K"%char); [|exact Z14|exact Ek]. simpl. auto.
Qed.

Lemma linear_on_table hw d v m l m' l' r :
  move_linear cfg hw d v m l = (m', l', r) -> on_table m -> on_table m'.
Proof.
  intros H Ht. apply move_linear_inv in H. destruct H; auto.
  intros a. destruct (Ht a) as (n & Hn). destruct (linear_axis acos cfg Hcfg _ _ _ _ _ Hn H H1) as (j & _ & _ & Hj). eauto.
Qed.
Lemma safe_zero_on_table hw x y z m l m' l' r :
  safe_zero cfg hw x y z m l = (m', l', r) -> on_table m -> on_table m'.
Proof.
  intros H Ht. unfold safe_zero in H. apply bind_inv in H. destruct H as [(e & H & _)|(mm & m1 & l1 & H & H2)];
    apply gets_inv in H; destruct H as (-> & -> & H); auto. injection H as ->.
  apply bind_inv in H2.
  assert (K: forall d v1 m l m' l' r, move_linear cfg hw d v1 m l = (m', l', r) -> on_table m -> on_table m')
    by (intros; eapply linear_on_table; eauto).
  destruct H2 as [(e & H & _)|(u & m1 & l1 & H & H2)].
  - destruct (x && negb y), (y && negb x), (x && y); eauto; apply ret_inv in H; now destruct H as (-> & _).
  - assert (Ht1: on_table m1).
    { destruct (x && negb y), (y && negb x), (x && y); eauto; apply ret_inv in H; now destruct H as (-> & _). }
    destruct z.
    + apply bind_inv in H2. destruct H2 as [(e & H2 & _)|(mm & m2 & l2 & H2 & H3)];
        apply gets_inv in H2; destruct H2 as (-> & -> & H2); auto. eauto.
    + apply ret_inv in H2. now destruct H2 as (-> & _).
Qed.

Lemma position_on_table m m' : m_position m' = m_position m -> on_table m -> on_table m'.
Proof. intros E H a. destruct (H a) as (n & Hn). exists n. eapply at_step_position; eauto. Qed.

Lemma exec_on_table hw g c d rr v m l m' l' r :
  exec_cmd cfg hw g c d rr v m l = (m', l', r) -> (is_arc c = true -> bdq 14 rr) -> on_table m -> on_table m'.
Proof.
  intros H Hrr Ht. destruct (writes_position c) eqn:W.
  - assert (CIRC: is_arc c = true -> forall rot m l m' l' r, move_circular cfg hw d rr v rot m l = (m', l', r) -> on_table m -> on_table m').
    { clear H Ht m l m' l' r. intros Ha rot m l m' l' r H Ht. apply move_circular_inv in H.
      destruct H as [ce ld g0 lg Hok| |]; auto.
      intros a. destruct (Ht a) as (n & Hn).
      destruct (circular_axes d rr v rot m ce ld g0 lg Ht (Hrr Ha) Hok a n Hn) as (j & d1 & _ & _ & _ & Hj). eauto. }
    destruct c; try discriminate W; cbn [exec_cmd] in H.
    + apply bind_inv in H. destruct H as [(e & H & _)|(vl & m1 & l1 & H & H2)];
        apply lift_inv in H; destruct H as (-> & -> & _); auto. eapply linear_on_table; eauto.
    + eapply linear_on_table; eauto.
    + eauto.
    + eauto.
    + destruct (if negb (has g "X" || has g "Y" || has g "Z") then (true, true, true)
                else (has g "X", has g "Y", has g "Z")) as [[x y] z].
      apply bind_inv in H. destruct H as [(e & H & _)|(u & m1 & l1 & H & H2)]; [eapply safe_zero_on_table; eauto|].
      apply safe_zero_on_table in H; [|exact Ht]. eapply position_on_table; [|exact H].
      minv; reflexivity.
  - eapply position_on_table; [|exact Ht]. exact (frame_position cfg hw g c d rr v W _ _ _ _ _ H).
Qed.

Lemma init_on_table : on_table (init_machine cfg).
Proof. intros a. exists 0%Z. apply init_at, Hcfg. Qed.

Lemma history_on_table (P : hw_oracle N -> option gcode -> Prop) m es :
  (forall hw gc, P hw gc -> small_radius gc) ->
  history_where P cfg m es -> on_table m.
Proof.
  intros HP H. induction H as [|m es hw gc m' es' r H IH Hgc Hr]; [apply init_on_table|].
  assert (U := history_units _ _ _ H). apply HP in Hgc. unfold run_command in Hr.
  destruct gc as [g|].
  - apply do_command_inv in Hr. destruct Hr; auto.
    assert (Hb: is_arc c = true -> bdq 14 radius).
    { intros Ha. destruct Hgc as [Hn|Hw]; [|exact (radius_bound _ _ _ Hw U H2)].
      rewrite (no_arc_cmd _ _ _ Hn H4 H5) in Ha. discriminate. }
    assert (X := exec_on_table _ _ _ _ _ _ _ _ _ _ _ H6 Hb IH).
    destruct r; exact X.
  - apply ret_inv in Hr. now destruct Hr as (-> & _).
Qed.

(** Table limits as a statement about numbers. *)
Lemma at_step_nearest m a n : at_step m a n ->
  nearest_to (p a) n (ax a (m_position m)) /\ (0 <= n <= t a * p a)%Z /\
  0 <= val (ax a (m_position m)) <= IZR (t a).
Proof.
  intros [D I]. split; [now apply (nearest_dec _ (t a)); [apply acfg|]|]. split; [exact I|].
  assert (S: small (n * step (p a))).
  { apply (step_small (p a) (proj1 (acfg a)) _ (step_mul _ _ (acfg a))). assert (X := inside_small _ _ (acfg a) _ I). destruct (acfg a). lia. }
  split.
  - apply (dec_ge_0 _ _ D S). assert (E := step_mul _ _ (acfg a)). unfold inside in I. destruct (acfg a). nia.
  - apply (dec_le_int _ _ _ D S). assert (E := step_mul _ _ (acfg a)). unfold inside in I. destruct (acfg a).
    rewrite <- E. nia.
Qed.
End Arc.
