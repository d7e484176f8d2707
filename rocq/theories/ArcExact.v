(** Arcs in exact arithmetic, in a plane with equal steps: where they end, and
    that full circles stay inside the working area. *)
From Coq Require Import ZArith Bool Reals Lra Lia List Psatz.
From Flocq Require Import Core.
From Verif Require Import PyBase PyNum Config Coordinates Pulses PulseSpec GMachine GMachineProofs LinearGen LinearReal ArcSpec ArcRun ArcMake ArcTravel ArcReal ArcAdjust ArcTotal ArcQuarters.
From Coq Require Import List.
From Flocq Require Import Core.
Import ListNotations.
Local Open Scope R_scope.

(* ---------- angles ---------- *)
Lemma sin_acos_abs (a b r : R) : 0 < r -> a * a + b * b = r * r -> r * sin (acos (b / r)) = Rabs a.
Proof.
  intros Hr E. assert (E1: b / r * r = b) by (field; lra).
  assert (Q: 1 - b / r * (b / r) = a / r * (a / r)).
  { apply Rmult_eq_reg_r with (r * r); [|nra]. replace ((1 - b / r * (b / r)) * (r * r)) with (r * r - b * b) by (field; lra). replace (a / r * (a / r) * (r * r)) with (a * a) by (field; lra). lra. }
  rewrite sin_acos.
  - unfold Rsqr. rewrite Q. change (a / r * (a / r)) with (Rsqr (a / r)). rewrite sqrt_Rsqr_abs. unfold Rdiv. rewrite Rabs_mult, (Rabs_pos_eq (/ r)) by (left; now apply Rinv_0_lt_compat). field. lra.
  - assert (0 <= a / r * (a / r)) by nra. nra.
Qed.
Lemma angle_polar (a b an : R) : 0 < a * a + b * b -> angle_of (N:=RN) a b = Ok an ->
  0 <= an < 2 * PI /\ a = sqrt (a * a + b * b) * sin an /\ b = sqrt (a * a + b * b) * cos an.
Proof.
  intros H E. destruct (angle_ok a b H) as (an' & E' & B). rewrite E in E'. injection E' as <-. split; [exact B|].
  assert (S := sqrt_lt_R0 _ H). assert (SQ := sqrt_sqrt (a * a + b * b) ltac:(lra)). set (r := sqrt (a * a + b * b)) in *.
  unfold angle_of in E. change (add (p:=RN)) with Rplus in E. change (mul (p:=RN)) with Rmult in E.
  rewrite sqrt_R in E by lra. cbn [rbind] in E. fold r in E. rewrite div_R in E by lra. cbn [rbind] in E.
  assert (BR: -1 <= b / r <= 1). { assert (E1: b / r * r = b) by (field; lra). assert (b / r * (b / r) <= 1) by (apply Rmult_le_reg_r with (r * r); [nra|]; replace (b / r * (b / r) * (r * r)) with (b * b) by (field; lra); nra). nra. }
  cbn [acosn RN] in E. destruct (Rlt_dec 1 (b / r)); [lra|]. destruct (Rlt_dec (b / r) (-1)); [lra|]. cbn [rbind] in E. injection E as E.
  change (@zero RN) with 0 in E. change (ltb (p:=RN) a 0) with (Rltb a 0) in E. change ((if Rltb a 0 then 2 * PI - acos (b / r) else acos (b / r)) = an) in E.
  assert (SA := sin_acos_abs a b r S ltac:(lra)). assert (CA: r * cos (acos (b / r)) = b) by (rewrite cos_acos by exact BR; field; lra).
  destruct (Rltb a 0) eqn:A.
  - apply Rltb_true in A. rewrite Rabs_left in SA by exact A. subst an. replace (2 * PI - acos (b / r)) with (- acos (b / r) + 2 * PI) by ring.
    rewrite sin_plus, cos_plus, sin_2PI, cos_2PI, sin_neg, cos_neg. split; lra.
  - apply Rltb_false in A. rewrite Rabs_pos_eq in SA by exact A. subst an. split; lra.
Qed.
(** The eight directions and the angle. *)
Lemma regions (a b an : R) : 0 < a * a + b * b -> angle_of (N:=RN) a b = Ok an ->
  (an = 0 /\ a = 0 /\ 0 < b) \/ (0 < an < PI / 2 /\ 0 < a /\ 0 < b) \/ (an = PI / 2 /\ 0 < a /\ b = 0) \/ (PI / 2 < an < PI /\ 0 < a /\ b < 0) \/
  (an = PI /\ a = 0 /\ b < 0) \/ (PI < an < 3 * (PI / 2) /\ a < 0 /\ b < 0) \/ (an = 3 * (PI / 2) /\ a < 0 /\ b = 0) \/ (3 * (PI / 2) < an < 2 * PI /\ a < 0 /\ 0 < b).
Proof.
  intros H E. destruct (angle_polar a b an H E) as (B & Ea & Eb). assert (P := PI_RGT_0). assert (S := sqrt_lt_R0 _ H). set (r := sqrt (a * a + b * b)) in *.
  destruct (Req_dec an 0) as [E0|N0]; [left; rewrite E0, ?sin_0, ?cos_0 in *; lra|].
  destruct (Rlt_dec an (PI / 2)) as [L1|L1].
  { right. left. assert (0 < sin an) by (apply sin_gt_0; lra). assert (0 < cos an) by (apply cos_gt_0; lra). repeat split; [lra|lra|nra|nra]. }
  destruct (Req_dec an (PI / 2)) as [E1|N1]; [do 2 right; left; rewrite E1, ?sin_PI2, ?cos_PI2 in *; repeat split; lra|].
  destruct (Rlt_dec an PI) as [L2|L2].
  { do 3 right. left. assert (0 < sin an) by (apply sin_gt_0; lra). assert (cos an < 0) by (apply cos_lt_0; lra). repeat split; [lra|lra|nra|nra]. }
  destruct (Req_dec an PI) as [E2|N2]; [do 4 right; left; rewrite E2, ?sin_PI, ?cos_PI in *; repeat split; lra|].
  destruct (Rlt_dec an (3 * (PI / 2))) as [L3|L3].
  { do 5 right. left. assert (sin an < 0) by (apply sin_lt_0; lra). assert (cos an < 0) by (apply cos_lt_0; lra). repeat split; [lra|lra|nra|nra]. }
  destruct (Req_dec an (3 * (PI / 2))) as [E3|N3]; [do 6 right; left; rewrite E3 in *|].
  { assert (S3: sin (3 * (PI / 2)) = -1) by exact sin_3PI2. assert (C3: cos (3 * (PI / 2)) = 0) by (rewrite cos_3PI2; reflexivity). rewrite S3 in Ea. rewrite C3 in Eb. repeat split; lra. }
  do 7 right. assert (sin an < 0) by (apply sin_lt_0; lra).
  assert (0 < cos an). { replace an with ((an - 2 * PI) + 2 * PI) by ring. rewrite cos_plus, sin_2PI, cos_2PI. assert (0 < cos (an - 2 * PI)) by (apply cos_gt_0; lra). lra. }
  repeat split; [lra|lra|nra|nra].
Qed.
Lemma trunc_quarter (an : R) (q : Z) : (0 <= q)%Z -> IZR q * (PI / 2) <= an < (IZR q + 1) * (PI / 2) -> Ztrunc (an / (PI / 2)) = q.
Proof.
  intros Hq [L U]. assert (P := PI_RGT_0). assert (E: an / (PI / 2) * (PI / 2) = an) by (field; lra).
  apply (IZR_le 0) in Hq. assert (L': IZR q <= an / (PI / 2)) by nra. assert (U': an / (PI / 2) < IZR q + 1) by nra.
  rewrite Ztrunc_floor by lra. apply Zfloor_imp. rewrite plus_IZR. split; assumption.
Qed.

(* ---------- the constructor on the grid ---------- *)
Section Exact.
Variable cfg : config.
Variables (delta radius : quad RN) (pl : plane) (rot : rotation) (v : RN).
Variable g : circular_gen RN.
Hypothesis M : made cfg delta radius pl rot v g.
Variable p : Z.
Hypothesis Hp : (0 < p)%Z.
Hypothesis Pa : axis_a pl (ppm cfg) = p.
Hypothesis Pb : axis_b pl (ppm cfg) = p.
(** Start and end of the arc from its centre, in steps. *)
Variables sa sb ea eb : Z.
Hypothesis Sa : axis_a pl radius = - (IZR sa / IZR p) :> R.
Hypothesis Sb : axis_b pl radius = - (IZR sb / IZR p) :> R.
Hypothesis Ea : axis_a pl delta = IZR (ea - sa) / IZR p :> R.
Hypothesis Eb : axis_b pl delta = IZR (eb - sb) / IZR p :> R.
Hypothesis Hs : (sa <> 0 \/ sb <> 0)%Z.
Hypothesis He : (ea <> 0 \/ eb <> 0)%Z.

Lemma p_pos : 0 < IZR p.
Proof. now apply (IZR_lt 0). Qed.
(** The rounded length of (a, b). *)
Definition len_steps (a b : Z) : Z := ZnearestE (sqrt (IZR (a * a + b * b))).
Lemma len_grid (a b : Z) : sqrt (IZR a / IZR p * (IZR a / IZR p) + IZR b / IZR p * (IZR b / IZR p)) * IZR p = sqrt (IZR (a * a + b * b)).
Proof.
  assert (P := p_pos). rewrite <- (sqrt_square (IZR p)) at 5 by lra. rewrite <- sqrt_mult; [|nra|nra]. f_equal. rewrite plus_IZR, !mult_IZR. field. lra.
Qed.
Lemma sqrt_int (k : Z) : (0 <= k)%Z -> sqrt (IZR (k * k)) = IZR k.
Proof. intros H. rewrite mult_IZR. apply sqrt_square. now apply (IZR_le 0). Qed.
Lemma len_ge a b : (Z.abs a <= len_steps a b /\ Z.abs b <= len_steps a b)%Z.
Proof.
  unfold len_steps. split; (match goal with |- (?w <= _)%Z => rewrite <- (Zrnd_IZR ZnearestE w) end; apply Zrnd_le; [apply valid_rnd_N|];
    rewrite <- sqrt_int by lia; apply sqrt_le_1_alt, IZR_le; nia).
Qed.
Lemma len_axis a : len_steps a 0 = Z.abs a /\ len_steps 0 a = Z.abs a.
Proof.
  unfold len_steps. replace (a * a + 0 * 0)%Z with (Z.abs a * Z.abs a)%Z by lia. replace (0 * 0 + a * a)%Z with (Z.abs a * Z.abs a)%Z by lia.
  rewrite sqrt_int by lia. now rewrite Zrnd_IZR by apply valid_rnd_N.
Qed.

Notation K f := (f _ _ _ _ _ _ _ M).
Let rho := len_steps sa sb.
Lemma sa_R : - axis_a pl radius = IZR sa / IZR p :> R. Proof. rewrite Sa. ring. Qed.
Lemma sb_R : - axis_b pl radius = IZR sb / IZR p :> R. Proof. rewrite Sb. ring. Qed.
Lemma ea_R : - axis_a pl radius + axis_a pl delta = IZR ea / IZR p :> R.
Proof. assert (P := p_pos). rewrite sa_R, Ea, minus_IZR. field. lra. Qed.
Lemma eb_R : - axis_b pl radius + axis_b pl delta = IZR eb / IZR p :> R.
Proof. assert (P := p_pos). rewrite sb_R, Eb, minus_IZR. field. lra. Qed.

Lemma mpm_p : Z.min (axis_a pl (ppm cfg)) (axis_b pl (ppm cfg)) = p.
Proof. rewrite Pa, Pb. apply Z.min_id. Qed.
Lemma ok_inj {A} (x y : A) : Ok x = Ok y -> x = y.
Proof. now intros [= ->]. Qed.
Lemma h_eq : K k_h = sqrt (IZR sa / IZR p * (IZR sa / IZR p) + IZR sb / IZR p * (IZR sb / IZR p)) :> R.
Proof.
  destruct (ofsqrt _ _ (K k_h_eq)) as [_ E]. rewrite E.
  change (sqrt (- axis_a pl radius * - axis_a pl radius + - axis_b pl radius * - axis_b pl radius) = sqrt (IZR sa / IZR p * (IZR sa / IZR p) + IZR sb / IZR p * (IZR sb / IZR p))).
  now rewrite sa_R, sb_R.
Qed.
Lemma he_eq : K k_he = sqrt (IZR ea / IZR p * (IZR ea / IZR p) + IZR eb / IZR p * (IZR eb / IZR p)) :> R.
Proof.
  destruct (ofsqrt _ _ (K k_he_eq)) as [_ E]. rewrite E.
  change (sqrt ((- axis_a pl radius + axis_a pl delta) * (- axis_a pl radius + axis_a pl delta) + (- axis_b pl radius + axis_b pl delta) * (- axis_b pl radius + axis_b pl delta)) = sqrt (IZR ea / IZR p * (IZR ea / IZR p) + IZR eb / IZR p * (IZR eb / IZR p))).
  now rewrite ea_R, eb_R.
Qed.
Lemma rm_eq : K k_rm = rho.
Proof.
  assert (Q := ok_inj _ _ (K k_rm_eq)). rewrite <- Q. unfold rho, len_steps. rewrite <- len_grid, mpm_p.
  change (ZnearestE ((K k_h : R) * IZR p) = ZnearestE (sqrt (IZR sa / IZR p * (IZR sa / IZR p) + IZR sb / IZR p * (IZR sb / IZR p)) * IZR p)). now rewrite h_eq.
Qed.
Lemma r_eq : K k_r = IZR rho / IZR p :> R.
Proof. destruct (ofdiv _ _ _ (K k_r_eq)) as [_ E]. rewrite E, rm_eq, mpm_p. reflexivity. Qed.
Lemma r_p : (K k_r : R) * IZR p = IZR rho.
Proof. assert (P := p_pos). rewrite r_eq. field. lra. Qed.
Lemma rme_eq : len_steps ea eb = rho.
Proof.
  assert (Q := ok_inj _ _ (K k_rme_eq)). destruct (ofdiv _ _ _ (K k_re_eq)) as [_ E2].
  assert (E3 := K k_end_ok). change (Reqb (K k_re) (K k_r) = true) in E3. apply Reqb_true in E3.
  assert (E4: K k_rme = len_steps ea eb).
  { rewrite <- Q. unfold len_steps. rewrite <- len_grid, mpm_p.
    change (ZnearestE ((K k_he : R) * IZR p) = ZnearestE (sqrt (IZR ea / IZR p * (IZR ea / IZR p) + IZR eb / IZR p * (IZR eb / IZR p)) * IZR p)). now rewrite he_eq. }
  rewrite <- E4. apply eq_IZR. assert (P := p_pos). rewrite E2, r_eq, mpm_p in E3. change (IZR (K k_rme) / IZR p = IZR rho / IZR p) in E3. 
  apply Rmult_eq_reg_r with (/ IZR p); [exact E3|apply Rinv_neq_0_compat; lra].
Qed.
Lemma radius_pulses : c_radius_a_pulses g = rho /\ c_radius_b_pulses g = rho /\ K k_rra = rho /\ K k_rrb = rho.
Proof.
  assert (E1 := ok_inj _ _ (K k_Ra_eq)). assert (E2 := ok_inj _ _ (K k_Rb_eq)). assert (E3 := ok_inj _ _ (K k_rra_eq)). assert (E4 := ok_inj _ _ (K k_rrb_eq)).
  rewrite Pa in E1, E3. rewrite Pb in E2, E4.
  change (mul (p:=RN) (K k_r) (ofZ p)) with ((K k_r : R) * IZR p) in *. rewrite r_p in *.
  rewrite Ztrunc_IZR in E1, E2. rewrite Zrnd_IZR in E3, E4 by apply valid_rnd_N. auto.
Qed.
Lemma start_pulses : c_start_a_pulses g = sa /\ c_start_b_pulses g = sb.
Proof.
  assert (P := p_pos). assert (E1 := ok_inj _ _ (K k_Sa_eq)). assert (E2 := ok_inj _ _ (K k_Sb_eq)). rewrite Pa in E1. rewrite Pb in E2.
  change (Ztrunc (- axis_a pl radius * IZR p) = c_start_a_pulses g) in E1. change (Ztrunc (- axis_b pl radius * IZR p) = c_start_b_pulses g) in E2.
  rewrite sa_R in E1. rewrite sb_R in E2. replace (IZR sa / IZR p * IZR p) with (IZR sa) in E1 by (field; lra). replace (IZR sb / IZR p * IZR p) with (IZR sb) in E2 by (field; lra).
  rewrite Ztrunc_IZR in E1, E2. auto.
Qed.

(* ---------- angles and quarters ---------- *)
Lemma sign_div (A : Z) : (0 < IZR A / IZR p <-> (0 < A)%Z) /\ (IZR A / IZR p < 0 <-> (A < 0)%Z) /\ (IZR A / IZR p = 0 <-> A = 0%Z).
Proof.
  assert (P := p_pos). assert (I: 0 < / IZR p) by now apply Rinv_0_lt_compat. unfold Rdiv.
  assert (L1: (0 < A)%Z -> 0 < IZR A * / IZR p) by (intros H; apply (IZR_lt 0) in H; nra).
  assert (L2: (A < 0)%Z -> IZR A * / IZR p < 0) by (intros H; apply (IZR_lt _ 0) in H; nra).
  assert (L3: A = 0%Z -> IZR A * / IZR p = 0) by (intros ->; lra).
  destruct (Z.lt_trichotomy A 0) as [H|[H|H]]; [assert (X := L2 H)|assert (X := L3 H)|assert (X := L1 H)]; repeat split; intros; auto; try lia; try lra.
Qed.
Definition zregion (A B : Z) (an : R) : Prop :=
  (an = 0 /\ (A = 0 /\ 0 < B)%Z) \/ (0 < an < PI / 2 /\ (0 < A /\ 0 < B)%Z) \/ (an = PI / 2 /\ (0 < A /\ B = 0)%Z) \/ (PI / 2 < an < PI /\ (0 < A /\ B < 0)%Z) \/
  (an = PI /\ (A = 0 /\ B < 0)%Z) \/ (PI < an < 3 * (PI / 2) /\ (A < 0 /\ B < 0)%Z) \/ (an = 3 * (PI / 2) /\ (A < 0 /\ B = 0)%Z) \/ (3 * (PI / 2) < an < 2 * PI /\ (A < 0 /\ 0 < B)%Z).
Lemma grid_pos (A B : Z) : (A <> 0 \/ B <> 0)%Z -> 0 < IZR A / IZR p * (IZR A / IZR p) + IZR B / IZR p * (IZR B / IZR p).
Proof.
  intros H. destruct (sign_div A) as (_ & _ & EA). destruct (sign_div B) as (_ & _ & EB).
  destruct (Req_dec (IZR A / IZR p) 0) as [E|E]; [destruct (Req_dec (IZR B / IZR p) 0) as [E2|E2]; [tauto|nra]|nra].
Qed.
Lemma zregions (A B : Z) an : (A <> 0 \/ B <> 0)%Z -> angle_of (N:=RN) (IZR A / IZR p) (IZR B / IZR p) = Ok an -> zregion A B an.
Proof.
  intros H E. assert (G := regions _ _ _ (grid_pos A B H) E). destruct (sign_div A) as (A1 & A2 & A3). destruct (sign_div B) as (B1 & B2 & B3).
  unfold zregion. rewrite A1, A2, A3, B1, B2, B3 in G. exact G.
Qed.
Lemma start_region : zregion sa sb (c_start_angle g).
Proof.
  apply zregions; [exact Hs|]. assert (E := K k_start_eq). change (angle_of (N:=RN) (- axis_a pl radius) (- axis_b pl radius) = Ok (c_start_angle g)) in E. now rewrite sa_R, sb_R in E.
Qed.
Lemma end_region : zregion ea eb (K k_end).
Proof.
  apply zregions; [exact He|]. assert (E := K k_end_eq). change (angle_of (N:=RN) (- axis_a pl radius + axis_a pl delta) (- axis_b pl radius + axis_b pl delta) = Ok (K k_end)) in E. now rewrite ea_R, eb_R in E.
Qed.
Lemma zquadrant (A B : Z) an : zregion A B an -> IZR (quadrant A B) * (PI / 2) <= an < (IZR (quadrant A B) + 1) * (PI / 2) /\ (0 <= quadrant A B <= 3)%Z.
Proof.
  intros G. assert (P := PI_RGT_0).
  assert (Q: exists q, quadrant A B = q /\ (0 <= q <= 3)%Z /\ IZR q * (PI / 2) <= an < (IZR q + 1) * (PI / 2)).
  { destruct (quadrant_cases A B) as [(Q & S1 & S2)|[(Q & S1 & S2)|[(Q & S1 & S2)|(Q & S1 & S2)]]].
    { unfold zregion in G. lia. }
    all: unfold zregion in G; eexists; (split; [exact Q|]); (split; [lia|]);
      destruct G as [G|[G|[G|[G|[G|[G|[G|G]]]]]]]; destruct G as [G [G1 G2]]; try (exfalso; lia); lra. }
  destruct Q as (q & -> & Q1 & Q2). split; assumption.
Qed.
Lemma half_eq : K k_half = PI / 2 :> R /\ K k_threehalf = 3 * (PI / 2) :> R.
Proof.
  destruct (ofdiv _ _ _ (K k_half_eq)) as [_ E1]. destruct (ofdiv _ _ _ (K k_threehalf_eq)) as [_ E2]. split; [exact E1|].
  rewrite E2. change (3 * PI / 2 = 3 * (PI / 2)). field.
Qed.
Lemma dirs_eq : c_dir_a g = dir_a_of rot sa sb /\ c_dir_b g = dir_b_of rot sa sb.
Proof.
  destruct half_eq as [H1 H2]. assert (D := K k_dirs). rewrite H1, H2 in D. assert (G := start_region). assert (P := PI_RGT_0). set (an := c_start_angle g) in *.
  unfold start_dirs in D. change (leb (p:=RN)) with Rleb in D. change (ltb (p:=RN)) with Rltb in D. change (@pin RN) with PI in D. change (@zero RN) with 0 in D.
  unfold dir_a_of, dir_b_of. unfold Rleb, Rltb in D. destruct rot; injection D as D1 D2;
  destruct G as [G|[G|[G|[G|[G|[G|[G|G]]]]]]]; destruct G as [G [G1 G2]];
  repeat match type of D1 with context [Rle_dec ?x ?y] => destruct (Rle_dec x y); try (exfalso; lra) | context [Rlt_dec ?x ?y] => destruct (Rlt_dec x y); try (exfalso; lra) end;
  repeat match type of D2 with context [Rle_dec ?x ?y] => destruct (Rle_dec x y); try (exfalso; lra) | context [Rlt_dec ?x ?y] => destruct (Rlt_dec x y); try (exfalso; lra) end;
  cbn [andb orb] in D1, D2; rewrite D1, D2;
  repeat match goal with |- context [Z.ltb ?x ?y] => destruct (Z.ltb_spec x y); try (exfalso; lia) | |- context [Z.eqb ?x ?y] => destruct (Z.eqb_spec x y); try (exfalso; lia) end;
  split; reflexivity.
Qed.
Lemma qs_eq : K k_qs = quadrant sa sb.
Proof.
  destruct half_eq as [H1 _]. destruct (ofdiv _ _ _ (K k_qs_eq)) as [_ E]. assert (T := ok_inj _ _ (K k_qs_tr)). rewrite <- T, E, H1.
  destruct (zquadrant _ _ _ start_region) as [Q1 Q2]. apply trunc_quarter; [lia|exact Q1].
Qed.
Lemma endm_eq : K k_endm = (if Rle_dec (K k_end) (c_start_angle g) then (K k_end : R) + 2 * PI else K k_end) :> R.
Proof.
  assert (E := K k_endm_eq). change (leb (p:=RN) (K k_end) (c_start_angle g)) with (Rleb (K k_end) (c_start_angle g)) in E. unfold Rleb in E.
  destruct (Rle_dec (K k_end) (c_start_angle g)); exact E.
Qed.
Lemma qe_eq : K k_qe = (if Rle_dec (K k_end) (c_start_angle g) then quadrant ea eb + 4 else quadrant ea eb)%Z.
Proof.
  destruct half_eq as [H1 _]. destruct (ofdiv _ _ _ (K k_qe_eq)) as [_ E]. assert (T := ok_inj _ _ (K k_qe_tr)). rewrite <- T, E, H1, endm_eq.
  destruct (zquadrant _ _ _ end_region) as [Q1 Q2]. assert (P := PI_RGT_0). destruct (Rle_dec _ _).
  - apply trunc_quarter; [lia|]. rewrite plus_IZR. lra.
  - apply trunc_quarter; [lia|exact Q1].
Qed.
(** The order of two angles in one quarter is that of the cross product. *)
Lemma cross_angle : quadrant ea eb = quadrant sa sb ->
  ((0 < ea * sb - eb * sa)%Z -> c_start_angle g < (K k_end : R)) /\ ((ea * sb - eb * sa <= 0)%Z -> (K k_end : R) <= c_start_angle g).
Proof.
  intros Q. destruct (zquadrant _ _ _ start_region) as [Q1 _]. destruct (zquadrant _ _ _ end_region) as [Q2 _]. rewrite Q in Q2.
  assert (E1 := K k_start_eq). change (angle_of (N:=RN) (- axis_a pl radius) (- axis_b pl radius) = Ok (c_start_angle g)) in E1. rewrite sa_R, sb_R in E1.
  assert (E2 := K k_end_eq). change (angle_of (N:=RN) (- axis_a pl radius + axis_a pl delta) (- axis_b pl radius + axis_b pl delta) = Ok (K k_end)) in E2. rewrite ea_R, eb_R in E2.
  assert (G1 := grid_pos sa sb Hs). assert (G2 := grid_pos ea eb He).
  destruct (angle_polar _ _ _ G1 E1) as (B1 & A1 & A2). destruct (angle_polar _ _ _ G2 E2) as (B2 & A3 & A4).
  set (t1 := c_start_angle g : R) in *. set (t2 := K k_end : R) in *.
  assert (S1 := sqrt_lt_R0 _ G1). assert (S2 := sqrt_lt_R0 _ G2). set (r1 := sqrt _) in A1, A2, S1. set (r2 := sqrt _) in A3, A4, S2.
  assert (P := p_pos). assert (PI_ := PI_RGT_0).
  assert (X: IZR (ea * sb - eb * sa) = r1 * r2 * (IZR p * IZR p) * sin (t2 - t1)).
  { rewrite sin_minus, minus_IZR, !mult_IZR.
    assert (F: forall k, IZR k = IZR k / IZR p * IZR p) by (intros k; field; lra). rewrite (F ea), (F eb), (F sa), (F sb), A1, A2, A3, A4. ring. }
  assert (PP: 0 < r1 * r2 * (IZR p * IZR p)) by (repeat apply Rmult_lt_0_compat; assumption).
  split; intros H.
  - apply (IZR_lt 0) in H. rewrite X in H. destruct (Rlt_dec t1 t2) as [L|L]; [exact L|]. exfalso.
    assert (sin (t2 - t1) <= 0); [|nra]. destruct (Req_dec t1 t2) as [E|E]; [rewrite E, Rminus_diag_eq, sin_0 by reflexivity; lra|].
    replace (t2 - t1) with (- (t1 - t2)) by ring. rewrite sin_neg. assert (0 < sin (t1 - t2)) by (apply sin_gt_0; lra). lra.
  - apply (IZR_le _ 0) in H. rewrite X in H. destruct (Rle_dec t2 t1) as [L|L]; [exact L|]. exfalso.
    assert (0 < sin (t2 - t1)) by (apply sin_gt_0; lra). nra.
Qed.
Lemma round_steps (A : Z) (x : R) : x = IZR A / IZR p -> rnd (p:=RN) (mul (p:=RN) (absn (p:=RN) x) (ofZ (p:=RN) p)) = Ok (Z.abs A).
Proof.
  intros ->. assert (P := p_pos). cbn. f_equal. replace (Rabs (IZR A / IZR p) * IZR p) with (IZR (Z.abs A)); [apply Zrnd_IZR; apply valid_rnd_N|].
  rewrite abs_IZR. unfold Rdiv. rewrite Rabs_mult, (Rabs_pos_eq (/ IZR p)) by (left; now apply Rinv_0_lt_compat). field. lra.
Qed.
Lemma base_eq qs qe' : base_iterations cfg delta radius pl qs qe' rho rho =
  if (qs =? qe')%Z then Ok (Z.abs (sa - ea), Z.abs (sb - eb)) else Ok (quarter_iterations qs qe' rho rho (Z.abs sa) (Z.abs sb) (Z.abs ea) (Z.abs eb)).
Proof.
  assert (P := p_pos). unfold base_iterations. rewrite Pa, Pb.
  assert (F: forall x y, IZR x / IZR p - IZR y / IZR p = IZR (x - y) / IZR p) by (intros; rewrite minus_IZR; field; lra).
  rewrite (round_steps (sa - ea)), (round_steps (sb - eb)), (round_steps sa), (round_steps sb), (round_steps ea), (round_steps eb).
  - reflexivity.
  - exact eb_R.
  - exact ea_R.
  - exact sb_R.
  - exact sa_R.
  - rewrite <- F, <- sb_R, <- eb_R. reflexivity.
  - rewrite <- F, <- sa_R, <- ea_R. reflexivity.
Qed.

(* ---------- where the arc ends ---------- *)
Lemma rho_ge : (Z.abs sa <= rho /\ Z.abs sb <= rho /\ Z.abs ea <= rho /\ Z.abs eb <= rho)%Z.
Proof. assert (G1 := len_ge sa sb). assert (G2 := len_ge ea eb). rewrite rme_eq in G2. destruct G1, G2. auto. Qed.
Lemma inside : starts_inside g.
Proof.
  destruct radius_pulses as (R1 & R2 & _). destruct start_pulses as [S1 S2]. destruct rho_ge as (A1 & A2 & _). destruct dirs_eq as [D1 D2].
  split; rewrite ?R1, ?R2, ?S1, ?S2, ?D1, ?D2; auto; unfold dir_a_of, dir_b_of; destruct rot; match goal with |- context [if ?c then _ else _] => destruct c end; auto.
Qed.
(** The arc makes less than a whole turn, or is a full circle. *)
Definition regular : Prop := (quadrant ea eb <> quadrant sa sb \/ (ea = sa /\ eb = sb) \/
  (quadrant ea eb = quadrant sa sb /\ ea * ea + eb * eb = sa * sa + sb * sb /\ 0 < ea * sb - eb * sa))%Z.
Lemma whole_turn : quadrant ea eb = quadrant sa sb -> (ea * sb - eb * sa <= 0)%Z -> c_iterations_a g = (4 * rho)%Z /\ c_iterations_b g = (4 * rho)%Z.
Proof.
  intros Q X. destruct radius_pulses as (_ & _ & R3 & R4). assert (I := K k_iter). rewrite qs_eq, qe_eq, R3, R4 in I. apply (proj2 (cross_angle Q)) in X.
  destruct (Rle_dec (K k_end) (c_start_angle g)) as [L|L]; [|exfalso; exact (L X)]. rewrite Q in I. replace (4 <=? quadrant sa sb + 4 - quadrant sa sb)%Z with true in I by (symmetry; apply Z.leb_le; lia). exact I.
Qed.
Lemma exact_net : regular -> (0 <= c_iterations_a g <= 4 * rho)%Z /\ (0 <= c_iterations_b g <= 4 * rho)%Z /\ pos_a g (c_iterations_a g) = ea /\ pos_b g (c_iterations_b g) = eb.
Proof.
  intros G. destruct radius_pulses as (R1 & R2 & R3 & R4). destruct start_pulses as [S1 S2]. destruct rho_ge as (A1 & A2 & A3 & A4). destruct dirs_eq as [D1 D2].
  assert (Z1: sb = 0%Z -> Z.abs sa = rho) by (intros E; unfold rho; rewrite E; symmetry; apply len_axis).
  assert (Z2: sa = 0%Z -> Z.abs sb = rho) by (intros E; unfold rho; rewrite E; symmetry; apply len_axis).
  unfold pos_a, pos_b. rewrite R1, R2, S1, S2, D1, D2.
  destruct (zquadrant _ _ _ start_region) as [Q1 Q1']. destruct (zquadrant _ _ _ end_region) as [Q2 Q2'].
  destruct (Z.eq_dec (quadrant ea eb) (quadrant sa sb)) as [Q|Q].
  - destruct G as [G|[[G1 G2]|(_ & C & X)]]; [contradiction| |].
    + destruct (whole_turn Q) as [-> ->]; [rewrite G1, G2; lia|]. destruct (circle_net rot rho sa sb A1 A2) as [-> ->]. lia.
    + assert (I := K k_iter). rewrite qs_eq, qe_eq, R3, R4 in I. assert (L := proj1 (cross_angle Q) X).
      destruct (Rle_dec (K k_end) (c_start_angle g)); [exfalso; lra|]. rewrite Q, Z.sub_diag in I. cbn [Z.leb Z.compare] in I.
      destruct I as (ia & ib & I & J). rewrite base_eq, Z.eqb_refl in I. injection I as <- <-.
      destruct (quarter_net rot rho sa sb ea eb A1 A2 A3 A4 Hs He Z1 Z2 Q C X) as [[T1 T2] [T3 T4]].
      destruct rot; destruct J as [-> ->]; cbn [turn] in *; auto.
  - clear G. assert (I := K k_iter). rewrite qs_eq, qe_eq, R3, R4 in I. set (qs := quadrant sa sb) in *. set (qe' := quadrant ea eb) in *.
    assert (PI_ := PI_RGT_0).
    assert (Lt: (qe' < qs)%Z -> (K k_end : R) <= c_start_angle g).
    { intros H. assert (H': (qe' + 1 <= qs)%Z) by lia. apply IZR_le in H'. rewrite plus_IZR in H'. nra. }
    assert (Gt: (qs < qe')%Z -> ~ (K k_end : R) <= c_start_angle g).
    { intros H. assert (H': (qs + 1 <= qe')%Z) by lia. apply IZR_le in H'. rewrite plus_IZR in H'. nra. }
    assert (E: (if Rle_dec (K k_end) (c_start_angle g) then qe' + 4 else qe')%Z = (if qe' <? qs then qe' + 4 else qe')%Z).
    { destruct (Z.ltb_spec qe' qs) as [H|H]; destruct (Rle_dec (K k_end) (c_start_angle g)) as [L|L]; try reflexivity; exfalso; [exact (L (Lt H))|]. apply Gt in L; [exact L|lia]. }
    rewrite E in I. clear E Lt Gt. set (q := (if qe' <? qs then qe' + 4 else qe')%Z) in *.
    assert (Hq: (qs < q <= qs + 3)%Z) by (unfold q; destruct (Z.ltb_spec qe' qs); lia).
    replace (4 <=? q - qs)%Z with false in I by (symmetry; apply Z.leb_gt; lia). destruct I as (ia & ib & I & J). rewrite base_eq in I.
    replace (qs =? q)%Z with false in I by (symmetry; apply Z.eqb_neq; lia). injection I as I.
    destruct (quarters_net rot rho sa sb ea eb qs q ia ib A1 A2 A3 A4 Hs He Z1 Z2 eq_refl Q eq_refl I) as [[T1 T2] [T3 T4]].
    destruct rot; destruct J as [-> ->]; cbn [turn] in *; auto.
Qed.

(* ---------- the iteration ---------- *)
Lemma rho_pos : (0 < rho)%Z.
Proof. destruct rho_ge as (A1 & A2 & _). lia. Qed.
Lemma iterations_bound : (0 <= c_iterations_a g <= 4 * rho)%Z /\ (0 <= c_iterations_b g <= 4 * rho)%Z.
Proof.
  destruct rho_ge as (A1 & A2 & A3 & A4). destruct (Z.eq_dec (quadrant ea eb) (quadrant sa sb)) as [Q|Q].
  - destruct (Z_le_gt_dec (ea * sb - eb * sa) 0) as [X|X]; [destruct (whole_turn Q X) as [-> ->]; lia|].
    destruct radius_pulses as (_ & _ & R3 & R4). assert (I := K k_iter). rewrite qs_eq, qe_eq, R3, R4 in I. assert (L := proj1 (cross_angle Q) ltac:(lia)).
    destruct (Rle_dec (K k_end) (c_start_angle g)); [exfalso; lra|]. rewrite Q, Z.sub_diag in I. cbn [Z.leb Z.compare] in I.
    destruct I as (ia & ib & I & J). rewrite base_eq, Z.eqb_refl in I. injection I as <- <-. destruct rot; destruct J as [-> ->]; lia.
  - destruct (exact_net (or_introl Q)) as (B1 & B2 & _). split; assumption.
Qed.
Lemma exact_room : room g.
Proof.
  destruct radius_pulses as (R1 & R2 & _). destruct start_pulses as [S1 S2]. destruct rho_ge as (A1 & A2 & _). destruct iterations_bound as [I1 I2]. assert (I := inside).
  destruct (oc_dir_a g I) as [D1|D1]; destruct (oc_dir_b g I) as [D2|D2]; unfold room, room_within; rewrite R1, R2, S1, S2, D1, D2; lia.
Qed.
Lemma exact_on_circle : on_circle g.
Proof. split; [exact inside|exact exact_room]. Qed.

Hypothesis Hc : sane_cfg cfg.
Hypothesis Hv : (0 : R) < v.
Variables jc je : Z.
Hypothesis Ec : axis_c pl delta = IZR jc / IZR (axis_c pl (ppm cfg)) :> R.
Hypothesis Ee : qe delta = IZR je / IZR (qe (ppm cfg)) :> R.

Lemma acc_gt : 0 < IZR (max_acceleration cfg).
Proof. apply (IZR_lt 0), Hc. Qed.
Lemma ppm_c : 0 < IZR (axis_c pl (ppm cfg)).
Proof. apply (IZR_lt 0). destruct pl; [apply (sane_ppm cfg Hc MZ)|apply (sane_ppm cfg Hc MX)|apply (sane_ppm cfg Hc MY)]. Qed.
Lemma ppm_e : 0 < IZR (qe (ppm cfg)).
Proof. apply (IZR_lt 0), (sane_ppm cfg Hc ME). Qed.
Lemma angle_pos : 0 < (c_delta_angle g : R).
Proof.
  assert (PI_ := PI_RGT_0). rewrite (K k_delta_angle). change (0 < Rabs (K k_da)). apply Rabs_pos_lt. rewrite (K k_da_eq).
  assert (B1: 0 <= (c_start_angle g : R) < 2 * PI) by (destruct (zquadrant _ _ _ start_region) as [Q1 [Q2 Q3]]; apply IZR_le in Q2, Q3; split; nra).
  assert (B2: 0 <= (K k_end : R) < 2 * PI) by (destruct (zquadrant _ _ _ end_region) as [Q1 [Q2 Q3]]; apply IZR_le in Q2, Q3; split; nra).
  set (an1 := c_start_angle g : R) in *. set (an2 := K k_end : R) in *. cbv zeta.
  change (two (N:=RN)) with 2. change (@pin RN) with PI. change (@zero RN) with 0. change (sub (p:=RN)) with Rminus. change (add (p:=RN)) with Rplus. change (mul (p:=RN)) with Rmult. change (ltb (p:=RN)) with Rltb. change (eqb (p:=RN)) with Reqb.
  fold an1 an2. destruct (Rltb (an2 - an1) 0) eqn:L; cbn [orb]; [apply Rltb_true in L; destruct rot; lra|].
  apply Rltb_false in L. destruct (Reqb (an2 - an1) 0) eqn:Q; cbn [andb]; destruct rot; try lra.
  intros X. apply Reqb_true in X. congruence.
Qed.
Lemma r_pos : 0 < (K k_r : R).
Proof. assert (P := p_pos). assert (H := rho_pos). apply (IZR_lt 0) in H. rewrite r_eq. now apply Rdiv_lt_0_compat. Qed.
Lemma velocity_gt : 0 < (K k_velocity : R).
Proof. destruct (ofdiv _ _ _ (K k_velocity_eq)) as [_ ->]. change (@sixty RN) with 60. apply Rdiv_lt_0_compat; lra. Qed.
Lemma arc_gt : 0 < (K k_arc : R).
Proof. rewrite (K k_arc_eq). apply Rmult_lt_0_compat; [exact angle_pos|exact r_pos]. Qed.
Lemma length_gt : 0 < (K k_length : R).
Proof.
  destruct (ofsqrt _ _ (K k_length_eq)) as [_ ->]. apply sqrt_lt_R0. assert (A := arc_gt).
  change (0 < (K k_arc : R) * K k_arc + axis_c pl delta * axis_c pl delta + qe delta * qe delta). nra.
Qed.
Lemma flz_false : K k_flz = false.
Proof. rewrite (K k_flz_eq). assert (L := length_gt). change (Reqb (K k_length) 0 = false). unfold Reqb. destruct (Req_EM_T (K k_length) 0); [lra|reflexivity]. Qed.
Lemma part_eq (x y : R) : (if K k_flz then Ok (K k_velocity) else do! q <- div (p:=RN) x (K k_length); Ok (mul (p:=RN) q (K k_velocity))) = Ok y -> y = x / (K k_length : R) * (K k_velocity : R).
Proof. rewrite flz_false. intros H. apply rbind_ok in H. destruct H as (q & Q & H). apply ofdiv in Q. destruct Q as [_ ->]. injection H as <-. reflexivity. Qed.
(** The adjusted velocities: positive in the plane, and outside it if the axis moves. *)
Lemma vel_signs : 0 < (axis_a pl (K k_vel) : R) /\ 0 < (axis_b pl (K k_vel) : R) /\
  (0 <= (axis_c pl (K k_vel) : R) /\ (axis_c pl delta <> (0 : R) -> 0 < (axis_c pl (K k_vel) : R))) /\
  (0 <= (qe (K k_vel) : R) /\ (qe delta <> (0 : R) -> 0 < (qe (K k_vel) : R))).
Proof.
  assert (L := length_gt). assert (V := velocity_gt). assert (A := arc_gt). assert (I: 0 < / (K k_length : R)) by now apply Rinv_0_lt_compat.
  assert (C1 := part_eq _ _ (K k_cv_eq)). assert (C2 := part_eq _ _ (K k_v3_eq)). assert (C3 := part_eq _ _ (K k_ev_eq)).
  assert (IV: 0 < / (K k_length : R) * (K k_velocity : R)) by now apply Rmult_lt_0_compat.
  assert (D1: 0 < (K k_cv : R)) by (rewrite C1; unfold Rdiv; rewrite Rmult_assoc; now apply Rmult_lt_0_compat).
  assert (D2: 0 <= (K k_v3 : R)) by (rewrite C2; unfold Rdiv; rewrite Rmult_assoc; apply Rmult_le_pos; [apply Rabs_pos|lra]).
  assert (D3: 0 <= (K k_ev : R)) by (rewrite C3; unfold Rdiv; rewrite Rmult_assoc; apply Rmult_le_pos; [apply Rabs_pos|lra]).
  assert (D4: axis_c pl delta <> (0 : R) -> 0 < (K k_v3 : R)) by (intros Z; rewrite C2; unfold Rdiv; rewrite Rmult_assoc; apply Rmult_lt_0_compat; [now apply Rabs_pos_lt|exact IV]).
  assert (D5: qe delta <> (0 : R) -> 0 < (K k_ev : R)) by (intros Z; rewrite C3; unfold Rdiv; rewrite Rmult_assoc; apply Rmult_lt_0_compat; [now apply Rabs_pos_lt|exact IV]).
  set (q := from_axes pl (K k_cv : R) (K k_cv : R) (K k_v3 : R) (K k_ev : R)).
  destruct (adjust_velocity_R cfg q Hc) as (k & Ek & Hk & _).
  { intros m. unfold q. destruct pl, m; cbn; lra. }
  assert (E: adjust_velocity (N:=RN) cfg q = Ok (K k_vel)) by (rewrite <- (K k_vel_eq); f_equal; unfold q; destruct pl; reflexivity).
  rewrite Ek in E. injection E as E. rewrite <- E. unfold q. clear E Ek q.
  assert (F: forall x : R, 0 < x -> 0 < x * k) by (intros x Hx; apply Rmult_lt_0_compat; lra).
  assert (F0: forall x : R, 0 <= x -> 0 <= x * k) by (intros x Hx; apply Rmult_le_pos; lra).
  repeat split; intros; destruct pl; cbn [axis_a axis_b axis_c from_axes qmap qx qy qz qe] in *; auto.
Qed.
Lemma rdv_pos : 0 < (c_r_div_v g : R).
Proof.
  destruct (ofdiv _ _ _ (K k_rdv_eq)) as [_ ->]. rewrite pmin_R. destruct vel_signs as (V1 & V2 & _). apply Rdiv_lt_0_compat; [exact r_pos|]. now apply Rmin_glb_lt.
Qed.
Lemma vel_nonneg : forall m, 0 <= qat m (K k_vel : quad R).
Proof.
  destruct vel_signs as (V1 & V2 & (V3 & _) & (V4 & _)). intros m. destruct (motor_cases pl m) as [->|[->|[->| ->]]].
  - rewrite <- qat_axis_a. left. exact V1.
  - rewrite <- qat_axis_b. left. exact V2.
  - rewrite <- qat_axis_c. exact V3.
  - exact V4.
Qed.
Lemma profile_signs : 0 <= (c_acc g : R) /\ forall m, 0 <= qat m (c_vel g : quad R).
Proof.
  assert (P := K k_profile). rewrite flz_false in P. assert (A := acc_gt). assert (L := length_gt). assert (V := vel_nonneg).
  destruct (ofdiv _ _ _ (K k_acc0_eq)) as [_ E0].
  assert (T: 0 <= top (K k_vel : quad R)) by (eapply Rle_trans; [apply (V MX)|apply top_ge]).
  assert (A0: 0 <= (K k_acc0 : R)) by (rewrite E0; apply Rmult_le_pos; [exact T|left; now apply Rinv_0_lt_compat]).
  cbn [sqr RN rbind] in P. destruct (ltb (p:=RN) _ _).
  - apply rbind_ok in P. destruct P as (q & Q1 & P). apply ofdiv in Q1. destruct Q1 as [_ Q1].
    apply rbind_ok in P. destruct P as (s & S1 & P). apply ofsqrt in S1. destruct S1 as [S0 S1].
    apply rbind_ok in P. destruct P as (w & W1 & P). apply ofdiv in W1. destruct W1 as [W0 W1].
    injection P as P1 P2 P3. assert (Sp := sqrt_pos q). rewrite <- P1, <- P3, S1. split; [exact Sp|].
    assert (W: 0 <= w). { rewrite W1. rewrite S1 in W0 |- *. apply Rmult_le_pos; [lra|left; apply Rinv_0_lt_compat; lra]. }
    intros m. assert (V0 := V m). destruct m; cbn [qat qmap qx qy qz qe] in V0 |- *; match goal with |- context [Rltb ?x ?y] => destruct (Rltb x y) end; first [exact W|exact V0].
  - repeat (apply rbind_ok in P; destruct P as (? & _ & P)). injection P as P1 P2 P3. rewrite <- P1, <- P3. split; assumption.
Qed.
Lemma start_exact : exists s, iter_start (N:=RN) cfg (GCircular g) = Ok s /\ 0 <= (it_c s : R).
Proof.
  assert (A := acc_gt). destruct profile_signs as [_ V]. unfold iter_start. change (accel (N:=RN) cfg) with (IZR (max_acceleration cfg)). rewrite div_R by lra. cbn [rbind].
  eexists. split; [reflexivity|]. cbn [it_c gen_vel]. assert (T: 0 <= top (c_vel g : quad R)) by (eapply Rle_trans; [apply (V MX)|apply top_ge]).
  change (0 <= 2 * top (c_vel g) / IZR (max_acceleration cfg)). apply Rmult_le_pos; [lra|left; now apply Rinv_0_lt_compat].
Qed.
Lemma accelerated_exact (acc lin c x : R) : 0 <= acc -> 0 <= c -> 0 <= x -> exists y, to_accelerated_time (N:=RN) acc lin c x = Ok y.
Proof.
  intros Ha Hc' Hx. unfold to_accelerated_time. change (mul (p:=RN) x c) with (x * c). rewrite sqrt_R by nra. cbn [rbind].
  change (leb (p:=RN)) with Rleb. unfold Rleb at 1. destruct (Rle_dec (sqrt (x * c)) acc) as [L|L]; [eauto|]. cbn [sqr RN rbind].
  assert (C0: c <> 0) by (intros ->; rewrite Rmult_0_r, sqrt_0 in L; lra). change (div (p:=RN) (acc * acc) c) with (div (p:=RN) (acc * acc) c). rewrite div_R by exact C0. cbn [rbind].
  match goal with |- context [if ?b then _ else _] => destruct b end; [eauto|].
  change (ltb (p:=RN)) with Rltb. match goal with |- context [Rltb ?y ?z] => destruct (Rltb y z) eqn:Z end.
  - apply Rltb_true in Z. rewrite sqrt_R by (left; exact Z). cbn [rbind]. eauto.
  - cbn [rbind]. eauto.
Qed.
Lemma find_time_exact (a b : R) : 0 < a * a + b * b -> exists t, circular_find_time (N:=RN) g a b = Ok t /\ 0 <= (t : R).
Proof.
  intros H. unfold circular_find_time. destruct (angle_ok a b H) as (an & E & B). rewrite E. cbn [rbind]. eexists. split; [reflexivity|].
  assert (Rp := rdv_pos). assert (PI_ := PI_RGT_0).
  assert (B1: 0 <= (c_start_angle g : R) < 2 * PI) by (destruct (zquadrant _ _ _ start_region) as [Q1 [Q2 Q3]]; apply IZR_le in Q2, Q3; split; nra).
  change (leb (p:=RN)) with Rleb. unfold Rleb. change (@zero RN) with 0. change (two (N:=RN)) with 2. change (@pin RN) with PI. change (add (p:=RN)) with Rplus. change (sub (p:=RN)) with Rminus. change (mul (p:=RN)) with Rmult.
  apply Rmult_le_pos; [lra|]. destruct (c_rot g); match goal with |- context [Rle_dec ?x ?y] => destruct (Rle_dec x y) end; lra.
Qed.
Lemma last_time : 0 <= (c_r_div_v g : R) * (c_delta_angle g : R).
Proof. assert (Rp := rdv_pos). assert (D := angle_pos). apply Rmult_le_pos; lra. Qed.
Lemma radii_exact : c_radius_a2 g = IZR rho / IZR p * (IZR rho / IZR p) :> R /\ c_radius_b2 g = IZR rho / IZR p * (IZR rho / IZR p) :> R.
Proof.
  assert (E1 := ok_inj _ _ (K k_ra_eq)). assert (E2 := ok_inj _ _ (K k_rb_eq)). assert (E3 := ok_inj _ _ (K k_rm_eq)). rewrite rm_eq, mpm_p in E3. rewrite Pa in E1. rewrite Pb in E2. rewrite E3 in E1, E2.
  destruct (ofdiv _ _ _ (K k_radius_a_eq)) as [_ E4]. destruct (ofdiv _ _ _ (K k_radius_b_eq)) as [_ E5]. rewrite (K k_ra2), (K k_rb2), E4, E5, <- E1, <- E2, Pa, Pb. split; reflexivity.
Qed.
Lemma chord_exact (k : Z) : (Z.abs k <= rho)%Z -> exists c, sqrtn (p:=RN) (IZR rho / IZR p * (IZR rho / IZR p) - IZR k / IZR p * (IZR k / IZR p)) = Ok c /\
  IZR k / IZR p * (IZR k / IZR p) + c * c = IZR rho / IZR p * (IZR rho / IZR p).
Proof.
  intros H. assert (P := p_pos). assert (L: IZR k * IZR k <= IZR rho * IZR rho) by (rewrite <- !mult_IZR; apply IZR_le; nia).
  assert (I: 0 < / IZR p) by now apply Rinv_0_lt_compat. 
  assert (Q: 0 <= IZR rho / IZR p * (IZR rho / IZR p) - IZR k / IZR p * (IZR k / IZR p)) by (replace (_ - _) with ((IZR rho * IZR rho - IZR k * IZR k) * (/ IZR p * / IZR p)) by (unfold Rdiv; ring); apply Rmult_le_pos; nra).
  rewrite sqrt_R by exact Q. eexists. split; [reflexivity|]. rewrite sqrt_sqrt by exact Q. ring.
Qed.
Lemma rho_sq : 0 < IZR rho / IZR p * (IZR rho / IZR p).
Proof. assert (H := rho_pos). apply (IZR_lt 0) in H. assert (P := p_pos). assert (0 < IZR rho / IZR p) by now apply Rdiv_lt_0_compat. nra. Qed.
Lemma circular_a_exact i : (0 <= i <= c_iterations_a g)%Z -> exists d t, circular_a (N:=RN) g i p = Ok (d, t) /\
  match t with None => True | Some x => (i < c_iterations_a g)%Z /\ (0 <= x)%R end.
Proof.
  intros Hi. unfold circular_a. destruct (Z.leb_spec (c_iterations_a g) i) as [L|L]; [eexists _, None; split; [reflexivity|exact I]|].
  pose proof (helper_side (c_start_a_pulses g) (i + 1) (c_radius_a_pulses g) (c_side_a g) (c_dir_a g)) as HS.
  destruct (circular_helper _ _ _ _ _) as [[ap dd] sd]. cbn [fst] in HS. injection HS as E1 E2.
  assert (Hap: (Z.abs ap <= rho)%Z).
  { destruct exact_on_circle as [O W]. destruct O as [O1 O2 O3 O4]. destruct W as [W1 _]. destruct radius_pulses as (R1 & _). rewrite <- R1, E1. apply helper_bound; auto; [lia|]. destruct O3 as [O3|O3]; rewrite O3 in *; lia. }
  change (ofZ (p:=RN)) with IZR. assert (P := p_pos). rewrite div_R by lra. cbn [rbind].
  destruct (Z.eqb_spec (i + 1) (c_iterations_a g)) as [La|La]; [eexists _, (Some _); split; [reflexivity|]; split; [exact L|exact last_time]|].
  destruct radii_exact as [-> _]. destruct (chord_exact ap Hap) as (c & Ec' & Hcc). change (sub (p:=RN)) with Rminus. change (mul (p:=RN)) with Rmult. rewrite Ec'. cbn [rbind]. cbv zeta.
  destruct (find_time_exact (IZR ap / IZR p) (if sd then - c else c)) as (t & Et & Ht).
  { assert (S := rho_sq). destruct sd; lra. }
  match goal with |- context [circular_find_time ?gg ?x ?y] => replace (circular_find_time gg x y) with (Ok t : res RN) by (symmetry; exact Et) end.
  cbn [rbind]. eexists _, (Some _). split; [reflexivity|]. split; [exact L|exact Ht].
Qed.
Lemma circular_b_exact i : (0 <= i <= c_iterations_b g)%Z -> exists d t, circular_b (N:=RN) g i p = Ok (d, t) /\
  match t with None => True | Some x => (i < c_iterations_b g)%Z /\ (0 <= x)%R end.
Proof.
  intros Hi. unfold circular_b. destruct (Z.leb_spec (c_iterations_b g) i) as [L|L]; [eexists _, None; split; [reflexivity|exact I]|].
  pose proof (helper_side (c_start_b_pulses g) (i + 1) (c_radius_b_pulses g) (c_side_b g) (c_dir_b g)) as HS.
  destruct (circular_helper _ _ _ _ _) as [[ap dd] sd]. cbn [fst] in HS. injection HS as E1 E2.
  assert (Hap: (Z.abs ap <= rho)%Z).
  { destruct exact_on_circle as [O W]. destruct O as [O1 O2 O3 O4]. destruct W as [_ W1]. destruct radius_pulses as (_ & R1 & _). rewrite <- R1, E1. apply helper_bound; auto; [lia|]. destruct O4 as [O4|O4]; rewrite O4 in *; lia. }
  change (ofZ (p:=RN)) with IZR. assert (P := p_pos). rewrite div_R by lra. cbn [rbind].
  destruct (Z.eqb_spec (i + 1) (c_iterations_b g)) as [La|La]; [eexists _, (Some _); split; [reflexivity|]; split; [exact L|exact last_time]|].
  destruct radii_exact as [_ ->]. destruct (chord_exact ap Hap) as (c & Ec' & Hcc). change (sub (p:=RN)) with Rminus. change (mul (p:=RN)) with Rmult. rewrite Ec'. cbn [rbind]. cbv zeta.
  destruct (find_time_exact (if sd then - c else c) (IZR ap / IZR p)) as (t & Et & Ht).
  { assert (S := rho_sq). destruct sd; lra. }
  match goal with |- context [circular_find_time ?gg ?x ?y] => replace (circular_find_time gg x y) with (Ok t : res RN) by (symmetry; exact Et) end.
  cbn [rbind]. eexists _, (Some _). split; [reflexivity|]. split; [exact L|exact Ht].
Qed.
Lemma linear_exact i (j q : Z) (x w : R) : 0 < IZR q -> x = IZR j / IZR q -> 0 <= w -> (x <> 0 -> 0 < w) -> (0 <= i <= Z.abs j)%Z ->
  exists t, circular_linear (N:=RN) i (Rabs x * IZR q) q w = Ok t /\ match t with None => True | Some y => (i < Z.abs j)%Z /\ (0 <= y)%R end.
Proof.
  intros Hq Ex Hw Hw' Hi. unfold circular_linear. change (leb (p:=RN)) with Rleb. change (ofZ (p:=RN)) with IZR.
  assert (E: Rabs x * IZR q = IZR (Z.abs j)). { rewrite Ex, abs_IZR. unfold Rdiv. rewrite Rabs_mult, (Rabs_pos_eq (/ IZR q)) by (left; now apply Rinv_0_lt_compat). field. lra. }
  rewrite E. unfold Rleb. destruct (Rle_dec (IZR (Z.abs j)) (IZR i)) as [L|L]; [exists None; split; [reflexivity|exact I]|].
  assert (L': (i < Z.abs j)%Z) by (apply lt_IZR; lra).
  assert (X: x <> 0). { intros X. rewrite X, Rabs_R0, Rmult_0_l in E. apply (eq_IZR 0) in E. lia. }
  specialize (Hw' X). rewrite div_R by lra. cbn [rbind]. rewrite div_R by lra. cbn [rbind]. eexists. split; [reflexivity|]. split; [exact L'|].
  assert (0 <= IZR i) by (apply (IZR_le 0); lia). unfold Rdiv. apply Rmult_le_pos; [apply Rmult_le_pos; [assumption|left; now apply Rinv_0_lt_compat]|left; now apply Rinv_0_lt_compat].
Qed.
Lemma exact_completes : exists l, completes cfg (GCircular g) l.
Proof.
  destruct start_exact as (st & Est & Cst). destruct profile_signs as [Ha _]. destruct iterations_bound as [I1 I2].
  assert (KP := K k_plane). destruct vel_signs as (_ & _ & (V3 & V3') & (V4 & V4')).
  eapply (gen_completes cfg (GCircular g)
            (fun m => qat m (from_axes pl (c_iterations_a g) (c_iterations_b g) (Z.abs jc) (Z.abs je))) (fun x : RN => (0 : R) <= x) (it_c st)).
  - intros x _. change (Rltb x x = false). apply Rltb_false. lra.
  - intros i Hi.
    assert (A := Hi (motor_a pl)). rewrite from_axes_a in A. assert (B := Hi (motor_b pl)). rewrite from_axes_b in B.
    assert (C := Hi (motor_c pl)). rewrite from_axes_c in C. assert (E := Hi ME). rewrite from_axes_e in E.
    destruct (circular_a_exact _ A) as (da & ta & Ea' & Ta). destruct (circular_b_exact _ B) as (db & tb & Eb' & Tb).
    destruct (linear_exact _ jc _ _ _ ppm_c Ec V3 V3' C) as (tc & Ec' & Tc). destruct (linear_exact _ je _ _ _ ppm_e Ee V4 V4' E) as (te & Ee' & Te). cbn [qat] in Ee', Te.
    exists (from_axes pl da db (c_third_dir g) (c_e_dir g)), (from_axes pl ta tb tc te). split.
    + cbn [gen_interp]. unfold circular_interp. rewrite KP, !qat_axis_a, !qat_axis_b, <- (qat_axis_a pl (ppm cfg)), <- (qat_axis_b pl (ppm cfg)), Pa, Pb.
      rewrite Ea'. cbn [rbind]. rewrite Eb'. cbn [rbind]. rewrite (K k_it3), (K k_ite), (K k_vel3), (K k_vele). rewrite (qat_axis_c pl i).
      match goal with |- context [rbind ?x _] => replace x with (Ok tc : res (option RN)) by (symmetry; exact Ec') end. cbn [rbind].
      match goal with |- context [rbind ?x _] => replace x with (Ok te : res (option RN)) by (symmetry; exact Ee') end. reflexivity.
    + intros m x Hx. destruct (motor_cases pl m) as [->|[->|[->| ->]]]; revert Hx; rewrite ?from_axes_a, ?from_axes_b, ?from_axes_c, ?from_axes_e; intros ->; assumption.
  - intros x Hx. apply accelerated_exact; assumption.
  - exists st. split; [exact Est|reflexivity].
  - intros m. destruct (motor_cases pl m) as [->|[->|[->| ->]]]; rewrite ?from_axes_a, ?from_axes_b, ?from_axes_c, ?from_axes_e; lia.
Qed.
(** Net travel. *)
Lemma third_dir (x : R) (j q : Z) : 0 < IZR q -> x = IZR j / IZR q -> (copysign1 (p:=RN) x * Z.abs j = j)%Z.
Proof.
  intros Hq E. cbn. assert (I: 0 < / IZR q) by now apply Rinv_0_lt_compat. unfold Rdiv in E. destruct (Rlt_dec x 0) as [L|L].
  - assert (IZR j < 0) by nra. apply (lt_IZR _ 0) in H. lia.
  - assert (0 <= IZR j) by nra. apply (le_IZR 0) in H. lia.
Qed.
Lemma exact_travel l : regular -> completes cfg (GCircular g) l ->
  travel cfg (motor_a pl) l = (ea - sa)%Z /\ travel cfg (motor_b pl) l = (eb - sb)%Z /\ travel cfg (motor_c pl) l = jc /\ travel cfg ME l = je.
Proof.
  intros G Hl. destruct (exact_net G) as (I1 & I2 & N1 & N2). assert (O := inside). assert (KP := K k_plane). destruct start_pulses as [S1 S2].
  destruct (arc_net cfg g O l Hl ltac:(lia) ltac:(lia)) as [T1 T2]. rewrite KP, N1, S1 in T1. rewrite KP, N2, S2 in T2.
  destruct (completes_items _ _ _ Hl) as [n En]. destruct (arc_third cfg g O n) as [[T3 C3] [T4 C4]]. rewrite En, KP in *.
  destruct (arc_complete cfg g O l Hl) as (_ & _ & L3 & L4). rewrite KP in L3.
  rewrite (K k_it3) in L3, C3. rewrite (K k_ite) in L4, C4. rewrite (K k_dir3) in T3. rewrite (K k_dire) in T4.
  assert (X: forall (x : R) (j q k : Z), 0 < IZR q -> x = IZR j / IZR q -> leb (p:=RN) (mul (p:=RN) (absn (p:=RN) x) (ofZ (p:=RN) q)) (ofZ (p:=RN) k) = Rleb (IZR (Z.abs j)) (IZR k)).
  { intros x j q k Hq ->. change (Rleb (Rabs (IZR j / IZR q) * IZR q) (IZR k) = Rleb (IZR (Z.abs j)) (IZR k)). f_equal.
    rewrite abs_IZR. unfold Rdiv. rewrite Rabs_mult, (Rabs_pos_eq (/ IZR q)) by (left; now apply Rinv_0_lt_compat). field. lra. }
  assert (Y: forall (j s : Z), (0 <= s)%Z -> Rleb (IZR (Z.abs j)) (IZR s) = true -> (forall k, s = (k + 1)%Z -> (0 <= k)%Z -> Rleb (IZR (Z.abs j)) (IZR k) = false) -> s = Z.abs j).
  { intros j s Hs0 H1 H2. unfold Rleb in H1, H2. destruct (Rle_dec (IZR (Z.abs j)) (IZR s)) as [L|]; [|discriminate]. apply le_IZR in L.
    destruct (Z.eq_dec s (Z.abs j)) as [E|E]; [exact E|]. specialize (H2 (s - 1)%Z ltac:(lia) ltac:(lia)). destruct (Rle_dec (IZR (Z.abs j)) (IZR (s - 1))) as [|L2]; [discriminate|]. exfalso. apply L2. apply IZR_le. lia. }
  assert (E3: steps (motor_c pl) l = Z.abs jc).
  { apply Y; [apply steps_nonneg|rewrite <- (X _ _ _ _ ppm_c Ec); exact L3|]. intros k Hk Hk'. rewrite <- (X _ _ _ _ ppm_c Ec). now apply C3. }
  assert (E4: steps ME l = Z.abs je).
  { apply Y; [apply steps_nonneg|rewrite <- (X _ _ _ _ ppm_e Ee); exact L4|]. intros k Hk Hk'. rewrite <- (X _ _ _ _ ppm_e Ee). now apply C4. }
  rewrite E3 in T3. rewrite E4 in T4. repeat split; [lia|lia| |].
  - rewrite T3. exact (third_dir _ jc _ ppm_c Ec).
  - rewrite T4. exact (third_dir _ je _ ppm_e Ee).
Qed.
(** Arcs to an earlier point of the quarter where they start: a whole turn. *)
Lemma exact_wrong l : quadrant ea eb = quadrant sa sb -> (ea * sb - eb * sa <= 0)%Z -> completes cfg (GCircular g) l ->
  travel cfg (motor_a pl) l = 0%Z /\ travel cfg (motor_b pl) l = 0%Z.
Proof.
  intros Q X Hl. assert (O := inside). assert (KP := K k_plane). destruct start_pulses as [S1 S2]. destruct (whole_turn Q X) as [I1 I2]. assert (Rp := rho_pos).
  destruct radius_pulses as (R1 & R2 & _). destruct rho_ge as (A1 & A2 & _). destruct dirs_eq as [D1 D2].
  destruct (arc_net cfg g O l Hl ltac:(lia) ltac:(lia)) as [T1 T2]. rewrite KP in T1, T2. unfold pos_a in T1. unfold pos_b in T2. rewrite I1, R1, D1, S1 in T1. rewrite I2, R2, D2, S2 in T2.
  destruct (circle_net rot rho sa sb A1 A2) as [C1 C2]. rewrite C1 in T1. rewrite C2 in T2. lia.
Qed.
End Exact.
