(** Straight moves to points on the table are executed (C69). *)
From Coq Require Import String Ascii ZArith Bool Reals Lra Lia List Psatz.
From Flocq Require Import Core BinarySingleNaN.
From Verif Require Import PyBase PyNum PyFloatFacts Config Coordinates Pulses PulseSpec GCode GCodeSpec WordFacts GMachine GMachineProofs MachineFacts MachineRel MachineHist MachineFloat Decimal MachinePos MachineArc MachineWork FloatRel LinearLaw LinearFloat LinearFloatRun LinearFloatLimit.
From Coq Require Import List.
From Flocq Require Import Core.
Import ListNotations.
Local Open Scope R_scope.

Section Run.
Variable acos : f64 -> f64.
Notation N := (F64 acos).
Variable cfg : config.
Hypothesis Hcfg : good_cfg cfg.
Hypothesis Hlin : lin_cfg cfg.
Hypothesis Hsec : sec_limits cfg.
Hypothesis Hauto : auto_velocity cfg = true.
Notation p a := (ax a (ppm cfg)).
Notation t a := (table cfg a).
Notation acfg := (acfg cfg Hcfg).
Notation at_step := (at_step acos cfg).

(** Displacements rounded to the grid. *)
Definition gridded (P : Z) (x y : f64) (j : Z) : Prop :=
  exists b, (fin b /\ val b = rd (/ IZR P)) /\ y = f_rnd10 (f_mul (f_ofZ j) b) /\
    Rabs (IZR j - val x * IZR P) <= / 2 + IZR P * bpow radix2 (-35) /\ (Z.abs j <= 131072 * P)%Z /\
    (val x = 0 -> j = 0%Z).
Lemma grid_round (d : quad f64) : (forall m, bd 16 (qat m d)) ->
  exists d0, round_to_grid (N:=N) cfg d = Ok d0 /\ forall m, exists j, gridded (qat m (ppm cfg)) (qat m d) (qat m d0) j.
Proof.
  intros B. unfold round_to_grid, grid. cbn [div F64 ofZ].
  assert (Pp: forall m, (0 < qat m (ppm cfg) <= 1000)%Z) by (intros m; destruct (lc_ppm cfg Hlin m); lia).
  destruct (base_ok _ (Pp MX)) as (bx & Ex & Hx). destruct (base_ok _ (Pp MY)) as (by_ & Ey & Hy).
  destruct (base_ok _ (Pp MZ)) as (bz & Ez & Hz). destruct (base_ok _ (Pp ME)) as (be & Ee & He).
  cbn [qat] in Ex, Ey, Ez, Ee. rewrite Ex. cbn [rbind]. rewrite Ey. cbn [rbind]. rewrite Ez. cbn [rbind]. rewrite Ee. cbn [rbind].
  unfold Coordinates.round. cbn [qx qy qz qe].
  assert (R: forall m b, fin b /\ val b = rd (/ IZR (qat m (ppm cfg))) -> exists j, round1 (N:=N) (qat m d) b = Ok (f_mul (f_ofZ j) b) /\ gridded (qat m (ppm cfg)) (qat m d) (f_rnd10 (f_mul (f_ofZ j) b)) j).
  { intros m b Hb. destruct (B m) as [F U]. destruct (round1_val acos _ (Pp m) b Hb _ F U) as (j & E1 & E2 & E3 & E4). exists j. split; [exact E1|].
    exists b. split; [exact Hb|]. split; [reflexivity|]. split; [exact E2|]. split; [exact E3|]. intros Z. apply E4. rewrite Z, Rmult_0_l, Rminus_0_r, Rabs_R0. lra. }
  destruct (R MX bx Hx) as (jx & Rx & Gx). destruct (R MY by_ Hy) as (jy & Ry & Gy). destruct (R MZ bz Hz) as (jz & Rz & Gz). destruct (R ME be He) as (je & Re & Ge).
  cbn [qat] in Rx, Ry, Rz, Re. change (num N) with f64. rewrite Rx. cbn [rbind]. rewrite Ry. cbn [rbind]. rewrite Rz. cbn [rbind]. rewrite Re. cbn [rbind].
  eexists. split; [reflexivity|]. intros []; eexists; eassumption.
Qed.
(** The rounded displacement is j steps, up to 2e-10 mm. *)
Lemma gridded_val m x y j : gridded (qat m (ppm cfg)) x y j -> fin y /\ Rabs (val y - IZR j / IZR (qat m (ppm cfg))) <= / 5000000000.
Proof.
  intros (b & Hb & -> & _ & Bj & _). assert (Pp: (0 < qat m (ppm cfg) <= 1000)%Z) by (destruct (lc_ppm cfg Hlin m); lia).
  destruct (ofZ_small _ Pp j Bj) as [Fn Vn]. destruct (prod_bound _ Pp b Hb j Bj) as [E U].
  destruct (f_mul_val (f_ofZ j) b Fn (proj1 Hb)) as [F V]; [rewrite Vn; apply big_27; b2n; lra|].
  assert (Es := rd_error _ 18 ltac:(lia) U). change (18 - 54)%Z with (-36)%Z in Es.
  assert (D := dec_close_inv _ F). split; [apply D|]. set (k := dec10 (val (f_mul (f_ofZ j) b))) in *.
  assert (C := dec10_close (val (f_mul (f_ofZ j) b))). fold k in C. rewrite V, Vn in C.
  set (r := rd (IZR j * val b)) in *.
  assert (U2: Rabs r <= bpow radix2 18) by (apply rd_abs_le; [lia|exact U]).
  rewrite (proj2 D).
  assert (Er := rd_error (IZR k / e10) 19 ltac:(lia)). change (19 - 54)%Z with (-35)%Z in Er.
  assert (Er': Rabs (rd (IZR k / e10) - IZR k / e10) <= bpow radix2 (-35)).
  { apply Er. apply Rabs_le_inv in C, U2. apply Rabs_le. b2n. unfold e10 in *. change (bpow radix2 19) with 524288. lra. }
  apply Rabs_le_inv in C, Es, E, Er'. apply Rabs_le. b2n. unfold e10 in *. lra.
Qed.

Definition mot (a : axis) : motor := match a with AX => MX | AY => MY | AZ => MZ end.
Lemma qat_mot {A} a (q : quad A) : qat (mot a) q = ax a q. Proof. now destruct a. Qed.
Lemma gridded_dec a x y j : gridded (p a) x y j -> dec (j * step (p a)) y.
Proof.
  intros (b & Hb & -> & _ & Bj & _). exact (grid_mul (p a) (proj1 (acfg a)) b Hb _ (step_mul _ _ (acfg a)) j Bj).
Qed.
Lemma box_ok (q : quad N) : (forall a, fin (ax a q) /\ 0 <= val (ax a q) <= IZR (t a)) -> in_box cfg q = true.
Proof.
  intros H. unfold in_box, is_in_aabb.
  assert (Sx := sorted_corner acos cfg Hcfg AX). assert (Sy := sorted_corner acos cfg Hcfg AY). assert (Sz := sorted_corner acos cfg Hcfg AZ).
  cbn [ax] in Sx, Sy, Sz. rewrite Sx, Sy, Sz. cbn [ltb F64].
  assert (K: forall a, f_lt (ax a q) (f_rnd10 (f_ofZ 0)) = false /\ f_lt (f_rnd10 (f_ofZ (t a))) (ax a q) = false).
  { intros a. destruct (H a) as (F & L & U). destruct (acfg a) as (_ & _ & Ht). destruct (rnd10_ofZ 0) as [F0 V0]; [lia|]. destruct (rnd10_ofZ (t a)) as [Ft Vt]; [lia|].
    split; apply f_lt_false; auto; lra. }
  destruct (K AX) as [X1 X2]. destruct (K AY) as [Y1 Y2]. destruct (K AZ) as [Z1 Z2]. cbn [ax] in *. change (num N) with f64 in *.
  rewrite X1, X2, Y1, Y2, Z1, Z2. reflexivity.
Qed.

(** What the machine hands to the hardware: the generator of a displacement on the grid
    whose velocities it has checked. *)
Definition handed (ev : event N) : Prop := exists lg d0 v, ev = EMove (GLinear lg) /\ fit_move cfg d0 v /\
  (forall m, exists x j, gridded (qat m (ppm cfg)) x (qat m d0) j) /\ make_linear (N:=N) cfg d0 v = Ok lg /\
  too_fast (N:=N) cfg (gen_max_velocity (N:=N) (GLinear lg)) = false.

(** A straight move whose end is on the table is executed, and its generator runs
    to the end. *)
Lemma move_runs_box hw (m : machine N) (d : quad f64) (v : f64) l (n : axis -> Z) :
  never_fails_on handed hw -> (forall a, at_step m a (n a)) -> (forall mo, bd 16 (qat mo d)) ->
  (forall d0 a, round_to_grid (N:=N) cfg d = Ok d0 -> exists j, dec (j * step (p a)) (ax a d0) /\ inside (p a) (t a) (n a + j)) ->
  Rabs (val (qe d)) <= 4000 -> fin v -> 1 <= val v <= bpow radix2 60 ->
  exists m' es, move_linear (N:=N) cfg hw d v m l = (m', l ++ es, Ok tt) /\
    (forall g, In (EMove g) es -> exists lg d0 its, handed (EMove g) /\ g = GLinear lg /\ emits (N:=N) cfg d0 v lg its).
Proof.
  intros Hn Hat Bd Hin Be Fv Bv. destruct (grid_round d Bd) as (d0 & Er & G). change (quad (num N)) with (quad f64) in d0.
  assert (G': forall mo : motor, exists j, gridded (qat mo (ppm cfg)) (qat mo d) (@qat f64 mo d0) j) by exact G. clear G. rename G' into G.
  unfold move_linear. unfold bind at 1, lift at 1. match goal with |- context [round_to_grid cfg d] => rewrite Er end.
  destruct (is_zero (N:=N) d0) eqn:Ez.
  - exists m, []. rewrite app_nil_r. split; [reflexivity|]. intros g [].
  - assert (IA: forall a, exists j, dec (j * step (p a)) (ax a d0) /\ inside (p a) (t a) (n a + j) /\ (Z.abs j <= 4096 * p a)%Z).
    { intros a. destruct (Hin d0 a Er) as (j & Dj & I). exists j. split; [exact Dj|]. split; [exact I|]. assert (I0 := proj2 (Hat a)). unfold inside in *. destruct (acfg a) as (P0 & _ & T0). nia. }
    assert (Box: in_box cfg (cadd (N:=N) (m_position m) d0) = true).
    { apply box_ok. intros a. destruct (IA a) as (j & Dj & In & Sj). destruct (Hat a) as [Dn I0].
      assert (Hp := proj1 (acfg a)). assert (Hs := step_mul _ _ (acfg a)). assert (S1 := inside_small _ _ (acfg a) _ I0). assert (S2 := inside_small _ _ (acfg a) _ In).
      assert (Dd := dec_add _ _ _ _ Dn Dj ltac:(apply (step_small (p a) Hp _ Hs); lia) ltac:(apply (step_small (p a) Hp _ Hs); lia)).
      rewrite (ax_cadd acos). replace (n a * step (p a) + j * step (p a))%Z with ((n a + j) * step (p a))%Z in Dd by ring.
      assert (Sd := step_small (p a) Hp _ Hs (n a + j) ltac:(lia)).
      split; [apply Dd|]. unfold inside in In. assert (0 < step (p a))%Z by nia. split.
      - apply (dec_ge_0 _ _ Dd Sd). nia.
      - apply (dec_le_int _ _ _ Dd Sd). rewrite <- Hs. nia. }
    assert (Fm: fit_move cfg d0 v).
    { split; [| |split; assumption].
      - intros mo. destruct mo.
        1-3: match goal with |- fin (qat ?mo _) /\ _ => let a := match mo with MX => constr:(AX) | MY => constr:(AY) | MZ => constr:(AZ) end in
               destruct (IA a) as (j & Dj & _ & Sj); assert (Hp := proj1 (acfg a)); assert (Hs := step_mul _ _ (acfg a)); change (dec (j * step (p a)) (qat mo d0)) in Dj; change (num N) with f64 in *;
               split; [apply Dj|]; rewrite (proj2 Dj); change 4096 with (bpow radix2 12); apply rd_abs_le; [lia|];
               rewrite (step_R (p a) Hp _ Hs); assert (Pp := p_pos (p a) Hp); unfold Rdiv; rewrite Rabs_mult, (Rabs_pos_eq (/ _)), <- abs_IZR by (left; now apply Rinv_0_lt_compat);
               apply Rmult_le_reg_r with (IZR (p a)); [lra|]; rewrite Rmult_assoc, Rinv_l, Rmult_1_r by lra; change (bpow radix2 12) with 4096; rewrite <- mult_IZR; now apply IZR_le end.
        destruct (G ME) as (j & Gj). destruct (gridded_val ME _ _ _ Gj) as [F C]. split; [exact F|]. destruct Gj as (b & _ & _ & E2 & _).
        cbn [qat] in *. destruct (lc_ppm cfg Hlin ME) as [p1 p2]. cbn [qat] in p1, p2. apply IZR_le in p1, p2.
        assert (C2: Rabs (IZR j / IZR (qe (ppm cfg)) - val (qe d)) <= 1).
        { replace (IZR j / IZR (qe (ppm cfg)) - val (qe d)) with ((IZR j - val (qe d) * IZR (qe (ppm cfg))) * / IZR (qe (ppm cfg))) by (field; lra).
          rewrite Rabs_mult, (Rabs_pos_eq (/ _)) by (left; apply Rinv_0_lt_compat; lra). apply Rmult_le_reg_r with (IZR (qe (ppm cfg))); [lra|].
          rewrite Rmult_assoc, Rinv_l, Rmult_1_r, Rmult_1_l by lra. eapply Rle_trans; [exact E2|]. b2n. lra. }
        apply Rabs_le_inv in C, C2, Be. apply Rabs_le. change (num N) with f64 in *. set (w := IZR j / IZR (qe (ppm cfg))) in *. clearbody w. lra.
      - assert (Nz: exists mo, val (qat mo d0) <> 0).
        { change (f_eq (qx d0) (f_ofZ 0) && f_eq (qy d0) (f_ofZ 0) && f_eq (qz d0) (f_ofZ 0) && f_eq (qe d0) (f_ofZ 0) = false) in Ez. assert (Q: forall mo, f_eq (qat mo d0) (f_ofZ 0) = false -> val (qat mo d0) <> 0).
          { intros mo E Z. destruct (G mo) as (j & Gj). destruct (gridded_val mo _ _ _ Gj) as [F _]. apply (f_eq_zero _ F) in Z. change (num N) with f64 in *. congruence. }
          destruct (f_eq (qx d0) (f_ofZ 0)) eqn:E1; [|exists MX; now apply Q]. destruct (f_eq (qy d0) (f_ofZ 0)) eqn:E2; [|exists MY; now apply Q].
          destruct (f_eq (qz d0) (f_ofZ 0)) eqn:E3; [|exists MZ; now apply Q]. destruct (f_eq (qe d0) (f_ofZ 0)) eqn:E4; [discriminate Ez|exists ME; now apply Q]. }
        destruct Nz as (mo & Nz). exists mo. destruct (G mo) as (j & Gj). destruct (gridded_val mo _ _ _ Gj) as [F C].
        destruct (lc_ppm cfg Hlin mo) as [p1 p2]. apply IZR_le in p1, p2.
        assert (J: (j <> 0)%Z).
        { intros ->. apply Nz. destruct Gj as (b & Hb & -> & _). destruct (f_ofZ_val 0) as [F0 V0]; [lia|].
          destruct (f_mul_val (f_ofZ 0) b F0 (proj1 Hb)) as [Fm Vm]; [rewrite V0, Rmult_0_l, Rabs_R0; apply big_27; b2n; lra|]. rewrite V0, Rmult_0_l, rd_0 in Vm.
          rewrite (proj2 (dec_close_inv _ Fm)), Vm. unfold dec10. rewrite Rmult_0_l. change 0 with (IZR 0) at 1. rewrite ZnearestE_IZR. unfold Rdiv. rewrite Rmult_0_l. apply rd_0. }
        assert (J1: 1 <= Rabs (IZR j)) by (rewrite <- abs_IZR; apply (IZR_le 1); lia).
        set (P := IZR (qat mo (ppm cfg))) in *.
        assert (J2: Rabs (IZR j) <= (Rabs (val (qat mo d0)) + / 5000000000) * P).
        { replace (IZR j) with (IZR j / P * P) by (field; lra). rewrite Rabs_mult, (Rabs_pos_eq P) by lra. apply Rmult_le_compat_r; [lra|].
          replace (IZR j / P) with (val (qat mo d0) - (val (qat mo d0) - IZR j / P)) by ring. eapply Rle_trans; [apply Rabs_triang|]. rewrite Rabs_Ropp. lra. }
        lra. }
    destruct (adjusted_float acos cfg d0 v Hlin Hsec Hauto Fm) as (g & kap & Eg & Tf & _).
    unfold check_delta. unfold bind at 1. unfold bind at 1. unfold gets at 1. unfold fail_if. change (is_in_aabb (cadd (N:=N) (m_position m) d0) coords0 (table_corner cfg)) with (in_box cfg (cadd (N:=N) (m_position m) d0)).
    rewrite Box. cbn [negb ret]. unfold bind at 1, lift at 1. match goal with |- context [make_linear cfg d0 v] => rewrite Eg end.
    unfold bind at 1, check_velocity, fail_if. rewrite Tf. cbn [ret]. unfold bind at 1, call.
    assert (Hd: handed (EMove (GLinear g))).
    { exists g, d0, v. split; [reflexivity|]. split; [exact Fm|]. split; [|split; [exact Eg|exact Tf]]. intros mo. destruct (G mo) as (j & Gj). exists (qat mo d), j. exact Gj. }
    destruct (hw l (EMove (GLinear g))) as [b|e] eqn:Eh; [|exfalso; apply (Hn l (EMove (GLinear g)) e); [exact Hd|exact Eh]].
    unfold modify. eexists. exists [EMove (GLinear g)]. split; [reflexivity|].
    intros g' [E|[]]. injection E as <-. exists g, d0. destruct (emits_float_counts acos cfg d0 v Hlin Fm) as (g2 & its & Em & _).
    assert (g2 = g). { destruct Em as [E _]. rewrite Eg in E. injection E as <-. reflexivity. } subst g2. eexists. split; [exact Hd|]. split; [reflexivity|exact Em].
Qed.

Lemma move_runs hw (m : machine N) (d : quad f64) (v : f64) l (n : axis -> Z) :
  never_fails_on handed hw -> (forall a, at_step m a (n a)) -> (forall mo, bd 16 (qat mo d)) ->
  (forall a j, Rabs (IZR j - val (ax a d) * IZR (p a)) <= / 2 + IZR (p a) * bpow radix2 (-35) -> (val (ax a d) = 0 -> j = 0%Z) -> inside (p a) (t a) (n a + j)) ->
  Rabs (val (qe d)) <= 4000 -> fin v -> 1 <= val v <= bpow radix2 60 ->
  exists m' es, move_linear (N:=N) cfg hw d v m l = (m', l ++ es, Ok tt) /\
    (forall g, In (EMove g) es -> exists lg d0 its, handed (EMove g) /\ g = GLinear lg /\ emits (N:=N) cfg d0 v lg its).
Proof.
  intros Hn Hat Bd Hin. apply (move_runs_box hw m d v l n Hn Hat Bd). intros d0 a Er. destruct (grid_round d Bd) as (d1 & Er1 & G). change (quad (num N)) with (quad f64) in d1. assert (E: Ok d1 = Ok d0) by exact (eq_trans (eq_sym Er1) Er). injection E as <-.
  destruct (G (mot a)) as (j & Gj). rewrite !qat_mot in Gj. exists j. split; [apply (gridded_dec a _ _ _ Gj)|]. destruct Gj as (b & _ & _ & E2 & _ & E4). now apply Hin.
Qed.

(* ---------- the velocity of rapid moves ---------- *)
Lemma mul_abs x : f_mul (Babs x) (Babs x) = f_mul x x.
Proof.
  destruct x as [[]|[]| |s mx ex H]; try reflexivity.
  apply B2SF_inj. unfold f_mul. destruct s; [|reflexivity]. simpl. now rewrite !B2SF_SF2B.
Qed.
Lemma max_bounds : (60 <= quad_max (max_velocity_min cfg) <= 60000)%Z.
Proof.
  destruct (Hsec MX) as (a & Ea & Ba). destruct (Hsec MY) as (b & Eb & Bb). destruct (Hsec MZ) as (c & Ec & Bc). destruct (Hsec ME) as (e & Ee & Be).
  cbn [qat] in *. unfold quad_max. rewrite Ea, Eb, Ec, Ee. lia.
Qed.
Lemma rapid1_ok vl vmax (pr : f64) : (1 <= vl <= 60000)%Z -> (60 <= vmax <= 60000)%Z -> fin pr -> (val pr = 0 \/ bpow radix2 (-35) <= val pr) -> val pr <= 4 ->
  exists v, rapid1 (N:=N) vl vmax pr = Ok v /\ (1 <= v <= 60000)%Z.
Proof.
  intros Bl Bm F L U. unfold rapid1. cbn [ltb F64 zero ofZ div trunc]. destruct (f_lt (f_ofZ 0) pr) eqn:Lt; [|eauto].
  destruct (f_ofZ_val 0) as [F0 V0]; [lia|]. apply f_lt_true in Lt; auto. rewrite V0 in Lt.
  assert (Lp: bpow radix2 (-35) <= val pr) by (destruct L; [lra|assumption]).
  assert (Ap: ap 0 (-35) 2 pr (val pr)) by (apply ap_exact; [exact F|now right|change (bpow radix2 2) with 4; lra]).
  assert (Av: ap 0 0 16 (f_ofZ vmax) (IZR vmax)) by (apply ap_ofZ; lia).
  destruct (ap_div 0 0 0 16 (-35) 2 _ _ _ _ ltac:(lra) ltac:(lra) ltac:(lra) ltac:(lia) ltac:(lia) (Rgt_not_eq _ _ Lt) Av Ap) as (q & Eq & Aq).
  rewrite Eq. cbn [rbind]. destruct Aq as (Fq & [C _] & _). rewrite (f_trunc_val q Fq). cbn [rbind].
  destruct Bm as [m1 m2]. apply IZR_le in m1.
  assert (Q: 1 <= val q).
  { eapply Rle_trans; [|exact C]. assert (15 <= IZR vmax / val pr).
    { apply Rmult_le_reg_r with (val pr); [lra|]. unfold Rdiv. rewrite Rmult_assoc, Rinv_l by (apply Rgt_not_eq; lra). lra. }
    apply Rle_trans with ((1 - (0 + 0 + 4) * ep) * 15); [unfold ep; lra|apply Rmult_le_compat_l; [unfold ep; lra|assumption]]. }
  assert (T: (1 <= Ztrunc (val q))%Z) by (rewrite <- (Ztrunc_IZR 1); now apply Ztrunc_le).
  destruct (Z.ltb_spec (Ztrunc (val q)) vl); eexists; (split; [reflexivity|lia]).
Qed.
Definition coarse (x : f64) : Prop := fin x /\ (val x = 0 \/ bpow radix2 (-35) <= Rabs (val x)) /\ Rabs (val x) <= bpow radix2 16.
Lemma rapid_ok (delta : quad f64) : (forall mo, coarse (qat mo delta)) ->
  exists vl, rapid_velocity (N:=N) cfg delta = Ok vl /\ (1 <= vl <= 60000)%Z.
Proof.
  intros H. assert (MB := max_bounds). unfold rapid_velocity.
  set (da := Quad (Babs (qx delta)) (Babs (qy delta)) (Babs (qz delta)) (Babs (qe delta)) : quad f64).
  assert (Qa: forall mo, qat mo da = Babs (qat mo delta)) by (intros []; reflexivity).
  assert (D: dq 16 da).
  { intros mo. destruct (H mo) as (F & L & U). rewrite Qa, val_abs. split; [now apply fin_abs|]. split; [|exact U]. destruct L as [L|L]; [left; rewrite L; apply Rabs_R0|now right]. }
  assert (El: Coordinates.length (N:=N) delta = Coordinates.length (N:=N) da).
  { unfold Coordinates.length, da. cbn [qx qy qz qe mul F64]. now rewrite !mul_abs. }
  change (num N) with f64 in *. rewrite El. destruct (length_ap acos 16 da D ltac:(lia)) as (l & E & Al). rewrite E. cbn [rbind ltb F64 zero ofZ].
  destruct (f_lt (f_ofZ 0) l) eqn:Lt; [|eexists; split; [reflexivity|lia]].
  destruct (f_ofZ_val 0) as [F0 V0]; [lia|]. apply f_lt_true in Lt; [|exact F0|apply Al]. rewrite V0 in Lt.
  set (L := sqrt (len2 da)) in *.
  assert (L0: bpow radix2 (-35) <= L).
  { destruct Al as (_ & C & [Z|Z] & _); [|exact Z]. exfalso. destruct C as [_ C]. rewrite Z in C. lra. }
  assert (B35: bpow radix2 (-35) = / 34359738368) by reflexivity. rewrite B35 in L0.
  assert (Lnz: L <> 0) by (apply Rgt_not_eq; lra).
  assert (G: forall mo, exists x, f_div (f_rnd10 (Babs (qat mo delta))) l = Ok x /\ fin (f_rnd10 x) /\ (val (f_rnd10 x) = 0 \/ bpow radix2 (-35) <= val (f_rnd10 x)) /\ val (f_rnd10 x) <= 4).
  { intros mo. assert (Dm := dq_ap 16 da mo D). rewrite Qa in Dm. set (x := Babs (qat mo delta)) in *.
    destruct (rnd10_ap 0 (-35) 16 x (val x) ltac:(lra) ltac:(lia) Dm) as (Fw & Lw & Uw & Cw). set (w := f_rnd10 x) in *.
    assert (Aw: ap 0 (-35) 18 w (val w)) by (apply ap_exact; assumption).
    destruct (ap_div 0 11 (-35) 18 (-35) (16 + 1) _ _ _ _ ltac:(lra) ltac:(lra) ltac:(lra) ltac:(lia) ltac:(lia) Lnz Aw Al) as (q & Eq & Aq). exists q. split; [exact Eq|].
    destruct (rnd10_ap (0 + 11 + 4) (-35 - (16 + 1)) (18 - -35) q _ ltac:(lra) ltac:(lia) Aq) as (Fp & Lp & _ & Cp). split; [exact Fp|]. split; [exact Lp|].
    assert (xL: val x <= L). { unfold L. assert (X := len2_ge da mo). rewrite Qa in X. fold x in X. assert (X0: 0 <= val x) by (unfold x; rewrite val_abs; apply Rabs_pos). rewrite <- (sqrt_square (val x)) by exact X0. now apply sqrt_le_1_alt. }
    assert (x0: 0 <= val x) by (unfold x; rewrite val_abs; apply Rabs_pos).
    apply Rabs_le_inv in Cw, Cp.
    assert (wL: val w / L <= 3).
    { apply Rmult_le_reg_r with L; [lra|]. unfold Rdiv. rewrite Rmult_assoc, Rinv_l by exact Lnz. unfold ep in Cw. lra. }
    assert (w0: 0 <= val w / L) by (apply Rmult_le_pos; [destruct Lw as [->|Lw]; [lra|]; rewrite B35 in Lw; lra|left; apply Rinv_0_lt_compat; lra]).
    unfold ep in Cp. lra. }
  destruct (G MX) as (x & Ex & Px). destruct (G MY) as (y & Ey & Py). destruct (G MZ) as (z & Ez & Pz). destruct (G ME) as (e & Ee & Pe). cbn [qat] in Ex, Ey, Ez, Ee.
  unfold cdiv, cabs, coords. cbn [div F64 qx qy qz qe absn rnd10]. change (num N) with f64. rewrite Ex. cbn [rbind]. rewrite Ey. cbn [rbind]. rewrite Ez. cbn [rbind]. rewrite Ee. cbn [rbind qx qy qz qe].
  assert (B: forall mo, (60 <= qat mo (max_velocity_min cfg) <= 60000)%Z) by (intros mo; destruct (Hsec mo) as (k & -> & Bk); lia).
  destruct (rapid1_ok _ _ _ (ltac:(lia) : (1 <= quad_max (max_velocity_min cfg) <= 60000)%Z) (B MX) (proj1 Px) (proj1 (proj2 Px)) (proj2 (proj2 Px))) as (v1 & E1 & B1). cbn [qat] in E1. rewrite E1. cbn [rbind].
  destruct (rapid1_ok _ _ _ B1 (B MY) (proj1 Py) (proj1 (proj2 Py)) (proj2 (proj2 Py))) as (v2 & E2 & B2). cbn [qat] in E2. rewrite E2. cbn [rbind].
  destruct (rapid1_ok _ _ _ B2 (B MZ) (proj1 Pz) (proj1 (proj2 Pz)) (proj2 (proj2 Pz))) as (v3 & E3 & B3). cbn [qat] in E3. rewrite E3. cbn [rbind].
  destruct (rapid1_ok _ _ _ B3 (B ME) (proj1 Pe) (proj1 (proj2 Pe)) (proj2 (proj2 Pe))) as (v4 & E4 & B4). cbn [qat] in E4. eauto.
Qed.

(* ---------- displacement of a command ---------- *)
Definition near (x : f64) (r e : R) : Prop := fin x /\ Rabs (val x - r) <= e.
Lemma near_bound x r e B : near x r e -> Rabs r <= B -> Rabs (val x) <= B + e.
Proof. intros [_ H] Hr. apply Rabs_le_inv in H, Hr. apply Rabs_le. lra. Qed.
Lemma near_val x : fin x -> near x (val x) 0.
Proof. intros F. split; [exact F|]. rewrite Rminus_eq_0, Rabs_R0. lra. Qed.
Definition u18 : R := / 68719476736.
Lemma rd_18 x : Rabs x <= 262144 -> Rabs (rd x - x) <= u18.
Proof. intros H. exact (rd_error x 18 ltac:(lia) H). Qed.
Lemma near_add x y r1 r2 e1 e2 : near x r1 e1 -> near y r2 e2 -> Rabs (r1 + r2) + e1 + e2 <= 262144 -> near (f_add x y) (r1 + r2) (e1 + e2 + u18).
Proof.
  intros [F1 C1] [F2 C2] B. apply Rabs_le_inv in C1, C2. assert (B': Rabs (val x + val y) <= 262144).
  { assert (X := Rle_abs (r1 + r2)). assert (Y := Rle_abs (- (r1 + r2))). rewrite Rabs_Ropp in Y. apply Rabs_le. lra. }
  destruct (f_add_val x y F1 F2) as [F V]; [apply big_27; change (bpow radix2 28) with 268435456; lra|]. split; [exact F|]. rewrite V.
  assert (E := rd_18 _ B'). apply Rabs_le_inv in E. apply Rabs_le. lra.
Qed.
Lemma near_sub x y r1 r2 e1 e2 : near x r1 e1 -> near y r2 e2 -> Rabs (r1 - r2) + e1 + e2 <= 262144 -> near (f_sub x y) (r1 - r2) (e1 + e2 + u18).
Proof.
  intros [F1 C1] [F2 C2] B. apply Rabs_le_inv in C1, C2. assert (B': Rabs (val x - val y) <= 262144).
  { assert (X := Rle_abs (r1 - r2)). assert (Y := Rle_abs (- (r1 - r2))). rewrite Rabs_Ropp in Y. apply Rabs_le. lra. }
  destruct (f_sub_val x y F1 F2) as [F V]; [apply big_27; change (bpow radix2 28) with 268435456; lra|]. split; [exact F|]. rewrite V.
  assert (E := rd_18 _ B'). apply Rabs_le_inv in E. apply Rabs_le. lra.
Qed.
Lemma near_rnd x r e : near x r e -> Rabs r + e <= 200000 -> near (f_rnd10 x) r (e + 7 / 100000000000).
Proof.
  intros [F C] B. destruct (dec_close_inv x F) as [F' V]. split; [exact F'|]. rewrite V.
  assert (N1 := Znearest_half (fun z => negb (Z.even z)) (val x * e10)). fold (dec10 (val x)) in N1.
  assert (N2: Rabs (IZR (dec10 (val x)) / e10 - val x) <= / 20000000000).
  { replace (IZR (dec10 (val x)) / e10 - val x) with (- ((val x * e10 - IZR (dec10 (val x))) * / e10)) by (unfold e10; field).
    rewrite Rabs_Ropp, Rabs_mult, (Rabs_pos_eq (/ e10)) by (unfold e10; lra). apply Rle_trans with (/ 2 * / e10); [|unfold e10; lra].
    apply Rmult_le_compat_r; [unfold e10; lra|exact N1]. }
  assert (B1: Rabs (IZR (dec10 (val x)) / e10) <= 262144).
  { assert (X := Rle_abs r). assert (Y := Rle_abs (- r)). rewrite Rabs_Ropp in Y. apply Rabs_le_inv in C, N2. apply Rabs_le. lra. }
  assert (E := rd_18 _ B1). unfold u18 in E. apply Rabs_le_inv in E, C, N2. apply Rabs_le. lra.
Qed.
Lemma rnd_coarse x : fin x -> Rabs (val (f_rnd10 x)) <= 65536 -> coarse (f_rnd10 x).
Proof.
  intros F B. destruct (dec_close_inv x F) as [F' V]. split; [exact F'|]. split; [|exact B]. rewrite V. destruct (Z.eq_dec (dec10 (val x)) 0) as [->|Z].
  - left. unfold Rdiv. rewrite Rmult_0_l. exact (rd_IZR 0 ltac:(lia)).
  - right. apply rd_ge; [lia|].
    unfold Rdiv. rewrite Rabs_mult, (Rabs_pos_eq (/ e10)), <- abs_IZR by (unfold e10; lra). apply Rle_trans with (1 * / e10).
    + unfold e10. change (bpow radix2 (-35)) with (/ 34359738368). lra.
    + apply Rmult_le_compat_r; [unfold e10; lra|]. apply IZR_le. lia.
Qed.

(** Where the words of a line send an axis, in machine coordinates. *)
Definition origin (m : machine N) (a : axis4) : R := if m_absolute m then val (ax4 a (m_local m)) else val (ax4 a (m_position m)).
(** Position and work offset of an axis are finite and at most 32 m. *)
Definition bounded (m : machine N) (a : axis4) : Prop := bd 15 (ax4 a (m_position m)) /\ bd 15 (ax4 a (m_local m)).

(** The words a move reads are numbers. *)
Definition readable (g : gcode) : Prop := forall k lit, In k ["X"; "Y"; "Z"; "E"; "I"; "J"; "K"; "F"]%char -> lookup g k = Some lit ->
  exists x, LiteralValue lit x /\ Rabs x <= bpow radix2 60.
Lemma get_readable g k (d mu : N) : readable g -> In k ["X"; "Y"; "Z"; "E"; "I"; "J"; "K"; "F"]%char -> exists y, get (N:=N) g k d mu = Ok y.
Proof.
  intros R I. destruct (lookup g k) as [lit|] eqn:L; [|eexists; now apply get_missing]. destruct (R k lit I L) as (x & V & B).
  destruct (get_value acos g k lit x d mu L V) as (y & E & _); [eapply Rle_trans; [exact B|apply bpow_le; lia]|eauto].
Qed.
Lemma coordinates_readable g (d : quad N) mu : readable g -> exists c, get_coordinates (N:=N) g d mu = Ok c.
Proof.
  intros R. unfold get_coordinates.
  destruct (get_readable g "X" (qx d) mu R) as (x & Ex); [simpl; tauto|]. destruct (get_readable g "Y" (qy d) mu R) as (y & Ey); [simpl; tauto|].
  destruct (get_readable g "Z" (qz d) mu R) as (z & Ez); [simpl; tauto|]. destruct (get_readable g "E" (qe d) mu R) as (e & Ee); [simpl; tauto|].
  rewrite Ex; cbn [rbind]. rewrite Ey; cbn [rbind]. rewrite Ez; cbn [rbind]. rewrite Ee; cbn [rbind]. eauto.
Qed.
Lemma radius_readable g (d : quad N) mu : readable g -> exists c, get_radius (N:=N) g d mu = Ok c.
Proof.
  intros R. unfold get_radius.
  destruct (get_readable g "I" (qx d) mu R) as (x & Ex); [simpl; tauto|]. destruct (get_readable g "J" (qy d) mu R) as (y & Ey); [simpl; tauto|].
  destruct (get_readable g "K" (qz d) mu R) as (z & Ez); [simpl; tauto|].
  rewrite Ex; cbn [rbind]. rewrite Ey; cbn [rbind]. rewrite Ez; cbn [rbind]. eauto.
Qed.
Lemma delta_readable g m : readable g -> exists delta, command_delta (N:=N) g m = Ok delta.
Proof.
  intros R. unfold command_delta. destruct (m_absolute m); [|now apply coordinates_readable].
  destruct (coordinates_readable g (csub (m_position m) (m_local m)) (m_convert m) R) as (c & ->). cbn [rbind]. eauto.
Qed.
Lemma letter4_read a : In (letter4 a) ["X"; "Y"; "Z"; "E"; "I"; "J"; "K"; "F"]%char.
Proof. destruct a as [[]|]; simpl; tauto. Qed.

Lemma abs_near y w e loc pos : near y w e -> 0 <= e <= / 5000000000 -> Rabs w <= 70000 -> bd 15 loc -> bd 15 pos ->
  near (abs_delta (f_rnd10 y) loc pos) (w + val loc - val pos) (/ 1000000000) /\ fin (f_sub (f_rnd10 (f_add (f_rnd10 y) loc)) pos).
Proof.
  intros Hy He Bw [Fl Bl] [Fp Bp]. change (bpow radix2 15) with 32768 in *. apply Rabs_le_inv in Bw, Bl, Bp.
  assert (A1 := near_rnd _ _ _ Hy ltac:(apply Rle_trans with (70000 + e); [apply Rplus_le_compat_r; apply Rabs_le; lra|lra])).
  assert (A2 := near_add _ _ _ _ _ _ A1 (near_val _ Fl) ltac:(assert (Rabs (w + val loc) <= 150000) by (apply Rabs_le; lra); lra)).
  assert (A3 := near_rnd _ _ _ A2 ltac:(assert (Rabs (w + val loc) <= 150000) by (apply Rabs_le; lra); unfold u18; lra)).
  assert (A4 := near_sub _ _ _ _ _ _ A3 (near_val _ Fp) ltac:(assert (Rabs (w + val loc - val pos) <= 150000) by (apply Rabs_le; lra); unfold u18; lra)).
  assert (A5 := near_rnd _ _ _ A4 ltac:(assert (Rabs (w + val loc - val pos) <= 150000) by (apply Rabs_le; lra); unfold u18; lra)).
  split; [|apply A4]. destruct A5 as [F C]. split; [exact F|]. eapply Rle_trans; [exact C|]. unfold u18. lra.
Qed.

Lemma delta_near g m (delta : quad N) a u : readable g -> words_at_most coord_letters 1000 g -> unit_factor acos m u -> command_delta g m = Ok delta -> bounded m a ->
  exists y, ax4 a delta = f_rnd10 y /\ fin y /\
    (lookup g (letter4 a) = None -> Rabs (val (ax4 a delta)) <= / 1000000000) /\
    (forall lit x, lookup g (letter4 a) = Some lit -> LiteralValue lit x -> Rabs (val (ax4 a delta) - (origin m a + x * u - val (ax4 a (m_position m)))) <= / 1000000000).
Proof.
  intros R W U D [[Fp Bp] [Fl Bl]]. assert (D' := D). unfold command_delta in D'. unfold origin. destruct (m_absolute m) eqn:Ab.
  - destruct (command_delta_abs acos g m delta a Ab D) as (c & Hc & E). destruct (get_coordinates_axis acos _ _ _ _ a Hc) as (y & Hy & Ec). rewrite Ec in E.
    eexists. split; [exact E|]. destruct (lookup g (letter4 a)) as [lit|] eqn:L.
    + destruct (R _ _ (letter4_read a) L) as (x & V & _). destruct (word_close acos g _ lit x (ax4 a (csub (m_position m) (m_local m))) m u U L V (W _ _ _ (letter4_in a) L V)) as (y' & E' & Fy & Cy).
      rewrite E' in Hy. injection Hy as ->. assert (Bx := W _ _ _ (letter4_in a) L V). destruct (unit_factor_close acos m u U) as (_ & _ & Bu).
      assert (Bw: Rabs (x * u) <= 70000). { rewrite Rabs_mult. apply Rle_trans with (1000 * 26); [|lra]. apply Rmult_le_compat; auto using Rabs_pos. rewrite Rabs_pos_eq; lra. }
      assert (Ny: near y (x * u) (/ 137438953472)) by (split; [exact Fy|exact Cy]).
      destruct (abs_near y (x * u) (/ 137438953472) (ax4 a (m_local m)) (ax4 a (m_position m)) Ny ltac:(lra) Bw (conj Fl Bl) (conj Fp Bp)) as [[F C] Fs].
      split; [exact Fs|]. split; [discriminate|]. intros lit' x' L' V'. injection L' as <-. assert (x' = x) by (eapply LiteralValue_unique; eauto). subst x'.
      rewrite E. fold (abs_delta (f_rnd10 y) (ax4 a (m_local m)) (ax4 a (m_position m))). eapply Rle_trans; [|exact C]. right. f_equal. ring.
    + rewrite get_missing in Hy by exact L. injection Hy as <-. rewrite (ax4_csub acos) in E.
      assert (Bpl: Rabs (val (ax4 a (m_position m)) - val (ax4 a (m_local m))) <= 65536).
      { change (bpow radix2 15) with 32768 in *. apply Rabs_le_inv in Bp, Bl. apply Rabs_le. change (num N) with f64 in *. lra. }
      assert (N0 := near_sub _ _ _ _ _ _ (near_val _ Fp) (near_val _ Fl) ltac:(lra)).
      assert (N1 := near_rnd _ _ _ N0 ltac:(unfold u18; lra)). rewrite (ax4_csub acos).
      destruct (abs_near _ _ _ (ax4 a (m_local m)) (ax4 a (m_position m)) N1 ltac:(unfold u18; lra) ltac:(lra) (conj Fl Bl) (conj Fp Bp)) as [[F C] Fs].
      split; [exact Fs|]. split; [|discriminate]. intros _. rewrite E. eapply Rle_trans; [|exact C]. right. f_equal. unfold abs_delta. ring.
  - destruct (get_coordinates_axis acos _ _ _ _ a D') as (y & Hy & Ec). exists y. split; [exact Ec|]. rewrite Ec. destruct (lookup g (letter4 a)) as [lit|] eqn:L.
    + destruct (R _ _ (letter4_read a) L) as (x & V & _). destruct (word_close acos g _ lit x (ax4 a (coords0 (N:=N))) m u U L V (W _ _ _ (letter4_in a) L V)) as (y' & E' & Fy & Cy).
      rewrite E' in Hy. injection Hy as ->. assert (Bx := W _ _ _ (letter4_in a) L V). destruct (unit_factor_close acos m u U) as (_ & _ & Bu).
      assert (Bw: Rabs (x * u) <= 70000). { rewrite Rabs_mult. apply Rle_trans with (1000 * 26); [|lra]. apply Rmult_le_compat; auto using Rabs_pos. rewrite Rabs_pos_eq; lra. }
      assert (Ny: near y (x * u) (/ 137438953472)) by (split; [exact Fy|exact Cy]).
      assert (N1 := near_rnd _ _ _ Ny ltac:(lra)).
      split; [exact Fy|]. split; [discriminate|]. intros lit' x' L' V'. injection L' as <-. assert (x' = x) by (eapply LiteralValue_unique; eauto). subst x'.
      destruct N1 as [F C]. replace (val (ax4 a (m_position m)) + x * u - val (ax4 a (m_position m))) with (x * u) by ring. eapply Rle_trans; [exact C|lra].
    + rewrite get_missing in Hy by exact L. injection Hy as <-. assert (Z0: dec 0 (ax4 a (coords0 (N:=N)))).
      { replace (ax4 a (coords0 (N:=N))) with (f_rnd10 (f_ofZ 0)) by (now destruct a as [[]|]). apply dec_rnd10; [exact dec_0|unfold small; lia]. }
      assert (Z1 := dec_rnd10 _ _ Z0 ltac:(unfold small; lia)). split; [apply Z0|]. split; [|discriminate]. intros _. eapply Rle_trans; [right; apply f_equal; exact (dec_zero_val _ Z1)|rewrite Rabs_R0; lra].
Qed.

(** An axis of the table that is not named does not move at all. *)
Lemma delta_unnamed g m (delta : quad N) a : command_delta g m = Ok delta -> tame acos m (XYZ a) -> lookup g (axis_letter a) = None -> dec 0 (ax a delta).
Proof.
  intros D T L. destruct (m_absolute m) eqn:Ab; [exact (unnamed_delta acos g m delta (XYZ a) Ab D T L)|].
  unfold command_delta in D. rewrite Ab in D. destruct (get_coordinates_axis acos _ _ _ _ (XYZ a) D) as (y & Hy & Ec). cbn [ax4] in *. rewrite Ec.
  rewrite get_missing in Hy by exact L. injection Hy as <-. apply dec_rnd10; [|unfold small; lia].
  assert (Z0: dec 0 (f_rnd10 (f_ofZ 0))) by (apply dec_rnd10; [exact dec_0|unfold small; lia]). destruct a; exact Z0.
Qed.

(* ---------- the command ---------- *)
(** The end of the move named by the line is on the table, and the extruder moves less than four metres. *)
Record reachable (m : machine N) (g : gcode) (u : R) : Prop := {
  rb_table : forall a lit x, lookup g (axis_letter a) = Some lit -> LiteralValue lit x -> 0 <= origin m (XYZ a) + x * u <= IZR (t a);
  rb_extruder : forall lit x, lookup g "E" = Some lit -> LiteralValue lit x -> Rabs (origin m AE + x * u - val (qe (m_position m))) <= 3999
}.
(** The feed of the line is at least the minimum, and the feed in force is not huge. *)
Record feed_usable (m : machine N) (g : gcode) : Prop := {
  fu_word : forall lit x, lookup g "F" = Some lit -> LiteralValue lit x -> IZR (min_velocity_min cfg) <= x;
  fu_state : fin (m_velocity m) /\ val (m_velocity m) <= bpow radix2 60
}.

Lemma velocity_read g m : (1 <= min_velocity_min cfg)%Z -> small_int (min_velocity_min cfg) -> readable g -> feed_ok acos cfg m -> feed_usable m g ->
  exists v, get (N:=N) g "F" (m_velocity m) (f_ofZ 1) = Ok v /\ fin v /\ IZR (min_velocity_min cfg) <= val v <= bpow radix2 60.
Proof.
  intros M1 Sm R Fo [Fw [Fs Bs]]. destruct (lookup g "F") as [lit|] eqn:L.
  - destruct (R "F"%char lit ltac:(simpl; tauto) L) as (x & V & B).
    destruct (get_value acos g "F" lit x (m_velocity m) (f_ofZ 1) L V) as (y & E & Fy & Vy); [eapply Rle_trans; [exact B|apply bpow_le; lia]|].
    destruct one_val as [F1 V1]. assert (X := Fw lit x eq_refl V). assert (M1' := IZR_le _ _ M1).
    assert (By: IZR (min_velocity_min cfg) <= val y <= bpow radix2 60).
    { rewrite Vy. split; [rewrite <- (rd_IZR (min_velocity_min cfg)) by exact Sm; now apply rd_le|]. rewrite <- (rd_bpow 60) by lia. apply rd_le. eapply Rle_trans; [apply Rle_abs|exact B]. }
    destruct (f_mul_val y (f_ofZ 1) Fy F1) as [Fm Vm]. { rewrite V1, Rmult_1_r, Rabs_pos_eq by lra. eapply Rle_trans; [apply By|apply bpow_le; lia]. }
    rewrite V1, Rmult_1_r, rd_val in Vm. exists (f_mul y (f_ofZ 1)). split; [exact E|]. split; [exact Fm|]. rewrite Vm. exact By.
  - exists (m_velocity m). split; [now apply get_missing|]. split; [exact Fs|]. split; [|exact Bs].
    unfold feed_ok in Fo. destruct (f_ofZ_val (min_velocity_min cfg)) as [F0 V0]; [exact Sm|]. apply f_le_true in Fo; auto. now rewrite V0 in Fo.
Qed.

Lemma straight_runs_handed (P : hw_oracle N -> option gcode -> Prop) m es0 hw g u :
  (forall hw gc, P hw gc -> moderate gc) -> (1 <= min_velocity_min cfg <= quad_min (max_velocity_min cfg))%Z ->
  history_where P cfg m es0 -> moderate (Some g) -> readable g -> unit_factor acos m u ->
  effective_command g = Some (tx "G0") \/ effective_command g = Some (tx "G1") ->
  bounded m AE -> reachable m g u -> feed_usable m g -> never_fails_on handed hw ->
  exists m' es, run_command cfg hw (Some g) m = (m', es, Ok tt) /\
    (forall gen, In (EMove gen) es -> exists lg d v its, handed (EMove gen) /\ gen = GLinear lg /\ emits (N:=N) cfg d v lg its).
Proof.
  intros HP Hmin Hh Hg R U Hc Be Rb Fu Hn.
  assert (MB := max_bounds). assert (Sq: (quad_min (max_velocity_min cfg) <= 60000)%Z).
  { destruct (Hsec MX) as (a & Ea & Ba). cbn [qat] in Ea. unfold quad_min. lia. }
  assert (Fo: feed_ok acos cfg m) by (apply (feed_floor acos cfg P m es0); unfold small_int; auto; lia).
  destruct (velocity_read g m ltac:(lia) ltac:(unfold small_int; lia) R Fo Fu) as (v & Ev & Fv & Bv).
  destruct (delta_readable g m R) as (delta & Ed). destruct (radius_readable g (coords0 (N:=N)) (m_convert m) R) as (rr & Er).
  assert (Ht: on_table acos cfg m) by (apply (history_on_table acos cfg Hcfg P m es0); auto; intros; eapply moderate_radius, HP; eauto).
  assert (Hx: forall a, exists n, at_step m a n) by exact Ht.
  assert (Bd4: forall a, bounded m a).
  { intros [a|]; [|exact Be]. destruct (history_tame acos cfg Hcfg P m es0 a HP Hh) as (k & l & Dk & Dl & Sk & Sl). cbn [ax4] in *.
    assert (Q: forall z y, dec z y -> small15 z -> bd 15 y).
    { intros z y [F V] S. split; [exact F|]. rewrite V. apply rd_abs_le; [lia|]. unfold small15 in S. apply IZR_le in S. rewrite mult_IZR, abs_IZR in S.
      unfold Rdiv. rewrite Rabs_mult, (Rabs_pos_eq (/ e10)) by (unfold e10; lra). change (bpow radix2 15) with 32768. unfold e10. lra. }
    split; [eapply Q; eauto|eapply Q; eauto]. }
  assert (DN: forall a, exists y, ax4 a delta = f_rnd10 y /\ fin y /\ (lookup g (letter4 a) = None -> Rabs (val (ax4 a delta)) <= / 1000000000) /\
    (forall lit x, lookup g (letter4 a) = Some lit -> LiteralValue lit x -> Rabs (val (ax4 a delta) - (origin m a + x * u - val (ax4 a (m_position m)))) <= / 1000000000))
    by (intros a; apply (delta_near g m delta a u); auto; apply Hg).
  (* the three axes of the table *)
  assert (DA: forall a n, at_step m a n -> Rabs (val (ax a delta)) <= 4097 /\
    (forall j, Rabs (IZR j - val (ax a delta) * IZR (p a)) <= / 2 + IZR (p a) * bpow radix2 (-35) -> (val (ax a delta) = 0 -> j = 0%Z) -> inside (p a) (t a) (n + j))).
  { intros a n Hn0. assert (At := Hn0). destruct At as [Dn In]. destruct (acfg a) as (Hp & Hst & Ht0).
    assert (Hs := step_mul _ _ (acfg a)). assert (Pp := p_pos (p a) Hp).
    assert (Tm := history_tame acos cfg Hcfg P m es0 a HP Hh).
    destruct (lookup g (axis_letter a)) as [lit|] eqn:L.
    - destruct (R _ _ (letter4_read (XYZ a)) L) as (x & V & _). destruct (DN (XYZ a)) as (y & _ & _ & _ & C). specialize (C lit x L V). cbn [ax4] in C.
      assert (T := rb_table m g u Rb a lit x L V). set (T0 := origin m (XYZ a) + x * u) in *. clearbody T0.
      assert (Hpos: val (ax a (m_position m)) = rd (IZR n / IZR (p a))) by (rewrite (proj2 Dn), (step_R (p a) Hp _ Hs); reflexivity).
      assert (Bn: 0 <= IZR n / IZR (p a) <= 4096).
      { unfold inside in In. assert (I1: 0 <= IZR n) by (apply IZR_le; lia). assert (I2: IZR n <= 4096 * IZR (p a)) by (rewrite <- mult_IZR; apply IZR_le; nia). split.
        - apply Rmult_le_pos; [exact I1|left; now apply Rinv_0_lt_compat].
        - apply Rmult_le_reg_r with (IZR (p a)); [exact Pp|]. unfold Rdiv. rewrite Rmult_assoc, Rinv_l by lra. lra. }
      assert (En := rd_error (IZR n / IZR (p a)) 12 ltac:(lia) ltac:(change (bpow radix2 12) with 4096; rewrite Rabs_pos_eq; lra)). rewrite <- Hpos in En. change (bpow radix2 (12 - 54)) with (/ 4398046511104) in En.
      assert (Tt: IZR (t a) <= 4096) by (apply IZR_le; lia).
      change (num N) with f64 in *. set (pos := val (ax a (m_position m))) in *. set (D := val (ax a delta)) in *. clearbody pos D.
      set (w := IZR n / IZR (p a)) in *. assert (Ew: IZR n = w * IZR (p a)) by (unfold w; field; lra). clearbody w.
      apply Rabs_le_inv in C, En. split; [apply Rabs_le; lra|]. intros j Cj _.
      assert (p1000: IZR (p a) <= 1000) by (apply IZR_le; destruct (lc_ppm cfg Hlin (mot a)) as [_ Z]; rewrite qat_mot in Z; exact Z).
      change (bpow radix2 (-35)) with (/ 34359738368) in Cj. apply Rabs_le_inv in Cj.
      assert (CT: Rabs (IZR (n + j) - T0 * IZR (p a)) <= 6 / 10).
      { rewrite plus_IZR, Ew. replace (w * IZR (p a) + IZR j - T0 * IZR (p a)) with ((IZR j - D * IZR (p a)) + (D + w - T0) * IZR (p a)) by ring.
        assert (X: Rabs ((D + w - T0) * IZR (p a)) <= / 100000000 * 1000).
        { rewrite Rabs_mult. apply Rmult_le_compat; auto using Rabs_pos; [apply Rabs_le; lra|rewrite Rabs_pos_eq; lra]. }
        apply Rabs_le_inv in X. apply Rabs_le. lra. }
      apply Rabs_le_inv in CT. unfold inside.
      assert (0 <= T0 * IZR (p a)) by (apply Rmult_le_pos; lra). assert (T0 * IZR (p a) <= IZR (t a) * IZR (p a)) by (apply Rmult_le_compat_r; lra).
      split.
      + assert (-1 < n + j)%Z by (apply lt_IZR; lra). lia.
      + assert (n + j < t a * p a + 1)%Z by (apply lt_IZR; rewrite (plus_IZR (t a * p a) 1), mult_IZR; lra). lia.
    - assert (D0 := delta_unnamed g m delta a Ed Tm L). assert (Z := dec_zero_val _ D0). split.
      + eapply Rle_trans; [right; apply f_equal; exact Z|rewrite Rabs_R0; lra].
      + intros j _ Zj. rewrite (Zj Z), Z.add_0_r. exact In. }
  assert (DE: Rabs (val (qe delta)) <= 4000).
  { destruct (DN AE) as (y & _ & _ & C0 & C). cbn [ax4 letter4] in *. change (num N) with f64 in *. destruct (lookup g "E") as [lit|] eqn:L; [|eapply Rle_trans; [apply C0; reflexivity|lra]].
    destruct (R _ _ (letter4_read AE) L) as (x & V & _). specialize (C lit x eq_refl V). assert (B := rb_extruder m g u Rb lit x L V). change (num N) with f64 in *.
    set (w := origin m AE + x * u - val (qe (m_position m))) in *. clearbody w. apply Rabs_le_inv in C, B. apply Rabs_le. lra. }
  assert (Co: forall mo, coarse (qat mo delta)).
  { assert (Q: forall a, Rabs (val (ax4 a delta)) <= 65536 -> coarse (ax4 a delta)).
    { intros a B. destruct (DN a) as (y & E & Fy & _). revert B. rewrite E. now apply rnd_coarse. }
    intros mo. destruct mo; [apply (Q (XYZ AX))|apply (Q (XYZ AY))|apply (Q (XYZ AZ))|apply (Q AE)]; cbn [ax4];
      [destruct (Hx AX) as (n & X); destruct (DA _ _ X) as [B _]|destruct (Hx AY) as (n & X); destruct (DA _ _ X) as [B _]|destruct (Hx AZ) as (n & X); destruct (DA _ _ X) as [B _]|assert (B := DE)];
      (eapply Rle_trans; [exact B|lra]). }
  destruct (Hx AX) as (nx & Ax). destruct (Hx AY) as (ny & Ay). destruct (Hx AZ) as (nz & Az).
  set (n := fun a => match a with AX => nx | AY => ny | AZ => nz end). assert (An: forall a, at_step m a (n a)) by (intros []; assumption).
  assert (Go: forall v', fin v' -> 1 <= val v' <= bpow radix2 60 -> exists m' es, move_linear (N:=N) cfg hw delta v' m [] = (m', es, Ok tt) /\
    (forall gen, In (EMove gen) es -> exists lg d its, handed (EMove gen) /\ gen = GLinear lg /\ emits (N:=N) cfg d v' lg its)).
  { intros v' F' B'. apply (move_runs hw m delta v' [] n); auto.
    - intros mo. destruct (Co mo) as (F & _ & B). split; [exact F|exact B].
    - intros a j. apply (DA a (n a) (An a)). }
  unfold run_command, do_command, gets, lift, bind, fail_if. change (num N) with f64 in *. cbn [F64 ofZ ltb]. rewrite Ed. cbn beta iota. rewrite Ev, Er.
  assert (Lt: f_lt v (f_ofZ (min_velocity_min cfg)) = false).
  { destruct (f_ofZ_val (min_velocity_min cfg)) as [F0 V0]; [lia|]. apply f_lt_false; auto. rewrite V0. apply Bv. }
  rewrite Lt.
  assert (M1 := IZR_le _ _ (proj1 Hmin)).
  assert (Ex: exists c, (c = G0 \/ c = G1) /\ match effective_command g with Some t0 => assoc_text t0 command_table | None => None end = Some c).
  { destruct Hc as [-> | ->]; [exists G0|exists G1]; (split; [tauto|reflexivity]). }
  destruct Ex as (c & Hcc & Ec). destruct (effective_command g) as [t0|]; [|discriminate]. rewrite Ec.
  cbn [ret]. change (ret tt m []) with (m, @nil (event N), @Ok unit tt). cbn beta iota.
  assert (Fin: exists m' es, exec_cmd (N:=N) cfg hw g c delta rr v m [] = (m', es, Ok tt) /\
    (forall gen, In (EMove gen) es -> exists lg d v its, handed (EMove gen) /\ gen = GLinear lg /\ emits (N:=N) cfg d v lg its)).
  { destruct Hcc as [-> | ->]; cbn [exec_cmd].
    - destruct (rapid_ok delta Co) as (vl & Evl & Bvl). unfold bind, lift. replace (rapid_velocity (N:=N) cfg delta) with (Ok vl) by (symmetry; exact Evl). cbn beta iota.
      destruct (f_ofZ_val vl) as [Fl Vl]; [lia|]. destruct (Go (f_ofZ vl) Fl) as (m' & es & E & Hes).
      { rewrite Vl. destruct Bvl as [b1 b2]. apply IZR_le in b1, b2. split; [exact b1|]. eapply Rle_trans; [exact b2|]. apply Rle_trans with (bpow radix2 16); [change (bpow radix2 16) with 65536; lra|apply bpow_le; lia]. }
      exists m', es. split; [exact E|]. intros gen G. destruct (Hes gen G) as (lg & d & its & A). exists lg, d, (f_ofZ vl), its. exact A.
    - destruct (Go v Fv) as (m' & es & E & Hes); [split; [lra|apply Bv]|]. exists m', es. split; [exact E|]. intros gen G. destruct (Hes gen G) as (lg & d & its & A). exists lg, d, v, its. exact A. }
  destruct Fin as (m' & es & E & Hes). exists (set_velocity m' v), es. split; [|exact Hes].
  match goal with |- context [exec_cmd ?a ?b ?c ?d ?e ?f ?g ?h ?i] => replace (exec_cmd a b c d e f g h i) with (m', es, @Ok unit tt) by (symmetry; exact E) end. reflexivity.
Qed.
Lemma straight_runs (P : hw_oracle N -> option gcode -> Prop) m es0 hw g u :
  (forall hw gc, P hw gc -> moderate gc) -> (1 <= min_velocity_min cfg <= quad_min (max_velocity_min cfg))%Z ->
  history_where P cfg m es0 -> moderate (Some g) -> readable g -> unit_factor acos m u ->
  effective_command g = Some (tx "G0") \/ effective_command g = Some (tx "G1") ->
  bounded m AE -> reachable m g u -> feed_usable m g -> never_fails_on (is_move acos) hw ->
  exists m' es, run_command cfg hw (Some g) m = (m', es, Ok tt) /\
    (forall gen, In (EMove gen) es -> exists lg d v its, gen = GLinear lg /\ emits (N:=N) cfg d v lg its).
Proof.
  intros HP Hmin Hh Hg R U Hc Be Rb Fu Hn. destruct (straight_runs_handed P m es0 hw g u HP Hmin Hh Hg R U Hc Be Rb Fu) as (m' & es & E & H).
  - intros l ev e (lg & d & v & -> & _). apply Hn. eexists. reflexivity.
  - exists m', es. split; [exact E|]. intros gen I. destruct (H gen I) as (lg & d & v & its & _ & X). exists lg, d, v, its. exact X.
Qed.
End Run.
