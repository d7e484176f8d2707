(** The velocity of rapid moves (G0) in binary64 (C62). *)
From Coq Require Import ZArith Bool List Lia Reals Lra Psatz.
From Flocq Require Import Core BinarySingleNaN.
From Verif Require Import PyBase PyNum PyFloatFacts Config Coordinates Pulses PulseSpec GMachine FloatRel LinearLaw LinearFloat LinearFloatRun LinearFloatLimit StraightRun RapidLaw.
From Coq Require Import List.
From Flocq Require Import Core.
Local Open Scope R_scope.

(** A number as Coordinates keeps it (cnc/coordinates.py:15-18), of at most 65 m. *)
Definition kept (x : f64) : Prop := fin x /\ f_rnd10 x = x /\ Rabs (val x) <= bpow radix2 16.
(** The length of a displacement, and the part of it along one axis. *)
Definition way (d : quad f64) : R := sqrt (len2 d).
Definition share (d : quad f64) (m : motor) : R := Rabs (val (qat m d)) / way d.
Definition tiny : R := / 100000.

Lemma kept_abs x : kept x -> val (f_rnd10 (Babs x)) = Rabs (val x).
Proof.
  intros (F & E & _). destruct (f_rnd10_val (Babs x)) as (_ & V & _); [now apply fin_abs|]. rewrite V, val_abs.
  destruct (f_rnd10_val x F) as (_ & V' & _). rewrite E in V'.
  destruct (Rle_lt_dec 0 (val x)) as [H|H].
  - rewrite (Rabs_pos_eq _ H). now symmetry.
  - rewrite (Rabs_left _ H), dec10_opp, opp_IZR. replace (- IZR (dec10 (val x)) / e10) with (- (IZR (dec10 (val x)) / e10)) by (unfold Rdiv; ring).
    unfold rd. rewrite round_NE_opp. f_equal. symmetry. exact V'.
Qed.
Lemma kept_coarse x : kept x -> coarse x.
Proof.
  intros K. destruct (rnd10_close (Babs x)) as (_ & _ & L & _); [apply fin_abs; apply K|rewrite val_abs; apply Rabs_pos|].
  rewrite (kept_abs x K) in L. destruct K as (F & _ & B). split; [exact F|]. split; [|exact B]. destruct L as [L|L]; [left|now right].
  destruct (Req_dec (val x) 0); [assumption|]. exfalso. now apply (Rabs_no_R0 (val x)).
Qed.

Section Rapid.
Variable acos : f64 -> f64.
Notation N := (F64 acos).
Variable cfg : config.
Hypothesis Hsec : sec_limits cfg.

Lemma rapid1_law vl vmax (pr : f64) y : (1 <= vl <= 60000)%Z -> (60 <= vmax <= 60000)%Z -> fin pr -> (val pr = 0 \/ bpow radix2 (-35) <= val pr) ->
  val pr <= 4 -> 0 <= y <= 1 -> Rabs (val pr - y) <= 52 / 1000000000000 ->
  exists v, rapid1 (N:=N) vl vmax pr = Ok v /\ (1 <= v <= vl)%Z /\ IZR v * y <= IZR vmax + tiny /\ (v = vl \/ IZR vmax - tiny < (IZR v + 1) * y).
Proof.
  intros Bl Bm F L U Y D. apply Rabs_le_inv in D. unfold tiny.
  assert (B35: bpow radix2 (-35) = / 34359738368) by reflexivity.
  unfold rapid1. cbn [ltb F64 zero ofZ div trunc]. destruct (f_ofZ_val 0) as [F0 V0]; [lia|].
  assert (Rl: 1 <= IZR vl <= 60000) by (split; apply IZR_le; lia).
  assert (Rm: 60 <= IZR vmax <= 60000) by (split; apply IZR_le; lia).
  destruct (f_lt (f_ofZ 0) pr) eqn:Lt.
  2: { exists vl. split; [reflexivity|]. split; [lia|]. split; [|now left].
       assert (P0: val pr = 0). { destruct L as [L|L]; [exact L|]. exfalso. assert (T: f_lt (f_ofZ 0) pr = true) by (apply f_lt_true; auto; rewrite V0, B35 in *; lra). congruence. }
       rewrite P0 in D. nra. }
  apply f_lt_true in Lt; auto. rewrite V0 in Lt.
  assert (Lp: bpow radix2 (-35) <= val pr) by (destruct L; [lra|assumption]).
  assert (Ap: ap 0 (-35) 2 pr (val pr)) by (apply ap_exact; [exact F|now right|change (bpow radix2 2) with 4; lra]).
  assert (Av: ap 0 0 16 (f_ofZ vmax) (IZR vmax)) by (apply ap_ofZ; lia).
  destruct (ap_div 0 0 0 16 (-35) 2 _ _ _ _ ltac:(lra) ltac:(lra) ltac:(lra) ltac:(lia) ltac:(lia) (Rgt_not_eq _ _ Lt) Av Ap) as (q & Eq & Aq).
  rewrite Eq. cbn [rbind]. destruct Aq as (Fq & [C1 C2] & _). rewrite (f_trunc_val q Fq). cbn [rbind].
  set (w := IZR vmax / val pr) in *. assert (W: w * val pr = IZR vmax) by (unfold w; field; lra).
  assert (W15: 15 <= w) by (apply Rmult_le_reg_r with (val pr); lra).
  assert (Q: 1 <= val q) by (eapply Rle_trans; [|exact C1]; unfold ep; lra).
  rewrite Ztrunc_floor by lra. set (k := Zfloor (val q)).
  assert (Q1: IZR k <= val q) by apply Zfloor_lb. assert (Q2: val q < IZR k + 1) by apply Zfloor_ub.
  assert (K1: (1 <= k)%Z) by (apply Zfloor_lub; exact Q).
  assert (E1: (1 - (0 + 0 + 4) * ep) * w * val pr = IZR vmax - 4 * ep * IZR vmax) by (rewrite <- W; ring).
  assert (E2: (1 + (0 + 0 + 4) * ep) * w * val pr = IZR vmax + 4 * ep * IZR vmax) by (rewrite <- W; ring).
  assert (S1: 4 * ep * IZR vmax <= / 1000000) by (unfold ep; lra).
  assert (P1: val q * val pr <= IZR vmax + / 1000000) by (eapply Rle_trans; [apply Rmult_le_compat_r; [lra|exact C2]|]; lra).
  assert (P2: IZR vmax - / 1000000 <= val q * val pr) by (eapply Rle_trans; [|apply Rmult_le_compat_r; [lra|exact C1]]; lra).
  destruct (Z.ltb_spec k vl) as [H|H].
  - exists k. split; [reflexivity|]. split; [lia|]. assert (Rk: 1 <= IZR k <= 60000) by (split; apply IZR_le; lia).
    assert (X1: IZR k * val pr <= val q * val pr) by (apply Rmult_le_compat_r; lra).
    assert (X2: val q * val pr < (IZR k + 1) * val pr) by (apply Rmult_lt_compat_r; lra).
    split; [|right]; nra.
  - exists vl. split; [reflexivity|]. split; [lia|]. split; [|now left]. apply IZR_le in H.
    assert (X1: IZR vl * val pr <= val q * val pr) by (apply Rmult_le_compat_r; lra). nra.
Qed.

Lemma rapid_float (d : quad f64) : (forall m, kept (qat m d)) -> way d <> 0 ->
  exists v, rapid_velocity (N:=N) cfg d = Ok v /\
    (forall m, IZR v * share d m <= IZR (qat m (max_velocity_min cfg)) + tiny) /\
    ((exists m, IZR (qat m (max_velocity_min cfg)) - tiny < (IZR v + 1) * share d m) \/ v = quad_max (max_velocity_min cfg)).
Proof.
  intros K Wn. assert (MB := max_bounds cfg Hsec). unfold rapid_velocity.
  set (da := Quad (Babs (qx d)) (Babs (qy d)) (Babs (qz d)) (Babs (qe d)) : quad f64).
  assert (Qa: forall mo, qat mo da = Babs (qat mo d)) by (intros []; reflexivity).
  assert (D: dq 16 da).
  { intros mo. destruct (kept_coarse _ (K mo)) as (F & L & U). rewrite Qa, val_abs. split; [now apply fin_abs|]. split; [|exact U]. destruct L as [L|L]; [left; rewrite L; apply Rabs_R0|now right]. }
  assert (El: Coordinates.length (N:=N) d = Coordinates.length (N:=N) da).
  { unfold Coordinates.length, da. cbn [qx qy qz qe mul F64]. now rewrite !mul_abs. }
  assert (Ew: way d = sqrt (len2 da)).
  { unfold way, len2, da. cbn [qx qy qz qe]. rewrite !val_abs. f_equal. rewrite <- !Rabs_mult, !Rabs_pos_eq by apply Rle_0_sqr. reflexivity. }
  change (num N) with f64 in *. rewrite El. destruct (length_ap acos 16 da D ltac:(lia)) as (l & E & Al). rewrite E. cbn [rbind ltb F64 zero ofZ].
  rewrite <- Ew in Al. set (L := way d) in *.
  destruct (f_ofZ_val 0) as [F0 V0]; [lia|].
  assert (B35: bpow radix2 (-35) = / 34359738368) by reflexivity.
  assert (L0: bpow radix2 (-35) <= L) by (destruct Al as (_ & _ & [Z|Z] & _); [now elim Wn|exact Z]). rewrite B35 in L0.
  assert (Lt: f_lt (f_ofZ 0) l = true).
  { destruct Al as (Fl & [C _] & _). apply f_lt_true; auto. rewrite V0. eapply Rlt_le_trans; [|exact C]. apply Rmult_lt_0_compat; [unfold ep|]; lra. }
  rewrite Lt.
  assert (S1: forall mo, 0 <= share d mo <= 1).
  { intros mo. unfold share. fold L. split; [apply Rmult_le_pos; [apply Rabs_pos|left; apply Rinv_0_lt_compat; lra]|].
    apply Rmult_le_reg_r with L; [lra|]. unfold Rdiv. rewrite Rmult_assoc, Rinv_l, Rmult_1_r, Rmult_1_l by exact Wn.
    rewrite Ew. assert (X := len2_ge da mo). rewrite Qa, val_abs in X. rewrite <- (sqrt_square (Rabs (val (qat mo d)))) by apply Rabs_pos. now apply sqrt_le_1_alt. }
  assert (G: forall mo, exists x, f_div (f_rnd10 (Babs (qat mo d))) l = Ok x /\ fin (f_rnd10 x) /\ (val (f_rnd10 x) = 0 \/ bpow radix2 (-35) <= val (f_rnd10 x)) /\ val (f_rnd10 x) <= 4 /\
    Rabs (val (f_rnd10 x) - share d mo) <= 52 / 1000000000000).
  { intros mo. assert (Dm := dq_ap 16 da mo D). rewrite Qa in Dm. set (x := Babs (qat mo d)) in *.
    destruct (rnd10_ap 0 (-35) 16 x (val x) ltac:(lra) ltac:(lia) Dm) as (Fw & Lw & Uw & _).
    assert (Vw: val (f_rnd10 x) = Rabs (val (qat mo d))) by (apply kept_abs, K). set (w := f_rnd10 x) in *.
    assert (Aw: ap 0 (-35) 18 w (val w)) by (apply ap_exact; assumption).
    destruct (ap_div 0 11 (-35) 18 (-35) (16 + 1) _ _ _ _ ltac:(lra) ltac:(lra) ltac:(lra) ltac:(lia) ltac:(lia) Wn Aw Al) as (q & Eq & Aq). exists q. split; [exact Eq|].
    destruct (rnd10_ap (0 + 11 + 4) (-35 - (16 + 1)) (18 - -35) q _ ltac:(lra) ltac:(lia) Aq) as (Fp & Lp & _ & Cp). split; [exact Fp|]. split; [exact Lp|].
    rewrite Vw in Cp. change (Rabs (val (qat mo d)) / L) with (share d mo) in Cp. specialize (S1 mo).
    assert (Cp': Rabs (val (f_rnd10 q) - share d mo) <= 52 / 1000000000000) by (eapply Rle_trans; [exact Cp|]; unfold ep; lra).
    split; [|exact Cp']. apply Rabs_le_inv in Cp'. lra. }
  destruct (G MX) as (x & Ex & Fx & Lx & Ux & Dx). destruct (G MY) as (y & Ey & Fy & Ly & Uy & Dy). destruct (G MZ) as (z & Ez & Fz & Lz & Uz & Dz). destruct (G ME) as (e & Ee & Fe & Le & Ue & De). cbn [qat] in Ex, Ey, Ez, Ee.
  unfold cdiv, cabs, coords. cbn [div F64 qx qy qz qe absn rnd10]. change (num N) with f64. rewrite Ex. cbn [rbind]. rewrite Ey. cbn [rbind]. rewrite Ez. cbn [rbind]. rewrite Ee. cbn [rbind qx qy qz qe].
  assert (B: forall mo, (60 <= qat mo (max_velocity_min cfg) <= 60000)%Z) by (intros mo; destruct (Hsec mo) as (k & -> & Bk); lia).
  destruct (rapid1_law _ _ _ _ (ltac:(lia) : (1 <= quad_max (max_velocity_min cfg) <= 60000)%Z) (B MX) Fx Lx Ux (S1 MX) Dx) as (v1 & E1 & B1 & F1 & D1). cbn [qat] in E1. rewrite E1. cbn [rbind].
  destruct (rapid1_law v1 _ _ _ ltac:(lia) (B MY) Fy Ly Uy (S1 MY) Dy) as (v2 & E2 & B2 & F2 & D2). cbn [qat] in E2. rewrite E2. cbn [rbind].
  destruct (rapid1_law v2 _ _ _ ltac:(lia) (B MZ) Fz Lz Uz (S1 MZ) Dz) as (v3 & E3 & B3 & F3 & D3). cbn [qat] in E3. rewrite E3. cbn [rbind].
  destruct (rapid1_law v3 _ _ _ ltac:(lia) (B ME) Fe Le Ue (S1 ME) De) as (v4 & E4 & B4 & F4 & D4). cbn [qat] in E4.
  exists v4. split; [exact E4|]. split.
  - assert (X: forall v m, (v4 <= v)%Z -> IZR v * share d m <= IZR (qat m (max_velocity_min cfg)) + tiny -> IZR v4 * share d m <= IZR (qat m (max_velocity_min cfg)) + tiny).
    { intros v m Hv H. apply IZR_le in Hv. eapply Rle_trans; [|exact H]. apply Rmult_le_compat_r; [apply S1|exact Hv]. }
    intros []; [apply (X v1)|apply (X v2)|apply (X v3)|exact F4]; auto; lia.
  - destruct D4 as [->|D4]; [|left; now exists ME].
    destruct D3 as [->|D3]; [|left; now exists MZ].
    destruct D2 as [->|D2]; [|left; now exists MY].
    destruct D1 as [->|D1]; [|left; now exists MX].
    now right.
Qed.
End Rapid.
