(** The checks of the virtual device on straight moves (C70). *)
From Coq Require Import ZArith Bool Reals Lra Lia List Sorted Psatz.
From Flocq Require Import Core BinarySingleNaN.
From Verif Require Import PyBase PyNum PyFloatFacts Config Coordinates Pulses PulseSpec GMachine HalVirtual Decimal GCodeSpec WordFacts MachinePos MachineArc ArcSpec ArcDone FloatRel FloatWarp LinearGen LinearLaw LinearFloat LinearFloatRun LinearFloatTime LinearFloatLimit StraightRun.
From Coq Require Import List.
From Flocq Require Import Core.
Import ListNotations.
Local Open Scope R_scope.

(* ---------- the loop ---------- *)
Section Loop.
Context {N : PyNum}.
Variable cfg : config.
Variable g : gen N.

Definition readable_time (t : N) : Prop := exists k, micros t = Ok k.
Definition later (k0 : Z) (t : N) : Prop := exists k, micros t = Ok k /\ (k0 < k)%Z.
Definition past (o : option Z) (l : list N) : Prop := match o with None => True | Some k0 => Forall (later k0) l end.
Definition apart (t u : N) : Prop := exists j k, micros t = Ok j /\ micros u = Ok k /\ (j < k)%Z.
Definition just (t : option N) : list N := match t with Some t => [t] | None => [] end.

Lemma vpulse1_ok (a : vaxis N) d t : Forall readable_time (just t) -> past (va_last a) (just t) ->
  exists a' o, vpulse1 a d t = Ok (a', o) /\
  match t with
  | None => a' = a /\ o = None
  | Some t => exists k, micros t = Ok k /\ o = Some k /\ va_i a' = (va_i a + d)%Z /\ va_last a' = Some k /\ (va_max a' = va_max a \/ va_max a' = t)
  end.
Proof.
  intros R Pa. destruct t as [t|]; [|exists a, None; auto]. cbn [just] in *. inversion R as [|? ? [k E] _]; subst. cbn [vpulse1]. rewrite E. cbn [rbind].
  assert (Q: match va_last a with Some l => check (0 <? k - l)%Z | None => Ok tt end = Ok tt).
  { destruct (va_last a) as [l|]; [|reflexivity]. cbn [past] in Pa. inversion Pa as [|? ? (k' & E' & L) _]; subst. rewrite E in E'. injection E' as <-.
    unfold check. replace (0 <? k - l)%Z with true by (symmetry; apply Z.ltb_lt; lia). reflexivity. }
  rewrite Q. cbn [rbind]. eexists. eexists. split; [reflexivity|]. exists k. cbn. repeat split; auto. destruct (ltb (va_max a) t); auto.
Qed.
Lemma given_in q k : In k (given q) -> exists m, qat m q = Some k.
Proof.
  unfold given. cbn [flat_map]. rewrite !in_app_iff.
  intros [H|[H|[H|[H|[]]]]]; [exists MX|exists MY|exists MZ|exists ME]; cbn [qat];
    [destruct (qx q)|destruct (qy q)|destruct (qz q)|destruct (qe q)]; solve [destruct H as [->|[]]; reflexivity|destruct H].
Qed.
Lemma together_ok q k m0 : qat m0 q = Some k -> (forall m k', qat m q = Some k' -> k' = k) -> together (given q) = true.
Proof.
  intros H0 H. assert (A: forall k', In k' (given q) -> k' = k) by (intros k' I; destruct (given_in q k' I) as (m & E); eapply H; eauto).
  assert (Ne: In k (given q)). { unfold given. cbn [flat_map]. rewrite !in_app_iff. destruct m0; cbn [qat] in H0; rewrite H0; cbn; tauto. }
  unfold together. destruct (given q) as [|k0 f]; [destruct Ne|]. apply forallb_forall. intros x I. apply Z.eqb_eq. rewrite (A x I). apply A. now left.
Qed.
Lemma motor_times_cons m q l : motor_times (N:=N) m (Pulse q :: l) = just (qat m q) ++ motor_times m l.
Proof. reflexivity. Qed.

Lemma vpulse_ok (s : vstate N) q t0 : pulse_at t0 (Pulse q) -> (forall m, Forall readable_time (just (qat m q))) -> (forall m, past (va_last (qat m (v_axes s))) (just (qat m q))) ->
  exists s', vpulse s q = Ok s' /\ v_dir s' = v_dir s /\ v_found s' = v_found s /\ forall m,
    va_i (qat m (v_axes s')) = (va_i (qat m (v_axes s)) + qat m (v_dir s) * step_of m (Pulse q))%Z /\
    (va_max (qat m (v_axes s')) = va_max (qat m (v_axes s)) \/ In (va_max (qat m (v_axes s'))) (just (qat m q))) /\
    match qat m q with None => va_last (qat m (v_axes s')) = va_last (qat m (v_axes s)) | Some t => exists k, micros t = Ok k /\ va_last (qat m (v_axes s')) = Some k end.
Proof.
  intros (q' & Eq & [m0 H0] & Al) R Pa. injection Eq as <-.
  destruct (vpulse1_ok _ (qat MX (v_dir s)) _ (R MX) (Pa MX)) as (ax & kx & Ex & Sx). destruct (vpulse1_ok _ (qat MY (v_dir s)) _ (R MY) (Pa MY)) as (ay & ky & Ey & Sy).
  destruct (vpulse1_ok _ (qat MZ (v_dir s)) _ (R MZ) (Pa MZ)) as (az & kz & Ez & Sz). destruct (vpulse1_ok _ (qat ME (v_dir s)) _ (R ME) (Pa ME)) as (ae & ke & Ee & Se).
  cbn [qat] in Ex, Ey, Ez, Ee. unfold vpulse. rewrite Ex. cbn [rbind]. rewrite Ey. cbn [rbind]. rewrite Ez. cbn [rbind]. rewrite Ee. cbn [rbind].
  assert (S: forall m, match qat m q with
    | None => qat m (Quad ax ay az ae) = qat m (v_axes s) /\ qat m (Quad kx ky kz ke) = None
    | Some t => exists k, micros t = Ok k /\ qat m (Quad kx ky kz ke) = Some k /\ va_i (qat m (Quad ax ay az ae)) = (va_i (qat m (v_axes s)) + qat m (v_dir s))%Z /\
        va_last (qat m (Quad ax ay az ae)) = Some k /\ (va_max (qat m (Quad ax ay az ae)) = va_max (qat m (v_axes s)) \/ va_max (qat m (Quad ax ay az ae)) = t) end)
    by (intros []; assumption).
  clear Sx Sy Sz Se. assert (S0 := S m0). rewrite H0 in S0. destruct S0 as (k & Ek & Qk & _).
  rewrite (together_ok (Quad kx ky kz ke) k m0 Qk).
  2: { intros m k' E. specialize (S m). destruct (qat m q) as [t|] eqn:Et; [|destruct S as [_ S]; congruence]. assert (t = t0) by (eapply Al; eauto). subst t. destruct S as (k2 & E2 & Q2 & _). congruence. }
  cbn [check rbind]. eexists. split; [reflexivity|]. cbn [v_axes v_dir v_found]. split; [reflexivity|]. split; [reflexivity|]. intros m. specialize (S m). cbn [step_of].
  destruct (qat m q) as [t|].
  - destruct S as (k2 & E2 & _ & -> & -> & Mx). rewrite Z.mul_1_r. split; [reflexivity|]. split; [destruct Mx as [->| ->]; [now left|right; now left]|eauto].
  - destruct S as [-> _]. rewrite Z.mul_0_r, Z.add_0_r. auto.
Qed.

Lemma vloop_ok l : forall s : vstate N, Forall is_pulse l -> (forall m, Forall readable_time (motor_times m l)) -> (forall m, StronglySorted apart (motor_times m l)) ->
  (forall m, past (va_last (qat m (v_axes s))) (motor_times m l)) ->
  exists s', vloop cfg g s l = Ok s' /\ v_dir s' = v_dir s /\ v_found s' = v_found s /\ forall m,
    va_i (qat m (v_axes s')) = (va_i (qat m (v_axes s)) + qat m (v_dir s) * steps m l)%Z /\
    (va_max (qat m (v_axes s')) = va_max (qat m (v_axes s)) \/ In (va_max (qat m (v_axes s'))) (motor_times m l)).
Proof.
  induction l as [|it l IH]; intros s Pl R So Pa.
  - exists s. split; [reflexivity|]. split; [reflexivity|]. split; [reflexivity|]. intros m. cbn. rewrite Z.mul_0_r, Z.add_0_r. auto.
  - inversion Pl as [|? ? [t0 P0] Pl']; subst. assert (P1 := P0). destruct P1 as (q & -> & _). cbn [vloop].
    destruct (vpulse_ok s q t0 P0) as (s1 & E1 & D1 & F1 & H1).
    + intros m. specialize (R m). rewrite motor_times_cons in R. apply Forall_app in R. apply R.
    + intros m. specialize (Pa m). rewrite motor_times_cons in Pa. unfold past in *. destruct (va_last (qat m (v_axes s))); [|exact I]. apply Forall_app in Pa. apply Pa.
    + rewrite E1. cbn [rbind]. destruct (IH s1 Pl') as (s' & E' & D' & F' & H').
      * intros m. specialize (R m). rewrite motor_times_cons in R. apply Forall_app in R. apply R.
      * intros m. specialize (So m). rewrite motor_times_cons in So. destruct (qat m q); cbn [just app] in So; [now inversion So|exact So].
      * intros m. specialize (Pa m). specialize (So m). rewrite motor_times_cons in Pa, So. destruct (H1 m) as (_ & _ & H2). destruct (qat m q) as [t|]; cbn [just app] in *.
        -- destruct H2 as (k & Ek & ->). cbn [past]. inversion So as [|? ? _ Fo]; subst. eapply Forall_impl; [|exact Fo]. intros u (j & k2 & Ej & Ek2 & L). exists k2. split; [exact Ek2|]. change (num N) with (num N) in *. congruence.
        -- rewrite H2. exact Pa.
      * exists s'. split; [exact E'|]. split; [congruence|]. split; [congruence|]. intros m. destruct (H' m) as [I' M']. destruct (H1 m) as (I1 & M1 & _). split.
        -- rewrite I', I1, D1. cbn [steps fold_right]. fold (steps m l). lia.
        -- rewrite motor_times_cons. destruct M' as [->|M']; [destruct M1 as [->|M1]; [now left|right]|right]; apply in_or_app; auto.
Qed.
End Loop.

(* ---------- the times in binary64 ---------- *)
(** Steps of every motor at most at 400 kHz. *)
Definition step_rates (cfg : config) : Prop := forall m, (qat m (max_velocity_min cfg) * qat m (ppm cfg) <= 24000000)%Z.
(** Steps of which some odd number up to 40 make a multiple of 10^-10 mm. *)
Definition fine_steps (P : Z) : Prop := exists q s, Z.odd q = true /\ (1 <= q <= 40)%Z /\ (q * 10000000000 = s * P)%Z.

Section Times.
Variable acos : f64 -> f64.
Notation N := (F64 acos).
Variable cfg : config.
Hypothesis Hc : lin_cfg cfg.
Hypothesis Hr : step_rates cfg.
Variable delta : quad f64.
Variable v : f64.
Hypothesis Hm : fit_move cfg delta v.
Variable g : linear_gen N.
Hypothesis Hf : too_fast (N:=N) cfg (gen_max_velocity (N:=N) (GLinear g)) = false.
Variable kap : R.
Hypothesis P : fprof acos cfg delta g kap.
Variable c : f64.
Notation A := (IZR (max_acceleration cfg)).
Notation V := (val (find_max (N:=N) (l_vel g))).
Hypothesis Hap : ap 7 (-27) 94 c (2 * V / A).
Notation a := (val (l_acc g)).
Notation L := (val (l_lin g)).
Notation C := (val c).
Notation p m := (IZR (qat m (ppm cfg))).
Notation vel m := (val (qat m (l_vel g : quad f64))).
Notation total m := (qat m (l_total g)).
Notation tm := (tm acos cfg g).
Notation W := (FloatWarp.W a L C).
Notation M := (FloatWarp.M a L).

(** A velocity that the check lets pass. *)
Lemma passed (x : f64) n : fin x -> 0 <= val x <= bpow radix2 92 -> (1 <= n <= 2 ^ 40)%Z ->
  f_lt (f_ofZ n) (f_rnd10 (f_mul x (f_ofZ 60))) = false -> val x * 60 <= IZR n + 1.
Proof.
  intros F B Bn H. destruct (f_ofZ_val 60) as [F6 V6]; [lia|]. destruct (f_ofZ_val n) as [Fn Vn]; [lia|].
  destruct (f_mul_val x (f_ofZ 60) F F6) as [Fm Vm].
  { rewrite V6. apply (to_big (92 + 6)); [lia|]. apply mul_pow; [rewrite Rabs_pos_eq; lra|rewrite Rabs_pos_eq; simpl; lra]. }
  apply f_lt_false in H; [|exact Fn|apply (f_rnd10_val _ Fm)]. rewrite Vn in H.
  destruct (Rle_dec (val x * 60) (IZR n + 1)) as [Y|Nn]; [exact Y|exfalso]. apply Rnot_le_lt in Nn. rewrite <- plus_IZR in Nn.
  assert (E1: rd (IZR (n + 1)) = IZR (n + 1)) by (apply rd_IZR; lia).
  assert (Z1: IZR (n + 1) <= val (f_mul x (f_ofZ 60))) by (rewrite Vm, V6, <- E1; apply rd_le; simpl; lra).
  destruct (f_rnd10_val _ Fm) as (_ & Vr & _). rewrite Vr in H.
  assert (Z2: ((n + 1) * 10000000000 <= dec10 (val (f_mul x (f_ofZ 60))))%Z).
  { unfold dec10, e10. rewrite <- (ZnearestE_IZR ((n + 1) * 10000000000)). apply Zrnd_le; [apply valid_rnd_N|]. rewrite mult_IZR. lra. }
  assert (Z3: IZR (n + 1) <= IZR (dec10 (val (f_mul x (f_ofZ 60)))) / e10) by (apply IZR_le in Z2; rewrite mult_IZR in Z2; unfold e10; lra).
  apply rd_le in Z3. rewrite E1 in Z3. rewrite plus_IZR in Z3. lra.
Qed.
Lemma vel_pass m : vel m * 60 <= IZR (qat m (max_velocity_min cfg)) + 1.
Proof.
  assert (D := fp_vel _ _ _ _ _ P). assert (B0 := dq_pos 92 _ m D). destruct (D m) as (F & _ & U).
  apply passed; [exact F|split; assumption|apply (lc_max cfg Hc m)|].
  unfold too_fast, gen_max_velocity, maxv in Hf. cbn [gen_vel] in Hf. apply orb_false_iff in Hf. destruct Hf as [Hf1 He]. apply orb_false_iff in Hf1. destruct Hf1 as [Hf1 Hz]. apply orb_false_iff in Hf1. destruct Hf1 as [Hx Hy].
  destruct m; assumption.
Qed.
Lemma rate m : p m * vel m <= 401000.
Proof.
  assert (Vp := vel_pass m). assert (Rm := Hr m). apply IZR_le in Rm. rewrite mult_IZR in Rm. assert (PB := p_bounds cfg Hc m).
  set (x := vel m) in *. set (n := IZR (qat m (max_velocity_min cfg))) in *.
  assert (p m * (x * 60) <= p m * (n + 1)) by (apply Rmult_le_compat_l; lra). lra.
Qed.
Lemma V_up : V <= 401000.
Proof.
  assert (D := fp_vel _ _ _ _ _ P). destruct (find_max_val acos (l_vel g)) as [[m E] _]; [intros m; apply D|].
  assert (Rm := rate m). assert (PB := p_bounds cfg Hc m). assert (B0 := dq_pos 92 _ m D).
  eapply Rle_trans; [right; apply f_equal; exact E|]. change (num N) with f64 in *. set (x := vel m) in *. clearbody x.
  assert (1 * x <= p m * x) by (apply Rmult_le_compat_r; [exact B0|lra]). lra.
Qed.
Lemma a_up : a <= 802001.
Proof.
  destruct (fp_ratio _ _ _ _ _ P) as [R1 _]. assert (Vu := V_up). destruct (lc_acc cfg Hc) as [A1 _]. apply IZR_le in A1.
  destruct (find_max_top acos (l_vel g) (fp_vel _ _ _ _ _ P) (fp_top _ _ _ _ _ P)) as [_ Tp].
  assert (2 * V / A <= 802000).
  { apply Rmult_le_reg_r with A; [lra|]. unfold Rdiv. rewrite Rmult_assoc, Rinv_l, Rmult_1_r by lra. assert (802000 * 1 <= 802000 * A) by (apply Rmult_le_compat_l; lra). lra. }
  assert (A0 := ap0 acos cfg delta g kap P). lra.
Qed.
Notation Ba := (Ba acos cfg delta g kap P).
Notation BL := (BL acos cfg delta g kap P).
Notation BC := (BC acos cfg delta g kap P c Hap).

(** Two pulses of a motor are more than a microsecond apart. *)
Lemma W_apart m i j : (0 <= i < j)%Z -> (j < total m)%Z -> 1005 / 1000000000 <= W (val (tm m j)) - W (val (tm m i)).
Proof.
  intros I J. destruct (tm_room acos cfg Hc delta v Hm g kap P c Hap m i ltac:(lia)) as (I1 & N1 & R1 & _). destruct (tm_room acos cfg Hc delta v Hm g kap P c Hap m j ltac:(lia)) as (I2 & N2 & R2 & _).
  assert (G := tm_gap acos cfg Hc delta v Hm g kap P m i j I J). assert (G1 := tm_gap1 acos cfg Hc delta v Hm g kap P m i j I J).
  assert (M0: 0 < M) by (unfold FloatWarp.M; pose proof (ap0 acos cfg delta g kap P); pose proof BL; lra).
  assert (O1 := om_close a L C Ba BL BC _ I1 N1 R1). assert (O2 := om_close a L C Ba BL BC _ I2 N2 R2). apply Rabs_le_inv in O1, O2.
  assert (Sl := om_slope a L C Ba BL BC _ _ I1 I2 ltac:(lra)). assert (Rm := rate m).
  set (x := val (tm m i)) in *. set (y := val (tm m j)) in *.
  assert (G2: 99 / 100 <= (y - x) * 401000) by (eapply Rle_trans; [exact G1|apply Rmult_le_compat_l; lra]).
  destruct (Rle_lt_dec 100 M); lra.
Qed.
Lemma W_top m i : (0 <= i < total m)%Z -> 0 <= W (val (tm m i)) <= T a L.
Proof.
  intros J. destruct (tm_room acos cfg Hc delta v Hm g kap P c Hap m i J) as (I1 & N1 & _ & _). split.
  - apply W_nonneg; auto; [exact Ba|exact BL|exact BC].
  - apply W_le_T; auto; [exact (fa acos g)|exact Ba|exact BL|exact BC].
Qed.
Lemma T_top : T a L <= 8000000.
Proof.
  assert (B := T_bounds a L C Ba BL BC). assert (A1 := a_up). assert (BLb := BL). change (bpow radix2 22) with 4194304 in BLb.
  destruct B as [_ B]. eapply Rle_trans; [exact B|]. apply Rle_trans with (5800000 * (1 + 4 * ep)); [|unfold ep; lra]. apply Rmult_le_compat_r; [unfold ep; lra|lra].
Qed.
Lemma micros_val (t : f64) : fin t -> 0 <= val t <= 8000000 -> exists k, micros (N:=N) t = Ok k /\ Rabs (IZR k - val t * 1000000) <= / 2 + / 1000.
Proof.
  intros F B. unfold micros. cbn [rnd mul ofZ F64]. destruct (f_ofZ_val 1000000) as [F6 V6]; [lia|].
  assert (Bp: Rabs (val t * 1000000) <= bpow radix2 43) by (change (bpow radix2 43) with 8796093022208; rewrite Rabs_pos_eq; lra).
  destruct (f_mul_val t (f_ofZ 1000000) F F6) as [Fm Vm]; [rewrite V6; apply (to_big 43); [lia|exact Bp]|].
  rewrite (f_rnd_val _ Fm), Vm, V6. eexists. split; [reflexivity|].
  assert (E := rd_error (val t * 1000000) 43 ltac:(lia) Bp). change (bpow radix2 (43 - 54)) with (/ 2048) in E.
  set (z := rd (val t * 1000000)) in *. assert (H := Znearest_half (fun x => negb (Z.even x)) z). fold (ZnearestE z) in H.
  rewrite Rabs_minus_sym in H. apply Rabs_le_inv in H, E. apply Rabs_le. change (IZR 1000000) with 1000000 in *. fold z. lra.
Qed.
Lemma micros_apart (t u : f64) : fin t -> fin u -> 0 <= val t <= 8000000 -> 0 <= val u <= 8000000 -> 1005 / 1000000000 <= val u - val t -> apart (N:=N) t u.
Proof.
  intros Ft Fu Bt Bu H. destruct (micros_val t Ft Bt) as (j & Ej & Cj). destruct (micros_val u Fu Bu) as (k & Ek & Ck). exists j, k. split; [exact Ej|]. split; [exact Ek|].
  apply Rabs_le_inv in Cj, Ck. apply lt_IZR. lra.
Qed.
Lemma frun_apart m r i l xs : frun acos cfg g c r i l xs ->
  Forall (fun t : f64 => fin t /\ exists j, (qat m i <= j < total m)%Z /\ val t = W (val (tm m j))) (motor_times m l) /\ StronglySorted (apart (N:=N)) (motor_times m l) /\ Forall (fun it => exists t, pulse_at (N:=N) t it) l.
Proof.
  intros H. induction H as [r i E|r i x am q l xs Fx X0 Lr Wa Hq [m0 Hx] Hr' (IH1 & IH2 & IH3)]; [repeat split; constructor|].
  assert (PA: pulse_at (N:=N) am (Pulse q)).
  { exists q. split; [reflexivity|]. split; [eauto|]. intros m' t' Et. destruct (Hq m') as [(E & _)|(E & _)]; congruence. }
  cbn [motor_times flat_map]. fold (motor_times m l). rewrite qat_fmoved in IH1. cbn [step_of] in IH1. destruct (Hq m) as [(E & J & Ev)|(E & _)]; rewrite E in *; cbn [app].
  - assert (T0 := tm_fin acos cfg Hc delta v Hm g kap P m _ J). destruct (tm_room acos cfg Hc delta v Hm g kap P c Hap m _ J) as (_ & _ & _ & U1).
    destruct (warp_val acos cfg delta g kap P c Hap x am Fx ltac:(rewrite <- Ev; split; [apply T0|exact U1]) Wa) as [Fam Vam]. rewrite <- Ev in Vam. split; [|split].
    + constructor; [split; [exact Fam|exists (qat m i); split; [lia|exact Vam]]|]. eapply Forall_impl; [|exact IH1]. intros t (Ft & j & Jj & Vt). split; [exact Ft|]. exists j. split; [lia|exact Vt].
    + constructor; [exact IH2|]. eapply Forall_impl; [|exact IH1]. intros t (Ft & j & Jj & Vt). cbv beta in *.
      assert (T8 := T_top). assert (B1 := W_top m (qat m i) ltac:(lia)). assert (B2 := W_top m j ltac:(lia)). assert (G := W_apart m (qat m i) j ltac:(lia) ltac:(lia)).
      change (num N) with f64 in *. rewrite <- Vam, <- Vt in *. apply micros_apart; auto; lra.
    + constructor; [eauto|exact IH3].
  - split; [|split; [exact IH2|constructor; [eauto|exact IH3]]]. eapply Forall_impl; [|exact IH1]. intros t (Ft & j & Jj & Vt). split; [exact Ft|]. exists j. split; [lia|exact Vt].
Qed.
End Times.

(* ---------- the final position ---------- *)
Lemma nearest_stable P j x : fine_steps P -> (0 < P)%Z -> Rabs (x - IZR j / IZR P) <= 12 / 1000000000000 / 10 -> dec10 x = ZnearestE (IZR j / IZR P * e10).
Proof.
  intros (q & s & Oq & Bq & Es) HP H. set (r := IZR j / IZR P * e10). set (k := ZnearestE r).
  assert (P0: 0 < IZR P) by (apply (IZR_lt 0); exact HP). destruct Bq as [q1 q2]. assert (Q1 := IZR_le _ _ q1). assert (Q2 := IZR_le _ _ q2).
  assert (Er: r * IZR q = IZR (j * s)).
  { rewrite mult_IZR. apply (f_equal IZR) in Es. rewrite !mult_IZR in Es. unfold r, e10. replace (IZR j / IZR P * 10000000000 * IZR q) with (IZR j * (IZR q * 10000000000) / IZR P) by (field; lra). rewrite Es. field. lra. }
  assert (Hk := Znearest_half (fun x => negb (Z.even x)) r). fold (ZnearestE r) in Hk. fold k in Hk.
  assert (Zk: (2 * Z.abs (j * s - k * q) <= q)%Z).
  { apply le_IZR. rewrite mult_IZR, abs_IZR, minus_IZR, <- Er, (mult_IZR k q). replace (r * IZR q - IZR k * IZR q) with ((r - IZR k) * IZR q) by ring. rewrite Rabs_mult, (Rabs_pos_eq (IZR q)) by lra.
    assert (Rabs (r - IZR k) * IZR q <= / 2 * IZR q) by (apply Rmult_le_compat_r; lra). lra. }
  assert (Zk2: (2 * Z.abs (j * s - k * q) <= q - 1)%Z) by (apply Zodd_bool_iff in Oq; apply Zodd_ex in Oq; destruct Oq as (h & ->); lia).
  assert (Rk: Rabs (r - IZR k) <= / 2 - / 80).
  { apply Rmult_le_reg_r with (IZR q); [lra|]. rewrite <- (Rabs_pos_eq (IZR q)) at 1 by lra. rewrite <- Rabs_mult. replace ((r - IZR k) * IZR q) with (IZR (j * s - k * q)) by (rewrite minus_IZR, <- Er, (mult_IZR k q); ring).
    rewrite <- abs_IZR. apply IZR_le in Zk2. rewrite mult_IZR, minus_IZR in Zk2. lra. }
  unfold dec10. apply ZnearestE_unique. replace (x * e10 - IZR k) with ((x - IZR j / IZR P) * e10 + (r - IZR k)) by (unfold r; ring).
  eapply Rle_lt_trans; [apply Rabs_triang|]. rewrite Rabs_mult, (Rabs_pos_eq e10) by (unfold e10; lra).
  assert (Rabs (x - IZR j / IZR P) * e10 <= 12 / 1000000000000 / 10 * e10) by (apply Rmult_le_compat_r; [unfold e10; lra|exact H]). unfold e10 in *. lra.
Qed.
Lemma sign_val y : fin y -> (val y < 0 -> f_copysign1 y = (-1)%Z) /\ (0 < val y -> f_copysign1 y = 1%Z).
Proof.
  intros F. unfold f_copysign1. destruct y as [sd|sd| |sd md ed Bd]; try discriminate; [cbn; split; intros; lra|]. destruct sd; cbn [Bsign].
  - split; [reflexivity|]. intros H. exfalso. apply (Rlt_asym _ _ H). apply F2R_lt_0. reflexivity.
  - split; [|reflexivity]. intros H. exfalso. apply (Rlt_asym _ _ H). apply F2R_gt_0. reflexivity.
Qed.

Section Whole.
Variable acos : f64 -> f64.
Notation N := (F64 acos).
Variable cfg : config.
Hypothesis Hc : lin_cfg cfg.

Section Axis.
Variable m : motor.
Notation p := (qat m (ppm cfg)).
Hypothesis Hs : fine_steps p.
Variable x y : f64.
Variable j : Z.
Hypothesis Hg : gridded p x y j.
Hypothesis By : Rabs (val y) <= 4096.
Lemma p_range : (0 < p <= 1000)%Z. Proof. destruct (lc_ppm cfg Hc m). lia. Qed.
Lemma j_bound : Rabs (IZR j / IZR p) <= 4097.
Proof.
  destruct (gridded_val cfg Hc m x y j Hg) as [_ C]. apply Rabs_le_inv in C, By. apply Rabs_le. lra.
Qed.
Lemma arrived_ok : arrived (N:=N) j p y = Ok tt.
Proof.
  assert (Pp := p_range). assert (Bj := j_bound). destruct Hg as (b & Hb & Ey & _ & Aj & _). destruct (ofZ_small _ Pp j Aj) as [Fj Vj]. destruct (f_ofZ_val p) as [Fp Vp]; [lia|].
  assert (p1: 1 <= IZR p) by (apply (IZR_le 1); lia). unfold arrived. cbn [div ofZ F64 rnd10 eqb].
  assert (Bj13: Rabs (IZR j / IZR p) <= bpow radix2 13) by (change (bpow radix2 13) with 8192; lra).
  destruct (f_div_val (f_ofZ j) (f_ofZ p) Fj Fp) as (w & Ew & Fw & Vw); [rewrite Vp; lra|rewrite Vj, Vp; apply (to_big 13); [lia|exact Bj13]|].
  change (num N) with f64. rewrite Ew. cbn [rbind]. rewrite Vj, Vp in Vw.
  assert (Cw := rd_error _ 13 ltac:(lia) Bj13). rewrite <- Vw in Cw. change (bpow radix2 (13 - 54)) with (/ 2199023255552) in Cw.
  destruct (base_rel _ Pp b Hb) as (eps & He & Eb).
  assert (Cb: Rabs (IZR j * val b - IZR j / IZR p) <= 46 / 100000000000000).
  { rewrite Eb. replace (IZR j * ((1 + eps) / IZR p) - IZR j / IZR p) with (IZR j / IZR p * eps) by (field; lra). rewrite Rabs_mult.
    apply Rle_trans with (4097 * bpow radix2 (-53)); [apply Rmult_le_compat; auto using Rabs_pos|]. change (bpow radix2 (-53)) with (/ 9007199254740992). lra. }
  assert (Bu: Rabs (IZR j * val b) <= bpow radix2 13) by (change (bpow radix2 13) with 8192; apply Rabs_le_inv in Cb, Bj; apply Rabs_le; lra).
  destruct (f_mul_val (f_ofZ j) b Fj (proj1 Hb)) as [Fu Vu]; [rewrite Vj; apply (to_big 13); [lia|exact Bu]|]. rewrite Vj in Vu.
  assert (Cu := rd_error _ 13 ltac:(lia) Bu). rewrite <- Vu in Cu. change (bpow radix2 (13 - 54)) with (/ 2199023255552) in Cu.
  assert (D1: dec10 (val w) = ZnearestE (IZR j / IZR p * e10)) by (apply nearest_stable; [exact Hs|lia|apply Rabs_le_inv in Cw; apply Rabs_le; lra]).
  assert (D2: dec10 (val (f_mul (f_ofZ j) b)) = ZnearestE (IZR j / IZR p * e10)) by (apply nearest_stable; [exact Hs|lia|apply Rabs_le_inv in Cu, Cb; apply Rabs_le; lra]).
  destruct (dec_close_inv _ Fw) as [F1 V1]. destruct (dec_close_inv _ Fu) as [F2 V2]. rewrite <- Ey in F2, V2.
  assert (E: f_eq (f_rnd10 w) y = true) by (apply f_eq_true; auto; rewrite V1, V2, D1, D2; reflexivity).
  rewrite E. reflexivity.
Qed.
Lemma count_ok n : f_rnd (f_mul (f_rnd10 (Babs y)) (f_ofZ p)) = Ok n -> (f_copysign1 y * n = j)%Z.
Proof.
  assert (Pp := p_range). assert (Bj := j_bound). destruct (gridded_val cfg Hc m x y j Hg) as [Fy C]. destruct (f_ofZ_val p) as [Fp Vp]; [lia|].
  assert (p1: 1 <= IZR p <= 1000) by (split; [apply (IZR_le 1); lia|apply IZR_le; lia]).
  assert (Fa: fin (Babs y)) by (unfold fin; rewrite is_finite_Babs; exact Fy). assert (Va: val (Babs y) = Rabs (val y)) by apply B2R_Babs.
  destruct (dec_close_inv _ Fa) as [Fd Vd]. assert (Cd := dec10_close (val (Babs y))). rewrite Va in Cd, Vd.
  assert (B13: Rabs (IZR (dec10 (Rabs (val y))) / e10) <= bpow radix2 13).
  { change (bpow radix2 13) with 8192. apply Rabs_le_inv in Cd. assert (0 <= Rabs (val y)) by apply Rabs_pos. apply Rabs_le. unfold e10 in *. lra. }
  assert (Er := rd_error _ 13 ltac:(lia) B13). rewrite <- Vd in Er. change (bpow radix2 (13 - 54)) with (/ 2199023255552) in Er.
  set (d := f_rnd10 (Babs y)) in *.
  assert (Cj: Rabs (val d - Rabs (IZR j / IZR p)) <= / 1000000000).
  { assert (T := Rabs_triang_inv2 (val y) (IZR j / IZR p)). apply Rabs_le_inv in Er, Cd. assert (Cc := C). 
    assert (Rabs (Rabs (val y) - Rabs (IZR j / IZR p)) <= / 5000000000) by lra. apply Rabs_le_inv in H. apply Rabs_le. unfold e10 in *. lra. }
  assert (Ej: Rabs (IZR j / IZR p) * IZR p = IZR (Z.abs j)).
  { rewrite abs_IZR. unfold Rdiv. rewrite Rabs_mult, (Rabs_pos_eq (/ _)) by (left; apply Rinv_0_lt_compat; lra). field. lra. }
  assert (Cp: Rabs (val d * IZR p - IZR (Z.abs j)) <= / 1000000).
  { rewrite <- Ej. replace (val d * IZR p - Rabs (IZR j / IZR p) * IZR p) with ((val d - Rabs (IZR j / IZR p)) * IZR p) by ring. rewrite Rabs_mult, (Rabs_pos_eq (IZR p)) by lra.
    apply Rle_trans with (/ 1000000000 * 1000); [apply Rmult_le_compat; auto using Rabs_pos; lra|lra]. }
  assert (Jb: IZR (Z.abs j) <= 4097000). { rewrite <- Ej. apply Rle_trans with (4097 * 1000); [apply Rmult_le_compat; auto using Rabs_pos; lra|lra]. }
  assert (Jp: 0 <= IZR (Z.abs j)) by (apply (IZR_le 0); lia).
  assert (Bm: Rabs (val d * IZR p) <= bpow radix2 23) by (change (bpow radix2 23) with 8388608; apply Rabs_le_inv in Cp; apply Rabs_le; lra).
  destruct (f_mul_val d (f_ofZ p) Fd Fp) as [Fm Vm]; [rewrite Vp; apply (to_big 23); [lia|exact Bm]|]. rewrite Vp in Vm.
  assert (Em := rd_error _ 23 ltac:(lia) Bm). rewrite <- Vm in Em. change (bpow radix2 (23 - 54)) with (/ 2147483648) in Em.
  rewrite (f_rnd_val _ Fm), (ZnearestE_unique _ (Z.abs j)) by (apply Rabs_le_inv in Em, Cp; apply Rabs_lt; lra).
  intros E. injection E as <-. destruct (sign_val y Fy) as [S1 S2].
  assert (Jy: Rabs (val y * IZR p - IZR j) <= / 1000000).
  { replace (val y * IZR p - IZR j) with ((val y - IZR j / IZR p) * IZR p) by (field; lra). rewrite Rabs_mult, (Rabs_pos_eq (IZR p)) by lra.
    apply Rle_trans with (/ 5000000000 * 1000); [apply Rmult_le_compat; auto using Rabs_pos; lra|lra]. }
  apply Rabs_le_inv in Jy. destruct (Z.lt_trichotomy j 0) as [J|[->|J]]; [|lia|].
  - assert (IZR j <= -1) by (apply (IZR_le _ (-1)); lia). rewrite S1; [lia|]. destruct (Rlt_le_dec (val y) 0) as [?|Q]; [assumption|]. assert (0 <= val y * IZR p) by (apply Rmult_le_pos; lra). lra.
  - assert (1 <= IZR j) by (apply (IZR_le 1); lia). rewrite S2; [lia|]. destruct (Rlt_le_dec 0 (val y)) as [?|Q]; [assumption|]. assert (0 <= - val y * IZR p) by (apply Rmult_le_pos; lra). lra.
Qed.
Lemma fits_ok : dir_fits (N:=N) (f_copysign1 y) y = true.
Proof.
  destruct (gridded_val cfg Hc m x y j Hg) as [Fy _]. destruct (sign_val y Fy) as [S1 S2]. unfold dir_fits. cbn [ltb eqb F64]. change (@zero N) with (f_ofZ 0). destruct (f_ofZ_val 0) as [F0 V0]; [lia|].
  destruct (Rtotal_order (val y) 0) as [H|[H|H]].
  - rewrite (S1 H). replace (f_lt y (f_ofZ 0)) with true; [reflexivity|]. symmetry. apply f_lt_true; [exact Fy|exact F0|rewrite V0; exact H].
  - replace (f_eq y (f_ofZ 0)) with true; [apply orb_true_r|]. symmetry. apply f_eq_true; [exact Fy|exact F0|rewrite V0; exact H].
  - rewrite (S2 H). replace (f_lt (f_ofZ 0) y) with true; [reflexivity|]. symmetry. apply f_lt_true; [exact F0|exact Fy|rewrite V0; exact H].
Qed.
End Axis.

Lemma turn_invert b d : turn b (invert b d) = d. Proof. destruct b; cbn; lia. Qed.

Lemma virtual_ok (d0 : quad f64) v g l : step_rates cfg -> (forall m, fine_steps (qat m (ppm cfg))) -> fit_move cfg d0 v ->
  (forall m, exists x j, gridded (qat m (ppm cfg)) x (qat m d0) j) -> too_fast (N:=N) cfg (gen_max_velocity (N:=N) (GLinear g)) = false ->
  emits (N:=N) cfg d0 v g l -> virtual_move cfg (GLinear g) l = Ok tt.
Proof.
  intros Hr Hs Hm Hg Hf He. assert (Em := proj1 He). destruct (emits_float_inv acos cfg Hc d0 v Hm g l He) as (kap & c & l' & xs & -> & P & Ac & Hl).
  assert (Dl: l_delta g = d0) by apply (make_linear_axes acos cfg d0 v g AX Em). assert (Dd := fp_dir _ _ _ _ _ P).
  unfold virtual_move. cbn [vloop].
  assert (Bd: forall m, Rabs (val (qat m d0)) <= 4096) by (intros m; apply (fm_delta _ _ _ Hm m)).
  assert (Vd: vdir cfg (GLinear g) vstart (invert_dirs cfg (l_dir g)) = Ok {| v_axes := v_axes (vstart (N:=N)); v_dir := l_dir g; v_found := true |}).
  { assert (K: forall m, dir_fits (N:=N) (qat m (l_dir g)) (qat m (l_delta g)) = true).
    { intros m. rewrite Dl, Dd. unfold dirs_of. rewrite qat_qmap. destruct (Hg m) as (x & j & Gj). exact (fits_ok m x _ j Gj). }
    assert (KX := K MX). assert (KY := K MY). assert (KZ := K MZ). assert (KE := K ME). cbn [qat] in *.
    unfold vdir, invert_dirs. cbn [qx qy qz qe]. rewrite !turn_invert. unfold check. change (num N) with f64 in *. rewrite KX, KY, KZ, KE. cbn [rbind]. destruct (l_dir g); reflexivity. }
  rewrite Vd. cbn [rbind].
  set (s0 := {| v_axes := v_axes (vstart (N:=N)); v_dir := l_dir g; v_found := true |}).
  assert (FA := fun m => frun_apart acos cfg Hc Hr d0 v Hm g Hf kap P c Ac m _ _ _ _ Hl).
  assert (T8 := T_top acos cfg Hc Hr d0 g Hf kap P c Ac).
  assert (Ti: forall m t, In t (motor_times m l') -> fin t /\ 0 <= val t <= T (val (l_acc g)) (val (l_lin g))).
  { intros m t I. destruct (FA m) as (F1 & _). rewrite Forall_forall in F1. destruct (F1 t I) as (Ft & j & Jj & ->). split; [exact Ft|].
    apply (W_top acos cfg Hc d0 v Hm g kap P c Ac m). replace (qat m (Quad 0 0 0 0)%Z) with 0%Z in Jj by (destruct m; reflexivity). lia. }
  destruct (vloop_ok cfg (GLinear g) l' s0) as (s1 & E1 & D1 & F1 & H1).
  - apply (FA MX).
  - intros m. apply Forall_forall. intros t I. destruct (Ti m t I) as [Ft Bt]. destruct (micros_val acos t Ft ltac:(lra)) as (k & Ek & _). exists k. exact Ek.
  - intros m. apply (FA m).
  - intros m. unfold s0. cbn [v_axes vstart]. destruct m; exact I.
  - rewrite E1. cbn [rbind].
    assert (Ar: forall m, arrived (N:=N) (va_i (qat m (v_axes s1))) (qat m (ppm cfg)) (qat m (l_delta g)) = Ok tt).
    { intros m. destruct (Hg m) as (x & j & Gj). destruct (H1 m) as [I1 _]. rewrite I1. replace (va_i (qat m (v_axes s0))) with 0%Z by (destruct m; reflexivity). unfold s0. cbn [v_dir].
      assert (St := frun_steps acos cfg g c _ _ _ _ m Hl). replace (qat m (Quad 0 0 0 0)%Z) with 0%Z in St by (destruct m; reflexivity). rewrite Z.add_0_l in *. rewrite St, Dl, Dd. unfold dirs_of. rewrite qat_qmap.
      assert (Cn := fp_count _ _ _ _ _ P m). rewrite (dst_at acos d0 m) in Cn. assert (Cj := count_ok m x _ j Gj (Bd m) _ Cn). change (num N) with f64 in *. cbn [copysign1 F64]. replace (f_copysign1 (qat m d0) * qat m (l_total g))%Z with j by (symmetry; exact Cj). exact (arrived_ok m (Hs m) x _ j Gj (Bd m)). }
    assert (ArX := Ar MX). assert (ArY := Ar MY). assert (ArZ := Ar MZ). assert (ArE := Ar ME). cbn [qat] in ArX, ArY, ArZ, ArE.
    unfold vend. rewrite F1. cbn [v_found check rbind gen_delta s0]. rewrite ArX. cbn [rbind]. rewrite ArY. cbn [rbind]. rewrite ArZ. cbn [rbind]. rewrite ArE. cbn [rbind].
    assert (T0: 0 <= T (val (l_acc g)) (val (l_lin g))).
    { destruct (T_bounds _ _ _ (Ba acos cfg d0 g kap P) (BL acos cfg d0 g kap P) (BC acos cfg d0 g kap P c Ac)) as [B _]. eapply Rle_trans; [|exact B].
      assert (A0 := ap0 acos cfg d0 g kap P). assert (L0 := BL acos cfg d0 g kap P). apply Rmult_le_pos; [lra|unfold ep; lra]. }
    assert (Mx: forall m, fin (va_max (qat m (v_axes s1))) /\ val (va_max (qat m (v_axes s1))) <= T (val (l_acc g)) (val (l_lin g))).
    { intros m. destruct (H1 m) as [_ [->|I]].
      - replace (va_max (qat m (v_axes s0))) with (f_ofZ 0) by (destruct m; reflexivity). destruct (f_ofZ_val 0) as [F0 V0]; [lia|]. split; [exact F0|]. rewrite V0. exact T0.
      - destruct (Ti m _ I) as [Ft Bt]. split; [exact Ft|apply Bt]. }
    destruct (find_max_val acos (Quad (va_max (qx (v_axes s1))) (va_max (qy (v_axes s1))) (va_max (qz (v_axes s1))) (va_max (qe (v_axes s1))))) as [[m E] _]; [intros m; assert (X := Mx m); destruct m; apply X|].
    unfold find_max in E. cbn [qx qy qz qe] in E. change (num N) with f64 in *. cbn [leb F64]. rewrite E.
    replace (f_le _ (total_time_s (N:=N) (GLinear g))) with true; [reflexivity|]. symmetry.
    assert (Mm := Mx m). assert (Ft: fin (total_time_s (N:=N) (GLinear g))) by (apply (total_fin acos cfg d0 g kap P)).
    apply f_le_true; [destruct m; apply Mm|exact Ft|]. rewrite (total_val acos cfg d0 g kap P). destruct m; apply Mm.
Qed.
End Whole.
