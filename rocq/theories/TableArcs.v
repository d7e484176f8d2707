(** Circles that keep to the table in binary64 (C10), sessions with circles (C81) and
    with arcs (C80). *)
From Coq Require Import String Ascii ZArith Bool Reals Lra Lia List.
From Flocq Require Import Core BinarySingleNaN.
From Verif Require Import PyBase PyNum ArcExact PyFloatFacts Config Coordinates Pulses PulseSpec GCode GCodeSpec WordFacts GMachine GMachineProofs MachineFacts MachineRel MachineHist MachineFloat Decimal MachinePos MachineArc MachineWork ArcSpec LinearGen LinearTravel ArcRun ArcMake ArcTravel ArcFloat ArcGrid ArcQuarters ArcNet ArcAngle ArcFloatNet ArcMachine ArcFloatEnd MachineMoves MachineArcMoves MachineHome LineAnswers TextDrive.
From Verif Require Import Dma DmaGpio DmaSpec DmaGpioProofs Hal HalSpec MoveNew HalDrive.
From Verif Require Import GMachine MainLoop MainSpec MainProofs LineAnswers TableDrive.
From Coq Require Import List.
From Flocq Require Import Core.
Import ListNotations.
Local Open Scope R_scope.

(* ---------- the items of one arc ---------- *)
Section Within.
Variable acos : f64 -> f64.
Notation N := (F64 acos).
Variable cfg : config.
Hypothesis Hcfg : good_cfg cfg.
Variables (delta radius : quad N) (pl : plane) (rot : rotation) (v : N).
Variable g : circular_gen N.
Hypothesis Hg : make_circular cfg delta radius pl rot v = Ok g.
Variables (p sa sb ea eb jc : Z).
Hypothesis G : float_arc cfg pl delta radius p sa sb ea eb jc.
Hypothesis Far : (len_steps sa sb <= 1048576)%Z.
Hypothesis Wa : Ztrunc (back p sa) = sa.
Hypothesis Wb : Ztrunc (back p sb) = sb.
Hypothesis Wr : Ztrunc (back p (len_steps sa sb)) = len_steps sa sb.
Let M := make_circular_made _ _ _ _ _ _ _ Hg.
Notation K f := (f _ _ _ _ _ _ _ M).

(** At every moment the axes of the plane are not further from the centre than the
    radius in steps. *)
Lemma float_within n : let l := items cfg (GCircular g) n in
  (Z.abs (sa + travel cfg (motor_a pl) l) <= len_steps sa sb /\ Z.abs (sb + travel cfg (motor_b pl) l) <= len_steps sa sb)%Z.
Proof.
  intros l. destruct (fe_ends acos cfg Hcfg delta radius pl rot v g Hg p sa sb ea eb jc G) as [Hst Hen].
  assert (Hp := fe_hp acos cfg Hcfg delta radius pl p sa sb ea eb jc G). assert (Hs := fe_hs acos cfg Hcfg delta radius pl p sa sb ea eb jc G).
  assert (FD := fe_dec acos cfg Hcfg delta radius pl p sa sb ea eb jc G).
  destruct G as [E1 E2 S1 S2 J1 J2 _ B]. apply FD in S1, S2, J1, J2.
  assert (R: K k_rm = len_steps sa sb).
  { rewrite <- (Z.opp_involutive sa), <- (Z.opp_involutive sb).
    apply (rho_len acos cfg delta radius pl rot v g p (step p) Hp Hs E1 E2 (- sa) (- sb) (ea - sa) (eb - sb)); try assumption; try lia. now rewrite !Z.opp_involutive. }
  assert (Ra: c_radius_a_pulses g = len_steps sa sb).
  { rewrite <- R. apply (radius_a acos cfg delta radius pl rot v g p (step p) Hp Hs E1 E2 (- sa) (- sb) (ea - sa) (eb - sb) S1 S2 ltac:(lia) ltac:(lia) ltac:(lia) M ltac:(lia)). rewrite R. exact Wr. }
  assert (Rb: c_radius_b_pulses g = len_steps sa sb).
  { rewrite <- R. apply (radius_b acos cfg delta radius pl rot v g p (step p) Hp Hs E1 E2 (- sa) (- sb) (ea - sa) (eb - sb) S1 S2 ltac:(lia) ltac:(lia) ltac:(lia) M ltac:(lia)). rewrite R. exact Wr. }
  assert (St: c_start_a_pulses g = sa /\ c_start_b_pulses g = sb).
  { replace (c_start_a_pulses g = sa) with (c_start_a_pulses g = - - sa)%Z by (rewrite Z.opp_involutive; reflexivity). replace (c_start_b_pulses g = sb) with (c_start_b_pulses g = - - sb)%Z by (rewrite Z.opp_involutive; reflexivity).
    apply (starts_eq acos cfg delta radius pl rot v g p (step p) Hp Hs E1 E2 (- sa) (- sb) (ea - sa) (eb - sb) S1 S2 ltac:(lia) ltac:(lia) ltac:(lia) ltac:(lia) M ltac:(lia) ltac:(lia)); rewrite Z.opp_involutive; assumption. }
  assert (Rm: room g).
  { apply (whole_room acos cfg delta radius pl rot v g p (step p) Hp Hs E1 E2 (- sa) (- sb) (ea - sa) (eb - sb) S1 S2 J1 J2 ltac:(lia) ltac:(lia) ltac:(lia) ltac:(lia) M).
    assert (E := K k_Ra_eq). rewrite E1 in E.
    rewrite Ra, <- R in E. exact E. }
  assert (OC: on_circle g) by (split; [exact (fe_starts acos cfg Hcfg delta radius pl rot v g Hg p sa sb ea eb jc G)|exact Rm]).
  assert (W := arc_within cfg g n OC). cbv zeta in W. fold l in W. rewrite (K k_plane), Ra, Rb, (proj1 St), (proj2 St) in W. exact W.
Qed.
(** The third axis is between its ends. *)
Lemma float_third_within l j : Zceil (back (axis_c pl (ppm cfg)) (Z.abs jc)) = Z.abs jc -> completes cfg (GCircular g) l ->
  (Z.min 0 jc <= travel cfg (motor_c pl) (firstn j l) <= Z.max 0 jc)%Z.
Proof.
  intros Wc Hl. assert (O := fe_starts acos cfg Hcfg delta radius pl rot v g Hg p sa sb ea eb jc G).
  assert (T := fe_third acos cfg Hcfg delta radius pl rot v g Hg p sa sb ea eb jc G l Hl). rewrite Wc in T.
  assert (Lc: (steps (motor_c pl) (firstn j l) <= steps (motor_c pl) l)%Z).
  { assert (S := steps_nonneg (motor_c pl) (skipn j l)). rewrite <- (firstn_skipn j l) at 2. rewrite steps_app. lia. }
  assert (L0 := steps_nonneg (motor_c pl) (firstn j l)).
  destruct (completes_items _ _ _ Hl) as [n En]. destruct (arc_third cfg g O n) as [[T1 _] _]. rewrite (K k_plane), En in T1.
  destruct (items_firstn cfg (GCircular g) n j) as [k Ek]. rewrite En in Ek. destruct (arc_third cfg g O k) as [[T2 _] _]. rewrite (K k_plane), <- Ek in T2.
  assert (D: c_third_dir g = 1%Z \/ c_third_dir g = (-1)%Z).
  { rewrite (K k_dir3). change (copysign1 (axis_c pl delta)) with (if Bsign (axis_c pl delta) then -1 else 1)%Z. destruct (Bsign _); auto. }
  rewrite T2. rewrite T in T1. destruct D as [D|D]; rewrite D in *; lia.
Qed.
End Within.

(* ---------- the check of a full circle ---------- *)
Section Check.
Variable p : Z.
Hypothesis Hp : (0 < p <= 1000)%Z.
Notation near := (near p).
(** The sum of three lengths that are near some numbers of steps. *)
Lemma sum_near (x y r : f64) i j (rho : R) : fin x -> fin y -> fin r ->
  Rabs (val x) <= 4097 -> Rabs (val y) <= 16385 -> Rabs (val r) <= 32768 ->
  Rabs (val x * IZR p - IZR i) <= / 1048576 -> Rabs (val y * IZR p - IZR j) <= / 1048576 -> Rabs (val r * IZR p - rho) <= / 262144 ->
  (fin (f_add (f_add x y) r) /\ Rabs (val (f_add (f_add x y) r) * IZR p - (IZR i + IZR j + rho)) <= / 100) /\
  (fin (f_sub (f_add x y) r) /\ Rabs (val (f_sub (f_add x y) r) * IZR p - (IZR i + IZR j - rho)) <= / 100).
Proof.
  intros Fx Fy Fr Bx By Br Ex Ey Er. assert (P0 := p_pos p Hp). assert (P1 := p_le p Hp).
  apply Rabs_le_inv in Bx, By, Br, Ex, Ey, Er.
  assert (B1: Rabs (val x + val y) <= bpow radix2 15) by (change (bpow radix2 15) with 32768; apply Rabs_le; lra).
  destruct (f_add_val x y Fx Fy) as [F1 V1]; [eapply bd_big; [exact B1|lia]|].
  assert (R1 := rd_error _ 15 ltac:(lia) B1). rewrite <- V1 in R1. change (bpow radix2 (15 - 54)) with (/ 549755813888) in R1. apply Rabs_le_inv in R1. set (z := f_add x y) in *.
  assert (B2: Rabs (val z + val r) <= bpow radix2 16 /\ Rabs (val z - val r) <= bpow radix2 16) by (change (bpow radix2 16) with 65536; split; apply Rabs_le; lra).
  destruct B2 as [B2 B3].
  destruct (f_add_val z r F1 Fr) as [F2 V2]; [eapply bd_big; [exact B2|lia]|]. destruct (f_sub_val z r F1 Fr) as [F3 V3]; [eapply bd_big; [exact B3|lia]|].
  assert (R2 := rd_error _ 16 ltac:(lia) B2). rewrite <- V2 in R2. assert (R3 := rd_error _ 16 ltac:(lia) B3). rewrite <- V3 in R3. change (bpow radix2 (16 - 54)) with (/ 274877906944) in R2, R3. apply Rabs_le_inv in R2, R3.
  set (w := f_add z r) in *. set (u := f_sub z r) in *.
  split; (split; [assumption|]); apply Rabs_le.
  - assert (H: - / 100000000000 <= val w - (val x + val y + val r) <= / 100000000000) by lra.
    assert (Q: val w * IZR p - (IZR i + IZR j + rho) = (val w - (val x + val y + val r)) * IZR p + (val x * IZR p - IZR i) + (val y * IZR p - IZR j) + (val r * IZR p - rho)) by ring.
    rewrite Q. set (h := val w - (val x + val y + val r)) in *. assert (- / 100000000 <= h * IZR p <= / 100000000) by (split; nra). lra.
  - assert (H: - / 100000000000 <= val u - (val x + val y - val r) <= / 100000000000) by lra.
    assert (Q: val u * IZR p - (IZR i + IZR j - rho) = (val u - (val x + val y - val r)) * IZR p + (val x * IZR p - IZR i) + (val y * IZR p - IZR j) - (val r * IZR p - rho)) by ring.
    rewrite Q. set (h := val u - (val x + val y - val r)) in *. assert (- / 100000000 <= h * IZR p <= / 100000000) by (split; nra). lra.
Qed.
Lemma upper_room (x y r : f64) i j t rho : fin x -> fin y -> fin r ->
  Rabs (val x) <= 4097 -> Rabs (val y) <= 16385 -> Rabs (val r) <= 32768 ->
  Rabs (val x * IZR p - IZR i) <= / 1048576 -> Rabs (val y * IZR p - IZR j) <= / 1048576 -> Rabs (val r * IZR p - rho) <= / 262144 ->
  (Z.abs t <= 2 ^ 53)%Z -> f_lt (f_ofZ t) (f_add (f_add x y) r) = false -> (i + j + ZnearestE rho <= t * p)%Z.
Proof.
  intros Fx Fy Fr Bx By Br Ex Ey Er Ht H. assert (P0 := p_pos p Hp). destruct (sum_near x y r i j rho Fx Fy Fr Bx By Br Ex Ey Er) as [[F E] _]. destruct (f_ofZ_val t Ht) as [Ft Vt].
  rewrite f_lt_val in H by assumption. rewrite Vt in H. revert H. case Rlt_bool_spec; [discriminate|]. intros H _.
  assert (Nh := Znearest_half (fun z => negb (Z.even z)) rho). apply Rabs_le_inv in Nh, E. set (q := Znearest _ rho) in *.
  assert (A: IZR (i + j + q) < IZR (t * p + 1)). { rewrite !plus_IZR, mult_IZR. assert (val (f_add (f_add x y) r) * IZR p <= IZR t * IZR p) by (apply Rmult_le_compat_r; lra). lra. }
  apply lt_IZR in A. lia.
Qed.
Lemma lower_room (x y r : f64) i j rho : fin x -> fin y -> fin r ->
  Rabs (val x) <= 4097 -> Rabs (val y) <= 16385 -> Rabs (val r) <= 32768 ->
  Rabs (val x * IZR p - IZR i) <= / 1048576 -> Rabs (val y * IZR p - IZR j) <= / 1048576 -> Rabs (val r * IZR p - rho) <= / 262144 ->
  f_lt (f_sub (f_add x y) r) (f_ofZ 0) = false -> (0 <= i + j - ZnearestE rho)%Z.
Proof.
  intros Fx Fy Fr Bx By Br Ex Ey Er H. assert (P0 := p_pos p Hp). destruct (sum_near x y r i j rho Fx Fy Fr Bx By Br Ex Ey Er) as [_ [F E]]. destruct (f_ofZ_val 0 ltac:(lia)) as [Ft Vt].
  rewrite f_lt_val in H by assumption. rewrite Vt in H. revert H. case Rlt_bool_spec; [discriminate|]. intros H _.
  assert (Nh := Znearest_half (fun z => negb (Z.even z)) rho). apply Rabs_le_inv in Nh, E. set (q := Znearest _ rho) in *.
  assert (A: IZR (-1) < IZR (i + j - q)). { rewrite minus_IZR, plus_IZR. change (IZR (-1)) with (-1). assert (0 <= val (f_sub (f_add x y) r) * IZR p) by (apply Rmult_le_pos; lra). lra. }
  apply lt_IZR in A. lia.
Qed.
End Check.

(** All four crossings of a full circle are looked at. *)
Lemma circle_looked {N : PyNum} rot (r ra rb pa pb ma mb : N) (q : Z) : (1 <= q <= 4)%Z ->
  quarters_ok (N:=N) 4 rot q 5 r ra rb pa pb ma mb = true ->
  PyNum.ltb ma (PyNum.add (PyNum.add pa ra) r) = false /\ PyNum.ltb (PyNum.sub (PyNum.add pa ra) r) zero = false /\
  PyNum.ltb mb (PyNum.add (PyNum.add pb rb) r) = false /\ PyNum.ltb (PyNum.sub (PyNum.add pb rb) r) zero = false.
Proof.
  intros Hq. assert (K: (q = 1 \/ q = 2 \/ q = 3 \/ q = 4)%Z) by lia. clear Hq. cbn [quarters_ok]. unfold crossing_out, next_quarter.
  destruct K as [->|[->|[->| ->]]]; destruct rot; cbn [Z.sub Z.add Z.opp Z.leb Z.compare Z.eqb Pos.eqb Pos.compare Pos.compare_cont Z.pos_sub Pos.pred_double Pos.add Pos.succ andb orb];
  repeat match goal with |- (if ?b then false else _) = true -> _ => let E := fresh in destruct b eqn:E; [discriminate|] end; intros _; auto.
Qed.

(* ---------- circles of the machine ---------- *)
Local Open Scope Z_scope.
(** The start of an arc in the plane [pl] with the centre at [rr] mm from it, and its
    radius, both in steps, survive the conversion to mm and back. *)
Definition lossless (cfg : config) (pl : plane) (rr : quad f64) : Prop :=
  let q := axis_a pl (ppm cfg) in
  forall sa sb, nearest_to q (- sa) (axis_a pl rr) -> nearest_to q (- sb) (axis_b pl rr) -> Z.abs sa <= 65536 * q -> Z.abs sb <= 65536 * q ->
  forall n, n = sa \/ n = sb \/ n = len_steps sa sb -> Ztrunc (back q n) = n.
Lemma len_bound q sa sb : 0 < q -> Z.abs sa <= 65536 * q -> Z.abs sb <= 65536 * q -> 0 <= len_steps sa sb <= 262144 * q.
Proof.
  intros Hq Ha Hb. unfold len_steps. assert (Q: (sqrt (IZR (sa * sa + sb * sb)) <= IZR (131072 * q))%R).
  { rewrite <- (sqrt_square (IZR (131072 * q))) by (apply (IZR_le 0); lia). apply sqrt_le_1_alt. rewrite <- mult_IZR. apply IZR_le. nia. }
  assert (H := Znearest_half (fun z => negb (Z.even z)) (sqrt (IZR (sa * sa + sb * sb)))). assert (H0 := sqrt_pos (IZR (sa * sa + sb * sb))). apply Rabs_le_inv in H.
  set (z := Znearest _ _) in *. split.
  - assert (A: (-1 < IZR z)%R) by lra. apply (lt_IZR (-1)) in A. lia.
  - assert (A: (IZR z < IZR (131072 * q + 1))%R) by (rewrite plus_IZR; lra). apply lt_IZR in A. lia.
Qed.
Lemma lossless_pow2 cfg pl rr n : good_cfg cfg -> 0 <= n -> axis_a pl (ppm cfg) = 2 ^ n -> lossless cfg pl rr.
Proof.
  intros Hc Hn E. destruct (axis_a_cfg cfg Hc pl) as [t A]. assert (Hp := proj1 A). unfold lossless. cbv zeta. set (q := axis_a pl (ppm cfg)) in *. intros sa sb _ _ Ba Bb k Hk.
  assert (L := len_bound q sa sb ltac:(lia) Ba Bb). rewrite (back_pow2 q n k Hp Hn E); [apply Ztrunc_IZR|]. destruct Hk as [->|[->| ->]]; lia.
Qed.

Section Circles.
Variable acos : f64 -> f64.
Notation N := (F64 acos).
Variable cfg : config.
Hypothesis Hcfg : good_cfg cfg.
Hypothesis Hacos : orderly_acos acos.
Notation p a := (ax a (ppm cfg)).
Notation acfg := (acfg cfg Hcfg).

Lemma zero_round (d d' : quad N) a : round_to_grid cfg d = Ok d' -> dec 0 (ax a d) -> dec 0 (ax a d').
Proof.
  intros H D. destruct (round_axes acos cfg Hcfg _ _ H a) as (b & y & Gb & Hy & ->). assert (V := dec_zero_val _ D).
  destruct (round1_val acos (p a) (proj1 (acfg a)) b Gb _ (proj1 D)) as (n & E & _ & _ & U); [rewrite V, Rabs_R0; apply bpow_ge_0|].
  assert (n = 0) by (apply U; rewrite V, Rmult_0_l, Rminus_0_r, Rabs_R0; lra). subst n. rewrite E in Hy. injection Hy as <-.
  apply dec_rnd10; [|unfold small; lia]. destruct (f_mul_val (f_ofZ 0) b) as [F W]; [reflexivity|apply Gb| |].
  - change (val (f_ofZ 0)) with 0%R. rewrite Rmult_0_l, Rabs_R0. apply bpow_ge_0.
  - apply dec0_intro; [exact F|]. refine (eq_trans W _). change (val (f_ofZ 0)) with 0%R. now rewrite Rmult_0_l, rd_0.
Qed.
Lemma quarter_fin (x y : N) : fin x -> fin y -> 1 <= quarter (N:=N) x y <= 4.
Proof.
  intros Fx Fy. unfold quarter. cbn [leb ltb zero ofZ F64]. destruct (f_ofZ_val 0 ltac:(lia)) as [F0 V0].
  change (PyNum.leb (p:=N)) with f_le. change (PyNum.ltb (p:=N)) with f_lt. change (@zero N) with (f_ofZ 0).
  rewrite !f_le_val, !f_lt_val, V0 by assumption. do 2 case Rle_bool_spec; do 2 case Rlt_bool_spec; intros; cbn [andb]; try lia; lra.
Qed.
Lemma axis_room m a n k (y r : f64) rho : at_step acos cfg m a n -> dec (k * step (p a)) y -> Z.abs k <= 16384 * p a ->
  fin r -> (Rabs (val r) <= 32768)%R -> (Rabs (val r * IZR (p a) - rho) <= / 262144)%R ->
  f_lt (f_ofZ (table cfg a)) (f_add (f_add (ax a (m_position m)) y) r) = false ->
  f_lt (f_sub (f_add (ax a (m_position m)) y) r) (f_ofZ 0) = false ->
  0 <= n + k - ZnearestE rho /\ n + k + ZnearestE rho <= table cfg a * p a.
Proof.
  intros [Dx In] Dy Hk Fr Br Er H1 H2. assert (Hp := proj1 (acfg a)). assert (Hs := step_mul _ _ (acfg a)). assert (Ht := proj2 (proj2 (acfg a))). assert (P0 := p_pos (p a) Hp).
  unfold inside in In. assert (Ht' : table cfg a * p a <= 4096 * p a) by (apply Z.mul_le_mono_nonneg_r; lia).
  assert (Ex := dec_times_p (p a) Hp _ Hs n _ Dx ltac:(lia)). assert (Ey := dec_times_p (p a) Hp _ Hs k _ Dy ltac:(lia)).
  change (bpow radix2 (-27)) with (/ 134217728)%R in Ex, Ey.
  assert (B: forall (z : f64) i T, Z.abs i <= T * p a -> (Rabs (val z * IZR (p a) - IZR i) <= / 134217728)%R -> (Rabs (val z) <= IZR T + 1)%R).
  { intros z i T Hi E. assert (P1: (1 <= IZR (p a))%R) by (apply (IZR_le 1); lia). assert (I: (Rabs (IZR i) <= IZR T * IZR (p a))%R) by (rewrite <- abs_IZR, <- mult_IZR; now apply IZR_le).
    apply Rabs_le_inv in I, E. assert (T0: (0 <= IZR T)%R) by (apply (IZR_le 0); nia). apply Rabs_le. split; nra. }
  assert (Bx := B _ n 4096 ltac:(lia) Ex). assert (By := B _ k 16384 Hk Ey).
  assert (W: (/ 134217728 <= / 1048576)%R) by lra. assert (Ex' := Rle_trans _ _ _ Ex W). assert (Ey' := Rle_trans _ _ _ Ey W).
  replace (IZR 4096 + 1)%R with 4097%R in Bx by lra. replace (IZR 16384 + 1)%R with 16385%R in By by lra.
  split.
  - apply (lower_room (p a) Hp _ y r n k rho (proj1 Dx) (proj1 Dy) Fr Bx By Br Ex' Ey' Er H2).
  - apply (upper_room (p a) Hp _ y r n k (table cfg a) rho (proj1 Dx) (proj1 Dy) Fr Bx By Br Ex' Ey' Er ltac:(lia) H1).
Qed.
(** The numbers of an accepted full circle, and the room around its centre. *)
Lemma circle_room delta radius v rot m ce ld g lg :
  on_table acos cfg m -> bdq acos 14 radius -> circular_ok cfg delta radius v rot m ce ld g lg ->
  (forall a, dec 0 (ax a delta)) -> (forall a, table cfg a * p a <= 2097152) ->
  let pl := m_plane m in axis_a pl (ppm cfg) = axis_b pl (ppm cfg) ->
  exists rr sa sb, round_to_grid cfg radius = Ok rr /\ make_circular cfg ce rr pl rot v = Ok g /\ (forall a, dec 0 (ax a ce)) /\ (forall a, dec 0 (ax a ld)) /\
    float_arc cfg pl ce rr (axis_a pl (ppm cfg)) sa sb sa sb 0 /\ len_steps sa sb <= 1048576 /\
    (forall n, at_step acos cfg m (pa_ pl) n -> 0 <= n - sa - len_steps sa sb /\ n - sa + len_steps sa sb <= table cfg (pa_ pl) * p (pa_ pl)) /\
    (forall n, at_step acos cfg m (pb_ pl) n -> 0 <= n - sb - len_steps sa sb /\ n - sb + len_steps sa sb <= table cfg (pb_ pl) * p (pb_ pl)).
Proof.
  intros Hm Hrad Hok Hz Ht pl He.
  destruct (arc_on_grid acos cfg Hcfg _ _ _ _ _ _ _ _ _ Hm Hrad Hok) as (rr & Hg & Hrr & Hri & Hci & _).
  destruct Hok as [d rr0 ea eb Hd Hrr0 Hbox Had Hce Hg0 Hf Hld Hlg]. rewrite Hrr in Hrr0. injection Hrr0 as <-. clear Hg0.
  assert (Zd: forall a, dec 0 (ax a d)) by (intros a; exact (zero_round _ _ a Hd (Hz a))).
  assert (Ld: forall a, ax a ld = f_rnd10 (f_sub (ax a d) (ax a ce))) by (intros a; rewrite Hld; apply ax_csub).
  fold pl in Had, Hce, Hg. clearbody pl.
  destruct (Hri (pa_ pl)) as (ka & Dka & Ska). destruct (Hri (pb_ pl)) as (kb & Dkb & Skb).
  rewrite <- axis_a_ax in Dka, Ska. rewrite <- axis_b_ax in Dkb, Skb. rewrite <- axis_a_ax in Dka. rewrite <- axis_b_ax in Dkb. rewrite <- He in Dkb, Skb.
  destruct (axis_a_cfg cfg Hcfg pl) as [ta Aa]. assert (Hp := proj1 Aa). assert (Hs := step_mul _ _ Aa). set (q := axis_a pl (ppm cfg)) in *.
  assert (Za: f_eq (axis_a pl d) (f_ofZ 0) = true) by (rewrite axis_a_ax; apply f_eq_zero; [apply Zd|apply dec_zero_val, Zd]).
  assert (Zb: f_eq (axis_b pl d) (f_ofZ 0) = true) by (rewrite axis_b_ax; apply f_eq_zero; [apply Zd|apply dec_zero_val, Zd]).
  unfold adjust_circle in Had. apply rbind_ok in Had. destruct Had as (r & Er & Had).
  change (f_sqrt (f_add (f_mul (axis_a pl rr) (axis_a pl rr)) (f_mul (axis_b pl rr) (axis_b pl rr))) = Ok r) in Er.
  destruct (PyNum.eqb r zero) eqn:Rz; [discriminate Had|].
  unfold circle_end_point in Had. change (PyNum.eqb (p:=N)) with f_eq in Had. change (@zero N) with (f_ofZ 0) in Had. change (num N) with f64 in *. rewrite Za, Zb in Had. cbn [andb rbind] in Had.
  match type of Had with (if ?b then _ else _) = _ => destruct b eqn:Q end; [|discriminate Had]. injection Had as <- <-.
  assert (Nka := dec_near q Hp (step q) Hs ka _ Dka ltac:(lia)). assert (Nkb := dec_near q Hp (step q) Hs kb _ Dkb ltac:(lia)).
  apply circle_looked in Q; [|apply quarter_fin; apply fin_opp; [apply Nka|apply Nkb]].
  change (PyNum.ltb (p:=N)) with f_lt in Q. change (PyNum.add (p:=N)) with f_add in Q. change (PyNum.sub (p:=N)) with f_sub in Q. change (@zero N) with (f_ofZ 0) in Q. change (PyNum.ofZ (p:=N)) with f_ofZ in Q.
  assert (Zc: forall a, dec 0 (ax a ce)).
  { intros a. apply (zero_round _ _ a Hce). destruct a, pl; cbn [from_axes ax qx qy qz axis_a axis_b axis_c]; first [exact (Zd AX)|exact (Zd AY)|exact (Zd AZ)]. }
  assert (Zl: forall a, dec 0 (ax a ld)).
  { intros a. rewrite Ld. change 0%Z with (0 - 0)%Z. apply dec_sub; auto; unfold small; lia. }
  exists rr, (- ka), (- kb). split; [exact Hrr|]. split; [exact Hg|]. split; [exact Zc|]. split; [exact Zl|].
  assert (Nd: forall n x, dec (n * step q) x -> nearest_to q n x) by (intros n x; apply (nearest_dec _ _ _ _ Aa)).
  assert (FA: float_arc cfg pl ce rr q (- ka) (- kb) (- ka) (- kb) 0).
  { split; try reflexivity; try (symmetry; exact He); rewrite ?Z.opp_involutive; try (now apply Nd); try lia.
    - replace (- ka - - ka) with 0 by lia. apply Nd. rewrite Z.mul_0_l, axis_a_ax. apply Zc.
    - replace (- kb - - kb) with 0 by lia. apply Nd. rewrite Z.mul_0_l, axis_b_ax. apply Zc.
    - destruct (axis_c_cfg cfg Hcfg pl) as [tc Ac]. apply (nearest_dec _ _ _ _ Ac). rewrite Z.mul_0_l, axis_c_ax. apply Zc.
    - destruct (axis_c_cfg cfg Hcfg pl) as [tc Ac]. assert (X := proj1 Ac). lia. }
  split; [exact FA|].
  destruct (fe_ends acos cfg Hcfg ce rr pl rot v g Hg q _ _ _ _ _ FA) as [Hst _].
  assert (Q0: (0 < IZR q <= 1000)%R) by (split; [apply (IZR_lt 0)|apply IZR_le]; lia).
  destruct (near_hyp2 q Hp ka kb (axis_a pl rr) (axis_b pl rr) r Nka Nkb Er) as (Fr & R0 & Rr). cbv zeta in Rr.
  assert (Ex := dec_times_p q Hp _ Hs ka _ Dka ltac:(lia)). assert (Ey := dec_times_p q Hp _ Hs kb _ Dkb ltac:(lia)). change (bpow radix2 (-27)) with (/ 134217728)%R in Ex, Ey.
  set (x := (val (axis_a pl rr) * IZR q)%R) in *. set (y := (val (axis_b pl rr) * IZR q)%R) in *. set (c := (val r * IZR q)%R) in *.
  assert (C0: (0 <= c)%R) by (apply Rmult_le_pos; lra).
  assert (Br: (Rabs (val r) <= 32768)%R).
  { assert (Ia: (Rabs (IZR ka) <= 16384 * IZR q)%R) by (rewrite <- abs_IZR, <- mult_IZR; now apply IZR_le). assert (Ib: (Rabs (IZR kb) <= 16384 * IZR q)%R) by (rewrite <- abs_IZR, <- mult_IZR; now apply IZR_le).
    assert (Q1: (1 <= IZR q)%R) by (apply (IZR_le 1); lia). rewrite Rabs_pos_eq by exact R0. destruct (Rle_lt_dec (val r) 32768) as [L|L]; [exact L|exfalso].
    assert (K1: (32768 * IZR q <= c)%R) by (unfold c; nra). apply Rabs_le_inv in Ia, Ib, Ex, Ey. set (Q2 := IZR q) in *. clearbody Q2 c x y.
    assert (X1: (- (16385 * Q2) <= x <= 16385 * Q2)%R) by lra. assert (Y1: (- (16385 * Q2) <= y <= 16385 * Q2)%R) by lra.
    assert (X2: (x * x <= 16385 * 16385 * (Q2 * Q2))%R) by nra. assert (Y2: (y * y <= 16385 * 16385 * (Q2 * Q2))%R) by nra.
    assert (K2: (32768 * 32768 * (Q2 * Q2) <= c * c)%R) by nra. destruct Rr as [_ Rr]. unfold FloatRel.ep in Rr. nra. }
  destruct (Hm (pa_ pl)) as [na Hna]. destruct (Hm (pb_ pl)) as [nb Hnb].
  assert (Ta: axis_a pl (table_quad cfg) = table cfg (pa_ pl)) by (destruct pl; reflexivity). assert (Tb: axis_b pl (table_quad cfg) = table cfg (pb_ pl)) by (destruct pl; reflexivity).
  assert (Pa: p (pa_ pl) = q) by (unfold q; now rewrite axis_a_ax). assert (Pb: p (pb_ pl) = q) by (rewrite He; now rewrite axis_b_ax).
  rewrite Ta, Tb in Q. destruct Q as (Q1 & Q2 & Q3 & Q4).
  assert (RA: forall n rho, at_step acos cfg m (pa_ pl) n -> (Rabs (c - rho) <= / 262144)%R -> 0 <= n + ka - ZnearestE rho /\ n + ka + ZnearestE rho <= table cfg (pa_ pl) * p (pa_ pl)).
  { intros n rho Hn Hr. apply (axis_room m (pa_ pl) n ka (axis_a pl rr) r rho Hn); rewrite ?Pa; try assumption; rewrite <- (axis_a_ax pl (m_position m)); assumption. }
  assert (RB: forall n rho, at_step acos cfg m (pb_ pl) n -> (Rabs (c - rho) <= / 262144)%R -> 0 <= n + kb - ZnearestE rho /\ n + kb + ZnearestE rho <= table cfg (pb_ pl) * p (pb_ pl)).
  { intros n rho Hn Hr. apply (axis_room m (pb_ pl) n kb (axis_b pl rr) r rho Hn); rewrite ?Pb; try assumption; rewrite <- (axis_b_ax pl (m_position m)); assumption. }
  assert (Cs: (c <= 1048577)%R).
  { destruct (RA na c Hna) as [L U]; [replace (c - c)%R with 0%R by ring; rewrite Rabs_R0; lra|]. assert (Tq := Ht (pa_ pl)).
    assert (Nh := Znearest_half (fun z => negb (Z.even z)) c). apply Rabs_le_inv in Nh. assert (Z: ZnearestE c <= 1048576) by lia. apply IZR_le in Z. lra. }
  set (rho := sqrt (IZR (ka * ka + kb * kb))).
  assert (S0: 1 <= ka * ka + kb * kb) by nia.
  assert (Rs: (rho * rho = IZR ka * IZR ka + IZR kb * IZR kb)%R) by (unfold rho; rewrite sqrt_sqrt by (apply (IZR_le 0); lia); now rewrite plus_IZR, !mult_IZR).
  assert (R1: (1 <= rho)%R) by (unfold rho; rewrite <- sqrt_1; apply sqrt_le_1_alt; apply (IZR_le 1); lia).
  assert (R2: (rho <= 2097152)%R).
  { destruct (Rle_lt_dec rho 2097152) as [L|L]; [exact L|exfalso]. clearbody c x y rho. apply Rabs_le_inv in Ex, Ey. destruct Rr as [Rr _]. unfold FloatRel.ep in Rr.
    assert (W: (x * x + y * y <= 1048578 * 1048578)%R) by nra. assert (X2: (- 1048578 <= x <= 1048578)%R) by nra. assert (Y2: (- 1048578 <= y <= 1048578)%R) by nra.
    assert (X3: (- 1048579 <= IZR ka <= 1048579)%R) by lra. assert (Y3: (- 1048579 <= IZR kb <= 1048579)%R) by lra.
    set (u := IZR ka) in *. set (w := IZR kb) in *. clearbody u w. assert (u * u <= 1048579 * 1048579)%R by nra. assert (w * w <= 1048579 * 1048579)%R by nra. nra. }
  assert (Cn: (Rabs (c - rho) <= / 262144)%R).
  { replace (/ 262144)%R with (4 * / 1048576)%R by lra. apply (length_near (IZR ka) (IZR kb) x y c rho (/ 1048576)); auto; lra. }
  assert (Le: len_steps (- ka) (- kb) = ZnearestE rho) by (unfold len_steps, rho; do 2 f_equal; f_equal; ring).
  rewrite Le. split; [|split].
  - destruct (RA na rho Hna Cn) as [L U]. assert (Tq := Ht (pa_ pl)). lia.
  - intros n Hn. destruct (RA n rho Hn Cn) as [L U]. lia.
  - intros n Hn. destruct (RB n rho Hn Cn) as [L U]. lia.
Qed.

(** A full circle takes the motors back to its start and keeps them on the table. *)
Lemma circle_stays delta radius v rot m ce ld g lg :
  on_table acos cfg m -> bdq acos 14 radius -> circular_ok cfg delta radius v rot m ce ld g lg ->
  (forall a, dec 0 (ax a delta)) -> (forall a, table cfg a * p a <= 2097152) ->
  axis_a (m_plane m) (ppm cfg) = axis_b (m_plane m) (ppm cfg) ->
  (forall rr, round_to_grid cfg radius = Ok rr -> lossless cfg (m_plane m) rr) ->
  stays acos cfg m (arc_events g lg) (set_position m (cadd (cadd (m_position m) ce) ld)) /\
  (forall a l, completes cfg (GCircular g) l -> travel cfg (motor_of a) l = 0) /\ faithful acos cfg g.
Proof.
  intros Hm Hrad Hok Hz Ht He Hll.
  destruct (circle_room delta radius v rot m ce ld g lg Hm Hrad Hok Hz Ht He) as (rr & sa & sb & Hrr & Hg & Zc & Zl & FA & Far & RA & RB).
  specialize (Hll rr Hrr). set (pl := m_plane m) in *. assert (M := make_circular_made _ _ _ _ _ _ _ Hg). assert (Kp := k_plane _ _ _ _ _ _ _ M). assert (Kd := k_delta _ _ _ _ _ _ _ M).
  assert (W: forall n, n = sa \/ n = sb \/ n = len_steps sa sb -> Ztrunc (back (axis_a pl (ppm cfg)) n) = n).
  { intros n Hn. exact (Hll sa sb (fa_sa _ _ _ _ _ _ _ _ _ _ FA) (fa_sb _ _ _ _ _ _ _ _ _ _ FA) (proj1 (fa_small _ _ _ _ _ _ _ _ _ _ FA)) (proj1 (proj2 (fa_small _ _ _ _ _ _ _ _ _ _ FA))) n Hn). }
  assert (B0: Zceil (back (axis_c pl (ppm cfg)) (Z.abs 0)) = Z.abs 0).
  { unfold back. change (Z.abs 0) with 0. unfold Rdiv. rewrite Rmult_0_l, rd_0, Rmult_0_l, rd_0. apply (Zceil_IZR 0). }
  assert (Far': faithful acos cfg g).
  { exists rr, rot, v, (axis_a pl (ppm cfg)), sa, sb, sa, sb, 0. rewrite Kp, Kd. repeat (split; [assumption|]). split; [|split; [exact Far|split; [exact W|exact B0]]].
    right. left. auto. }
  assert (Ar := faithful_arrives acos cfg Hcfg g Hacos Far').
  assert (T0: forall a l, completes cfg (GCircular g) l -> travel cfg (motor_of a) l = 0).
  { intros a l C. assert (Hp0 := proj1 (acfg a)). apply (Ar a 0 l); [|lia|exact C]. rewrite Kd. apply (nearest_dec _ _ _ _ (acfg a)). rewrite Z.mul_0_l. apply Zc. }
  split; [|split; [exact T0|exact Far']]. split; [exact (sends_arc acos cfg Hcfg _ _ _ _ _ _ _ _ _ Hm Hrad Hok Ar)|].
  intros a n s A X. destruct X as [es1 g1 es2 s1 l j E S C].
  unfold arc_events in E. destruct es1 as [|ev es1]; cbn [app] in E.
  - injection E as <- _. assert (S0: s1 = 0) by (inversion S; reflexivity). subst s1. rewrite Z.add_0_l.
    destruct (completes_items _ _ _ C) as [i Ei]. destruct (items_firstn (N:=N) cfg (GCircular g) i j) as [k Ek]. rewrite Ei in Ek.
    assert (Wi := float_within acos cfg Hcfg ce rr pl rot v g Hg _ sa sb sa sb 0 FA Far (W _ (or_introl eq_refl)) (W _ (or_intror (or_introl eq_refl))) (W _ (or_intror (or_intror eq_refl))) k). cbv zeta in Wi. rewrite <- Ek in Wi.
    assert (T3 := float_third_within acos cfg Hcfg ce rr pl rot v g Hg _ sa sb sa sb 0 FA l j B0 C).
    assert (Cs: a = pa_ pl \/ a = pb_ pl \/ a = pc_ pl) by (destruct a, pl; cbn; auto).
    destruct Cs as [Q|[Q|Q]].
    + replace (motor_of a) with (motor_a pl) by (rewrite Q; now destruct pl). rewrite Q in A |- *. specialize (RA n A). lia.
    + replace (motor_of a) with (motor_b pl) by (rewrite Q; now destruct pl). rewrite Q in A |- *. specialize (RB n A). lia.
    + replace (motor_of a) with (motor_c pl) by (rewrite Q; now destruct pl). destruct A as [_ A]. unfold inside in A. lia.
  - injection E as E0 E. subst ev. destruct lg as [lg|]; [|now destruct es1]. destruct es1 as [|ev1 es1]; cbn [app] in E; [|injection E as _ E; now destruct es1]. injection E as <- _.
    assert (S0: exists l0, completes cfg (GCircular g) l0 /\ s1 = travel (N:=N) cfg (motor_of a) l0 + 0).
    { inversion S as [|ev' es' s' V' H' E1 E2|g' l0 es' s' C0 H' E1 E2]; [exfalso; eapply V'; reflexivity|]. exists l0. split; [exact C0|]. f_equal. inversion H'. reflexivity. }
    destruct S0 as (l0 & C0 & ->).
    specialize (T0 a l0 C0).
    destruct Hok as [d0 rr0 ea eb _ _ _ _ _ _ _ _ Hlg]. destruct Hlg as (_ & Hlg & _).
    destruct (make_linear_axes acos cfg _ v lg a Hlg) as (Hpu & Hdir & _).
    assert (Zl0: dec (0 * step (p a)) (ax a ld)) by (rewrite Z.mul_0_l; apply Zl).
    assert (Hp0 := proj1 (acfg a)). destruct (axis_pulses_far acos cfg Hcfg a 0 _ Zl0 ltac:(lia)) as [Hp2 Hs2]. rewrite Hpu in Hp2. injection Hp2 as Hp2.
    destruct (completes_items _ _ _ C) as [i Ei]. destruct (items_firstn (N:=N) cfg (GLinear lg) i j) as [k Ek]. rewrite Ei in Ek. rewrite Ek.
    destruct (line_travel cfg lg k (motor_of a)) as [Tr St]. rewrite !qat_motor_of in *. rewrite Tr. rewrite Hp2 in St. destruct A as [_ A]. unfold inside in A. change (Z.abs 0) with 0 in St. match goal with |- _ <= n + (travel _ _ _ + 0 + ?d * ?k) <= _ => assert (Q: k = 0) by lia; rewrite Q end. lia.
Qed.

(** An arc command names no axis: a full circle. *)
Definition circles_only (gc : option gcode) : Prop :=
  match gc with
  | None => True
  | Some g => no_arc gc \/ (lookup g "X" = None /\ lookup g "Y" = None /\ lookup g "Z" = None)
  end.
(** Its radius is lossless in both units and in every plane whose axes have the same
    number of steps per mm. *)
Definition lossless_words (gc : option gcode) : Prop :=
  match gc with
  | None => True
  | Some g => no_arc gc \/ forall u pl radius rr, u = f_ofZ 1 \/ u = inch -> axis_a pl (ppm cfg) = axis_b pl (ppm cfg) ->
      get_radius (N:=N) g coords0 u = Ok radius -> round_to_grid (N:=N) cfg radius = Ok rr -> lossless cfg pl rr
  end.
Lemma unnamed_zero g m delta a : command_delta (N:=N) g m = Ok delta -> tame acos m (XYZ a) -> lookup g (axis_letter a) = None -> dec 0 (ax a delta).
Proof.
  intros H T L. destruct (m_absolute m) eqn:Ab; [exact (unnamed_delta acos g m delta (XYZ a) Ab H T L)|].
  unfold command_delta in H. rewrite Ab in H. destruct (get_coordinates_axis acos _ _ _ _ (XYZ a) H) as (y & Hy & Ec). cbn [ax4 letter4] in *. rewrite get_missing in Hy by exact L. injection Hy as <-.
  rewrite Ec. apply dec_rnd10; [destruct a; exact zero_dec|unfold small; lia].
Qed.
Lemma command_stays hw gc m m' es r : (forall a, table cfg a * p a <= 2097152) ->
  never_fails_on (is_move acos) hw -> units_ok acos m -> on_table acos cfg m -> (forall a, tame acos m (XYZ a)) -> MachineArc.small_radius gc -> circles_only gc -> lossless_words gc ->
  run_command cfg hw gc m = (m', es, r) -> (forall g, In (EMove (GCircular g)) es -> axis_a (c_plane g) (ppm cfg) = axis_b (c_plane g) (ppm cfg)) -> stays acos cfg m es m'.
Proof.
  intros Ht Hn U T Tm Hsm Hco Hll H Hev. unfold run_command in H. destruct gc as [g|].
  2: { apply ret_inv in H. destruct H as (-> & -> & _). apply stays_refl. }
  apply do_command_inv in H. destruct H as [e|delta v radius Hd Hvel Hr Hmin He|delta v radius t' c m1 l1 r Hd Hvel Hr Hmin He Ha Hx].
  - apply stays_refl.
  - now apply stays_still.
  - assert (S: stays acos cfg m l1 m1).
    { destruct (is_arc c) eqn:A.
      - assert (Na: ~ no_arc (Some g)) by (intros Hno; rewrite (no_arc_cmd _ _ _ Hno He Ha) in A; discriminate A).
        assert (Hb: bdq acos 14 radius) by (destruct Hsm as [Hno|Hw]; [contradiction|exact (radius_bound acos _ _ _ Hw U Hr)]).
        assert (Zd: forall a, dec 0 (ax a delta)).
        { intros a. destruct Hco as [Hno|(HX & HY & HZ)]; [contradiction|]. apply (unnamed_zero g m); auto. destruct a; assumption. }
        assert (C: exists rot, move_circular cfg hw delta radius v rot m [] = (m1, l1, r)) by (destruct c; try discriminate A; eexists; exact Hx).
        destruct C as [rot C]. apply move_circular_inv in C. destruct C as [ce ld g0 lg Hok|ce ld g0 lg pp ev s e Hok Ep Hr'|e].
        + cbn [app] in *. assert (Kp: c_plane g0 = m_plane m) by (destruct Hok as [d rr ea eb _ _ _ _ _ Hg _ _ _]; exact (k_plane _ _ _ _ _ _ _ (make_circular_made _ _ _ _ _ _ _ Hg))).
          assert (Ev: axis_a (m_plane m) (ppm cfg) = axis_b (m_plane m) (ppm cfg)) by (rewrite <- Kp; apply Hev; now left).
          refine (proj1 (circle_stays delta radius v rot m ce ld g0 lg T Hb Hok Zd Ht Ev _)). intros rr Err. destruct Hll as [Hno|Hll]; [contradiction|]. exact (Hll _ _ _ _ U Ev Hr Err).
        + exfalso. apply (Hn _ _ _ ) in Hr'; [contradiction|]. assert (I: In ev (arc_events g0 lg)) by (rewrite Ep; apply in_or_app; right; now left).
          destruct I as [<-|I]; [eexists; reflexivity|]. destruct lg; [|contradiction]. destruct I as [<-|[]]. eexists; reflexivity.
        + apply stays_refl.
      - destruct (stays_exec acos cfg Hcfg hw g c delta radius v Hn A _ _ _ _ _ Hx) as (es & -> & S). exact S. }
    destruct r as [[]|]; [|exact S]. rewrite <- (app_nil_r l1). eapply stays_trans; [exact S|]. now apply stays_still.
Qed.
Lemma history_circles (P : hw_oracle N -> option gcode -> Prop) m es :
  (forall a, table cfg a * p a <= 2097152) ->
  (forall hw gc, P hw gc -> never_fails_on (is_move acos) hw /\ moderate gc /\ circles_only gc /\ lossless_words gc) ->
  history_where P cfg m es -> (forall g, In (EMove (GCircular g)) es -> axis_a (c_plane g) (ppm cfg) = axis_b (c_plane g) (ppm cfg)) ->
  stays acos cfg (init_machine cfg) es m.
Proof.
  intros Ht HP H Hev. induction H as [|m es hw gc m' es' r H IH Hgc Hr]; [apply stays_refl|].
  apply (stays_trans acos cfg _ _ m).
  - apply IH. intros g I. apply Hev. apply in_or_app. now left.
  - destruct (HP _ _ Hgc) as (Hn & Hmo & Hco & Hll). apply (command_stays hw gc m m' es' r); auto.
    + exact (history_units acos cfg _ _ _ H).
    + exact (history_on_table acos cfg Hcfg P m es (fun hw gc K => moderate_radius _ (proj1 (proj2 (HP hw gc K)))) H).
    + intros a. exact (history_tame acos cfg Hcfg P m es a (fun hw gc K => proj1 (proj2 (HP hw gc K))) H).
    + exact (moderate_radius _ Hmo).
    + intros g I. apply Hev. apply in_or_app. now right.
Qed.
(** The circles of such histories are arcs of C82. *)
Lemma history_circles_faithful (P : hw_oracle N -> option gcode -> Prop) m es :
  (forall a, table cfg a * p a <= 2097152) ->
  (forall hw gc, P hw gc -> moderate gc /\ circles_only gc /\ lossless_words gc) ->
  history_where P cfg m es -> (forall g, In (EMove (GCircular g)) es -> axis_a (c_plane g) (ppm cfg) = axis_b (c_plane g) (ppm cfg)) ->
  forall g, In (EMove (GCircular g)) es -> faithful acos cfg g.
Proof.
  intros Ht HP H. induction H as [|m es hw gc m' es' r H IH Hgc Hr]; intros Hev g I; [destruct I|].
  assert (Ev := Hev g I). apply in_app_or in I. destruct I as [I|I].
  - apply IH; [|exact I]. intros g' I'. apply Hev. apply in_or_app. now left.
  - destruct gc as [gc|]; [|apply ret_inv in Hr; destruct Hr as (_ & -> & _); destruct I].
    destruct (HP _ _ Hgc) as (Hmo & Hco & Hll). assert (U := history_units acos cfg _ _ _ H).
    assert (OT := history_on_table acos cfg Hcfg P m es (fun hw gc K => moderate_radius _ (proj1 (HP hw gc K))) H).
    destruct (arc_of_command cfg _ _ _ _ _ _ _ Hr I) as (delta & radius & v & rot & ce & ld & lg & Ed & _ & Er & _ & Hok & Hec).
    assert (Na: ~ no_arc (Some gc)) by (intros [N2 N3]; destruct rot; tauto).
    assert (Hb: bdq acos 14 radius) by (destruct (moderate_radius _ Hmo) as [Hno|Hw]; [contradiction|exact (radius_bound acos _ _ _ Hw U Er)]).
    assert (Zd: forall a, dec 0 (ax a delta)).
    { intros a. destruct Hco as [Hno|(HX & HY & HZ)]; [contradiction|]. apply (unnamed_zero gc m); auto; [|destruct a; assumption].
      exact (history_tame acos cfg Hcfg P m es a (fun hw gc K => proj1 (HP hw gc K)) H). }
    assert (Kp: c_plane g = m_plane m) by (destruct Hok as [d rr ea eb _ _ _ _ _ Hg _ _ _]; exact (k_plane _ _ _ _ _ _ _ (make_circular_made _ _ _ _ _ _ _ Hg))).
    rewrite Kp in Ev. refine (proj2 (proj2 (circle_stays delta radius v rot m ce ld g lg OT Hb Hok Zd Ht Ev _))).
    intros rr Err. destruct Hll as [Hno|Hll]; [contradiction|]. exact (Hll _ _ _ _ U Ev Er Err).
Qed.
End Circles.

(* ---------- sessions of lines ---------- *)
(** What the line says satisfies [Q]. *)
Definition line_ok (Q : option gcode -> Prop) (line : text) : Prop := forall gc, parse_line line = Ok gc -> Q gc.
Section Lines.
Variable acos : f64 -> f64.
Notation N := (F64 acos).
Variable cfg : config.
Variable hw : hw_oracle N.
Hypothesis Hhw : moves_return hw.
Variable Q : option gcode -> Prop.
Definition Returns : hw_oracle N -> option gcode -> Prop := fun hw gc => moves_return hw /\ Q gc.
Lemma line_ok_history line s s' r : line_ok Q line -> history_where Returns cfg (s_machine s) (s_log s) -> do_line cfg hw line s = (s', r) ->
  history_where Returns cfg (s_machine s') (s_log s').
Proof.
  intros O Hh H. apply do_line_inv in H. destruct H as (g & m' & es & r0 & H & -> & -> & _).
  destruct H as [(Ep & H)|(e & _ & _ & -> & -> & _)]; [|now rewrite app_nil_r].
  eapply h_step; [exact Hh| |exact H]. split; [intros l gg e; apply Hhw|exact (O _ Ep)].
Qed.
Lemma lines_history f ls s bs s' : answered cfg hw f ls s bs s' -> Forall (fun i => match i with Line l => line_ok Q (f l) | Err _ => True end) ls ->
  history_where Returns cfg (s_machine s) (s_log s) -> history_where Returns cfg (s_machine s') (s_log s').
Proof.
  induction 1 as [|l r s s1 b bs s2 E _ IH]; intros O Hh; [exact Hh|]. apply Forall_cons_iff in O. destruct O as [O1 O2].
  apply IH; [exact O2|]. eapply line_ok_history; eassumption.
Qed.
Lemma returns_position m es a : good_cfg cfg -> (forall gc, Q gc -> MachineArc.small_radius gc) -> history_where Returns cfg m es -> (Rabs (val (ax a (m_position m))) <= 4096)%R.
Proof.
  intros Hc HQ H. destruct (history_on_table acos cfg Hc Returns _ _ (fun hw0 gc D => HQ gc (proj2 D)) H a) as (n & [_ ->] & B).
  assert (Ha := MachinePos.acfg cfg Hc a). rewrite <- (rd_IZR 4096) by (vm_compute; discriminate). rewrite <- rd_abs. apply rd_le.
  assert (Bs := inside_small _ _ Ha n B). assert (Sm := step_mul _ _ Ha). set (P := ax a (ppm cfg)) in *. destruct Ha as (HP & _).
  assert (P0: (0 < IZR P)%R) by (apply (IZR_lt 0); lia).
  replace (IZR (n * step P) / e10)%R with (IZR n / IZR P)%R.
  - unfold Rdiv. rewrite Rabs_mult, Rabs_inv, (Rabs_pos_eq (IZR P)) by lra.
    apply Rmult_le_reg_r with (IZR P); [exact P0|]. rewrite Rmult_assoc, Rinv_l, Rmult_1_r by lra.
    rewrite <- abs_IZR, <- mult_IZR. now apply IZR_le.
  - apply (f_equal IZR) in Sm. rewrite mult_IZR in *. unfold e10. field_simplify_eq; [|lra]. rewrite <- Sm. ring.
Qed.
End Lines.
