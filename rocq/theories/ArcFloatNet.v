(** Where binary64 arcs end, in a plane with equal steps: the net travel of the plane
    axes is the requested one if the start and the radius survive the conversion
    between steps and millimetres. *)
From Coq Require Import ZArith Bool Reals Lra Lia List Psatz.
From Flocq Require Import Core BinarySingleNaN.
From Verif Require Import PyBase PyNum ArcExact PyFloatFacts FloatRel Config Coordinates Pulses PulseSpec Decimal MachinePos MachineArc LinearGen ArcSpec ArcRun ArcMake ArcTravel ArcFloat ArcGrid ArcQuarters ArcAngle.
From Coq Require Import List.
From Flocq Require Import Core.
Import ListNotations.
Local Open Scope R_scope.

(** [n] steps converted to millimetres and back to steps, in binary64:
    pulses.py computes abs(mm) * STEPPER_PULSES_PER_MM (lines 484-506) and
    int(mm * STEPPER_PULSES_PER_MM) (lines 380-440) where mm is n / p. *)
Definition back (p n : Z) : R := rd (rd (IZR n / IZR p) * IZR p).

(** Square roots of whole numbers are not close to the middle between two whole
    numbers. *)
Lemma half_gap (n k : Z) : (0 <= n)%Z -> sqrt (IZR n) <= 1048577 -> bpow radix2 (-24) <= Rabs (sqrt (IZR n) - (IZR k + / 2)).
Proof.
  intros Hn Hl. assert (S0 := sqrt_pos (IZR n)). assert (E: sqrt (IZR n) * sqrt (IZR n) = IZR n) by (apply sqrt_sqrt, (IZR_le 0); exact Hn).
  set (x := sqrt (IZR n)) in *. clearbody x. set (y := IZR k + / 2). change (bpow radix2 (-24)) with (/ 16777216).
  assert (G: / 4 <= Rabs (x * x - y * y)).
  { rewrite E. unfold y. replace (IZR n - (IZR k + / 2) * (IZR k + / 2)) with (IZR (n - k * k - k) - / 4) by (rewrite !minus_IZR, mult_IZR; field).
    destruct (Z_le_gt_dec (n - k * k - k) 0) as [L|L].
    - apply IZR_le in L. rewrite Rabs_left1 by lra. lra.
    - assert (L': (1 <= n - k * k - k)%Z) by lia. apply IZR_le in L'. rewrite Rabs_pos_eq by lra. lra. }
  destruct (Rle_or_lt (/ 16777216) (Rabs (x - y))) as [|H]; [assumption|]. exfalso.
  replace (x * x - y * y) with ((x - y) * (x + y)) in G by ring. rewrite Rabs_mult in G.
  assert (H' := H). apply Rabs_def2 in H'. assert (Y: Rabs (x + y) <= 2097156) by (apply Rabs_le; lra). assert (P := Rabs_pos (x - y)). assert (Q := Rabs_pos (x + y)).
  assert (Rabs (x - y) * Rabs (x + y) <= / 16777216 * 2097156) by (apply Rmult_le_compat; lra). lra.
Qed.
Lemma len_unique (a b : Z) (x : R) : sqrt (IZR (a * a + b * b)) <= 1048577 -> Rabs (x - sqrt (IZR (a * a + b * b))) < bpow radix2 (-24) -> ZnearestE x = len_steps a b.
Proof.
  intros Hl Hx. assert (P: (0 <= a * a + b * b)%Z) by nia. set (n := (a * a + b * b)%Z) in *. apply ZnearestE_unique.
  assert (H := Znearest_half (fun z => negb (Z.even z)) (sqrt (IZR n))). change (Znearest (fun z => negb (Z.even z)) (sqrt (IZR n))) with (len_steps a b) in H.
  assert (G1 := half_gap n (len_steps a b) P Hl). assert (G2 := half_gap n (len_steps a b - 1) P Hl). rewrite minus_IZR in G2.
  set (z := IZR (len_steps a b)) in *. set (s := sqrt (IZR n)) in *. clearbody z s. change (bpow radix2 (-24)) with (/ 16777216) in *.
  apply Rabs_le_inv in H. apply Rabs_def2 in Hx. apply Rabs_def1.
  - destruct (Rle_or_lt (s - (z + / 2)) 0) as [L|L]; [rewrite Rabs_left1 in G1 by lra; lra|lra].
  - destruct (Rle_or_lt 0 (s - (z - 1 + / 2))) as [L|L]; [rewrite Rabs_pos_eq in G2 by lra; lra|lra].
Qed.

Section Net.
Variable acos : f64 -> f64.
Hypothesis Hacos : orderly_acos acos.
Notation N := (F64 acos).
Variable cfg : config.
Variables (delta radius : quad N) (pl : plane) (rot : rotation) (v : N).
Variable g : circular_gen N.
Variables (p s : Z).
Hypothesis Hp : (0 < p <= 1000)%Z.
Hypothesis Hs : (p * s = 10000000000)%Z.
Hypothesis Pa : axis_a pl (ppm cfg) = p.
Hypothesis Pb : axis_b pl (ppm cfg) = p.
Variables (ka kb ja jb : Z).
Hypothesis Dka : dec (ka * s) (axis_a pl radius).
Hypothesis Dkb : dec (kb * s) (axis_b pl radius).
Hypothesis Dja : dec (ja * s) (axis_a pl delta).
Hypothesis Djb : dec (jb * s) (axis_b pl delta).
Hypothesis Ska : (Z.abs ka <= 65536 * p)%Z.
Hypothesis Skb : (Z.abs kb <= 65536 * p)%Z.
Hypothesis Sja : (Z.abs ja <= 65536 * p)%Z.
Hypothesis Sjb : (Z.abs jb <= 65536 * p)%Z.
Hypothesis M : made cfg delta radius pl rot v g.
Notation K f := (f _ _ _ _ _ _ _ M).
Notation near := (near p).
(** Start and end in steps from the centre. *)
Notation sa := (- ka)%Z.
Notation sb := (- kb)%Z.
Notation ea := (- ka + ja)%Z.
Notation eb := (- kb + jb)%Z.
Notation fsa := (Bopp (axis_a pl radius)).
Notation fsb := (Bopp (axis_b pl radius)).
Notation fea := (f_add (Bopp (axis_a pl radius)) (axis_a pl delta)).
Notation feb := (f_add (Bopp (axis_b pl radius)) (axis_b pl delta)).
Let rho := K k_rm.
Hypothesis Far : (rho <= 1048576)%Z.
Hypothesis Hst : (ka <> 0 \/ kb <> 0)%Z.
Hypothesis Hen : (ea <> 0 \/ eb <> 0)%Z.

Lemma n_sa : near sa fsa. Proof. eapply sa_near; eassumption. Qed.
Lemma n_sb : near sb fsb. Proof. eapply sb_near; eassumption. Qed.
Lemma n_ea : near ea fea. Proof. eapply ea_near; eassumption. Qed.
Lemma n_eb : near eb feb. Proof. eapply eb_near; eassumption. Qed.
Lemma sa_sb_dec : dec (sa * s) fsa /\ dec (sb * s) fsb.
Proof. rewrite !Z.mul_opp_l. split; now apply dec_opp. Qed.
Lemma rho_facts : (Z.abs sa <= rho /\ Z.abs sb <= rho /\ Z.abs ea <= rho /\ Z.abs eb <= rho)%Z.
Proof.
  assert (A: (Z.abs ka <= rho)%Z /\ (Z.abs kb <= rho)%Z /\ (0 <= rho <= 262144 * p)%Z) by (eapply rm_facts; eassumption).
  assert (B: (Z.abs ea <= rho)%Z /\ (Z.abs eb <= rho)%Z) by (eapply end_facts; eassumption). lia.
Qed.
Lemma net_rr : K k_rra = rho /\ K k_rrb = rho. Proof. eapply rr_facts; eassumption. Qed.

(** The radius in steps, as computed. *)
Lemma rho_len : (len_steps sa sb <= 1048576)%Z -> rho = len_steps sa sb.
Proof.
  clear Far Hst Hen. intros HL. assert (E1 := K k_h_eq). assert (E2 := K k_rm_eq). change (f_sqrt (f_add (f_mul fsa fsa) (f_mul fsb fsb)) = Ok (K k_h)) in E1. fold rho in E2. rewrite Pa, Pb, Z.min_id in E2. change (f_rnd (f_mul (K k_h) (f_ofZ p)) = Ok rho) in E2.
  destruct (near_hyp2 p Hp _ _ _ _ _ n_sa n_sb E1) as (Fh & H0 & HS). cbv zeta in HS.
  assert (Pp := p_pos p Hp). assert (Pl := p_le p Hp).
  assert (Rel: forall j x, near j x -> dec (j * s) x -> IZR j * IZR j * (1 - 4 * ep) <= val x * IZR p * (val x * IZR p) <= IZR j * IZR j * (1 + 4 * ep)).
  { intros j x Nj [_ Dj]. rewrite (step_R p Hp s Hs) in Dj. destruct (Z.eq_dec j 0) as [J|J].
    - rewrite (n_zero _ _ _ Nj J), J. lra.
    - assert (Q: bpow radix2 (-1022) <= Rabs (IZR j / IZR p)).
      { unfold Rdiv. rewrite Rabs_mult, (Rabs_pos_eq (/ IZR p)) by (left; now apply Rinv_0_lt_compat). assert (1 <= Rabs (IZR j)) by (rewrite <- abs_IZR; apply IZR_le; lia).
        apply Rle_trans with (1 * / 1000); [|apply Rmult_le_compat; [lra|lra|lra|apply Rinv_le_contravar; lra]].
        apply Rle_trans with (bpow radix2 (-10)); [apply bpow_le; lia|]. change (bpow radix2 (-10)) with (/ 1024). lra. }
      assert (Er := rd_error_rel _ Q). rewrite <- Dj in Er. change (bpow radix2 (-53)) with (/ 9007199254740992) in Er.
      set (d := val x - IZR j / IZR p) in *. assert (Ex: val x * IZR p = IZR j + d * IZR p) by (unfold d; field; lra).
      assert (Ed: Rabs (d * IZR p) <= / 9007199254740992 * Rabs (IZR j)).
      { rewrite Rabs_mult, (Rabs_pos_eq (IZR p)) by lra. replace (/ 9007199254740992 * Rabs (IZR j)) with (/ 9007199254740992 * Rabs (IZR j / IZR p) * IZR p); [apply Rmult_le_compat_r; lra|].
        unfold Rdiv. rewrite Rabs_mult, (Rabs_pos_eq (/ IZR p)) by (left; now apply Rinv_0_lt_compat). field. lra. }
      rewrite Ex. set (y := d * IZR p) in *. clearbody y. assert (A2: IZR j * IZR j = Rabs (IZR j) * Rabs (IZR j)) by (rewrite <- Rabs_mult, Rabs_pos_eq; [reflexivity|apply Rle_0_sqr]).
      assert (X := Rabs_pos (IZR j)). assert (YJ: Rabs (y * IZR j) <= / 9007199254740992 * (Rabs (IZR j) * Rabs (IZR j))) by (rewrite Rabs_mult; nra).
      assert (YY: Rabs (y * y) <= / 9007199254740992 * (Rabs (IZR j) * Rabs (IZR j))) by (rewrite Rabs_mult; assert (Yp := Rabs_pos y); nra).
      rewrite <- A2 in YJ, YY. apply Rabs_le_inv in YJ, YY. unfold ep. nra. }
  assert (Ra := Rel _ _ n_sa (proj1 (sa_sb_dec))). assert (Rb := Rel _ _ n_sb (proj2 (sa_sb_dec))).
  set (n := (sa * sa + sb * sb)%Z). assert (En: IZR n = IZR sa * IZR sa + IZR sb * IZR sb) by (unfold n; now rewrite plus_IZR, !mult_IZR).
  assert (Hn := Znearest_half (fun z => negb (Z.even z)) (sqrt (IZR n))). change (Znearest (fun z => negb (Z.even z)) (sqrt (IZR n))) with (len_steps sa sb) in Hn.
  apply IZR_le in HL. apply Rabs_le_inv in Hn. assert (Q0 := sqrt_pos (IZR n)). assert (Q2: sqrt (IZR n) * sqrt (IZR n) = IZR n) by (apply sqrt_sqrt, (IZR_le 0); unfold n; nia).
  set (L := sqrt (IZR n)) in *. assert (HL': L <= 1048577) by lra.
  set (h := val (K k_h) * IZR p) in *. assert (Hh: 0 <= h) by (apply Rmult_le_pos; lra).
  assert (B: (1 - 20 * ep) * (L * L) <= h * h <= (1 + 20 * ep) * (L * L)).
  { rewrite Q2, En. set (A := IZR sa * IZR sa) in *. set (B := IZR sb * IZR sb) in *. assert (0 <= A) by apply Rle_0_sqr. assert (0 <= B) by apply Rle_0_sqr.
    set (U := val fsa * IZR p * (val fsa * IZR p)) in *. set (V := val fsb * IZR p * (val fsb * IZR p)) in *. clearbody A B U V. unfold ep in *. split; nra. }
  assert (C: Rabs (h - L) <= 20 * ep * L).
  { apply Rabs_le. unfold ep in *. split.
    - destruct (Rle_or_lt (L - 20 * / 4503599627370496 * L) h) as [|W]; [lra|]. exfalso. nra.
    - destruct (Rle_or_lt h (L + 20 * / 4503599627370496 * L)) as [|W]; [lra|]. exfalso. nra. }
  assert (D: Rabs (h - L) <= / 134217728) by (eapply Rle_trans; [exact C|]; unfold ep; nra).
  assert (Bh: Rabs h <= bpow radix2 21) by (rewrite Rabs_pos_eq by lra; change (bpow radix2 21) with 2097152; apply Rabs_le_inv in D; lra).
  destruct (f_ofZ_val p) as [Fp Vp]; [lia|]. destruct (f_mul_val _ _ Fh Fp) as [Fm Vm]; [rewrite Vp; eapply bd_big; [exact Bh|lia]|].
  rewrite (f_rnd_val _ Fm), Vm, Vp in E2. fold h in E2. injection E2 as E2. rewrite <- E2. apply len_unique; [fold n; fold L; exact HL'|]. fold n. fold L.
  assert (Er := rd_error h 21 ltac:(lia) Bh). change (21 - 54)%Z with (-33)%Z in Er. change (bpow radix2 (-33)) with (/ 8589934592) in Er. change (bpow radix2 (-24)) with (/ 16777216).
  apply Rabs_le_inv in Er, D. apply Rabs_def1; lra.
Qed.

(* ---------- angles and quarters ---------- *)
Lemma start_region : fin (c_start_angle g) /\ fregion sa sb (val (c_start_angle g)).
Proof.
  destruct rho_facts as (A1 & A2 & A3 & A4). apply (angle_region acos Hacos p Hp sa sb fsa fsb); [exact n_sa|exact n_sb|lia|lia|lia|]. exact (K k_start_eq).
Qed.
Lemma end_region : fin (K k_end) /\ fregion ea eb (val (K k_end)).
Proof.
  destruct rho_facts as (A1 & A2 & A3 & A4). apply (angle_region acos Hacos p Hp ea eb fea feb); [exact n_ea|exact n_eb|lia|lia|lia|]. exact (K k_end_eq).
Qed.
Lemma half_eq : (fin (K k_half) /\ val (K k_half) = hpi) /\ fin (K k_threehalf) /\ val (K k_threehalf) = 3 * hpi.
Proof. split; [exact (half_val _ (K k_half_eq))|exact (threehalf_val _ (K k_threehalf_eq))]. Qed.
Lemma dirs_eq : c_dir_a g = dir_a_of rot sa sb /\ c_dir_b g = dir_b_of rot sa sb.
Proof.
  destruct half_eq as [[F1 H1] [F2 H2]]. assert (D := K k_dirs). destruct start_region as [Fa G]. set (an := c_start_angle g) in *. set (hh := K k_half) in *. set (th := K k_threehalf) in *.
  unfold start_dirs in D. change (leb (p:=N)) with f_le in D. change (ltb (p:=N)) with f_lt in D. change (@pin N) with f_pi in D. change (@zero N) with (f_ofZ 0) in D.
  destruct zero_fin as [F0 V0]. destruct pi_val as [Fp _]. assert (P := pi_eq). assert (M0: 0 < mg) by apply bpow_gt_0.
  rewrite !f_le_val, !f_lt_val, V0, H1, H2 in D by assumption.
  unfold dir_a_of, dir_b_of. unfold fregion in G. assert (D1 := f_equal fst D); assert (D2 := f_equal snd D); clear D; destruct rot; cbn [fst snd] in D1, D2;
  destruct G as [G|[G|[G|[G|[G|[G|[G|G]]]]]]]; destruct G as [G [G1 G2]];
  repeat match type of D1 with context [Rle_bool ?x ?y] => destruct (Rle_bool_spec x y); try (exfalso; lra) | context [Rlt_bool ?x ?y] => destruct (Rlt_bool_spec x y); try (exfalso; lra) end;
  repeat match type of D2 with context [Rle_bool ?x ?y] => destruct (Rle_bool_spec x y); try (exfalso; lra) | context [Rlt_bool ?x ?y] => destruct (Rlt_bool_spec x y); try (exfalso; lra) end;
  cbn [andb orb] in D1, D2; rewrite D1, D2;
  repeat match goal with |- context [Z.ltb ?x ?y] => destruct (Z.ltb_spec x y); try (exfalso; lia) | |- context [Z.eqb ?x ?y] => destruct (Z.eqb_spec x y); try (exfalso; lia) end;
  split; reflexivity.
Qed.
Lemma qs_eq : K k_qs = quadrant sa sb.
Proof.
  destruct half_eq as [[F1 H1] _]. destruct start_region as [Fa G]. destruct (region_quadrant _ _ _ G) as [Q1 Q2]. assert (M0: 0 < mg) by apply bpow_gt_0.
  assert (T := quarter_trunc _ _ _ (quadrant sa sb) Fa F1 H1 ltac:(lia) ltac:(lra) (K k_qs_eq)). assert (T' := K k_qs_tr). change (f_trunc (K k_qs_) = Ok (K k_qs)) in T'. congruence.
Qed.
Lemma endm_eq : K k_endm = if f_le (K k_end) (c_start_angle g) then f_add (K k_end) (f_mul (f_ofZ 2) f_pi) else K k_end.
Proof. exact (K k_endm_eq). Qed.
Lemma qe_eq : K k_qe = (if f_le (K k_end) (c_start_angle g) then quadrant ea eb + 4 else quadrant ea eb)%Z.
Proof.
  destruct half_eq as [[F1 H1] _]. destruct end_region as [Fe G]. destruct (region_quadrant _ _ _ G) as [Q1 Q2]. assert (M0: 0 < mg) by apply bpow_gt_0.
  assert (E := K k_qe_eq). assert (T' := K k_qe_tr). change (f_trunc (K k_qe_) = Ok (K k_qe)) in T'. rewrite endm_eq in E. destruct (f_le (K k_end) (c_start_angle g)).
  - destruct (turn_more _ _ Fe Q2 Q1) as [F3 B3]. assert (T := quarter_trunc _ _ _ (quadrant ea eb + 4) F3 F1 H1 ltac:(lia) B3 E). congruence.
  - assert (T := quarter_trunc _ _ _ (quadrant ea eb) Fe F1 H1 ltac:(lia) ltac:(lra) E). congruence.
Qed.
Lemma end_before : (val (K k_end) <= val (c_start_angle g) -> f_le (K k_end) (c_start_angle g) = true) /\ (val (c_start_angle g) < val (K k_end) -> f_le (K k_end) (c_start_angle g) = false).
Proof. destruct start_region as [Fa _]. destruct end_region as [Fe _]. split; intros L; [apply f_le_true|apply f_le_false]; assumption. Qed.

(* ---------- counts ---------- *)
Lemma diff_steps (x y : f64) i j : near i x -> near j y -> (Z.abs i <= rho)%Z -> (Z.abs j <= rho)%Z -> f_rnd (f_mul (Babs (f_sub x y)) (f_ofZ p)) = Ok (Z.abs (i - j)).
Proof.
  intros Nx Ny Si Sj. assert (Pp := p_pos p Hp). assert (Pl := p_le p Hp).
  assert (Bx := near_val p Hp _ _ Nx). assert (By := near_val p Hp _ _ Ny).
  assert (B: Rabs (val x - val y) <= bpow radix2 30).
  { unfold Rminus. eapply Rle_trans; [apply Rabs_triang|]. rewrite Rabs_Ropp. change (bpow radix2 30) with 1073741824. c2n. lra. }
  destruct (f_sub_val x y (n_fin _ _ _ Nx) (n_fin _ _ _ Ny)) as [F V]; [eapply bd_big; [exact B|lia]|].
  assert (Er := rd_error _ 30 ltac:(lia) B). change (30 - 54)%Z with (-24)%Z in Er. rewrite <- V in Er. change (bpow radix2 (-24)) with (/ 16777216) in Er.
  assert (E1 := n_err _ _ _ Nx). assert (E2 := n_err _ _ _ Ny). apply Rabs_le_inv in E1, E2, Er. change (bpow radix2 (-20)) with (/ 1048576) in *.
  assert (W: Rabs (val (f_sub x y) * IZR p - IZR (i - j)) <= / 1000).
  { apply Rabs_le. rewrite minus_IZR. assert (- / 16777216 * IZR p <= (val (f_sub x y) - (val x - val y)) * IZR p <= / 16777216 * IZR p) by (split; apply Rmult_le_compat_r; lra).
    replace ((val (f_sub x y) - (val x - val y)) * IZR p) with (val (f_sub x y) * IZR p - (val x * IZR p - val y * IZR p)) in H by ring. lra. }
  assert (SI: Rabs (IZR (i - j)) <= 536870912) by (rewrite <- abs_IZR; apply IZR_le; lia).
  assert (B2: Rabs (val (Babs (f_sub x y)) * IZR p) <= bpow radix2 30).
  { rewrite val_abs, Rabs_mult, Rabs_Rabsolu, <- Rabs_mult. replace (val (f_sub x y) * IZR p) with ((val (f_sub x y) * IZR p - IZR (i - j)) + IZR (i - j)) by ring.
    eapply Rle_trans; [apply Rabs_triang|]. change (bpow radix2 30) with 1073741824. lra. }
  destruct (f_ofZ_val p) as [Fp Vp]; [lia|]. assert (Fa: fin (Babs (f_sub x y))) by now apply fin_abs.
  destruct (f_mul_val _ _ Fa Fp) as [Fm Vm]; [rewrite Vp; eapply bd_big; [exact B2|lia]|].
  rewrite (f_rnd_val _ Fm), Vm, Vp. f_equal.
  assert (E3 := rd_error _ 30 ltac:(lia) B2). change (30 - 54)%Z with (-24)%Z in E3. change (bpow radix2 (-24)) with (/ 16777216) in E3.
  apply ZnearestE_unique. rewrite abs_IZR.
  assert (W2: Rabs (val (Babs (f_sub x y)) * IZR p - Rabs (IZR (i - j))) <= / 1000).
  { rewrite val_abs. replace (Rabs (val (f_sub x y)) * IZR p) with (Rabs (val (f_sub x y) * IZR p)) by (rewrite Rabs_mult, (Rabs_pos_eq (IZR p)); lra).
    eapply Rle_trans; [apply Rabs_triang_inv2|]. exact W. }
  apply Rabs_le_inv in E3, W2. apply Rabs_def1; lra.
Qed.
Lemma base_eq qs qe' : base_iterations cfg delta radius pl qs qe' rho rho =
  if (qs =? qe')%Z then Ok (Z.abs (sa - ea), Z.abs (sb - eb)) else Ok (quarter_iterations qs qe' rho rho (Z.abs sa) (Z.abs sb) (Z.abs ea) (Z.abs eb)).
Proof.
  destruct rho_facts as (A1 & A2 & A3 & A4). unfold base_iterations. rewrite Pa, Pb.
  assert (Q1 := near_rnd p Hp _ _ (near_abs p Hp _ _ n_sa)). assert (Q2 := near_rnd p Hp _ _ (near_abs p Hp _ _ n_sb)).
  assert (Q3 := near_rnd p Hp _ _ (near_abs p Hp _ _ n_ea)). assert (Q4 := near_rnd p Hp _ _ (near_abs p Hp _ _ n_eb)).
  assert (Q5 := diff_steps _ _ _ _ n_sa n_ea A1 A3). assert (Q6 := diff_steps _ _ _ _ n_sb n_eb A2 A4).
  cbn [rnd mul absn neg add sub ofZ F64]. destruct (qs =? qe')%Z.
  - rewrite Q5. cbn [rbind]. rewrite Q6. reflexivity.
  - rewrite Q1. cbn [rbind]. rewrite Q2. cbn [rbind]. rewrite Q3. cbn [rbind]. rewrite Q4. reflexivity.
Qed.
Lemma net_axis : (sb = 0%Z -> Z.abs sa = rho) /\ (sa = 0%Z -> Z.abs sb = rho).
Proof.
  assert (E1 := K k_h_eq). assert (E2 := K k_rm_eq). change (f_sqrt (f_add (f_mul fsa fsa) (f_mul fsb fsb)) = Ok (K k_h)) in E1. fold rho in E2. rewrite Pa, Pb, Z.min_id in E2. change (f_rnd (f_mul (K k_h) (f_ofZ p)) = Ok rho) in E2.
  destruct (mid_sq _ (near_mid p Hp _ _ n_sa)) as (F1 & V1 & [L1 U1] & _). destruct (mid_sq _ (near_mid p Hp _ _ n_sb)) as (F2 & V2 & [L2 U2] & _).
  destruct (f_add_val _ _ F1 F2) as [F3 V3]; [rewrite Rabs_pos_eq by lra; apply Rle_trans with (bpow radix2 201); [change 201%Z with (200 + 1)%Z; rewrite <- bpow_double; lra|apply bpow_le; lia]|].
  destruct (f_sqrt_val _ F3) as (h' & E & Fh & Vh); [rewrite V3, <- rd_0; apply rd_le; lra|]. rewrite E in E1. injection E1 as E1.
  assert (G: forall j x, near j x -> j <> 0%Z -> val (f_mul x x) = rd (val x * val x) -> val (K k_h) = rd (sqrt (val (f_mul x x))) -> Z.abs j = rho).
  { intros j x Hx NZ Vx Hh. rewrite Vx, rd_sqrt_sqr_eq in Hh; [|apply val_format|split; [eapply Rle_trans; [|exact (near_ge p Hp _ _ Hx NZ)]|eapply Rle_trans; [exact (near_val p Hp _ _ Hx)|]]; apply bpow_le; lia].
    assert (Nh: near (Z.abs j) (K k_h)).
    { destruct (near_abs p Hp _ _ Hx) as [Fx Sx Ex Zx]. split; [rewrite <- E1; exact Fh|exact Sx| |lia]. rewrite Hh, <- val_abs. exact Ex. }
    assert (X := near_rnd p Hp _ _ Nh). congruence. }
  split; intros Z0.
  - apply (G _ _ n_sa); [lia|exact V1|]. rewrite <- E1, Vh, V3. rewrite (n_zero _ _ _ n_sb Z0), Rmult_0_l, rd_0 in V2. rewrite V2, Rplus_0_r. now rewrite (rd_val (f_mul fsa fsa)).
  - apply (G _ _ n_sb); [lia|exact V2|]. rewrite <- E1, Vh, V3. rewrite (n_zero _ _ _ n_sa Z0), Rmult_0_l, rd_0 in V1. rewrite V1, Rplus_0_l. now rewrite (rd_val (f_mul fsb fsb)).
Qed.

(* ---------- where the arc ends ---------- *)
Hypothesis Wa : Ztrunc (back p sa) = sa.
Hypothesis Wb : Ztrunc (back p sb) = sb.
Hypothesis Wr : Ztrunc (back p rho) = rho.

Lemma back_trunc (x : f64) j k : fin x -> val x = rd (IZR j / IZR p) -> (Z.abs j <= 262144 * p)%Z -> f_trunc (f_mul x (f_ofZ p)) = Ok k -> k = Ztrunc (back p j).
Proof.
  intros F V B E. assert (Pp := p_pos p Hp). assert (Pl := p_le p Hp). destruct (f_ofZ_val p) as [Fp Vp]; [lia|].
  assert (Bx: Rabs (val x) <= bpow radix2 18).
  { rewrite V. apply rd_abs_le; [lia|]. unfold Rdiv. rewrite Rabs_mult, (Rabs_pos_eq (/ IZR p)) by (left; now apply Rinv_0_lt_compat). rewrite <- abs_IZR. apply IZR_le in B. rewrite mult_IZR in B.
    change (bpow radix2 18) with 262144. apply Rmult_le_reg_r with (IZR p); [exact Pp|]. rewrite Rmult_assoc, Rinv_l by lra. lra. }
  destruct (f_mul_val _ _ F Fp) as [Fm Vm].
  { rewrite Vp, Rabs_mult, (Rabs_pos_eq (IZR p)) by lra. change (bpow radix2 18) with 262144 in Bx. apply Rle_trans with (bpow radix2 28); [change (bpow radix2 28) with 268435456; nra|apply bpow_le; lia]. }
  rewrite (f_trunc_val _ Fm), Vm, Vp, V in E. injection E as <-. reflexivity.
Qed.
Lemma starts_eq : c_start_a_pulses g = sa /\ c_start_b_pulses g = sb.
Proof.
  assert (E1 := K k_Sa_eq). assert (E2 := K k_Sb_eq). rewrite Pa in E1. rewrite Pb in E2. destruct sa_sb_dec as [[F1 V1] [F2 V2]].
  rewrite (step_R p Hp s Hs) in V1, V2. split; [refine (eq_trans _ Wa)|refine (eq_trans _ Wb)]; (eapply back_trunc; [| |lia|eassumption]; assumption).
Qed.
Lemma radius_a : c_radius_a_pulses g = rho.
Proof.
  assert (R: near rho (K k_r) /\ val (K k_r) = rd (IZR rho / IZR p)) by (eapply r_near; eassumption). destruct R as [Nr Vr].
  assert (E := K k_Ra_eq). rewrite Pa in E. assert (RA: K k_radius_a = K k_r /\ K k_radius_b = K k_r) by (eapply radius_ab; eassumption).
  rewrite <- Wr. eapply back_trunc; [apply Nr|exact Vr|apply Nr|]. exact E.
Qed.
Lemma radius_b : c_radius_b_pulses g = rho.
Proof. assert (E1 := K k_Ra_eq). assert (E2 := K k_Rb_eq). rewrite Pa in E1. rewrite Pb in E2. rewrite E1 in E2. injection E2 as E2. rewrite <- E2. exact radius_a. Qed.
Lemma whole_turn : ja = 0%Z -> jb = 0%Z -> c_iterations_a g = (4 * rho)%Z /\ c_iterations_b g = (4 * rho)%Z.
Proof.
  intros Ja Jb. destruct rho_facts as (A1 & A2 & A3 & A4). destruct net_rr as [R3 R4]. assert (I := K k_iter). rewrite qs_eq, qe_eq, R3, R4 in I.
  assert (Va: val fea = val fsa). { assert (D := Dja). rewrite Ja in D. apply dec_zero_val in D. destruct (f_add_val fsa (axis_a pl delta)) as [_ V]; [apply n_sa|apply Dja| |rewrite V, D, Rplus_0_r; apply rd_val]. rewrite D, Rplus_0_r. eapply bd_big; [exact (near_val p Hp _ _ n_sa)|lia]. }
  assert (Vb: val feb = val fsb). { assert (D := Djb). rewrite Jb in D. apply dec_zero_val in D. destruct (f_add_val fsb (axis_b pl delta)) as [_ V]; [apply n_sb|apply Djb| |rewrite V, D, Rplus_0_r; apply rd_val]. rewrite D, Rplus_0_r. eapply bd_big; [exact (near_val p Hp _ _ n_sb)|lia]. }
  assert (Na := n_ea). assert (Nb := n_eb). assert (Ea: ea = sa) by lia. assert (Eb: eb = sb) by lia. rewrite Ea in Na. rewrite Eb in Nb. rewrite Ea, Eb in I.
  assert (E := angle_same acos Hacos p Hp _ _ _ _ _ _ _ _ n_sa n_sb Na Nb ltac:(lia) ltac:(lia) ltac:(lia) Va Vb (K k_start_eq) (K k_end_eq)).
  rewrite (proj1 end_before) in I by lra. replace (4 <=? quadrant sa sb + 4 - quadrant sa sb)%Z with true in I by (symmetry; apply Z.leb_le; lia). exact I.
Qed.
(** The arc goes to another quarter, is a full circle, or goes on in its quarter on one circle. *)
Definition onward : Prop := (quadrant ea eb <> quadrant sa sb \/ (ja = 0 /\ jb = 0) \/
  (quadrant ea eb = quadrant sa sb /\ ea * ea + eb * eb = sa * sa + sb * sb /\ 0 < ea * sb - eb * sa))%Z.
Lemma float_net : onward -> (0 <= c_iterations_a g <= 4 * rho)%Z /\ (0 <= c_iterations_b g <= 4 * rho)%Z /\ pos_a g (c_iterations_a g) = ea /\ pos_b g (c_iterations_b g) = eb.
Proof.
  intros G. destruct rho_facts as (A1 & A2 & A3 & A4). destruct dirs_eq as [D1 D2]. destruct net_rr as [R3 R4]. destruct net_axis as [Z1 Z2].
  unfold pos_a, pos_b. destruct starts_eq as [S1 S2]. rewrite radius_b, radius_a, S1, S2, D1, D2.
  destruct start_region as [Fs Gs]. destruct end_region as [Fe Ge]. destruct (region_quadrant _ _ _ Gs) as [Q1 Q1']. destruct (region_quadrant _ _ _ Ge) as [Q2 Q2'].
  assert (Hs': (sa <> 0 \/ sb <> 0)%Z) by lia.
  destruct (Z.eq_dec (quadrant ea eb) (quadrant sa sb)) as [Q|Q].
  - destruct G as [G|[[G1 G2]|(_ & C & X)]]; [contradiction| |].
    + destruct (whole_turn G1 G2) as [-> ->]. destruct (circle_net rot rho sa sb A1 A2) as [-> ->]. lia.
    + assert (I := K k_iter). rewrite qs_eq, qe_eq, R3, R4 in I.
      assert (L := angle_order acos Hacos p Hp _ _ _ _ _ _ _ _ _ _ n_sa n_sb n_ea n_eb ltac:(lia) ltac:(lia) ltac:(lia) ltac:(lia) Hs' Hen C Q X (K k_start_eq) (K k_end_eq)).
      rewrite (proj2 end_before L) in I. rewrite Q, Z.sub_diag in I. cbn [Z.leb Z.compare] in I.
      destruct I as (ia & ib & I & J). rewrite base_eq, Z.eqb_refl in I. injection I as <- <-.
      destruct (quarter_net rot rho sa sb ea eb A1 A2 A3 A4 Hs' Hen Z1 Z2 Q C X) as [[T1 T2] [T3 T4]].
      destruct rot; destruct J as [-> ->]; cbn [turn] in *; auto.
  - clear G. assert (I := K k_iter). rewrite qs_eq, qe_eq, R3, R4 in I. set (qs := quadrant sa sb) in *. set (qe' := quadrant ea eb) in *.
    assert (P := pi_eq). assert (M0: 0 < mg) by apply bpow_gt_0.
    assert (Lt: (qe' < qs)%Z -> val (K k_end) <= val (c_start_angle g)).
    { intros H. assert (H': (qe' + 1 <= qs)%Z) by lia. apply IZR_le in H'. rewrite plus_IZR in H'. assert ((IZR qe' + 1) * hpi <= IZR qs * hpi) by (apply Rmult_le_compat_r; lra). lra. }
    assert (Gt: (qs < qe')%Z -> val (c_start_angle g) < val (K k_end)).
    { intros H. assert (H': (qs + 1 <= qe')%Z) by lia. apply IZR_le in H'. rewrite plus_IZR in H'. assert ((IZR qs + 1) * hpi <= IZR qe' * hpi) by (apply Rmult_le_compat_r; lra). lra. }
    assert (E: (if f_le (K k_end) (c_start_angle g) then qe' + 4 else qe')%Z = (if qe' <? qs then qe' + 4 else qe')%Z).
    { destruct (Z.ltb_spec qe' qs) as [H|H]; [rewrite (proj1 end_before (Lt H)); reflexivity|]. rewrite (proj2 end_before); [reflexivity|]. apply Gt. lia. }
    rewrite E in I. clear E Lt Gt. set (q := (if qe' <? qs then qe' + 4 else qe')%Z) in *.
    assert (Hq: (qs < q <= qs + 3)%Z) by (unfold q; destruct (Z.ltb_spec qe' qs); lia).
    replace (4 <=? q - qs)%Z with false in I by (symmetry; apply Z.leb_gt; lia). destruct I as (ia & ib & I & J). rewrite base_eq in I.
    replace (qs =? q)%Z with false in I by (symmetry; apply Z.eqb_neq; lia). injection I as I.
    destruct (quarters_net rot rho sa sb ea eb qs q ia ib A1 A2 A3 A4 Hs' Hen Z1 Z2 eq_refl Q eq_refl I) as [[T1 T2] [T3 T4]].
    destruct rot; destruct J as [-> ->]; cbn [turn] in *; auto.
Qed.
Lemma float_travel l : onward -> completes cfg (GCircular g) l -> travel cfg (motor_a pl) l = ja /\ travel cfg (motor_b pl) l = jb.
Proof.
  intros G Hl. destruct (float_net G) as (I1 & I2 & N1 & N2).
  assert (O: starts_inside g) by (apply (arc_starts_inside acos cfg delta radius pl rot v g p s Hp Hs Pa Pb ka kb ja jb); assumption).
  destruct (arc_net cfg g O l Hl ltac:(lia) ltac:(lia)) as [T1 T2]. destruct starts_eq as [S1 S2]. rewrite (K k_plane), N1, S1 in T1. rewrite (K k_plane), N2, S2 in T2. lia.
Qed.
End Net.

(* ---------- the third axis ---------- *)
Section Third.
Variable acos : f64 -> f64.
Notation N := (F64 acos).
Variable cfg : config.
Variables (delta radius : quad N) (pl : plane) (rot : rotation) (v : N).
Variable g : circular_gen N.
Hypothesis M : made cfg delta radius pl rot v g.
Notation K f := (f _ _ _ _ _ _ _ M).
Hypothesis O : starts_inside g.
Variables (p t jc : Z).
Hypothesis Hc : axis_cfg p t.
Notation s := (step p).
Let Hp : (0 < p <= 1000)%Z := proj1 Hc.
Let Hs : (p * s = 10000000000)%Z := step_mul p t Hc.
Hypothesis Pc : axis_c pl (ppm cfg) = p.
Hypothesis Djc : dec (jc * s) (axis_c pl delta).
Hypothesis Sjc : (Z.abs jc <= 65536 * p)%Z.

Lemma third_count : fin (c_iterations_3rd g) /\ val (c_iterations_3rd g) = back p (Z.abs jc) /\ 0 <= back p (Z.abs jc) <= 1073741824.
Proof.
  assert (Pp := p_pos p Hp). assert (Pl := p_le p Hp). destruct (f_ofZ_val p) as [Fp Vp]; [lia|].
  assert (D := dec_abs _ _ Djc). replace (Z.abs (jc * s)) with (Z.abs jc * s)%Z in D by (rewrite Z.abs_mul, (Z.abs_eq s); [reflexivity|nia]). destruct D as [F V]. rewrite (step_R p Hp s Hs) in V.
  assert (J0: 0 <= IZR (Z.abs jc)) by (apply (IZR_le 0); lia).
  assert (Bx: 0 <= val (Babs (axis_c pl delta)) <= 65536).
  { rewrite val_abs. split; [apply Rabs_pos|]. rewrite <- val_abs, V. rewrite <- (Rabs_pos_eq (rd _)) by (rewrite <- rd_0; apply rd_le; apply Rmult_le_pos; [exact J0|left; now apply Rinv_0_lt_compat]).
    change 65536 with (bpow radix2 16). apply rd_abs_le; [lia|]. unfold Rdiv. rewrite Rabs_mult, (Rabs_pos_eq (/ IZR p)), (Rabs_pos_eq (IZR _)) by (lra || (left; now apply Rinv_0_lt_compat)).
    change (bpow radix2 16) with 65536. apply Rmult_le_reg_r with (IZR p); [exact Pp|]. rewrite Rmult_assoc, Rinv_l by lra. apply IZR_le in Sjc. rewrite mult_IZR in Sjc. lra. }
  assert (Bm: Rabs (val (Babs (axis_c pl delta)) * IZR p) <= bpow radix2 30) by (rewrite Rabs_pos_eq by nra; change (bpow radix2 30) with 1073741824; nra).
  destruct (f_mul_val _ _ F Fp) as [Fm Vm]; [rewrite Vp; eapply bd_big; [exact Bm|lia]|].
  assert (E := K k_it3). rewrite Pc in E. change (c_iterations_3rd g = f_mul (Babs (axis_c pl delta)) (f_ofZ p)) in E. rewrite E.
  split; [exact Fm|]. rewrite Vm, Vp, V. split; [reflexivity|]. unfold back. rewrite <- V. split.
  - rewrite <- rd_0. apply rd_le. nra.
  - change 1073741824 with (bpow radix2 30). eapply Rle_trans; [apply Rle_abs|]. apply rd_abs_le; [lia|]. exact Bm.
Qed.
Lemma third_steps l : completes cfg (GCircular g) l -> steps (motor_c pl) l = Zceil (back p (Z.abs jc)).
Proof.
  intros Hl. destruct third_count as (F & V & B0 & B1). destruct (arc_complete cfg g O l Hl) as (_ & _ & L3 & _). rewrite (K k_plane) in L3.
  assert (Le: forall k, (0 <= k <= 2 ^ 53)%Z -> leb (c_iterations_3rd g) (ofZ k) = Rle_bool (back p (Z.abs jc)) (IZR k)).
  { intros k Hk. destruct (f_ofZ_val k) as [Fk Vk]; [lia|]. change (leb (c_iterations_3rd g) (ofZ k)) with (f_le (c_iterations_3rd g) (f_ofZ k)). rewrite f_le_val by assumption. now rewrite V, Vk. }
  assert (Q: forall n k, steps (motor_c pl) (items cfg (GCircular g) n) = (k + 1)%Z -> (0 <= k <= 2 ^ 53)%Z -> IZR k < back p (Z.abs jc)).
  { intros n k Hn Hk. destruct (arc_third cfg g O n) as [[_ C] _]. rewrite (K k_plane) in C. specialize (C k Hn ltac:(lia)). rewrite (Le k Hk) in C. revert C. case Rle_bool_spec; [discriminate|auto]. }
  assert (W: forall n, (steps (motor_c pl) (items cfg (GCircular g) n) <= 1073741825)%Z).
  { intros n. destruct (Z_le_gt_dec (steps (motor_c pl) (items cfg (GCircular g) n)) 1073741825) as [L|L]; [exact L|]. exfalso.
    destruct (every_value (fun i => steps (motor_c pl) (items cfg (GCircular g) i)) n 1073741825) as [i Ei].
    - split; [unfold items; destruct (iter_start _ _); cbn; lia|lia].
    - intros i. destruct (items_S cfg g i) as [->|(it & ->)]; [lia|]. rewrite steps_snoc. destruct (step_01 (motor_c pl) it); lia.
    - assert (Y := Q i 1073741824%Z Ei ltac:(lia)). lra. }
  destruct (completes_items _ _ _ Hl) as [n En]. assert (Wn := W n). assert (Qn := Q n). rewrite En in Wn, Qn. assert (S0 := steps_nonneg (motor_c pl) l).
  set (st := steps (motor_c pl) l) in *. rewrite (Le st) in L3 by lia. revert L3. case Rle_bool_spec; [|discriminate]. intros L3 _.
  symmetry. apply Zceil_imp. split; [|exact L3]. destruct (Z.eq_dec st 0) as [T|T].
  - rewrite T. cbn. lra.
  - specialize (Qn (st - 1)%Z ltac:(lia) ltac:(lia)). exact Qn.
Qed.
Lemma third_travel l : completes cfg (GCircular g) l -> travel cfg (motor_c pl) l = (Z.sgn jc * Zceil (back p (Z.abs jc)))%Z.
Proof.
  intros Hl. assert (T := third_steps l Hl). destruct (completes_items _ _ _ Hl) as [n En]. destruct (arc_third cfg g O n) as [[E _] _]. rewrite (K k_plane), En, T in E.
  rewrite E, (K k_dir3). change (copysign1 (axis_c pl delta)) with (if Bsign (axis_c pl delta) then -1 else 1)%Z.
  destruct (Z.eq_dec jc 0) as [J|J].
  - rewrite J. unfold back. cbn [Z.abs]. unfold Rdiv. rewrite Rmult_0_l, rd_0, Rmult_0_l, rd_0, Zceil_IZR. lia.
  - assert (NZ: val (axis_c pl delta) <> 0).
    { intros Z0. apply J. assert (small (jc * s)) by (unfold small; rewrite Z.abs_mul, (Z.abs_eq s) by nia; nia). assert (X := dec_val_0 _ _ Djc H Z0). nia. }
    destruct (axis_pulses acos p t Hc jc _ Djc Sjc) as [_ Sg]. change (if Bsign (axis_c pl delta) then -1 else 1)%Z with (f_copysign1 (axis_c pl delta)).
    f_equal. destruct (Z_lt_ge_dec jc 0) as [L|L]; [rewrite (Z.sgn_neg jc) by lia|rewrite (Z.sgn_pos jc) by lia]; nia.
Qed.
End Third.
