(** Angles of binary64 arcs: in which quarter a whole number of steps lies, and which
    of two points of a circle comes first, follow from exact arithmetic as long as
    the radius has at most 2^20 steps. *)
From Coq Require Import ZArith Bool Reals Lra Lia List Psatz.
From Flocq Require Import Core BinarySingleNaN.
From Verif Require Import PyBase PyNum PyFloatFacts FloatRel Config Coordinates Pulses PulseSpec Decimal MachinePos MachineArc LinearGen ArcSpec ArcRun ArcMake ArcFloat ArcGrid ArcQuarters.
From Coq Require Import List.
From Flocq Require Import Core.
Import ListNotations.
Local Open Scope R_scope.

(* ---------- sqrt of a square ---------- *)
Lemma square_error x B u : 0 < B -> 0 < u < / 1000 -> B < x < 2 * B -> forall e, B = bpow radix2 e -> u = bpow radix2 (-53) -> (-401 <= e <= 400)%Z ->
  Rabs (rd (x * x) - x * x) < 2 * x * (B * u).
Proof.
  intros PB Pu He e EB Eu Re.
  assert (E2: forall k, bpow radix2 (e + e + k) = B * B * bpow radix2 k) by (intros k; rewrite !bpow_plus, EB; reflexivity).
  destruct (Rlt_le_dec (x * x) (2 * (B * B))) as [C|C].
  - assert (X := rd_error (x * x) (e + e + 1)). rewrite E2 in X. change (bpow radix2 1) with 2 in X.
    rewrite (Rabs_pos_eq (x * x)) in X by nra. replace (e + e + 1 - 54)%Z with (e + e + (-53))%Z in X by lia. rewrite E2, <- Eu in X.
    specialize (X ltac:(lia) ltac:(lra)). eapply Rle_lt_trans; [exact X|].
    assert (B * B * u < B * x * u) by (apply Rmult_lt_compat_r; nra). nra.
  - assert (X := rd_error (x * x) (e + e + 2)). rewrite E2 in X. change (bpow radix2 2) with 4 in X.
    rewrite (Rabs_pos_eq (x * x)) in X by nra. replace (e + e + 2 - 54)%Z with (e + e + (-52))%Z in X by lia. rewrite E2 in X.
    replace (bpow radix2 (-52)) with (2 * u) in X by (rewrite Eu; simpl; lra).
    specialize (X ltac:(lia) ltac:(nra)). eapply Rle_lt_trans; [exact X|].
    assert (14 / 10 * B <= x). { destruct (Rle_lt_dec (14 / 10 * B) x); [assumption|]. exfalso. nra. }
    assert (14 / 10 * B * (B * u) <= x * (B * u)) by (apply Rmult_le_compat_r; nra).
    assert (0 < B * B * u) by (apply Rmult_lt_0_compat; nra). replace (14 / 10 * B * (B * u)) with (14 / 10 * (B * B * u)) in * by ring.
    replace (B * B * (2 * u)) with (2 * (B * B * u)) by ring. replace (2 * x * (B * u)) with (2 * (x * (B * u))) by ring. lra.
Qed.
Lemma rd_above x e y : fmt x -> (-1022 <= e)%Z -> bpow radix2 e <= x -> fmt y -> x < y -> x + bpow radix2 (e - 52) <= y.
Proof.
  intros Fx He Hx Fy Hlt. assert (P := bpow_gt_0 radix2 e). assert (H := rd_below y e x Fy He ltac:(lra) Fx Hlt Hx). lra.
Qed.
Lemma rd_sqrt_sqr_eq x : fmt x -> bpow radix2 (-400) <= Rabs x <= bpow radix2 400 -> rd (sqrt (rd (x * x))) = Rabs x.
Proof.
  intros F0 H. apply Rle_antisym; [|now apply rd_sqrt_sqr].
  replace (x * x) with (Rabs x * Rabs x) by (rewrite <- Rabs_mult, Rabs_pos_eq; [reflexivity|apply Rle_0_sqr]).
  assert (F: fmt (Rabs x)) by now apply generic_format_abs.
  set (y := Rabs x) in *. clearbody y. clear x F0. rename y into x.
  assert (Px: 0 < x) by (apply Rlt_le_trans with (bpow radix2 (-400)); [apply bpow_gt_0|lra]).
  set (e := (mag radix2 x - 1)%Z).
  assert (He: bpow radix2 e <= x < bpow radix2 (e + 1)).
  { unfold e. replace (mag radix2 x - 1 + 1)%Z with (mag radix2 x : Z) by lia. destruct (mag radix2 x) as [m Hm]. cbn.
    assert (Hm' := Hm ltac:(lra)). rewrite Rabs_pos_eq in Hm' by lra. exact Hm'. }
  assert (Re: (-401 <= e <= 400)%Z).
  { split.
    - assert (bpow radix2 (-400) < bpow radix2 (e + 1)) by lra. apply lt_bpow in H0. lia.
    - assert (bpow radix2 e <= bpow radix2 400) by lra. apply le_bpow in H0. lia. }
  clearbody e. set (B := bpow radix2 e) in *. assert (PB: 0 < B) by apply bpow_gt_0.
  assert (B1: bpow radix2 (e + 1) = 2 * B) by (rewrite bpow_plus; change (bpow radix2 1) with 2; fold B; ring).
  rewrite B1 in He.
  destruct (Rle_lt_or_eq_dec B x) as [Lt|<-]; [lra| |].
  2: { unfold B. rewrite <- bpow_plus, rd_bpow by lia. rewrite bpow_plus, sqrt_square by apply bpow_ge_0. rewrite rd_bpow by lia. lra. }
  set (u := bpow radix2 (-53)). assert (Pu: 0 < u < / 1000).
  { split; [apply bpow_gt_0|]. unfold u. simpl. lra. }
  assert (ERR := square_error x B u PB Pu ltac:(lra) e eq_refl eq_refl Re).
  assert (Bu: 0 < B * u) by (apply Rmult_lt_0_compat; lra).
  assert (Y: sqrt (rd (x * x)) < x + B * u).
  { rewrite <- (sqrt_square (x + B * u)) by lra. apply sqrt_lt_1_alt. split; [rewrite <- rd_0; apply rd_le; nra|].
    apply Rabs_def2 in ERR. nra. }
  set (y := sqrt (rd (x * x))) in *. clearbody y.
  destruct (Rle_lt_dec (rd y) x) as [|Hlt]; [assumption|exfalso].
  assert (Hy: x < y). { destruct (Rlt_le_dec x y); [assumption|]. assert (rd y <= rd x) by now apply rd_le. rewrite (rd_format x F) in *. lra. }
  assert (P': x + 2 * (B * u) <= rd y).
  { replace (2 * (B * u)) with (bpow radix2 (e - 52)).
    2: { unfold Zminus. rewrite bpow_plus. fold B. unfold u. simpl. lra. }
    apply rd_above; auto; [lia|fold B; lra|apply rd_format_rd]. }
  assert (K := rd_nearest y x F). rewrite (Rabs_pos_eq (rd y - y)) in K by lra. rewrite (Rabs_left (x - y)) in K by lra. lra.
Qed.

(* ---------- the assumption about acos ---------- *)
(** Half of math.pi. *)
Notation hpi := (val f_pi / 2).
(** Assumption about the C library: acos of a number in [-1, 1] is a number between 0
    and math.pi, it is exact at 1, 0 and -1 (where the results are 0, math.pi / 2 and
    math.pi), and of two numbers at least 2^-48 apart the larger has the smaller acos,
    by half of their distance at least. The slope of the function is -1 or steeper
    everywhere, so an error below 2^-50 in the results suffices for this. *)
Record orderly_acos (acos : f64 -> f64) : Prop := {
  oa_good : good_acos acos;
  oa_1 : forall q, fin q -> val q = 1 -> val (acos q) = 0;
  oa_0 : forall q, fin q -> val q = 0 -> val (acos q) = hpi;
  oa_m1 : forall q, fin q -> val q = -1 -> val (acos q) = val f_pi;
  oa_order : forall x y, fin x -> fin y -> -1 <= val x -> val y <= 1 -> bpow radix2 (-48) <= val y - val x ->
             (val y - val x) / 2 <= val (acos x) - val (acos y)
}.

(* ---------- constants ---------- *)
Lemma pi_eq : val f_pi = 884279719003555 / 281474976710656.
Proof. apply pi_val. Qed.
(** Multiples of a quarter turn are doubles. *)
Lemma quarter_format k : (0 <= k <= 7)%Z -> fmt (IZR k * hpi).
Proof.
  intros H. rewrite pi_eq. apply generic_format_FLT.
  assert (E: IZR k * (884279719003555 / 281474976710656 / 2) = F2R (Float radix2 (k * 884279719003555) (-49))).
  { unfold F2R. cbn [Fnum Fexp]. change (bpow radix2 (-49)) with (/ 562949953421312). rewrite mult_IZR. field. }
  exists (Float radix2 (k * 884279719003555) (-49)); [exact E| |].
  - cbn [Fnum]. change (radix2 ^ prec64)%Z with 9007199254740992%Z. lia.
  - cbn [Fexp]. vm_compute. discriminate.
Qed.
Lemma half_val h : f_div f_pi (f_ofZ 2) = Ok h -> fin h /\ val h = hpi.
Proof.
  intros E. destruct two_val as [F2 V2]. destruct pi_val as [Fp Vp].
  destruct (f_div_val f_pi (f_ofZ 2) Fp F2) as (q & E' & Fq & Vq); [lra|rewrite V2, Vp; apply (bd_big 2); [rewrite Rabs_pos_eq by lra; change (bpow radix2 2) with 4; lra|lia]|].
  rewrite E' in E. injection E as <-. split; [exact Fq|]. rewrite Vq, V2. apply rd_format. replace hpi with (1 * hpi) by ring. apply (quarter_format 1). lia.
Qed.
Lemma threehalf_val h : f_div (f_mul (f_ofZ 3) f_pi) (f_ofZ 2) = Ok h -> fin h /\ val h = 3 * hpi.
Proof.
  intros E. destruct two_val as [F2 V2]. destruct pi_val as [Fp Vp]. destruct (f_ofZ_val 3) as [F3 V3]; [lia|].
  destruct (f_mul_val (f_ofZ 3) f_pi F3 Fp) as [Fm Vm]; [rewrite V3, Vp; apply (bd_big 4); [rewrite Rabs_pos_eq by lra; change (bpow radix2 4) with 16; lra|lia]|].
  rewrite V3 in Vm. rewrite rd_format in Vm by (replace (3 * val f_pi) with (6 * hpi) by lra; apply (quarter_format 6); lia).
  destruct (f_div_val _ (f_ofZ 2) Fm F2) as (q & E' & Fq & Vq); [lra|rewrite V2, Vm, Vp; apply (bd_big 4); [rewrite Rabs_pos_eq by lra; change (bpow radix2 4) with 16; lra|lia]|].
  rewrite E' in E. injection E as <-. split; [exact Fq|]. rewrite Vq, V2, Vm. replace (3 * val f_pi / 2) with (3 * hpi) by lra. apply rd_format. apply (quarter_format 3). lia.
Qed.

(* ---------- the quotient whose acos is taken ---------- *)
Lemma sq_abs (x : f64) : f_mul (Babs x) (Babs x) = f_mul x x.
Proof. destruct x as [b|b| |b m e H]; try reflexivity; destruct b; try reflexivity; apply B2SF_inj; unfold f_mul, Bmult, Babs; rewrite !B2SF_SF2B; reflexivity. Qed.
Lemma res_inj {A} (x y : A) : Ok x = Ok y -> x = y.
Proof. now intros [= ->]. Qed.

Section Point.
Variable p : Z.
Hypothesis Hp : (0 < p <= 1000)%Z.
Notation near := (near p).
(** The most steps from the centre. *)
Notation far := 1048576%Z.

Lemma near_sq j x : near j x -> ap 3 (-22) 58 (f_mul x x) (val x * val x).
Proof.
  intros H. rewrite <- sq_abs. replace (val x * val x) with (val (Babs x) * val (Babs x)).
  2: { rewrite val_abs, <- Rabs_mult. apply Rabs_pos_eq, Rle_0_sqr. }
  assert (A: ap 0 (-11) 29 (Babs x) (val (Babs x))).
  { apply ap_exact; [apply fin_abs, H| |rewrite val_abs; exact (near_val p Hp _ _ H)]. rewrite val_abs.
    destruct (Z.eq_dec j 0) as [Z|NZ]; [left; rewrite (n_zero _ _ _ H Z); apply Rabs_R0|right; exact (near_ge p Hp _ _ H NZ)]. }
  assert (T := ap_mul 0 0 (-11) 29 (-11) 29 _ _ _ _ ltac:(lra) ltac:(lra) ltac:(lra) ltac:(lia) ltac:(lia) A A).
  replace (0 + 0 + 3) with 3 in T by ring. exact T.
Qed.
Lemma near_hyp i j x y h : near i x -> near j y -> f_sqrt (f_add (f_mul x x) (f_mul y y)) = Ok h ->
  fin h /\ cl 7 (val h) (sqrt (val x * val x + val y * val y)).
Proof.
  intros Hx Hy E. assert (A := ap_add 3 (-22) 58 _ _ _ _ ltac:(lra) ltac:(lia) ltac:(lia) (near_sq _ _ Hx) (near_sq _ _ Hy)).
  apply (ap_weak _ _ _ 5 (-11 + -11) (30 + 30)) in A; [|lra|lia|lia].
  destruct (ap_sqrt 5 (-11) 30 _ _ ltac:(lra) ltac:(lia) A) as (q & E' & Q). rewrite E' in E. injection E as <-.
  destruct Q as (F & C & _). split; [exact F|]. replace 7 with (5 + 2) by ring. exact C.
Qed.
(** The same in steps: the square of the length. *)
Lemma near_hyp2 i j x y h : near i x -> near j y -> f_sqrt (f_add (f_mul x x) (f_mul y y)) = Ok h ->
  let S := val x * IZR p * (val x * IZR p) + val y * IZR p * (val y * IZR p) in
  fin h /\ 0 <= val h /\ (1 - 15 * ep) * S <= val h * IZR p * (val h * IZR p) <= (1 + 15 * ep) * S.
Proof.
  intros Hx Hy E S. destruct (near_hyp _ _ _ _ _ Hx Hy E) as [F C]. split; [exact F|].
  assert (Pp := p_pos p Hp). set (T := val x * val x + val y * val y) in *.
  assert (T0: 0 <= T) by (unfold T; assert (X := Rle_0_sqr (val x)); assert (Y := Rle_0_sqr (val y)); unfold Rsqr in *; lra).
  assert (ST: S = T * (IZR p * IZR p)) by (unfold S, T; ring). assert (Q0 := sqrt_pos T). assert (QQ := sqrt_sqrt T T0).
  assert (H0 := cl_nonneg 7 _ _ ltac:(lra) Q0 C). split; [exact H0|]. destruct C as [C1 C2].
  replace (val h * IZR p * (val h * IZR p)) with (val h * val h * (IZR p * IZR p)) by ring. rewrite ST, <- !Rmult_assoc, !Rmult_assoc, <- !Rmult_assoc.
  assert (P2: 0 <= IZR p * IZR p) by nra.
  assert (L: (1 - 15 * ep) * T <= val h * val h).
  { rewrite <- QQ. apply Rle_trans with ((1 - 7 * ep) * sqrt T * ((1 - 7 * ep) * sqrt T)).
    - replace ((1 - 7 * ep) * sqrt T * ((1 - 7 * ep) * sqrt T)) with ((1 - 7 * ep) * (1 - 7 * ep) * (sqrt T * sqrt T)) by ring. apply Rmult_le_compat_r; [nra|]. unfold ep. lra.
    - assert (0 <= (1 - 7 * ep) * sqrt T) by (apply Rmult_le_pos; [unfold ep; lra|exact Q0]). apply Rmult_le_compat; assumption. }
  assert (U: val h * val h <= (1 + 15 * ep) * T).
  { rewrite <- QQ. apply Rle_trans with ((1 + 7 * ep) * sqrt T * ((1 + 7 * ep) * sqrt T)).
    - apply Rmult_le_compat; assumption.
    - replace ((1 + 7 * ep) * sqrt T * ((1 + 7 * ep) * sqrt T)) with ((1 + 7 * ep) * (1 + 7 * ep) * (sqrt T * sqrt T)) by ring. apply Rmult_le_compat_r; [nra|]. unfold ep. lra. }
  split; (match goal with |- ?l <= ?r => idtac end);
  [apply Rle_trans with ((1 - 15 * ep) * T * (IZR p * IZR p)); [right; ring|apply Rle_trans with (val h * val h * (IZR p * IZR p)); [now apply Rmult_le_compat_r|right; ring]]
  |apply Rle_trans with (val h * val h * (IZR p * IZR p)); [right; ring|apply Rle_trans with ((1 + 15 * ep) * T * (IZR p * IZR p)); [now apply Rmult_le_compat_r|right; ring]]].
Qed.
Lemma near_steps j x : near j x -> (Z.abs j <= far)%Z -> Rabs (val x * IZR p) <= 1048577 /\ (j <> 0%Z -> 1 - / 1000 <= Rabs (val x * IZR p)) /\
  ((0 < j)%Z -> 0 < val x) /\ ((j < 0)%Z -> val x < 0).
Proof.
  intros [F S E Z0] J. assert (Pp := p_pos p Hp). change (bpow radix2 (-20)) with (/ 1048576) in E. apply Rabs_le_inv in E.
  assert (A: Rabs (IZR j) <= 1048576) by (rewrite <- abs_IZR; now apply IZR_le).
  assert (Sg: forall k : R, 0 < k * IZR p -> 0 < k) by (intros k Hk; destruct (Rlt_le_dec 0 k); [assumption|nra]).
  split; [|split; [|split]].
  - apply Rabs_le_inv in A. apply Rabs_le. lra.
  - intros NZ. destruct (Z_lt_le_dec j 0) as [L|L].
    + assert (IZR j <= -1) by (apply (IZR_le j (-1)); lia). rewrite Rabs_left1; lra.
    + assert (1 <= IZR j) by (apply (IZR_le 1); lia). rewrite Rabs_pos_eq; lra.
  - intros L. assert (1 <= IZR j) by (apply (IZR_le 1); lia). apply Sg. lra.
  - intros L. assert (IZR j <= -1) by (apply (IZR_le j (-1)); lia). assert (0 < - val x) by (apply Sg; lra). lra.
Qed.

(** What angle_of computes: [q] of the two coordinates. *)
Definition cosine (x y q : f64) : Prop := exists h, f_sqrt (f_add (f_mul x x) (f_mul y y)) = Ok h /\ f_div y h = Ok q.
Lemma cosine_val i j x y q : near i x -> near j y -> (i <> 0 \/ j <> 0)%Z -> cosine x y q ->
  exists h, f_sqrt (f_add (f_mul x x) (f_mul y y)) = Ok h /\ fin h /\ 0 < val h /\ Rabs (val y) <= val h /\ fin q /\ val q = rd (val y / val h) /\ Rabs (val y / val h) <= 1 /\ -1 <= val q <= 1.
Proof.
  intros Hx Hy NZ (h & Eh & Eq). destruct (hyp_ok x y (near_mid p Hp _ _ Hx) (near_mid p Hp _ _ Hy)) as (h' & E' & Fh & Ha & Hb & _).
  rewrite E' in Eh. injection Eh as ->. exists h. split; [exact E'|]. split; [exact Fh|].
  assert (Ph: 0 < val h).
  { destruct NZ as [NZ|NZ]; [apply (near_nz p Hp _ _ Hx) in NZ|apply (near_nz p Hp _ _ Hy) in NZ]; apply Rabs_pos_lt in NZ; lra. }
  assert (Q: Rabs (val y / val h) <= 1).
  { unfold Rdiv. rewrite Rabs_mult, (Rabs_pos_eq (/ val h)) by (left; now apply Rinv_0_lt_compat).
    apply Rmult_le_reg_r with (val h); [exact Ph|]. rewrite Rmult_assoc, Rinv_l by lra. lra. }
  destruct (f_div_val y h (n_fin _ _ _ Hy) Fh) as (q' & E & Fq & Vq); [lra|eapply (bd_big 0); [exact Q|lia]|].
  rewrite E in Eq. injection Eq as ->. split; [exact Ph|]. split; [exact Hb|]. split; [exact Fq|]. split; [exact Vq|]. split; [exact Q|].
  apply Rabs_le_inv. rewrite Vq. apply (rd_abs_le _ 0); [lia|exact Q].
Qed.
Lemma fmt_one_minus e : (-52 <= e <= -1)%Z -> fmt (1 - bpow radix2 e).
Proof.
  intros H. apply generic_format_FLT.
  assert (E: 1 - bpow radix2 e = F2R (Float radix2 (2 ^ (- e) - 1) e)).
  { unfold F2R. cbn [Fnum Fexp]. rewrite minus_IZR, (IZR_Zpower radix2) by lia. rewrite Rmult_minus_distr_r, <- bpow_plus. replace (- e + e)%Z with 0%Z by lia. change (bpow radix2 0) with 1. ring. }
  exists (Float radix2 (2 ^ (- e) - 1) e); [exact E| |].
  - cbn [Fnum]. change (radix2 ^ prec64)%Z with (2 ^ 53)%Z. assert (0 < 2 ^ (- e) <= 2 ^ 52)%Z; [split; [apply Z.pow_pos_nonneg; lia|apply Z.pow_le_mono_r; lia]|]. lia.
  - cbn [Fexp]. unfold SpecFloat.emin. change prec64 with 53%Z. change emax64 with 1024%Z. lia.
Qed.
(** Off the second axis the quotient is not near 1 or -1, off the first it is not near 0. *)
Lemma cosine_far i j x y q : near i x -> near j y -> (Z.abs i <= far)%Z -> (Z.abs j <= far)%Z -> cosine x y q ->
  (i <> 0%Z -> Rabs (val q) <= 1 - bpow radix2 (-44)) /\ (j <> 0%Z -> bpow radix2 (-22) <= Rabs (val q)).
Proof.
  intros Hx Hy Si Sj C. destruct (near_steps _ _ Hx Si) as (Ux & Lx & _). destruct (near_steps _ _ Hy Sj) as (Uy & Ly & _). assert (Pp := p_pos p Hp).
  set (a := Rabs (val x * IZR p)) in *. set (b := Rabs (val y * IZR p)) in *.
  assert (A0 := Rabs_pos (val x * IZR p)). fold a in A0. assert (B0 := Rabs_pos (val y * IZR p)). fold b in B0.
  assert (K: (i <> 0 \/ j <> 0)%Z -> exists c, 0 < c /\ Rabs (val q) = rd (b / c) /\ (1 - 15 * ep) * (a * a + b * b) <= c * c <= (1 + 15 * ep) * (a * a + b * b)).
  { intros NZ. destruct (cosine_val _ _ _ _ _ Hx Hy NZ C) as (h & Eh & Fh & Ph & _ & _ & Vq & _).
    destruct (near_hyp2 _ _ _ _ _ Hx Hy Eh) as (_ & _ & B). exists (val h * IZR p). split; [apply Rmult_lt_0_compat; lra|]. split.
    - rewrite Vq, <- rd_abs. f_equal. unfold b, Rdiv. rewrite !Rabs_mult, (Rabs_pos_eq (/ val h)), (Rabs_pos_eq (IZR p)) by (try (left; apply Rinv_0_lt_compat); lra). field. lra.
    - assert (E: forall z, z * z = Rabs z * Rabs z) by (intros z; rewrite <- Rabs_mult; symmetry; apply Rabs_pos_eq, Rle_0_sqr).
      rewrite (E (val x * IZR p)), (E (val y * IZR p)) in B. exact B. }
  split; intros NZ.
  - destruct (K (or_introl NZ)) as (c & Pc & E & C1 & _). specialize (Lx NZ). rewrite E. rewrite <- (rd_format (1 - bpow radix2 (-44))) by (apply fmt_one_minus; lia). apply rd_le.
    apply Rmult_le_reg_r with c; [exact Pc|]. unfold Rdiv. rewrite Rmult_assoc, Rinv_l, Rmult_1_r by lra.
    change (bpow radix2 (-44)) with (/ 17592186044416). set (t := (1 - / 17592186044416)). assert (T: 0 < t) by (unfold t; lra).
    assert (G: b * b <= (t * c) * (t * c)).
    { replace (t * c * (t * c)) with (t * t * (c * c)) by ring. apply Rle_trans with (t * t * ((1 - 15 * ep) * (a * a + b * b))); [|apply Rmult_le_compat_l; nra].
      assert (A1: (1 - / 1000) * (1 - / 1000) <= a * a) by (apply Rmult_le_compat; lra). assert (B1: b * b <= 1048577 * 1048577) by (apply Rmult_le_compat; lra).
      assert (T2: 1 - / 8796093022208 <= t * t * (1 - 15 * ep) + / 100000000000000) by (unfold t, ep; lra).
      assert (T3: t * t * (1 - 15 * ep) <= 1) by (unfold t, ep; lra).
      set (w := t * t * (1 - 15 * ep)) in *. replace (t * t * ((1 - 15 * ep) * (a * a + b * b))) with (w * (a * a) + w * (b * b)) by (unfold w; ring).
      assert ((1 - w) * (b * b) <= (1 - w) * (1048577 * 1048577)) by (apply Rmult_le_compat_l; lra).
      assert (w * ((1 - / 1000) * (1 - / 1000)) <= w * (a * a)) by (apply Rmult_le_compat_l; lra).
      lra. }
    assert (0 < t * c) by (apply Rmult_lt_0_compat; assumption). nra.
  - destruct (K (or_intror NZ)) as (c & Pc & E & _ & C2). specialize (Ly NZ). rewrite E. rewrite <- (rd_bpow (-22)) by lia. apply rd_le.
    apply Rmult_le_reg_r with c; [exact Pc|]. unfold Rdiv. rewrite Rmult_assoc, Rinv_l, Rmult_1_r by lra.
    change (bpow radix2 (-22)) with (/ 4194304).
    assert (A1: a * a <= 1048577 * 1048577) by (apply Rmult_le_compat; lra). assert (B1: b * b <= 1048577 * 1048577) by (apply Rmult_le_compat; lra).
    assert (G: c * c <= 2097152 * 2097152). { eapply Rle_trans; [exact C2|]. assert (0 <= a * a + b * b <= 2 * (1048577 * 1048577)) by nra. unfold ep. lra. }
    assert (c <= 2097152) by nra. lra.
Qed.
(** On the axes it is exact. *)
Lemma cosine_axis i j x y q : near i x -> near j y -> (i <> 0 \/ j <> 0)%Z -> cosine x y q ->
  (i = 0%Z -> val q = if (0 <? j)%Z then 1 else -1) /\ (j = 0%Z -> val q = 0).
Proof.
  intros Hx Hy NZ C. destruct (cosine_val _ _ _ _ _ Hx Hy NZ C) as (h & Eh & Fh & Ph & _ & _ & Vq & _). split; intros Z0.
  - assert (Hj: j <> 0%Z) by tauto. assert (X := n_zero _ _ _ Hx Z0). assert (Vh: val h = Rabs (val y)).
    { destruct (mid_sq x (near_mid p Hp _ _ Hx)) as (F1 & V1 & _). destruct (mid_sq y (near_mid p Hp _ _ Hy)) as (F2 & V2 & [L2 U2] & _).
      rewrite X, Rmult_0_l, rd_0 in V1. destruct (f_add_val _ _ F1 F2) as [F3 V3]; [rewrite V1, Rplus_0_l, Rabs_pos_eq by exact L2; eapply Rle_trans; [exact U2|apply bpow_le; lia]|].
      rewrite V1, Rplus_0_l, rd_val in V3. destruct (f_sqrt_val _ F3) as (h' & E & _ & Vh); [lra|]. rewrite E in Eh. injection Eh as ->.
      rewrite Vh, V3, V2. apply rd_sqrt_sqr_eq; [apply val_format|]. split.
      - eapply Rle_trans; [|exact (near_ge p Hp _ _ Hy Hj)]. apply bpow_le. lia.
      - eapply Rle_trans; [exact (near_val p Hp _ _ Hy)|]. apply bpow_le. lia. }
    assert (Ny := proj2 (near_nz p Hp _ _ Hy) Hj). rewrite Vq, Vh.
    assert (Pp := p_pos p Hp). assert (E := n_err _ _ _ Hy). change (bpow radix2 (-20)) with (/ 1048576) in E. apply Rabs_le_inv in E.
    destruct (Z.ltb_spec 0 j) as [L|L].
    + assert (1 <= IZR j) by (apply (IZR_le 1); lia). assert (0 < val y) by (destruct (Rlt_le_dec 0 (val y)); [assumption|nra]).
      rewrite Rabs_pos_eq by lra. unfold Rdiv. rewrite Rinv_r by lra. apply (rd_IZR 1). lia.
    + assert (IZR j <= -1) by (apply (IZR_le j (-1)); lia). assert (val y < 0) by (destruct (Rlt_le_dec (val y) 0); [assumption|nra]).
      rewrite Rabs_left by lra. replace (val y / - val y) with (IZR (-1)) by (field; lra). apply (rd_IZR (-1)). lia.
  - rewrite Vq, (n_zero _ _ _ Hy Z0). unfold Rdiv. rewrite Rmult_0_l. apply rd_0.
Qed.
Lemma cosine_sign i j x y q : near i x -> near j y -> (Z.abs j <= far)%Z -> cosine x y q ->
  ((0 < j)%Z -> 0 <= val q) /\ ((j < 0)%Z -> val q <= 0).
Proof.
  intros Hx Hy Sj C. destruct (near_steps _ _ Hy Sj) as (_ & _ & P1 & P2).
  split; intros L; (destruct (cosine_val _ _ _ _ _ Hx Hy ltac:(lia) C) as (h & Eh & Fh & Ph & _ & _ & Vq & _)); rewrite Vq, <- rd_0; apply rd_le;
    assert (I: 0 < / val h) by (now apply Rinv_0_lt_compat); unfold Rdiv; [specialize (P1 L)|specialize (P2 L)]; nra.
Qed.

(** Two points of a circle. *)
Lemma length_near (A B a b c rho d : R) : 0 < d <= / 1048576 -> Rabs (a - A) <= d -> Rabs (b - B) <= d -> 1 <= rho <= 2097152 -> A * A + B * B = rho * rho -> 0 <= c ->
  (1 - 15 * ep) * (a * a + b * b) <= c * c <= (1 + 15 * ep) * (a * a + b * b) -> d = / 1048576 -> Rabs (c - rho) <= 4 * d.
Proof.
  intros Hd Ea Eb Hr E C0 [C1 C2] Ed. apply Rabs_le_inv in Ea, Eb.
  assert (A1: - rho <= A <= rho) by (split; nra). assert (B1: - rho <= B <= rho) by (split; nra).
  assert (D: forall x X, - d <= x - X <= d -> - rho <= X <= rho -> X * X - 3 * d * rho <= x * x <= X * X + 3 * d * rho).
  { clear - Hd Hr. intros x X H1 H2. set (e := x - X) in *. replace x with (X + e) by (unfold e; ring). clearbody e.
    assert (- (d * rho) <= X * e <= d * rho). { split; nra. } assert (0 <= e * e <= d * d) by (split; nra). assert (d * d <= d * rho) by (apply Rmult_le_compat_l; lra).
    split; nra. }
  assert (DA := D a A Ea A1). assert (DB := D b B Eb B1). set (S := a * a + b * b) in *.
  assert (HS: rho * rho - 6 * d * rho <= S <= rho * rho + 6 * d * rho) by (unfold S; lra).
  assert (R2: rho * rho <= 2097152 * rho) by (apply Rmult_le_compat_r; lra).
  assert (S2: 0 <= S <= 2097153 * rho). { split; [unfold S; nra|]. assert (6 * d * rho <= 1 * rho) by (apply Rmult_le_compat_r; lra). lra. }
  assert (T: 15 * ep * S <= d * rho). { apply Rle_trans with (15 * ep * (2097153 * rho)); [apply Rmult_le_compat_l; [unfold ep; lra|lra]|]. replace (15 * ep * (2097153 * rho)) with (15 * ep * 2097153 * rho) by ring. apply Rmult_le_compat_r; [lra|]. rewrite Ed. unfold ep. lra. }
  assert (L: rho * rho - 7 * d * rho <= c * c <= rho * rho + 7 * d * rho) by lra.
  apply Rabs_le. split.
  - assert (rho - 4 * d <= c); [|lra]. destruct (Rle_lt_dec (rho - 4 * d) c); [assumption|exfalso].
    assert (c * c < (rho - 4 * d) * (rho - 4 * d)) by (apply Rmult_le_0_lt_compat; lra). nra.
  - assert (c <= rho + 4 * d); [|lra]. destruct (Rle_lt_dec c (rho + 4 * d)); [assumption|exfalso].
    assert ((rho + 4 * d) * (rho + 4 * d) < c * c) by (apply Rmult_le_0_lt_compat; lra). nra.
Qed.
Lemma ratio_near (B b c rho d : R) : 0 < d <= / 1048576 -> 1 <= rho -> - rho <= B <= rho -> Rabs (b - B) <= d -> Rabs (c - rho) <= 4 * d -> Rabs (b / c - B / rho) <= 10 * d / rho.
Proof.
  intros Hd Hr HB Eb Ec. apply Rabs_le_inv in Eb, Ec. assert (Pc: rho / 2 <= c) by lra. assert (Ic: 0 < / c) by (apply Rinv_0_lt_compat; lra). assert (Ir: 0 < / rho) by (apply Rinv_0_lt_compat; lra).
  replace (b / c - B / rho) with ((rho * (b - B) - B * (c - rho)) * (/ c * / rho)) by (field; lra).
  rewrite Rabs_mult, (Rabs_pos_eq (/ c * / rho)) by (left; now apply Rmult_lt_0_compat).
  assert (N1: Rabs (rho * (b - B) - B * (c - rho)) <= 5 * d * rho). { apply Rabs_le. assert (- (rho * d) <= rho * (b - B) <= rho * d) by (split; nra). assert (- (rho * (4 * d)) <= B * (c - rho) <= rho * (4 * d)) by (split; nra). lra. }
  apply Rle_trans with (5 * d * rho * (/ c * / rho)); [apply Rmult_le_compat_r; [left; now apply Rmult_lt_0_compat|exact N1]|].
  replace (5 * d * rho * (/ c * / rho)) with (5 * d * / c) by (field; lra). replace (10 * d / rho) with (5 * d * / (rho / 2)) by (field; lra).
  apply Rmult_le_compat_l; [lra|]. apply Rinv_le_contravar; lra.
Qed.
Lemma cosine_gap i j x y q i' j' x' y' q' : near i x -> near j y -> near i' x' -> near j' y' ->
  (Z.abs i <= far)%Z -> (Z.abs j <= far)%Z -> (Z.abs i' <= far)%Z -> (Z.abs j' <= far)%Z -> (i' * i' + j' * j' = i * i + j * j)%Z -> (j' < j)%Z ->
  cosine x y q -> cosine x' y' q' -> bpow radix2 (-22) <= val q - val q'.
Proof.
  intros Hx Hy Hx' Hy' Si Sj Si' Sj' E L C C'. assert (Pp := p_pos p Hp).
  assert (NZ: (i <> 0 \/ j <> 0)%Z) by (destruct (Z.eq_dec i 0), (Z.eq_dec j 0); try tauto; exfalso; subst; assert (j' <> 0)%Z by lia; nia).
  assert (NZ': (i' <> 0 \/ j' <> 0)%Z) by (destruct (Z.eq_dec i' 0), (Z.eq_dec j' 0); try tauto; exfalso; subst; assert (j <> 0)%Z by lia; nia).
  set (rho := sqrt (IZR (i * i + j * j))). assert (N1: (1 <= i * i + j * j <= 2097152 * 2097152)%Z) by nia.
  assert (N2: 0 <= IZR (i * i + j * j)) by (apply (IZR_le 0); lia). assert (RR: IZR (i * i + j * j) = rho * rho) by (symmetry; now apply sqrt_sqrt).
  assert (Hr: 1 <= rho <= 2097152).
  { unfold rho. destruct N1 as [N3 N4]. apply IZR_le in N3, N4. split; [rewrite <- sqrt_1; now apply sqrt_le_1_alt|]. rewrite <- (sqrt_square 2097152) by lra. apply sqrt_le_1_alt. rewrite <- mult_IZR. exact N4. }
  clearbody rho. set (d := / 1048576). assert (Hd: 0 < d <= / 1048576) by (unfold d; lra).
  assert (G: forall i j x y q, near i x -> near j y -> cosine x y q -> (i <> 0 \/ j <> 0)%Z -> IZR (i * i + j * j) = rho * rho -> exists w, val q = rd w /\ Rabs w <= 1 /\ Rabs (w - IZR j / rho) <= 10 * d / rho).
  { clear - Hd Hr Hp Pp. intros i j x y q Hx Hy C NZ RR. destruct (cosine_val _ _ _ _ _ Hx Hy NZ C) as (h & Eh & Fh & Ph & _ & _ & Vq & U & _). exists (val y / val h). split; [exact Vq|]. split; [exact U|].
    destruct (near_hyp2 _ _ _ _ _ Hx Hy Eh) as (_ & H0 & B). replace (val y / val h) with (val y * IZR p / (val h * IZR p)) by (field; split; lra).
    rewrite plus_IZR, !mult_IZR in RR. assert (Ex := n_err _ _ _ Hx). assert (Ey := n_err _ _ _ Hy). change (bpow radix2 (-20)) with d in *.
    apply ratio_near; [exact Hd|lra|split; nra|exact Ey|]. apply (length_near (IZR i) (IZR j) _ _ _ _ _ Hd Ex Ey Hr RR); [nra|exact B|reflexivity]. }
  destruct (G _ _ _ _ _ Hx Hy C NZ RR) as (w & Vq & U & D). destruct (G _ _ _ _ _ Hx' Hy' C' NZ' ltac:(now rewrite E)) as (w' & Vq' & U' & D').
  assert (Er := rd_error w 0 ltac:(lia) U). assert (Er' := rd_error w' 0 ltac:(lia) U'). change (bpow radix2 (0 - 54)) with (/ 18014398509481984) in *. rewrite <- Vq in Er. rewrite <- Vq' in Er'.
  change (bpow radix2 (-22)) with (/ 4194304). apply Rabs_le_inv in D, D', Er, Er'.
  assert (L1: 1 <= IZR j - IZR j') by (rewrite <- minus_IZR; apply (IZR_le 1); lia).
  assert (Ir: / 2097152 <= / rho) by (apply Rinv_le_contravar; lra).
  assert (K: IZR j / rho - IZR j' / rho - 20 * d / rho >= (1 - / 1000) * / rho). { unfold Rdiv. unfold d in *. nra. }
  unfold Rdiv in *. unfold d in *. lra.
Qed.
End Point.

(* ---------- angles ---------- *)
Section Angle.
Variable acos : f64 -> f64.
Hypothesis Hacos : orderly_acos acos.
Notation N := (F64 acos).
Variable p : Z.
Hypothesis Hp : (0 < p <= 1000)%Z.
Notation near := (near p).
Notation far := 1048576%Z.

Lemma angle_inv i j x y an : near i x -> near j y -> (i <> 0 \/ j <> 0)%Z -> angle_of (N:=N) x y = Ok an ->
  exists q, cosine x y q /\ fin q /\ -1 <= val q <= 1 /\ fin (acos q) /\ 0 <= val (acos q) <= val f_pi /\ fin an /\
    val an = if f_lt x (f_ofZ 0) then rd (2 * val f_pi - val (acos q)) else val (acos q).
Proof.
  intros Hx Hy NZ E. unfold angle_of in E. cbn [sqrtn add mul F64 div acosn ltb sub] in E.
  apply rbind_ok in E. destruct E as (h & Eh & E). apply rbind_ok in E. destruct E as (q & Eq & E). apply rbind_ok in E. destruct E as (w & Ew & E).
  assert (C: cosine x y q) by (exists h; auto). destruct (cosine_val p Hp _ _ _ _ _ Hx Hy NZ C) as (_ & _ & _ & _ & _ & Fq & _ & _ & Bq).
  exists q. split; [exact C|]. split; [exact Fq|]. split; [exact Bq|]. destruct (oa_good _ Hacos q Fq Bq) as [Fa Ba]. split; [exact Fa|]. split; [exact Ba|].
  assert (w = acos q) by (unfold f_acos in Ew; destruct (_ || _); [discriminate|now injection Ew]). subst w.
  assert (E': an = if f_lt x (f_ofZ 0) then f_sub (f_mul (f_ofZ 2) f_pi) (acos q) else acos q) by exact (eq_sym (res_inj _ _ E)).
  rewrite E'. clear E E'. destruct (f_lt x (f_ofZ 0)); [|auto].
  destruct twopi_val as [Ft Vt]. destruct (f_sub_val (f_mul (f_ofZ 2) f_pi) (acos q) Ft Fa) as [Fs Vs].
  { rewrite Vt. assert (X := pi_eq). apply big_27. rewrite Rabs_pos_eq by lra. b2n. lra. }
  rewrite Vt in Vs. split; [exact Fs|exact Vs].
Qed.
(** The eight directions and the angle. *)
Definition mg : R := bpow radix2 (-46).
Definition fregion (A B : Z) (an : R) : Prop :=
  (an = 0 /\ (A = 0 /\ 0 < B)%Z) \/ (mg <= an <= hpi - mg /\ (0 < A /\ 0 < B)%Z) \/ (an = hpi /\ (0 < A /\ B = 0)%Z) \/ (hpi + mg <= an <= 2 * hpi - mg /\ (0 < A /\ B < 0)%Z) \/
  (an = 2 * hpi /\ (A = 0 /\ B < 0)%Z) \/ (2 * hpi + mg <= an <= 3 * hpi - mg /\ (A < 0 /\ B < 0)%Z) \/ (an = 3 * hpi /\ (A < 0 /\ B = 0)%Z) \/ (3 * hpi + mg <= an <= 4 * hpi - mg /\ (A < 0 /\ 0 < B)%Z).
Lemma one_fin : fin f_one /\ val f_one = 1. Proof. exact f_lt_one. Qed.
Lemma mone_fin : fin (Bopp f_one) /\ val (Bopp f_one) = -1. Proof. split; [reflexivity|]. rewrite val_opp, (proj2 one_fin). lra. Qed.
Lemma zero_fin : fin (f_ofZ 0) /\ val (f_ofZ 0) = 0. Proof. apply (f_ofZ_val 0). lia. Qed.
Lemma acos_far q : fin q -> -1 <= val q <= 1 -> Rabs (val q) <= 1 - bpow radix2 (-44) -> 2 * mg <= val (acos q) <= val f_pi - 2 * mg.
Proof.
  intros Fq Bq Hq. destruct one_fin as [F1 V1]. destruct mone_fin as [F2 V2]. apply Rabs_le_inv in Hq.
  assert (A := oa_order _ Hacos q f_one Fq F1 ltac:(lra) ltac:(lra)). assert (B := oa_order _ Hacos (Bopp f_one) q F2 Fq ltac:(lra) ltac:(lra)).
  rewrite (oa_1 _ Hacos _ F1 V1) in A. rewrite (oa_m1 _ Hacos _ F2 V2) in B. rewrite V1 in A. rewrite V2 in B. unfold mg.
  change (bpow radix2 (-44)) with (/ 17592186044416) in *. change (bpow radix2 (-46)) with (/ 70368744177664) in *. change (bpow radix2 (-48)) with (/ 281474976710656) in *. lra.
Qed.
Lemma acos_half q : fin q -> -1 <= val q <= 1 -> bpow radix2 (-22) <= Rabs (val q) ->
  (0 <= val q -> val (acos q) <= hpi - 2 * mg) /\ (val q <= 0 -> hpi + 2 * mg <= val (acos q)).
Proof.
  intros Fq Bq Hq. destruct zero_fin as [F0 V0].
  assert (A := oa_order _ Hacos (f_ofZ 0) q F0 Fq ltac:(lra) ltac:(lra)). assert (B := oa_order _ Hacos q (f_ofZ 0) Fq F0 ltac:(lra) ltac:(lra)).
  rewrite (oa_0 _ Hacos _ F0 V0) in A, B. rewrite V0 in A, B. unfold mg.
  change (bpow radix2 (-22)) with (/ 4194304) in *. change (bpow radix2 (-46)) with (/ 70368744177664) in *. change (bpow radix2 (-48)) with (/ 281474976710656) in *.
  split; intros S; [rewrite Rabs_pos_eq in Hq by exact S|rewrite Rabs_left1 in Hq by exact S]; lra.
Qed.
Lemma fold_back w : 0 <= w <= val f_pi -> Rabs (rd (2 * val f_pi - w) - (2 * val f_pi - w)) <= mg / 2.
Proof.
  intros H. assert (P := pi_eq). assert (E := rd_error (2 * val f_pi - w) 3 ltac:(lia)). change (bpow radix2 3) with 8 in E. rewrite (Rabs_pos_eq (2 * val f_pi - w)) in E by lra. specialize (E ltac:(lra)).
  eapply Rle_trans; [exact E|]. unfold mg. change (bpow radix2 (3 - 54)) with (/ 2251799813685248). change (bpow radix2 (-46)) with (/ 70368744177664). lra.
Qed.
Lemma side_of i x : near i x -> (Z.abs i <= far)%Z -> f_lt x (f_ofZ 0) = (i <? 0)%Z.
Proof.
  intros Hx Si. destruct zero_fin as [F0 V0]. destruct (near_steps p Hp _ _ Hx Si) as (_ & _ & P1 & P2).
  destruct (Z.ltb_spec i 0) as [L|L]; [apply f_lt_true|apply f_lt_false]; auto using (n_fin _ _ _ Hx); rewrite V0; auto.
  destruct (Z.eq_dec i 0) as [Z|NZ]; [rewrite (n_zero _ _ _ Hx Z); lra|]. left. apply P1. lia.
Qed.
Lemma angle_region i j x y an : near i x -> near j y -> (Z.abs i <= far)%Z -> (Z.abs j <= far)%Z -> (i <> 0 \/ j <> 0)%Z ->
  angle_of (N:=N) x y = Ok an -> fin an /\ fregion i j (val an).
Proof.
  intros Hx Hy Si Sj NZ E. destruct (angle_inv _ _ _ _ _ Hx Hy NZ E) as (q & C & Fq & Bq & Fa & Ba & Fan & Van). split; [exact Fan|].
  rewrite (side_of _ _ Hx Si) in Van. destruct (cosine_far p Hp _ _ _ _ _ Hx Hy Si Sj C) as [D1 D2].
  destruct (cosine_axis p Hp _ _ _ _ _ Hx Hy NZ C) as [X1 X2]. destruct (cosine_sign p Hp _ _ _ _ _ Hx Hy Sj C) as [G1 G2].
  assert (M: 0 < mg) by apply bpow_gt_0. assert (P := pi_eq). assert (FB := fold_back _ Ba). apply Rabs_le_inv in FB.
  unfold fregion. destruct (Z.lt_trichotomy i 0) as [I|[I|I]].
  - replace (i <? 0)%Z with true in Van by (symmetry; now apply Z.ltb_lt). rewrite <- Van in FB. assert (F := acos_far q Fq Bq (D1 ltac:(lia))).
    destruct (Z.lt_trichotomy j 0) as [J|[J|J]].
    + destruct (acos_half q Fq Bq (D2 ltac:(lia))) as [_ Hh]. specialize (Hh (G2 J)). do 5 right. left. split; [lra|lia].
    + do 6 right. left. split; [|lia]. rewrite Van, (oa_0 _ Hacos q Fq (X2 J)). replace (2 * val f_pi - hpi) with (3 * hpi) by lra. apply rd_format. apply (quarter_format 3). lia.
    + destruct (acos_half q Fq Bq (D2 ltac:(lia))) as [Hh _]. specialize (Hh (G1 J)). do 7 right. split; [lra|lia].
  - replace (i <? 0)%Z with false in Van by (symmetry; apply Z.ltb_ge; lia). specialize (X1 I). destruct (Z.ltb_spec 0 j) as [J|J].
    + left. split; [|lia]. rewrite Van. now apply (oa_1 _ Hacos).
    + do 4 right. left. split; [|lia]. rewrite Van, (oa_m1 _ Hacos q Fq X1). lra.
  - replace (i <? 0)%Z with false in Van by (symmetry; apply Z.ltb_ge; lia). assert (F := acos_far q Fq Bq (D1 ltac:(lia))). rewrite <- Van in F.
    destruct (Z.lt_trichotomy j 0) as [J|[J|J]].
    + destruct (acos_half q Fq Bq (D2 ltac:(lia))) as [_ Hh]. specialize (Hh (G2 J)). do 3 right. left. split; [lra|lia].
    + do 2 right. left. split; [|lia]. rewrite Van. exact (oa_0 _ Hacos q Fq (X2 J)).
    + destruct (acos_half q Fq Bq (D2 ltac:(lia))) as [Hh _]. specialize (Hh (G1 J)). right. left. split; [lra|lia].
Qed.
Lemma region_quadrant i j an : fregion i j an -> IZR (quadrant i j) * hpi <= an <= (IZR (quadrant i j) + 1) * hpi - mg /\ (0 <= quadrant i j <= 3)%Z.
Proof.
  intros G. assert (M: 0 < mg < / 2) by (split; [apply bpow_gt_0|unfold mg; change (bpow radix2 (-46)) with (/ 70368744177664); lra]). assert (P := pi_eq).
  assert (Q: exists q, quadrant i j = q /\ (0 <= q <= 3)%Z /\ IZR q * hpi <= an <= (IZR q + 1) * hpi - mg).
  { destruct (quadrant_cases i j) as [(Q & S1 & S2)|[(Q & S1 & S2)|[(Q & S1 & S2)|(Q & S1 & S2)]]].
    { unfold fregion in G. lia. }
    all: unfold fregion in G; eexists; (split; [exact Q|]); (split; [lia|]);
      destruct G as [G|[G|[G|[G|[G|[G|[G|G]]]]]]]; destruct G as [G [G1 G2]]; try (exfalso; lia); lra. }
  destruct Q as (q & -> & Q1 & Q2). split; assumption.
Qed.
(** The quarter is int(angle / (pi / 2)). *)
Lemma quarter_trunc (an h q : f64) k : fin an -> fin h -> val h = hpi -> (0 <= k <= 7)%Z -> IZR k * hpi <= val an <= (IZR k + 1) * hpi - mg / 2 ->
  f_div an h = Ok q -> f_trunc q = Ok k.
Proof.
  intros Fa Fh Vh Hk B E. assert (P := pi_eq). assert (K := proj1 Hk). assert (K' := proj2 Hk). apply IZR_le in K, K'. assert (M: 0 < mg) by apply bpow_gt_0.
  assert (E1: val an / val h * hpi = val an) by (rewrite Vh; field; lra).
  assert (L: IZR k <= val an / val h) by (apply Rmult_le_reg_r with hpi; lra).
  assert (U: val an / val h <= IZR k + 1 - bpow radix2 (-48)).
  { apply Rmult_le_reg_r with hpi; [lra|]. rewrite E1. unfold mg in *. change (bpow radix2 (-46)) with (/ 70368744177664) in *. change (bpow radix2 (-48)) with (/ 281474976710656). lra. }
  assert (M2: 0 < bpow radix2 (-48)) by apply bpow_gt_0.
  destruct (f_div_val an h Fa Fh) as (q' & E' & Fq & Vq); [lra|apply (bd_big 3); [rewrite Rabs_pos_eq by lra; change (bpow radix2 3) with 8; lra|lia]|].
  rewrite E' in E. injection E as ->. rewrite (f_trunc_val _ Fq), Vq. f_equal.
  assert (L2: IZR k <= rd (val an / val h)) by (rewrite <- (rd_IZR k) by lia; now apply rd_le).
  assert (U2: rd (val an / val h) <= IZR k + 1 - bpow radix2 (-48)).
  { rewrite <- (rd_format (IZR k + 1 - bpow radix2 (-48))); [now apply rd_le|]. apply generic_format_FLT.
    assert (E2: IZR k + 1 - bpow radix2 (-48) = F2R (Float radix2 ((k + 1) * 281474976710656 - 1) (-48))).
    { unfold F2R. cbn [Fnum Fexp]. rewrite minus_IZR, mult_IZR, plus_IZR. change (bpow radix2 (-48)) with (/ 281474976710656). lra. }
    exists (Float radix2 ((k + 1) * 281474976710656 - 1) (-48)); [exact E2| |].
    - cbn [Fnum]. change (radix2 ^ prec64)%Z with 9007199254740992%Z. lia.
    - cbn [Fexp]. vm_compute. discriminate. }
  rewrite Ztrunc_floor by lra. apply Zfloor_imp. rewrite plus_IZR. lra.
Qed.
(** A whole turn more. *)
Lemma turn_more (an : f64) k : fin an -> (0 <= k <= 3)%Z -> IZR k * hpi <= val an <= (IZR k + 1) * hpi - mg ->
  fin (f_add an (f_mul (f_ofZ 2) f_pi)) /\ IZR (k + 4) * hpi <= val (f_add an (f_mul (f_ofZ 2) f_pi)) <= (IZR (k + 4) + 1) * hpi - mg / 2.
Proof.
  intros Fa Hk B. assert (P := pi_eq). assert (K := proj1 Hk). assert (K' := proj2 Hk). apply IZR_le in K, K'. assert (M: 0 < mg) by apply bpow_gt_0. destruct twopi_val as [Ft Vt].
  assert (B0: 0 <= val an + 2 * val f_pi <= 16) by (rewrite P in B |- *; lra).
  destruct (f_add_val an _ Fa Ft) as [F V]; [rewrite Vt; apply (bd_big 4); [rewrite Rabs_pos_eq by lra; change (bpow radix2 4) with 16; lra|lia]|]. split; [exact F|]. rewrite V, Vt. split.
  - rewrite <- (rd_format (IZR (k + 4) * hpi)) by (apply quarter_format; lia). apply rd_le. rewrite plus_IZR. lra.
  - assert (E := rd_error (val an + 2 * val f_pi) 4 ltac:(lia)). change (bpow radix2 4) with 16 in E. rewrite (Rabs_pos_eq (val an + 2 * val f_pi)) in E by lra. specialize (E ltac:(lra)). apply Rabs_le_inv in E.
    unfold mg in *. change (bpow radix2 (4 - 54)) with (/ 1125899906842624) in *. change (bpow radix2 (-46)) with (/ 70368744177664) in *. rewrite plus_IZR. lra.
Qed.
Lemma clock_order (a b c d : Z) : (0 <= a -> 0 <= b -> 0 <= c -> 0 <= d -> c * c + d * d = a * a + b * b -> 0 < c * b - d * a -> d < b /\ a < c)%Z.
Proof.
  intros A B C D E X. destruct (Z_lt_le_dec d b) as [L|L].
  - split; [exact L|]. destruct (Z_lt_le_dec a c); [assumption|exfalso]. assert (d * d < b * b)%Z by nia. assert (c * c <= a * a)%Z by nia. lia.
  - exfalso. assert (b * b <= d * d)%Z by nia. assert (c <= a)%Z by (destruct (Z_le_gt_dec c a); [assumption|nia]). assert (c * b <= a * d)%Z by nia. lia.
Qed.
(** Of two points of a circle in one quarter the one earlier on the way has the smaller angle. *)
Lemma angle_order i j x y an i' j' x' y' an' : near i x -> near j y -> near i' x' -> near j' y' ->
  (Z.abs i <= far)%Z -> (Z.abs j <= far)%Z -> (Z.abs i' <= far)%Z -> (Z.abs j' <= far)%Z -> (i <> 0 \/ j <> 0)%Z -> (i' <> 0 \/ j' <> 0)%Z ->
  (i' * i' + j' * j' = i * i + j * j)%Z -> quadrant i' j' = quadrant i j -> (0 < i' * j - j' * i)%Z ->
  angle_of (N:=N) x y = Ok an -> angle_of (N:=N) x' y' = Ok an' -> val an < val an'.
Proof.
  intros Hx Hy Hx' Hy' Si Sj Si' Sj' NZ NZ' E Q X A A'.
  destruct (angle_region _ _ _ _ _ Hx Hy Si Sj NZ A) as [_ G]. destruct (angle_region _ _ _ _ _ Hx' Hy' Si' Sj' NZ' A') as [_ G'].
  destruct (angle_inv _ _ _ _ _ Hx Hy NZ A) as (q & C & Fq & Bq & Fa & Ba & Fan & Van). destruct (angle_inv _ _ _ _ _ Hx' Hy' NZ' A') as (q' & C' & Fq' & Bq' & Fa' & Ba' & Fan' & Van').
  rewrite (side_of _ _ Hx Si) in Van. rewrite (side_of _ _ Hx' Si') in Van'.
  assert (M: 0 < mg) by apply bpow_gt_0. assert (P := pi_eq). assert (FB := fold_back _ Ba). assert (FB' := fold_back _ Ba'). apply Rabs_le_inv in FB, FB'.
  assert (Dn: (j' < j)%Z -> 4 * mg <= val (acos q') - val (acos q)).
  { intros L. assert (D := cosine_gap p Hp _ _ _ _ _ _ _ _ _ _ Hx Hy Hx' Hy' Si Sj Si' Sj' E L C C'). assert (O := oa_order _ Hacos q' q Fq' Fq ltac:(lra) ltac:(lra)).
    unfold mg. change (bpow radix2 (-22)) with (/ 4194304) in *. change (bpow radix2 (-46)) with (/ 70368744177664) in *. change (bpow radix2 (-48)) with (/ 281474976710656) in *. specialize (O ltac:(lra)). lra. }
  assert (Up: (j < j')%Z -> 4 * mg <= val (acos q) - val (acos q')).
  { intros L. assert (D := cosine_gap p Hp _ _ _ _ _ _ _ _ _ _ Hx' Hy' Hx Hy Si' Sj' Si Sj ltac:(lia) L C' C). assert (O := oa_order _ Hacos q q' Fq Fq' ltac:(lra) ltac:(lra)).
    unfold mg. change (bpow radix2 (-22)) with (/ 4194304) in *. change (bpow radix2 (-46)) with (/ 70368744177664) in *. change (bpow radix2 (-48)) with (/ 281474976710656) in *. specialize (O ltac:(lra)). lra. }
  destruct (quadrant_cases i j NZ) as [(K & S1 & S2)|[(K & S1 & S2)|[(K & S1 & S2)|(K & S1 & S2)]]]; rewrite K in Q;
  destruct (quadrant_cases i' j' NZ') as [(K' & T1 & T2)|[(K' & T1 & T2)|[(K' & T1 & T2)|(K' & T1 & T2)]]]; try (exfalso; lia).
  - destruct (clock_order i j i' j') as [L _]; try lia. specialize (Dn L). replace (i <? 0)%Z with false in Van by (symmetry; apply Z.ltb_ge; lia). replace (i' <? 0)%Z with false in Van' by (symmetry; apply Z.ltb_ge; lia). lra.
  - destruct (clock_order (- j) i (- j') i') as [_ L]; try lia. specialize (Dn ltac:(lia)). replace (i <? 0)%Z with false in Van by (symmetry; apply Z.ltb_ge; lia). replace (i' <? 0)%Z with false in Van' by (symmetry; apply Z.ltb_ge; lia). lra.
  - destruct (clock_order (- i) (- j) (- i') (- j')) as [L I']; try lia. specialize (Up ltac:(lia)). replace (i' <? 0)%Z with true in Van' by (symmetry; apply Z.ltb_lt; lia).
    destruct (Z.ltb_spec i 0) as [I|I]; [lra|]. unfold fregion in G, G'. destruct G as [G|[G|[G|[G|[G|[G|[G|G]]]]]]]; destruct G as [G [G1 G2]]; try (exfalso; lia).
    destruct G' as [G'|[G'|[G'|[G'|[G'|[G'|[G'|G']]]]]]]; destruct G' as [G' [G1' G2']]; try (exfalso; lia). lra.
  - destruct (clock_order j (- i) j' (- i')) as [_ L]; try lia. specialize (Up ltac:(lia)). replace (i <? 0)%Z with true in Van by (symmetry; apply Z.ltb_lt; lia). replace (i' <? 0)%Z with true in Van' by (symmetry; apply Z.ltb_lt; lia). lra.
Qed.
(** The same point has the same angle. *)
Lemma angle_same i j x y an x' y' an' : near i x -> near j y -> near i x' -> near j y' -> (Z.abs i <= far)%Z -> (Z.abs j <= far)%Z -> (i <> 0 \/ j <> 0)%Z ->
  val x' = val x -> val y' = val y -> angle_of (N:=N) x y = Ok an -> angle_of (N:=N) x' y' = Ok an' -> val an' = val an.
Proof.
  intros Hx Hy Hx' Hy' Si Sj NZ Ex Ey A A'.
  destruct (angle_inv _ _ _ _ _ Hx Hy NZ A) as (q & C & Fq & Bq & Fa & Ba & Fan & Van). destruct (angle_inv _ _ _ _ _ Hx' Hy' NZ A') as (q' & C' & Fq' & Bq' & Fa' & Ba' & Fan' & Van').
  rewrite (side_of _ _ Hx Si) in Van. rewrite (side_of _ _ Hx' Si) in Van'.
  assert (V: val q' = val q).
  { destruct (cosine_val p Hp _ _ _ _ _ Hx Hy NZ C) as (h & Eh & _ & _ & _ & _ & Vq & _). destruct (cosine_val p Hp _ _ _ _ _ Hx' Hy' NZ C') as (h' & Eh' & _ & _ & _ & _ & Vq' & _).
    rewrite Vq, Vq', Ey. f_equal. f_equal. 
    destruct (mid_sq x (near_mid p Hp _ _ Hx)) as (F1 & V1 & [L1 U1] & _). destruct (mid_sq y (near_mid p Hp _ _ Hy)) as (F2 & V2 & [L2 U2] & _).
    destruct (mid_sq x' (near_mid p Hp _ _ Hx')) as (F3 & V3 & [L3 U3] & _). destruct (mid_sq y' (near_mid p Hp _ _ Hy')) as (F4 & V4 & [L4 U4] & _).
    assert (B: forall u v, 0 <= u <= bpow radix2 200 -> 0 <= v <= bpow radix2 200 -> Rabs (u + v) <= big). { intros u v Hu Hv. rewrite Rabs_pos_eq by lra. apply Rle_trans with (bpow radix2 201); [change 201%Z with (200 + 1)%Z; rewrite <- bpow_double; lra|apply bpow_le; lia]. }
    destruct (f_add_val _ _ F1 F2) as [F5 V5]; [apply B; lra|]. destruct (f_add_val _ _ F3 F4) as [F6 V6]; [apply B; lra|].
    assert (V7: val (f_add (f_mul x' x') (f_mul y' y')) = val (f_add (f_mul x x) (f_mul y y))) by (rewrite V5, V6, V1, V2, V3, V4, Ex, Ey; reflexivity).
    assert (V8: 0 <= val (f_add (f_mul x x) (f_mul y y))) by (rewrite V5, <- rd_0; apply rd_le; lra).
    destruct (f_sqrt_val _ F5 V8) as (k & E & _ & Vk). destruct (f_sqrt_val _ F6) as (k' & E' & _ & Vk'); [lra|]. rewrite E in Eh. injection Eh as <-. rewrite E' in Eh'. injection Eh' as <-.
    rewrite Vk, Vk', V7. reflexivity. }
  assert (W: val (acos q') = val (acos q)).
  { destruct (Req_dec (val q) 0) as [Z|NZq]; [rewrite (oa_0 _ Hacos q Fq Z), (oa_0 _ Hacos q' Fq' ltac:(lra)); reflexivity|].
    assert (q' = q); [|congruence]. apply B2R_Bsign_inj; auto. destruct q as [b|b| |b m e H], q' as [b'|b'| |b' m' e' H']; try discriminate; try (exfalso; apply NZq; (reflexivity || (rewrite <- V; reflexivity))).
    rewrite !val_finite in V. cbn [Bsign]. assert (X := F2R_gt_0 radix2 (Float radix2 (Zpos m) e) eq_refl). assert (Y := F2R_gt_0 radix2 (Float radix2 (Zpos m') e') eq_refl).
    destruct b, b'; try reflexivity; exfalso; lra. }
  rewrite Van, Van', W. reflexivity.
Qed.
End Angle.
