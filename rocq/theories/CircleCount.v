(** Circles counted in steps of one axis: the length of the way that the projection
    of a point on the circle has made, as a function of the angle, and the positions
    that __circular_helper (cnc/pulses.py:582-597) runs through. *)
From Coq Require Import ZArith Bool Reals Lra Lia Psatz.
From Flocq Require Import Core.
From Verif Require Import PyBase PyNum Config Coordinates Pulses ArcRun.
From Flocq Require Import Core.
Local Open Scope R_scope.

(** (-1)^k. *)
Definition esg (k : Z) : Z := if Z.odd k then (-1)%Z else 1%Z.
Lemma esg_succ k : esg (k + 1) = (- esg k)%Z.
Proof. unfold esg. rewrite Z.odd_add. cbn. destruct (Z.odd k); reflexivity. Qed.
Lemma esg_pred k : esg (k - 1) = (- esg k)%Z.
Proof. rewrite <- (Z.sub_add 1 k) at 2. rewrite esg_succ. lia. Qed.
Lemma esg_2 k : esg (k + 2) = esg k.
Proof. replace (k + 2)%Z with (k + 1 + 1)%Z by lia. rewrite !esg_succ. lia. Qed.
Lemma esg_sq k : (esg k * esg k = 1)%Z.
Proof. unfold esg. destruct (Z.odd k); reflexivity. Qed.
Lemma esg_sq_R k : IZR (esg k) * IZR (esg k) = 1.
Proof. rewrite <- mult_IZR, esg_sq. reflexivity. Qed.
Lemma esg_cases k : esg k = 1%Z \/ esg k = (-1)%Z.
Proof. unfold esg. destruct (Z.odd k); auto. Qed.

Lemma sin_cos_kpi x k : sin (x + IZR k * PI) = IZR (esg k) * sin x /\ cos (x + IZR k * PI) = IZR (esg k) * cos x.
Proof.
  revert k. apply Z.peano_ind.
  - rewrite Rmult_0_l, Rplus_0_r. cbn. split; ring.
  - intros k [IH1 IH2]. rewrite <- Z.add_1_r, plus_IZR, esg_succ, opp_IZR. replace (x + (IZR k + 1) * PI) with (x + IZR k * PI + PI) by ring.
    rewrite neg_sin, neg_cos, IH1, IH2. split; ring.
  - intros k [IH1 IH2]. rewrite <- Z.sub_1_r, minus_IZR, esg_pred, opp_IZR.
    replace (x + IZR k * PI) with (x + (IZR k - 1) * PI + PI) in * by ring. rewrite neg_sin in IH1. rewrite neg_cos in IH2. split; lra.
Qed.

Section Count.
Variable rho : R.
Hypothesis Hr : 0 < rho.
(** At the angle [a] the projection rho * sin has made the way [u]. *)
Definition at_count (u a : R) : Prop := exists k : Z,
  (IZR k - / 2) * PI <= a <= (IZR k + / 2) * PI /\ u - 2 * IZR k * rho = rho * sin (a - IZR k * PI).

Lemma count_bounds u a k : u - 2 * IZR k * rho = rho * sin (a - IZR k * PI) -> (2 * IZR k - 1) * rho <= u <= (2 * IZR k + 1) * rho.
Proof. intros E. assert (B := SIN_bound (a - IZR k * PI)). nra. Qed.
Lemma sin_lt_1 x : - (PI / 2) <= x < PI / 2 -> sin x < 1.
Proof. intros H. rewrite <- sin_PI2. apply sin_increasing_1; lra. Qed.
Lemma sin_gt_m1 x : - (PI / 2) < x <= PI / 2 -> -1 < sin x.
Proof. intros H. assert (E: sin (- (PI / 2)) = -1) by (rewrite sin_neg, sin_PI2; reflexivity). rewrite <- E. apply sin_increasing_1; lra. Qed.
Lemma count_mono u a u' a' : at_count u a -> at_count u' a' -> a < a' -> u < u'.
Proof.
  intros (k & B & E) (k' & B' & E') L. assert (P := PI_RGT_0). assert (C := count_bounds _ _ _ E). assert (C' := count_bounds _ _ _ E').
  destruct (Z.lt_trichotomy k k') as [H|[<-|H]].
  - assert (H1: (k + 1 <= k')%Z) by lia. apply IZR_le in H1. rewrite plus_IZR in H1.
    assert (M: (2 * IZR k + 1) * rho <= (2 * IZR k' - 1) * rho) by (apply Rmult_le_compat_r; lra).
    destruct (Z.eq_dec k' (k + 1)) as [E1|E1].
    + assert (E2: IZR k' = IZR k + 1) by (rewrite E1, plus_IZR; reflexivity).
      destruct (Rlt_dec a ((IZR k + / 2) * PI)) as [L1|L1].
      * assert (S := sin_lt_1 (a - IZR k * PI) ltac:(lra)). assert (rho * sin (a - IZR k * PI) < rho * 1) by (apply Rmult_lt_compat_l; assumption). lra.
      * assert (L2: (IZR k' - / 2) * PI < a') by (rewrite E2; lra). assert (S := sin_gt_m1 (a' - IZR k' * PI) ltac:(lra)).
        assert (rho * -1 < rho * sin (a' - IZR k' * PI)) by (apply Rmult_lt_compat_l; assumption). lra.
    + assert (H2: (k + 2 <= k')%Z) by lia. apply IZR_le in H2. rewrite plus_IZR in H2.
      assert (M2: (2 * IZR k + 3) * rho <= (2 * IZR k' - 1) * rho) by (apply Rmult_le_compat_r; lra). lra.
  - assert (S: sin (a - IZR k * PI) < sin (a' - IZR k * PI)) by (apply sin_increasing_1; lra). nra.
  - exfalso. assert (H1: (k' + 1 <= k)%Z) by lia. apply IZR_le in H1. rewrite plus_IZR in H1. nra.
Qed.
Lemma count_fun_le u u' a : at_count u a -> at_count u' a -> u <= u'.
Proof.
  intros (k & B & E) (k' & B' & E'). assert (P := PI_RGT_0). assert (C := count_bounds _ _ _ E). assert (C' := count_bounds _ _ _ E').
  destruct (Z.lt_trichotomy k k') as [H|[<-|H]].
  - assert (H1: (k + 1 <= k')%Z) by lia. apply IZR_le in H1. rewrite plus_IZR in H1. nra.
  - lra.
  - assert (H1: (k' + 1 <= k)%Z) by lia. apply IZR_le in H1. rewrite plus_IZR in H1.
    assert (X: a = (IZR k - / 2) * PI) by nra. assert (Y: a = (IZR k' + / 2) * PI) by nra.
    assert (Z0: IZR k = IZR k' + 1) by nra.
    replace (a - IZR k * PI) with (- (PI / 2)) in E by lra. rewrite sin_neg, sin_PI2 in E.
    replace (a - IZR k' * PI) with (PI / 2) in E' by lra. rewrite sin_PI2 in E'. rewrite Z0 in E. lra.
Qed.
Lemma count_fun u u' a : at_count u a -> at_count u' a -> u = u'.
Proof. intros H1 H2. apply Rle_antisym; eapply count_fun_le; eassumption. Qed.
Lemma count_lt u a u' a' : at_count u a -> at_count u' a' -> u < u' -> a < a'.
Proof.
  intros H1 H2 L. destruct (Rtotal_order a a') as [H|[<-|H]]; [exact H| |].
  - assert (E := count_fun _ _ _ H1 H2). lra.
  - assert (E := count_mono _ _ _ _ H2 H1 H). lra.
Qed.
Lemma count_le_mono u a u' a' : at_count u a -> at_count u' a' -> a <= a' -> u <= u'.
Proof. intros H1 H2 [L|<-]; [left; eapply count_mono; eassumption|]. right. eapply count_fun; eassumption. Qed.
(** Once round. *)
Lemma count_shift u a j : at_count u a -> at_count (u + 4 * rho * IZR j) (a + 2 * PI * IZR j).
Proof.
  intros (k & B & E). exists (k + 2 * j)%Z. rewrite plus_IZR, mult_IZR. assert (P := PI_RGT_0).
  split; [nra|]. replace (a + 2 * PI * IZR j - (IZR k + 2 * IZR j) * PI) with (a - IZR k * PI) by ring. rewrite <- E. ring.
Qed.
(** Every angle has its way. *)
Lemma count_ex a : exists u, at_count u a.
Proof.
  assert (P := PI_RGT_0). set (k := Zfloor (a / PI + / 2)). exists (2 * IZR k * rho + rho * sin (a - IZR k * PI)), k.
  assert (L := Zfloor_lb (a / PI + / 2)). assert (U := Zfloor_ub (a / PI + / 2)). fold k in L, U.
  assert (E: a = a / PI * PI) by (field; lra). split; [rewrite E; nra|ring].
Qed.
(** The place on the axis. *)
Lemma count_pos u a k : u - 2 * IZR k * rho = rho * sin (a - IZR k * PI) -> rho * sin a = IZR (esg k) * (u - 2 * IZR k * rho).
Proof.
  intros E. rewrite E. replace a with (a - IZR k * PI + IZR k * PI) at 1 by ring. rewrite (proj1 (sin_cos_kpi _ k)). ring.
Qed.
Lemma count_dist_le u a u' a' : at_count u a -> at_count u' a' -> u <= u' -> Rabs (rho * sin a - rho * sin a') <= u' - u.
Proof.
  intros (k & B & E) (k' & B' & E') L. assert (C := count_bounds _ _ _ E). assert (C' := count_bounds _ _ _ E').
  assert (Q := count_pos _ _ _ E). assert (Q' := count_pos _ _ _ E').
  destruct (Z.lt_trichotomy k k') as [H|[<-|H]].
  - destruct (Z.eq_dec k' (k + 1)) as [->|H2].
    + rewrite Q, Q', esg_succ, opp_IZR, plus_IZR. rewrite plus_IZR in C'. destruct (esg_cases k) as [-> | ->]; apply Rabs_le; split; lra.
    + assert (H1: (k + 2 <= k')%Z) by lia. apply IZR_le in H1. rewrite plus_IZR in H1. assert (S := SIN_bound a). assert (S' := SIN_bound a').
      apply Rabs_le. nra.
  - rewrite Q, Q'. destruct (esg_cases k) as [-> | ->]; apply Rabs_le; split; lra.
  - assert (H1: (k' + 1 <= k)%Z) by lia. apply IZR_le in H1. rewrite plus_IZR in H1.
    assert (X: u = u') by nra. assert (Y: IZR k = IZR k' + 1) by nra.
    assert (Z0: k = (k' + 1)%Z) by (apply eq_IZR; rewrite plus_IZR; exact Y). subst k u'. rewrite Q, Q', esg_succ, opp_IZR, plus_IZR. rewrite plus_IZR in C.
    destruct (esg_cases k') as [-> | ->]; apply Rabs_le; split; nra.
Qed.
Lemma count_dist u a u' a' : at_count u a -> at_count u' a' -> Rabs (rho * sin a - rho * sin a') <= Rabs (u' - u).
Proof.
  intros H H'. destruct (Rle_dec u u') as [L|L].
  - rewrite (Rabs_pos_eq (u' - u)) by lra. now apply count_dist_le.
  - rewrite Rabs_minus_sym, (Rabs_minus_sym u'), (Rabs_pos_eq (u - u')) by lra. apply count_dist_le; auto; lra.
Qed.
(** The angle of a place, on the k-th half of the way. *)
Lemma count_place k (h : R) : Rabs h <= rho -> exists a, at_count (2 * IZR k * rho + IZR (esg k) * h) a /\
  rho * sin a = h /\ rho * cos a = IZR (esg k) * sqrt (rho * rho - h * h).
Proof.
  intros H. apply Rabs_le_inv in H. set (y := IZR (esg k) * h / rho).
  assert (Y1: y * rho = IZR (esg k) * h) by (unfold y; field; lra).
  assert (Y: -1 <= y <= 1) by (destruct (esg_cases k) as [E|E]; rewrite E in Y1; split; nra).
  assert (S := sin_asin y Y). assert (B := asin_bound y). assert (P := PI_RGT_0).
  exists (asin y + IZR k * PI). destruct (sin_cos_kpi (asin y) k) as [Q1 Q2]. assert (SQ := esg_sq_R k). split; [|split].
  - exists k. split; [lra|]. replace (asin y + IZR k * PI - IZR k * PI) with (asin y) by ring. rewrite S. lra.
  - rewrite Q1, S. replace (rho * (IZR (esg k) * y)) with (IZR (esg k) * (y * rho)) by ring. rewrite Y1, <- Rmult_assoc, SQ. ring.
  - rewrite Q2, cos_asin by exact Y. unfold Rsqr.
    assert (E: sqrt (rho * rho - h * h) = rho * sqrt (1 - y * y)); [|rewrite E; ring].
    replace (rho * rho - h * h) with (rho * rho * (1 - y * y)); [rewrite sqrt_mult by nra; rewrite sqrt_square by lra; reflexivity|].
    assert (y * y * (rho * rho) = h * h); [|lra]. replace (y * y * (rho * rho)) with (y * rho * (y * rho)) by ring. rewrite Y1. replace (IZR (esg k) * h * (IZR (esg k) * h)) with (IZR (esg k) * IZR (esg k) * (h * h)) by ring. rewrite SQ. ring.
Qed.
End Count.

(* ---------- __circular_helper ---------- *)
Lemma helper_cases3 s i R side dir : (0 < R -> Z.abs s <= R -> dir = 1 \/ dir = -1 -> 0 <= i <= 4 * R ->
  exists h, Z.abs h <= R /\
   (circular_helper s i R side dir = (h, dir, side) /\ h = s + dir * i \/
    circular_helper s i R side dir = (h, - dir, negb side) /\ h = 2 * R * dir - s - dir * i \/
    circular_helper s i R side dir = (h, dir, side) /\ h = s + dir * i - 4 * R * dir))%Z.
Proof.
  intros HR Hs [-> | ->] Hi; unfold circular_helper;
  repeat match goal with |- context [if Z.ltb ?x ?y then _ else _] => destruct (Z.ltb_spec x y); try (exfalso; lia) end; eexists;
  (split; [|first [left; split; [reflexivity|lia]|right; left; split; [f_equal; f_equal; lia|lia]|right; right; split; [now rewrite negb_involutive|lia]]]); lia.
Qed.

(** [s] steps from the centre on an axis, on the k0-th half of the way, where the
    axis moves in the direction [dir]; [U] is the way to there. *)
Section Axis.
Variables (rho s dir sigma k0 U : Z).
Hypothesis Hrho : (0 < rho)%Z.
Hypothesis Hs : (Z.abs s <= rho)%Z.
Hypothesis Hsig : (sigma = 1 \/ sigma = -1)%Z.
Hypothesis HU : U = (2 * k0 * rho + esg k0 * s)%Z.
Hypothesis Hdir : dir = (sigma * esg k0)%Z.

Lemma axis_dir : (dir = 1 \/ dir = -1)%Z.
Proof. rewrite Hdir. destruct Hsig as [-> | ->]; destruct (esg_cases k0) as [-> | ->]; lia. Qed.
Lemma odd_esg a b : esg a = esg b -> Z.odd a = Z.odd b.
Proof. unfold esg. destruct (Z.odd a), (Z.odd b); congruence. Qed.
Lemma odd_esg_neg a b : esg a = (- esg b)%Z -> Z.odd a = negb (Z.odd b).
Proof. unfold esg. destruct (Z.odd a), (Z.odd b); cbn; congruence. Qed.
(** After [i] steps. *)
Lemma axis_helper side i : (0 <= i <= 4 * rho)%Z -> exists h d sd k,
  circular_helper s i rho side dir = (h, d, sd) /\ (Z.abs h <= rho)%Z /\
  (U + sigma * i = 2 * k * rho + esg k * h)%Z /\ xorb sd (Z.odd k) = xorb side (Z.odd k0).
Proof.
  intros Hi. destruct (helper_cases3 s i rho side dir Hrho Hs axis_dir Hi) as (h & B & K). exists h.
  assert (Q: (dir * esg k0 = sigma)%Z) by (rewrite Hdir, <- Z.mul_assoc, esg_sq; lia).
  assert (Q2 := esg_sq k0).
  destruct K as [[E1 E2]|[[E1 E2]|[E1 E2]]].
  - exists dir, side, k0. split; [exact E1|]. split; [exact B|]. split; [|reflexivity]. rewrite HU, E2, <- Q. ring.
  - exists (- dir)%Z, (negb side), (k0 + sigma)%Z. split; [exact E1|]. split; [exact B|].
    assert (S: esg (k0 + sigma) = (- esg k0)%Z) by (destruct Hsig as [-> | ->]; [apply esg_succ|apply esg_pred]).
    split; [|rewrite (odd_esg_neg _ _ S); destruct side, (Z.odd k0); reflexivity]. rewrite S, HU, E2.
    replace sigma with (dir * esg k0)%Z by lia. ring.
  - exists dir, side, (k0 + 2 * sigma)%Z. split; [exact E1|]. split; [exact B|].
    assert (S: esg (k0 + 2 * sigma) = esg k0) by (destruct Hsig as [-> | ->]; [apply esg_2|rewrite <- (esg_2 (k0 + _)); f_equal; lia]).
    split; [|rewrite (odd_esg _ _ S); reflexivity]. rewrite S, HU, E2. replace sigma with (dir * esg k0)%Z by lia. ring.
Qed.

(** From the angle [theta], where the way is about [U], to the angle theta + sigma *
    delta, where it is [n] steps longer. *)
Variables (theta delta w0 we : R) (n : Z).
Hypothesis H0 : at_count (IZR rho) w0 theta.
Hypothesis W0 : Rabs (w0 - IZR U) <= / 2.
Hypothesis He : at_count (IZR rho) we (theta + IZR sigma * delta).
Hypothesis We : Rabs (we - IZR (U + sigma * n)) <= / 2.
Hypothesis Hn : (0 <= n <= 4 * rho)%Z.
Let r := IZR rho.
Lemma r_gt : 0 < r. Proof. now apply (IZR_lt 0). Qed.
Lemma sig_R : IZR sigma = 1 \/ IZR sigma = -1.
Proof. destruct Hsig as [-> | ->]; auto. Qed.

(** The angle of the [i]-th step. *)
Lemma axis_angle side i : (0 < i < n)%Z -> exists h d sd k phi,
  circular_helper s i rho side dir = (h, d, sd) /\ (Z.abs h <= rho)%Z /\ xorb sd (Z.odd k) = xorb side (Z.odd k0) /\
  at_count r (IZR (U + sigma * i)) (theta + IZR sigma * phi) /\ 0 < phi < 2 * PI /\
  r * sin (theta + IZR sigma * phi) = IZR h /\ r * cos (theta + IZR sigma * phi) = IZR (esg k) * sqrt (r * r - IZR h * IZR h).
Proof.
  intros Hi. destruct (axis_helper side i ltac:(lia)) as (h & d & sd & k & E & B & C & X). assert (Rp := r_gt).
  assert (B': Rabs (IZR h) <= r) by (rewrite <- abs_IZR; now apply IZR_le).
  destruct (count_place r Rp k (IZR h) B') as (a & A1 & A2 & A3).
  replace (2 * IZR k * r + IZR (esg k) * IZR h) with (IZR (U + sigma * i)) in A1 by (rewrite C, plus_IZR, !mult_IZR; unfold r; ring).
  exists h, d, sd, k, (IZR sigma * (a - theta)).
  assert (T: theta + IZR sigma * (IZR sigma * (a - theta)) = a) by (destruct sig_R as [Q|Q]; rewrite Q; ring). rewrite T.
  repeat (split; [assumption|]). split; [|split; assumption]. assert (W0' := Rabs_le_inv _ _ W0).
  assert (I1: 1 <= IZR i) by (apply IZR_le; lia). assert (I2: IZR i <= 4 * r - 1) by (unfold r; rewrite <- mult_IZR, <- minus_IZR; apply IZR_le; lia).
  rewrite plus_IZR, mult_IZR in A1. destruct sig_R as [Q|Q]; rewrite Q in *.
  - assert (L1: theta < a) by (apply (count_lt r Rp _ _ _ _ H0 A1); lra).
    assert (L2: a < theta + 2 * PI * 1) by (apply (count_lt r Rp _ _ _ _ A1 (count_shift r _ _ 1 H0)); lra). lra.
  - assert (L1: a < theta) by (apply (count_lt r Rp _ _ _ _ A1 H0); lra).
    assert (L2: theta + 2 * PI * (-1) < a) by (apply (count_lt r Rp _ _ _ _ (count_shift r _ _ (-1) H0) A1); lra). lra.
Qed.
(** Those angles, and [delta] for the last step. *)
Definition step_angle (i : Z) (phi : R) : Prop :=
  ((0 < i < n)%Z /\ at_count r (IZR (U + sigma * i)) (theta + IZR sigma * phi)) \/ ((i = n)%Z /\ phi = delta).
Lemma step_count i phi : (0 < i <= n)%Z -> step_angle i phi -> exists w, at_count r w (theta + IZR sigma * phi) /\
  IZR sigma * IZR U + IZR i - / 2 <= IZR sigma * w <= IZR sigma * IZR U + IZR i + / 2 /\ ((i < n)%Z -> IZR sigma * w = IZR sigma * IZR U + IZR i).
Proof.
  intros Hi [[_ A]|[-> ->]].
  - exists (IZR (U + sigma * i)). split; [exact A|]. rewrite plus_IZR, mult_IZR. destruct sig_R as [Q|Q]; rewrite Q; lra.
  - exists we. split; [exact He|]. assert (We' := Rabs_le_inv _ _ We). rewrite plus_IZR, mult_IZR in We'. split; [|lia]. destruct sig_R as [Q|Q]; rewrite Q in *; lra.
Qed.
Lemma sigma_lt x y a b : at_count r x (theta + IZR sigma * a) -> at_count r y (theta + IZR sigma * b) -> IZR sigma * x < IZR sigma * y -> a < b.
Proof.
  intros A B L. assert (Rp := r_gt). destruct sig_R as [Q|Q]; rewrite Q in *.
  - assert (X := count_lt r Rp _ _ _ _ A B ltac:(lra)). lra.
  - assert (X := count_lt r Rp _ _ _ _ B A ltac:(lra)). lra.
Qed.
Lemma sigma_le x y a b : at_count r x (theta + IZR sigma * a) -> at_count r y (theta + IZR sigma * b) -> a <= b -> IZR sigma * x <= IZR sigma * y.
Proof.
  intros A B L. assert (Rp := r_gt). destruct sig_R as [Q|Q]; rewrite Q in *.
  - assert (X := count_le_mono r Rp _ _ _ _ A B ltac:(lra)). lra.
  - assert (X := count_le_mono r Rp _ _ _ _ B A ltac:(lra)). lra.
Qed.
Lemma start_count : at_count r w0 (theta + IZR sigma * 0) /\ IZR sigma * IZR U - / 2 <= IZR sigma * w0 <= IZR sigma * IZR U + / 2.
Proof.
  rewrite Rmult_0_r, Rplus_0_r. split; [exact H0|]. assert (W0' := Rabs_le_inv _ _ W0). destruct sig_R as [Q|Q]; rewrite Q; lra.
Qed.
Lemma step_angles_lt i j phi psi : (0 < i)%Z -> (i < j <= n)%Z -> step_angle i phi -> step_angle j psi -> phi < psi.
Proof.
  intros Hi Hj A B. destruct (step_count i phi ltac:(lia) A) as (x & X1 & _ & X3). destruct (step_count j psi ltac:(lia) B) as (y & Y1 & Y2 & _).
  specialize (X3 ltac:(lia)). assert (IZR i <= IZR j - 1) by (rewrite <- minus_IZR; apply IZR_le; lia).
  apply (sigma_lt _ _ _ _ X1 Y1). lra.
Qed.
Lemma step_angle_pos i phi : (0 < i <= n)%Z -> 0 < delta -> step_angle i phi -> 0 < phi.
Proof.
  intros Hi Hd A. destruct start_count as [S1 S2]. destruct (Z.eq_dec i n) as [E|E].
  - destruct A as [[A _]|[_ ->]]; [lia|exact Hd].
  - destruct (step_count i phi Hi A) as (x & X1 & _ & X3). specialize (X3 ltac:(lia)). apply (sigma_lt _ _ _ _ S1 X1).
    assert (1 <= IZR i) by (apply IZR_le; lia). lra.
Qed.
(** At an angle [phi] after the [k]-th step and before the next, the axis is not
    further than one step and a half from the projection. *)
Lemma axis_near side k phi : (0 <= k <= n)%Z -> 0 <= phi <= delta ->
  ((0 < k)%Z -> exists psi, step_angle k psi /\ psi <= phi) -> ((k < n)%Z -> exists psi, step_angle (k + 1) psi /\ phi <= psi) ->
  Rabs (IZR (fst (fst (circular_helper s k rho side dir))) - r * sin (theta + IZR sigma * phi)) <= 3 / 2.
Proof.
  intros Hk [P0 P1] HL HU'. assert (Rp := r_gt). destruct (count_ex r (theta + IZR sigma * phi)) as (w & W).
  destruct (axis_helper side k ltac:(lia)) as (h & d & sd & kk & E & B & C & X). rewrite E. cbn [fst].
  assert (B': Rabs (IZR h) <= r) by (rewrite <- abs_IZR; now apply IZR_le).
  destruct (count_place r Rp kk (IZR h) B') as (a & A1 & A2 & A3).
  replace (2 * IZR kk * r + IZR (esg kk) * IZR h) with (IZR (U + sigma * k)) in A1 by (rewrite C, plus_IZR, !mult_IZR; unfold r; ring).
  rewrite <- A2. eapply Rle_trans; [exact (count_dist r Rp _ _ _ _ A1 W)|]. rewrite plus_IZR, mult_IZR.
  assert (L: IZR sigma * IZR U + IZR k - / 2 <= IZR sigma * w).
  { destruct (Z.eq_dec k 0) as [->|K0].
    - destruct start_count as [S1 S2]. assert (Q := sigma_le _ _ _ _ S1 W P0). lra.
    - destruct (HL ltac:(lia)) as (psi & A & Hpsi). destruct (step_count k psi ltac:(lia) A) as (x & X1 & X2 & _). assert (Q := sigma_le _ _ _ _ X1 W Hpsi). lra. }
  assert (M: IZR sigma * w <= IZR sigma * IZR U + IZR k + 3 / 2).
  { destruct (Z.eq_dec k n) as [->|K0].
    - assert (Q := sigma_le _ _ _ _ W He P1). assert (We' := Rabs_le_inv _ _ We). rewrite plus_IZR, mult_IZR in We'. destruct sig_R as [S|S]; rewrite S in *; clear W0 We; lra.
    - destruct (HU' ltac:(lia)) as (psi & A & Hpsi). destruct (step_count (k + 1) psi ltac:(lia) A) as (x & X1 & X2 & _). assert (Q := sigma_le _ _ _ _ W X1 Hpsi).
      rewrite plus_IZR in X2. lra. }
  apply Rabs_le. destruct sig_R as [S|S]; rewrite S in *; clear W0 We; lra.
Qed.
End Axis.
