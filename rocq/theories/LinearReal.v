(** The linear pulse generator in exact arithmetic. *)
From Coq Require Import ZArith Bool List Lia Reals Lra Sorted.
From Flocq Require Import Core.
From Verif Require Import PyBase PyNum Config Coordinates Pulses PulseSpec LinearGen.
From Coq Require Import List.
From Flocq Require Import Core.
Import ListNotations.
Local Open Scope R_scope.

Lemma Rltb_irrefl x : Rltb x x = false.
Proof. unfold Rltb. destruct (Rlt_dec x x); [lra|reflexivity]. Qed.
Lemma Rltb_true x y : Rltb x y = true <-> x < y.
Proof. unfold Rltb. destruct (Rlt_dec x y); split; intros; auto; discriminate. Qed.
Lemma Rltb_false x y : Rltb x y = false <-> y <= x.
Proof. unfold Rltb. destruct (Rlt_dec x y); split; intros; auto; try discriminate; lra. Qed.
Lemma Rleb_true x y : Rleb x y = true <-> x <= y.
Proof. unfold Rleb. destruct (Rle_dec x y); split; intros; auto; discriminate. Qed.
Lemma Rleb_false x y : Rleb x y = false <-> y < x.
Proof. unfold Rleb. destruct (Rle_dec x y); split; intros; auto; try discriminate; lra. Qed.

Lemma div_R x y : y <> 0 -> div (p:=RN) x y = Ok (x / y).
Proof. intros H. cbn. destruct (Req_EM_T y 0); [contradiction|reflexivity]. Qed.
Lemma sqrt_R x : 0 <= x -> sqrtn (p:=RN) x = Ok (sqrt x).
Proof. intros H. cbn. destruct (Rlt_dec x 0); [lra|reflexivity]. Qed.

Lemma len_sq d : len d * len d = qx d * qx d + qy d * qy d + qz d * qz d + qe d * qe d.
Proof. unfold len. apply sqrt_sqrt. nra. Qed.
Lemma len_pos d : (exists m, qat m d <> 0) -> 0 < len d.
Proof.
  intros [m Hm]. unfold len. apply sqrt_lt_R0.
  assert (0 < qat m d * qat m d) by nra. destruct m; cbn in *; nra.
Qed.
Lemma len_ge d m : Rabs (qat m d) <= len d.
Proof.
  unfold len. rewrite <- sqrt_Rsqr_abs. apply sqrt_le_1_alt. unfold Rsqr. destruct m; cbn; nra.
Qed.
Lemma len_abs d : len (qmap Rabs d) = len d.
Proof.
  unfold len. f_equal. destruct d; cbn. rewrite <- !Rabs_mult. rewrite !Rabs_pos_eq by nra. reflexivity.
Qed.
Lemma len_scale d k : 0 <= k -> len (qmap (fun x => x * k) d) = len d * k.
Proof.
  intros Hk. unfold len. destruct d as [x y z e]; cbn.
  replace (x * k * (x * k) + y * k * (y * k) + z * k * (z * k) + e * k * (e * k))
    with ((x * x + y * y + z * z + e * e) * (k * k)) by ring.
  rewrite sqrt_mult by nra. now rewrite sqrt_square.
Qed.

(** Largest component. *)
Definition top (d : quad R) : R := find_max (N:=RN) d.
Lemma pmax_R (x y : R) : pmax (N:=RN) x y = Rmax x y.
Proof. unfold pmax. cbn. unfold Rltb, Rmax. destruct (Rlt_dec x y), (Rle_dec x y); lra. Qed.
Lemma pmin_R (x y : R) : pmin (N:=RN) x y = Rmin x y.
Proof. unfold pmin. cbn. unfold Rltb, Rmin. destruct (Rlt_dec y x), (Rle_dec x y); lra. Qed.
Lemma top_ge d m : qat m d <= top d.
Proof.
  unfold top, find_max. rewrite !pmax_R.
  pose proof (Rmax_l (qx d) (qy d)). pose proof (Rmax_r (qx d) (qy d)).
  pose proof (Rmax_l (Rmax (qx d) (qy d)) (qz d)). pose proof (Rmax_r (Rmax (qx d) (qy d)) (qz d)).
  pose proof (Rmax_l (Rmax (Rmax (qx d) (qy d)) (qz d)) (qe d)). pose proof (Rmax_r (Rmax (Rmax (qx d) (qy d)) (qz d)) (qe d)).
  destruct m; cbn; lra.
Qed.
Lemma top_is d : exists m, top d = qat m d.
Proof.
  unfold top, find_max. rewrite !pmax_R. unfold Rmax.
  repeat match goal with |- context [Rle_dec ?a ?b] => destruct (Rle_dec a b) end;
  first [now exists MX|now exists MY|now exists MZ|now exists ME].
Qed.
Lemma top_scale d k : 0 <= k -> top (qmap (fun x => x * k) d) = top d * k.
Proof.
  intros Hk. destruct (top_is (qmap (fun x => x * k) d)) as [m E]. destruct (top_is d) as [m' E'].
  pose proof (top_ge (qmap (fun x => x * k) d) m') as G. pose proof (top_ge d m) as G'. rewrite qat_qmap in *.
  apply Rle_antisym; [rewrite E; nra|]. rewrite E'. exact G.
Qed.
Lemma len_le_2top d : (forall m, 0 <= qat m d) -> len d <= 2 * top d.
Proof.
  intros H. assert (T0: 0 <= top d) by (eapply Rle_trans; [apply (H MX)|apply top_ge]).
  replace (2 * top d) with (sqrt ((2 * top d) * (2 * top d))) by (apply sqrt_square; lra).
  unfold len. apply sqrt_le_1_alt.
  pose proof (top_ge d MX). pose proof (top_ge d MY). pose proof (top_ge d MZ). pose proof (top_ge d ME).
  pose proof (H MX). pose proof (H MY). pose proof (H MZ). pose proof (H ME). cbn in *. nra.
Qed.

Lemma coords_R (d : quad R) : coords (N:=RN) (qx d) (qy d) (qz d) (qe d) = d.
Proof. destruct d. reflexivity. Qed.
Lemma cabs_R (d : quad R) : cabs (N:=RN) d = qmap Rabs d.
Proof. reflexivity. Qed.
Lemma cmul_R (d : quad R) k : cmul (N:=RN) d k = qmap (fun x => x * k) d.
Proof. reflexivity. Qed.
Lemma cdiv_R (d : quad R) k : k <> 0 -> cdiv (N:=RN) d k = Ok (qmap (fun x => x * / k) d).
Proof. intros H. unfold cdiv. rewrite !div_R by exact H. reflexivity. Qed.
Lemma length_R (d : quad R) : Coordinates.length (N:=RN) d = Ok (len d).
Proof. unfold Coordinates.length. rewrite sqrt_R; [reflexivity|]. cbn. nra. Qed.
Lemma qmap_qmap {A B C} (f : A -> B) (h : B -> C) q : qmap h (qmap f q) = qmap (fun x => h (f x)) q.
Proof. reflexivity. Qed.

(* ---------- _adjust_velocity ---------- *)
Lemma adjust1_R (k v vmax : R) : 0 < vmax -> 0 <= v -> 0 < k <= 1 ->
  exists k', adjust1 (N:=RN) k v vmax = Ok k' /\ 0 < k' <= k /\ v * k' * 60 <= vmax /\ (k' = k \/ v * k' * 60 = vmax).
Proof.
  intros Hm Hv Hk. unfold adjust1. cbn -[div]. change (@sixty RN) with 60.
  destruct (Rltb vmax (v * 60)) eqn:E.
  - apply Rltb_true in E. assert (V: 0 < v) by lra. rewrite div_R by lra. cbn [rbind]. rewrite div_R by lra. cbn [rbind].
    rewrite pmin_R. exists (Rmin k (vmax / v / 60)). split; [reflexivity|].
    assert (P: 0 < vmax / v / 60) by (apply Rdiv_lt_0_compat; [apply Rdiv_lt_0_compat|]; lra).
    assert (Q: v * (vmax / v / 60) * 60 = vmax) by (field; lra).
    unfold Rmin. destruct (Rle_dec k (vmax / v / 60)) as [L|L].
    + split; [lra|]. split; [|now left]. rewrite <- Q. nra.
    + split; [lra|]. split; [lra|]. now right.
  - apply Rltb_false in E. exists k. split; [reflexivity|]. split; [lra|]. split; [nra|now left].
Qed.

(** The common factor: at most 1, positive, keeps every axis at or below its
    limit, and is the largest such (1, or some axis is exactly at its limit). *)
Definition slow_factor (cfg : config) (v : quad R) (k : R) : Prop :=
  0 < k <= 1 /\
  if auto_velocity cfg then
    (forall m, qat m v * k * 60 <= IZR (qat m (max_velocity_min cfg))) /\
    (k = 1 \/ exists m, qat m v * k * 60 = IZR (qat m (max_velocity_min cfg)))
  else k = 1.

Lemma adjust_velocity_R cfg (v : quad R) : sane_cfg cfg -> (forall m, 0 <= qat m v) ->
  exists k, adjust_velocity (N:=RN) cfg v = Ok (qmap (fun x => x * k) v) /\ slow_factor cfg v k.
Proof.
  intros Hc Hv. unfold adjust_velocity, slow_factor. destruct (auto_velocity cfg); cbn [negb].
  2: { exists 1. split; [|split; [lra|reflexivity]]. f_equal. apply qat_ext. intros m. rewrite qat_qmap. ring. }
  assert (M: forall m, 0 < IZR (qat m (max_velocity_min cfg))) by (intros m; apply (IZR_lt 0), sane_vel, Hc).
  destruct (adjust1_R 1 (qx v) _ (M MX) (Hv MX) ltac:(lra)) as (k1 & E1 & B1 & L1 & D1). cbn [qat] in *.
  destruct (adjust1_R k1 (qy v) _ (M MY) (Hv MY) ltac:(lra)) as (k2 & E2 & B2 & L2 & D2). cbn [qat] in *.
  destruct (adjust1_R k2 (qz v) _ (M MZ) (Hv MZ) ltac:(lra)) as (k3 & E3 & B3 & L3 & D3). cbn [qat] in *.
  destruct (adjust1_R k3 (qe v) _ (M ME) (Hv ME) ltac:(lra)) as (k4 & E4 & B4 & L4 & D4). cbn [qat] in *.
  change (adjust1 (@one RN) (qx v) (maxv cfg qx)) with (@adjust1 RN 1 (qx v) (IZR (qx (max_velocity_min cfg)))). rewrite E1. cbn [rbind].
  change (adjust1 k1 (qy v) (maxv cfg qy)) with (@adjust1 RN k1 (qy v) (IZR (qy (max_velocity_min cfg)))). rewrite E2. cbn [rbind].
  change (adjust1 k2 (qz v) (maxv cfg qz)) with (@adjust1 RN k2 (qz v) (IZR (qz (max_velocity_min cfg)))). rewrite E3. cbn [rbind].
  change (adjust1 k3 (qe v) (maxv cfg qe)) with (@adjust1 RN k3 (qe v) (IZR (qe (max_velocity_min cfg)))). rewrite E4. cbn [rbind].
 
  exists k4. split; [reflexivity|]. split; [lra|].
  assert (MONO: forall x k k' : R, 0 <= x -> k' <= k -> x * k' * 60 <= x * k * 60) by (intros; nra).
  pose proof (Hv MX). pose proof (Hv MY). pose proof (Hv MZ). pose proof (Hv ME). cbn [qat] in *.
  split.
  - intros []; cbn [qat].
    + apply Rle_trans with (qx v * k1 * 60); [apply MONO; lra|lra].
    + apply Rle_trans with (qy v * k2 * 60); [apply MONO; lra|lra].
    + apply Rle_trans with (qz v * k3 * 60); [apply MONO; lra|lra].
    + lra.
  - destruct D4 as [->|D4]; [|right; exists ME; exact D4].
    destruct D3 as [->|D3]; [|right; exists MZ; exact D3].
    destruct D2 as [->|D2]; [|right; exists MY; exact D2].
    destruct D1 as [->|D1]; [|right; exists MX; exact D1]. now left.
Qed.

(* ---------- make_linear ---------- *)
Section Linear.
Variable cfg : config.
Hypothesis Hc : sane_cfg cfg.
Variable delta : quad R.
Hypothesis Hd : exists m, qat m delta <> 0.
Variable v : R.
Hypothesis Hv : 0 < v.

Let A : R := IZR (max_acceleration cfg).
Let L : R := len delta.
Let D : R := top (qmap Rabs delta).
Lemma A_pos : 0 < A. Proof. apply (IZR_lt 0). apply sane_acc, Hc. Qed.
Lemma L_pos : 0 < L. Proof. apply len_pos, Hd. Qed.
Lemma D_L : 0 < D /\ D <= L <= 2 * D.
Proof.
  assert (H1: L <= 2 * D).
  { unfold L, D. rewrite <- len_abs. apply len_le_2top. intros m. rewrite qat_qmap. apply Rabs_pos. }
  pose proof L_pos. split; [lra|]. split; [|exact H1].
  unfold D. destruct (top_is (qmap Rabs delta)) as [m ->]. rewrite qat_qmap. apply len_ge.
Qed.

(** What the constructor computes: [kap] is (velocity of an axis) / (distance of
    this axis), [kap0] the same for the adjusted requested velocity. *)
Record profile (g : linear_gen RN) (kap kap0 acc lin c : R) : Prop := {
  pf_acc : l_acc g = acc; pf_lin : l_lin g = lin;
  pf_vel : l_vel g = qmap (fun x => Rabs x * kap) delta;
  pf_total : l_total g = Quad (ZnearestE (Rabs (qx delta) * IZR (qx (ppm cfg)))) (ZnearestE (Rabs (qy delta) * IZR (qy (ppm cfg))))
                              (ZnearestE (Rabs (qz delta) * IZR (qz (ppm cfg)))) (ZnearestE (Rabs (qe delta) * IZR (qe (ppm cfg))));
  pf_dir : l_dir g = qmap (fun x => if Rlt_dec x 0 then (-1)%Z else 1%Z) delta;
  pf_delta : l_delta g = delta;
  pf_c : c = 2 * (D * kap) / A;
  pf_kap : 0 < kap; pf_kap0 : 0 < kap0; pf_accp : 0 < acc; pf_linp : 0 <= lin;
  pf_slow : exists k, kap0 = v / 60 / L * k /\ slow_factor cfg (qmap (fun x => Rabs x * (v / 60 / L)) delta) k;
  pf_case : (acc = kap * D / A /\ kap = kap0 /\ lin = (L - acc * acc * A) / (L * kap)) \/
            (acc * acc * A = L /\ kap = / acc /\ lin = 0 /\ acc < kap0 * D / A)
}.

Lemma make_linear_R : exists g kap kap0 acc lin c, make_linear (N:=RN) cfg delta v = Ok g /\ profile g kap kap0 acc lin c.
Proof.
  pose proof A_pos as HA. pose proof L_pos as HL. pose proof D_L as [HD1 HD2].
  unfold make_linear. rewrite cabs_R, length_R, len_abs. fold L. cbn [rbind].
  change (@sixty RN) with 60. rewrite div_R by lra. cbn [rbind]. rewrite div_R by lra. cbn [rbind].
  set (k0 := v / 60 / L). assert (K0: 0 < k0) by (apply Rdiv_lt_0_compat; lra).
  rewrite cmul_R, qmap_qmap.
  destruct (adjust_velocity_R cfg (qmap (fun x => Rabs x * k0) delta) Hc) as (k & -> & Hk).
  { intros m. rewrite qat_qmap. pose proof (Rabs_pos (qat m delta)). nra. }
  cbn [rbind]. rewrite qmap_qmap.
  assert (Kp: 0 < k) by apply Hk.
  assert (V0: qmap (fun x => Rabs x * k0 * k) delta = qmap (fun x => x * (k0 * k)) (qmap Rabs delta)).
  { apply qat_ext. intros m. rewrite !qat_qmap. ring. }
  rewrite V0. change (@find_max RN (qmap (fun x => x * (k0 * k)) (qmap Rabs delta))) with (top (qmap (fun x => x * (k0 * k)) (qmap Rabs delta))).
  rewrite top_scale by nra. fold D. set (kap0 := k0 * k) in *. assert (KP: 0 < kap0) by (unfold kap0; nra).
  change (@accel RN cfg) with A. rewrite div_R by lra. cbn [rbind].
  set (acc0 := D * kap0 / A). assert (AP: 0 < acc0) by (apply Rdiv_lt_0_compat; nra).
  change (sqr (p:=RN) acc0) with (Ok (acc0 * acc0)). cbn [rbind]. change (ltb (p:=RN)) with Rltb. change (mul (p:=RN)) with Rmult.
  assert (SL: exists k', kap0 = k0 * k' /\ slow_factor cfg (qmap (fun x => Rabs x * k0) delta) k') by (exists k; auto).
  destruct (Rltb L (A * (acc0 * acc0))) eqn:E.
  - apply Rltb_true in E. rewrite div_R by lra. cbn [rbind].
    assert (LA: 0 < L / A) by (apply Rdiv_lt_0_compat; lra).
    rewrite sqrt_R by lra. cbn [rbind]. assert (S: 0 < sqrt (L / A)) by (apply sqrt_lt_R0; lra).
    rewrite cdiv_R by lra. cbn [rbind]. rewrite qmap_qmap.
    eexists _, (/ sqrt (L / A)), kap0, (sqrt (L / A)), 0, _. split; [reflexivity|].
    split; try reflexivity; try lra.
    + now apply Rinv_0_lt_compat.
    + exact SL.
    + right. assert (Q: sqrt (L / A) * sqrt (L / A) * A = L) by (rewrite sqrt_sqrt by lra; field; lra).
      split; [exact Q|]. split; [reflexivity|]. split; [reflexivity|].
      replace (kap0 * D / A) with acc0 by (unfold acc0; field; lra).
      apply Rnot_le_lt. intros X. rewrite Rmult_comm in Q.
      assert (X2: acc0 * acc0 <= sqrt (L / A) * sqrt (L / A)) by (apply Rmult_le_compat; lra).
      apply (Rmult_le_compat_l A) in X2; lra.
  - apply Rltb_false in E. rewrite length_R. cbn [rbind]. rewrite len_scale by lra. rewrite len_abs. fold L.
    rewrite div_R by nra. cbn [rbind].
    eexists _, kap0, kap0, acc0, _, _. split; [reflexivity|].
    split; try reflexivity; try lra.
    + change (0 <= (L - acc0 * acc0 * A) / (L * kap0)). apply Rmult_le_pos; [nra|]. left. apply Rinv_0_lt_compat. nra.
    + exact SL.
    + left. split; [unfold acc0; field; lra|]. split; [reflexivity|]. reflexivity.
Qed.

(* ---------- the time profile ---------- *)
Section Profile.
Variable g : linear_gen RN.
Variables kap kap0 acc lin c : R.
Hypothesis P : profile g kap kap0 acc lin c.
Let q0 := acc * acc / c.
(** Uniform-movement time at which the end of the path is reached. *)
Let T := / kap.

Lemma c_pos : 0 < c.
Proof.
  rewrite (pf_c _ _ _ _ _ _ P). pose proof A_pos. pose proof D_L as [? _]. pose proof (pf_kap _ _ _ _ _ _ P).
  apply Rdiv_lt_0_compat; nra.
Qed.
Lemma q0_pos : 0 < q0.
Proof. pose proof c_pos. pose proof (pf_accp _ _ _ _ _ _ P). apply Rdiv_lt_0_compat; nra. Qed.
Lemma q0_c : q0 * c = acc * acc.
Proof. pose proof c_pos. unfold q0. field. lra. Qed.
Lemma T_pos : 0 < T. Proof. apply Rinv_0_lt_compat, P. Qed.
Lemma T_bounds : q0 + lin <= T <= 2 * q0 + lin.
Proof.
  pose proof A_pos as HA. pose proof L_pos as HL. pose proof D_L as [HD1 HD2]. pose proof (pf_kap _ _ _ _ _ _ P) as HK.
  pose proof (pf_accp _ _ _ _ _ _ P) as Hac. unfold q0, T. rewrite (pf_c _ _ _ _ _ _ P).
  destruct (pf_case _ _ _ _ _ _ P) as [(Ea & _ & El)|(Ea & Ek & El & _)].
  - rewrite El.
    assert (Q: acc * acc / (2 * (D * kap) / A) = acc / 2) by (rewrite Ea; field; lra).
    assert (R: / kap - (L - acc * acc * A) / (L * kap) = acc * (D / L)).
    { replace (acc * acc * A) with (acc * (kap * D)) by (rewrite Ea; field; lra). field. lra. }
    rewrite Q. assert (B: / 2 <= D / L <= 1).
    { split; apply Rmult_le_reg_r with L; try lra; unfold Rdiv; rewrite Rmult_assoc, Rinv_l; lra. }
    nra.
  - rewrite El, Ek, Rinv_inv.
    assert (Q: acc * acc / (2 * (D * / acc) / A) = acc * (L / D) / 2) by (rewrite <- Ea; field; lra).
    rewrite Q. assert (B: 1 <= L / D <= 2).
    { split; apply Rmult_le_reg_r with D; try lra; unfold Rdiv; rewrite Rmult_assoc, Rinv_l; lra. }
    nra.
Qed.
Lemma lin_case : lin = 0 \/ c = 2 * acc.
Proof.
  destruct (pf_case _ _ _ _ _ _ P) as [(Ea & _ & El)|(_ & _ & El & _)]; [right|now left].
  rewrite (pf_c _ _ _ _ _ _ P), Ea. pose proof A_pos. field. lra.
Qed.

(** Time of the accelerated movement. *)
Definition warp (pt : R) : R :=
  if Rle_dec pt q0 then sqrt (pt * c)
  else if Rle_dec pt (q0 + lin) then acc + pt - q0
  else 2 * acc + lin - sqrt (acc * acc - c * (pt - q0 - lin)).

Lemma root_arg pt : q0 + lin < pt <= T -> 0 <= acc * acc - c * (pt - q0 - lin).
Proof. intros H. pose proof T_bounds. pose proof c_pos. rewrite <- q0_c. nra. Qed.

Lemma to_accelerated_R pt : 0 <= pt <= T -> to_accelerated_time (N:=RN) acc lin c pt = Ok (warp pt).
Proof.
  intros H. pose proof c_pos as HC. pose proof q0_c as HQ. pose proof (pf_accp _ _ _ _ _ _ P) as Hac.
  unfold to_accelerated_time, warp. change (mul (p:=RN)) with Rmult. rewrite sqrt_R by nra. cbn [rbind].
  change (leb (p:=RN)) with Rleb.
  destruct (Rle_dec pt q0) as [K|K].
  - replace (Rleb (sqrt (pt * c)) acc) with true; [reflexivity|]. symmetry. apply Rleb_true.
    replace acc with (sqrt (acc * acc)) by (apply sqrt_square; lra). apply sqrt_le_1_alt. rewrite <- HQ. nra.
  - replace (Rleb (sqrt (pt * c)) acc) with false.
    2: { symmetry. apply Rleb_false. replace acc with (sqrt (acc * acc)) at 1 by (apply sqrt_square; lra).
         apply sqrt_lt_1_alt. rewrite <- HQ. pose proof q0_pos. nra. }
    change (sqr (p:=RN) acc) with (Ok (acc * acc)). cbn [rbind]. rewrite div_R by lra. cbn [rbind]. fold q0.
    change (add (p:=RN)) with Rplus. change (sub (p:=RN)) with Rminus. change (@zero RN) with 0. change (@two RN) with 2.
    destruct (Rle_dec pt (q0 + lin)) as [K2|K2].
    + replace (Rleb (acc + pt - q0 - acc - lin) 0) with true; [reflexivity|]. symmetry. apply Rleb_true. lra.
    + replace (Rleb (acc + pt - q0 - acc - lin) 0) with false by (symmetry; apply Rleb_false; lra).
      replace (acc + pt - q0 - acc - lin) with (pt - q0 - lin) by ring.
      pose proof (root_arg pt ltac:(lra)) as HR. change (ltb (p:=RN)) with Rltb.
      destruct (Rltb 0 (acc * acc - c * (pt - q0 - lin))) eqn:E.
      * rewrite sqrt_R by lra. reflexivity.
      * apply Rltb_false in E. replace (acc * acc - c * (pt - q0 - lin)) with 0 by lra. rewrite sqrt_0. reflexivity.
Qed.

(** Squares of positive parts; the movement written with them. *)
Definition pp (x : R) : R := Rmax 0 x.
Lemma pp_deriv x : derivable_pt_lim (fun y => pp y * pp y) x (2 * pp x).
Proof.
  intros eps Heps. exists (mkposreal eps Heps). intros h Hh Hl. cbn in Hl.
  replace ((pp (x + h) * pp (x + h) - pp x * pp x) / h - 2 * pp x)
    with ((pp (x + h) * pp (x + h) - pp x * pp x - 2 * pp x * h) / h) by (field; exact Hh).
  unfold Rdiv. rewrite Rabs_mult, Rabs_inv.
  apply Rmult_lt_reg_r with (Rabs h); [now apply Rabs_pos_lt|].
  rewrite Rmult_assoc, Rinv_l, Rmult_1_r by now apply Rabs_no_R0.
  apply Rle_lt_trans with (Rabs h * Rabs h).
  - rewrite <- Rabs_mult, (Rabs_pos_eq (h * h)) by nra. apply Rabs_le.
    unfold pp, Rmax. destruct (Rle_dec 0 (x + h)), (Rle_dec 0 x); nra.
  - apply Rmult_lt_compat_r; [now apply Rabs_pos_lt|exact Hl].
Qed.

(** Uniform-movement time reached at time [t], and its derivative. *)
Definition travel (t : R) : R :=
  (pp t * pp t - pp (t - acc) * pp (t - acc) - pp (t - (acc + lin)) * pp (t - (acc + lin))
   + pp (t - (2 * acc + lin)) * pp (t - (2 * acc + lin))) / c.
Definition rate (t : R) : R :=
  2 / c * (pp t - pp (t - acc) - pp (t - (acc + lin)) + pp (t - (2 * acc + lin))).

Lemma travel_deriv t : derivable_pt_lim travel t (rate t).
Proof.
  assert (S: forall k, derivable_pt_lim (fun u => pp (u - k) * pp (u - k)) t (2 * pp (t - k))).
  { intros k. replace (2 * pp (t - k)) with (2 * pp (t - k) * 1) by ring.
    apply (derivable_pt_lim_comp (fun u => u - k) (fun y => pp y * pp y)).
    - replace 1 with (1 - 0) by ring. apply derivable_pt_lim_minus; [apply derivable_pt_lim_id|apply derivable_pt_lim_const].
    - apply pp_deriv. }
  unfold travel, rate.
  replace (2 / c * (pp t - pp (t - acc) - pp (t - (acc + lin)) + pp (t - (2 * acc + lin))))
    with (/ c * (2 * pp t - 2 * pp (t - acc) - 2 * pp (t - (acc + lin)) + 2 * pp (t - (2 * acc + lin)))) by (unfold Rdiv; ring).
  apply (derivable_pt_lim_ext (fun u => / c * (pp u * pp u - pp (u - acc) * pp (u - acc) - pp (u - (acc + lin)) * pp (u - (acc + lin))
   + pp (u - (2 * acc + lin)) * pp (u - (2 * acc + lin))))).
  - intros u. unfold Rdiv. ring.
  - apply derivable_pt_lim_scal.
    apply derivable_pt_lim_plus; [|apply S]. apply derivable_pt_lim_minus; [|apply S].
    apply derivable_pt_lim_minus; [apply pp_deriv|apply S].
Qed.

Lemma rate_bounds t : 0 <= rate t <= 2 * acc / c.
Proof.
  pose proof c_pos as HC. pose proof (pf_accp _ _ _ _ _ _ P). pose proof (pf_linp _ _ _ _ _ _ P). unfold rate.
  assert (IC: 0 < / c) by now apply Rinv_0_lt_compat.
  assert (B: 0 <= pp t - pp (t - acc) - pp (t - (acc + lin)) + pp (t - (2 * acc + lin)) <= acc).
  { unfold pp, Rmax. repeat match goal with |- context [Rle_dec ?a ?b] => destruct (Rle_dec a b) end; lra. }
  unfold Rdiv. split; [nra|]. replace (2 * acc * / c) with (2 * / c * acc) by ring. apply Rmult_le_compat_l; [nra|lra].
Qed.
Lemma rate_lipschitz t u : Rabs (rate t - rate u) <= 2 / c * Rabs (t - u).
Proof.
  pose proof c_pos as HC. pose proof (pf_accp _ _ _ _ _ _ P). pose proof (pf_linp _ _ _ _ _ _ P). unfold rate.
  assert (IC: 0 < / c) by now apply Rinv_0_lt_compat.
  rewrite <- Rmult_minus_distr_l, Rabs_mult, (Rabs_pos_eq (2 / c)) by (unfold Rdiv; nra).
  apply Rmult_le_compat_l; [unfold Rdiv; nra|]. unfold pp, Rmax, Rabs.
  repeat match goal with |- context [Rle_dec ?a ?b] => destruct (Rle_dec a b) end;
  repeat match goal with |- context [Rcase_abs ?a] => destruct (Rcase_abs a) end; lra.
Qed.
Lemma travel_0 : travel 0 = 0.
Proof.
  pose proof (pf_accp _ _ _ _ _ _ P). pose proof (pf_linp _ _ _ _ _ _ P). unfold travel, pp, Rmax.
  repeat match goal with |- context [Rle_dec ?a ?b] => destruct (Rle_dec a b) end; try lra; unfold Rdiv; ring.
Qed.

Lemma root_le x : x <= acc * acc -> sqrt x <= acc.
Proof.
  intros H. rewrite <- (sqrt_square acc) by (pose proof (pf_accp _ _ _ _ _ _ P); lra). now apply sqrt_le_1_alt.
Qed.
Lemma warp_range pt : 0 <= pt <= T -> 0 <= warp pt <= 2 * acc + lin.
Proof.
  intros H. pose proof c_pos as HC. pose proof q0_c as HQ. pose proof (pf_accp _ _ _ _ _ _ P) as Hac. pose proof (pf_linp _ _ _ _ _ _ P) as Hl.
  unfold warp. destruct (Rle_dec pt q0) as [K|K].
  - split; [apply sqrt_pos|]. apply Rle_trans with acc; [|lra].
    replace acc with (sqrt (acc * acc)) by (apply sqrt_square; lra). apply sqrt_le_1_alt. nra.
  - destruct (Rle_dec pt (q0 + lin)) as [K2|K2]; [lra|].
    pose proof (root_arg pt ltac:(lra)) as HR. pose proof (sqrt_pos (acc * acc - c * (pt - q0 - lin))).
    assert (sqrt (acc * acc - c * (pt - q0 - lin)) <= acc); [|lra]. apply root_le. nra.
Qed.

Lemma travel_warp pt : 0 <= pt <= T -> travel (warp pt) = pt.
Proof.
  intros H. pose proof c_pos as HC. pose proof q0_c as HQ. pose proof (pf_accp _ _ _ _ _ _ P) as Hac. pose proof (pf_linp _ _ _ _ _ _ P) as Hl.
  apply Rmult_eq_reg_r with c; [|lra]. unfold travel. unfold Rdiv at 1. rewrite Rmult_assoc, Rinv_l, Rmult_1_r by lra.
  unfold warp. destruct (Rle_dec pt q0) as [K|K].
  - assert (S1: sqrt (pt * c) <= acc).
    { replace acc with (sqrt (acc * acc)) by (apply sqrt_square; lra). apply sqrt_le_1_alt. nra. }
    pose proof (sqrt_pos (pt * c)) as S0. pose proof (sqrt_sqrt (pt * c) ltac:(nra)) as S2.
    set (r := sqrt (pt * c)) in *. clearbody r.
    unfold pp. rewrite (Rmax_right 0 r) by lra. rewrite !(Rmax_left 0) by lra. nra.
  - destruct (Rle_dec pt (q0 + lin)) as [K2|K2].
    + destruct lin_case as [E|E]; [lra|].
      assert (Q2: q0 * 2 = acc) by (rewrite E in HQ; nra).
      unfold pp. rewrite (Rmax_right 0 (acc + pt - q0)), (Rmax_right 0 (acc + pt - q0 - acc)) by lra.
      rewrite !(Rmax_left 0) by lra. rewrite E. nra.
    + pose proof (root_arg pt ltac:(lra)) as HR.
      pose proof (sqrt_pos (acc * acc - c * (pt - q0 - lin))) as S0. pose proof (sqrt_sqrt _ HR) as S2.
      assert (S1: sqrt (acc * acc - c * (pt - q0 - lin)) <= acc).
      { apply root_le. nra. }
      set (r := sqrt (acc * acc - c * (pt - q0 - lin))) in *. clearbody r.
      unfold pp. rewrite (Rmax_right 0 (2 * acc + lin - r)), (Rmax_right 0 (2 * acc + lin - r - acc)), (Rmax_right 0 (2 * acc + lin - r - (acc + lin))) by lra.
      rewrite (Rmax_left 0) by lra.
      destruct lin_case as [E|E]; [rewrite E in *; nra|].
      assert (Q2: q0 * 2 = acc) by (rewrite E in HQ; nra). rewrite E in *. nra.
Qed.

Lemma travel_mono t u : t <= u -> travel t <= travel u.
Proof.
  intros H. assert (D': derivable travel) by (intros x; exists (rate x); apply travel_deriv).
  apply (nonneg_derivative_1 travel D'); [|exact H].
  intros x. rewrite (derive_pt_eq_0 travel x (rate x) (D' x)); [apply rate_bounds|apply travel_deriv].
Qed.
Lemma warp_mono x y : 0 <= x -> x < y -> y <= T -> warp x < warp y.
Proof.
  intros H1 H2 H3. apply Rnot_le_lt. intros K. apply travel_mono in K. rewrite !travel_warp in K; lra.
Qed.
Lemma warp_0 : warp 0 = 0.
Proof. unfold warp. pose proof q0_pos. destruct (Rle_dec 0 q0); [|lra]. now rewrite Rmult_0_l, sqrt_0. Qed.
End Profile.
End Linear.
