(** __adjust_circle in exact arithmetic. *)
From Coq Require Import ZArith Bool Reals Lra Lia List Psatz.
From Flocq Require Import Core.
From Verif Require Import PyBase PyNum Config Coordinates Pulses PulseSpec GMachine GMachineProofs LinearGen LinearReal ArcSpec ArcRun ArcMake ArcReal.
From Coq Require Import List.
Import ListNotations.
Local Open Scope R_scope.

Lemma Reqb_true x y : Reqb x y = true <-> x = y.
Proof. unfold Reqb. destruct (Req_EM_T x y); split; auto; discriminate. Qed.
Lemma copysign_abs (s y : R) : 0 <= s -> s = Rabs y -> copysign (p:=RN) s y = y.
Proof.
  intros Hs E. cbn. rewrite Rabs_pos_eq by exact Hs. subst s. destruct (Rlt_dec y 0); [rewrite Rabs_left by lra; ring|]. apply Rabs_pos_eq. lra.
Qed.
Lemma copysign_inv (s y : R) : 0 <= s -> copysign (p:=RN) s y = y -> s = Rabs y.
Proof.
  intros Hs. cbn. rewrite Rabs_pos_eq by exact Hs. destruct (Rlt_dec y 0); intros H.
  - rewrite Rabs_left by lra. lra.
  - rewrite Rabs_pos_eq by lra. exact H.
Qed.
Lemma sqrt_abs (x : R) : sqrt (x * x) = Rabs x.
Proof. exact (sqrt_Rsqr_abs x). Qed.

(** The end point computed for a commanded end (x, y) on the circle of radius r,
    seen from the centre. *)
Section End_.
Variables (r da db ra rb : R).
Let x := da - ra.
Let y := db - rb.
Hypothesis On : x * x + y * y = r * r.
Definition special : Prop := x = 0 \/ y = 0 \/ Rabs x = Rabs y.

Lemma end_x : x <> 0 -> exists ea, (do! b <- div (p:=RN) y x; do! q <- div (p:=RN) (r * r) (1 + Rabs b); do! s <- sqrtn (p:=RN) q; Ok (copysign (p:=RN) s x)) = Ok ea /\
  ea * ea <= r * r /\ (ea = x <-> y = 0 \/ Rabs x = Rabs y).
Proof.
  intros X. rewrite div_R by exact X. cbn [rbind]. set (b := y / x). assert (B := Rabs_pos b).
  rewrite div_R by lra. cbn [rbind]. set (q := r * r / (1 + Rabs b)).
  assert (Q: 0 <= q) by (apply Rmult_le_pos; [nra|left; apply Rinv_0_lt_compat; lra]).
  assert (Q2: q * (1 + Rabs b) = r * r) by (unfold q; field; lra).
  rewrite sqrt_R by exact Q. cbn [rbind]. eexists. split; [reflexivity|]. assert (SP := sqrt_pos q). assert (SQ := sqrt_sqrt q Q).
  assert (C2: copysign (p:=RN) (sqrt q) x * copysign (p:=RN) (sqrt q) x = q).
  { cbn. rewrite (Rabs_pos_eq _ SP). destruct (Rlt_dec x 0); lra. }
  split; [rewrite C2; nra|].
  assert (Y: y * y = b * b * (x * x)) by (unfold b; field; exact X).
  assert (AB: Rabs b * Rabs b = b * b) by (rewrite <- Rabs_mult; apply Rabs_pos_eq; nra).
  assert (X2: 0 < x * x) by nra.
  assert (K: q = x * x <-> Rabs b = 0 \/ Rabs b = 1).
  { split; intros H.
    - assert (E: Rabs b * (Rabs b - 1) = 0).
      { apply Rmult_eq_reg_r with (x * x); [|lra]. rewrite Rmult_0_l. rewrite H in Q2. replace (Rabs b * (Rabs b - 1) * (x * x)) with (b * b * (x * x) - Rabs b * (x * x)) by (rewrite <- AB; ring). lra. }
      apply Rmult_integral in E. destruct E; [left; lra|right; lra].
    - apply Rmult_eq_reg_r with (1 + Rabs b); [|lra]. rewrite Q2, <- On, Y, <- AB. destruct H as [H|H]; rewrite H; ring. }
  assert (K2: (Rabs b = 0 \/ Rabs b = 1) <-> (y = 0 \/ Rabs x = Rabs y)).
  { assert (E: Rabs y = Rabs b * Rabs x) by (rewrite <- Rabs_mult; f_equal; unfold b; field; exact X). assert (XP := Rabs_pos_lt x X).
    split; intros [H|H].
    - left. rewrite H, Rmult_0_l in E. destruct (Req_dec y 0) as [E0|E0]; [exact E0|]. exfalso. apply (Rabs_no_R0 y E0 E).
    - right. rewrite E, H. ring.
    - left. rewrite H, Rabs_R0 in E. apply Rmult_eq_reg_r with (Rabs x); lra.
    - right. apply Rmult_eq_reg_r with (Rabs x); lra. }
  rewrite <- K2, <- K. split; intros H.
  - apply copysign_inv in H; [|exact SP]. rewrite <- SQ, H, <- Rabs_mult. apply Rabs_pos_eq. lra.
  - apply copysign_abs; [exact SP|]. rewrite H. apply sqrt_abs.
Qed.
Lemma end_y (ea : R) : ea * ea <= r * r -> exists s, sqrtn (p:=RN) (r * r - ea * ea) = Ok s /\ (ea = x -> copysign (p:=RN) s y = y).
Proof.
  intros L. rewrite sqrt_R by lra. eexists. split; [reflexivity|]. intros ->. apply copysign_abs; [apply sqrt_pos|].
  replace (r * r - x * x) with (y * y) by lra. apply sqrt_abs.
Qed.
(** The commanded end is reached exactly if it is on an axis or on a diagonal
    through the centre, or if a full circle is asked for. *)
Lemma end_point : exists ea eb eq, circle_end_point (N:=RN) r da db ra rb = Ok (ea, eb, eq) /\
  ((ea = da /\ eb = db) <-> (da = 0 /\ db = 0) \/ special).
Proof.
  unfold circle_end_point. change (eqb (p:=RN)) with Reqb. change (@zero RN) with 0.
  destruct (Reqb da 0 && Reqb db 0) eqn:F.
  { apply andb_prop in F. destruct F as [F1 F2]. apply Reqb_true in F1, F2. eexists _, _, _. split; [reflexivity|]. tauto. }
  assert (NF: ~ (da = 0 /\ db = 0)) by (intros [F1 F2]; apply Reqb_true in F1, F2; rewrite F1, F2 in F; discriminate F).
  change (sub (p:=RN) da ra) with x. change (sub (p:=RN) db rb) with y.
  assert (E: exists ea, (if Reqb x 0 then Ok 0 else do! b <- div (p:=RN) y x; do! q <- div (p:=RN) (mul (p:=RN) r r) (add (p:=RN) (ofZ 1) (absn b)); do! s <- sqrtn (p:=RN) q; Ok (copysign (p:=RN) s x)) = Ok ea /\
    ea * ea <= r * r /\ (ea = x <-> special)).
  { destruct (Reqb x 0) eqn:X.
    - apply Reqb_true in X. exists 0. split; [reflexivity|]. split; [nra|]. unfold special. split; auto.
    - assert (X': x <> 0) by (intros E; apply Reqb_true in E; congruence). destruct (end_x X') as (ea & E & L & K). exists ea. split; [exact E|]. split; [exact L|]. unfold special. tauto. }
  destruct E as (ea & E & L & K).
  match goal with |- context [rbind ?t _] => replace t with (Ok ea : res R) by (symmetry; exact E) end. cbn [rbind].
  destruct (end_y ea L) as (s & Es & Ks).
  match goal with |- context [rbind ?t _] => replace t with (Ok s : res R) by (symmetry; exact Es) end. cbn [rbind].
  eexists _, _, _. split; [reflexivity|]. change (add (p:=RN)) with Rplus. split.
  - intros [H1 _]. right. apply K. unfold x. lra.
  - intros [H|H]; [contradiction|]. apply K in H. split; [unfold x in H; lra|]. rewrite (Ks H). unfold y. lra.
Qed.
End End_.

(* ---------- the command ---------- *)
Section Command.
Variable cfg : config.
Hypothesis Hp : forall m, (0 < qat m (ppm cfg))%Z.
(** On the grid of the motors. *)
Definition on_grid (d : quad R) : Prop := forall m, exists k, qat m d = IZR k / IZR (qat m (ppm cfg)).
Definition snap (d : quad R) : quad R :=
  let f p x := IZR (ZnearestE (x * IZR p)) / IZR p in
  Quad (f (qx (ppm cfg)) (qx d)) (f (qy (ppm cfg)) (qy d)) (f (qz (ppm cfg)) (qz d)) (f (qe (ppm cfg)) (qe d)).
Lemma round1_R (x : R) (p : Z) : (0 < p)%Z -> round1 (N:=RN) x (1 / IZR p) = Ok (IZR (ZnearestE (x * IZR p)) / IZR p).
Proof.
  intros P. apply (IZR_lt 0) in P. unfold round1. rewrite div_R by (apply Rgt_not_eq, Rdiv_lt_0_compat; lra). cbn [rbind].
  cbn. f_equal. replace (x / (1 / IZR p)) with (x * IZR p) by (field; lra). field. lra.
Qed.
Lemma round_to_grid_R d : round_to_grid (N:=RN) cfg d = Ok (snap d).
Proof.
  assert (P: forall m, 0 < IZR (qat m (ppm cfg))) by (intros m; apply (IZR_lt 0), Hp).
  assert (PX := P MX). assert (PY := P MY). assert (PZ := P MZ). assert (PE := P ME). cbn [qat] in *.
  unfold round_to_grid, grid. change (ofZ (p:=RN)) with IZR. rewrite !div_R by lra. cbn [rbind].
  unfold Coordinates.round. cbn [qx qy qz qe]. rewrite !round1_R; [reflexivity|apply (Hp ME)|apply (Hp MZ)|apply (Hp MY)|apply (Hp MX)].
Qed.
Lemma snap_grid d : on_grid (snap d).
Proof. intros []; eexists; reflexivity. Qed.
Lemma snap_id d : on_grid d -> snap d = d.
Proof.
  intros H. assert (K: forall m, IZR (ZnearestE (qat m d * IZR (qat m (ppm cfg)))) / IZR (qat m (ppm cfg)) = qat m d).
  { intros m. destruct (H m) as [k E]. assert (P := Hp m). apply (IZR_lt 0) in P. rewrite E. replace (IZR k / _ * _) with (IZR k) by (field; lra). now rewrite Zrnd_IZR by apply valid_rnd_N. }
  destruct d as [dx dy dz de]. unfold snap. cbn [qx qy qz qe]. f_equal; [apply (K MX)|apply (K MY)|apply (K MZ)|apply (K ME)].
Qed.

Definition seen_end (pl : plane) (d rr : quad R) : R * R := (axis_a pl d - axis_a pl rr, axis_b pl d - axis_b pl rr).
Lemma executed_as_commanded hw (delta radius : quad RN) (v : RN) rot m l m' l' :
  move_circular (N:=RN) cfg hw delta radius v rot m l = (m', l', Ok tt) ->
  let d := snap delta in let rr := snap radius in let '(x, y) := seen_end (m_plane m) d rr in
  x * x + y * y = axis_a (m_plane m) rr * axis_a (m_plane m) rr + axis_b (m_plane m) rr * axis_b (m_plane m) rr ->
  (axis_a (m_plane m) d = 0 /\ axis_b (m_plane m) d = 0) \/ x = 0 \/ y = 0 \/ Rabs x = Rabs y ->
  exists g, l' = l ++ [EMove (GCircular g)] /\ c_delta g = d /\ m_position m' = cadd (N:=RN) (m_position m) d.
Proof.
  intros H d rr. unfold seen_end. intros On Sp. apply move_circular_inv in H. inversion H; subst; clear H.
  match goal with K : circular_ok _ _ _ _ _ _ _ _ _ _ |- _ => destruct K as [d' rr' ea eb Hd Hrr Hbox Had Hce Hg Hf Hld Hlg] end.
  rewrite round_to_grid_R in Hd, Hrr. injection Hd as Hd. injection Hrr as Hrr. change (snap delta) with d in Hd. change (snap radius) with rr in Hrr. subst d' rr'. clearbody rr. rename rr into r0. assert (Dg: on_grid d) by apply snap_grid. clearbody d.
  assert (E: ea = axis_a (m_plane m) d /\ eb = axis_b (m_plane m) d).
  { unfold adjust_circle in Had. apply rbind_ok in Had. destruct Had as (r & R & Had). apply ofsqrt in R. destruct R as [R0 R].
    change (eqb (p:=RN)) with Reqb in Had. change (@zero RN) with 0 in Had. destruct (Reqb r 0) eqn:RZ; [discriminate|].
    assert (Rp: 0 < r) by (assert (r <> 0) by (intros K; apply Reqb_true in K; congruence); assert (0 <= r) by (rewrite R; apply sqrt_pos); lra).
    assert (R2: r * r = axis_a (m_plane m) r0 * axis_a (m_plane m) r0 + axis_b (m_plane m) r0 * axis_b (m_plane m) r0) by (rewrite R; apply sqrt_sqrt; exact R0).
    destruct (end_point r (axis_a (m_plane m) d) (axis_b (m_plane m) d) (axis_a (m_plane m) r0) (axis_b (m_plane m) r0)) as (ea' & eb' & q & E & K).
    { rewrite R2. exact On. }
    match type of Had with context [rbind ?t _] => replace t with (Ok (ea', eb', q) : res (RN * RN * Z)) in Had by (symmetry; exact E) end.
    cbn [rbind] in Had. destruct (quarters_ok _ _ _ _ _ _ _ _ _ _ _); [|discriminate]. injection Had as <- <-. apply K. exact Sp. }
  destruct E as [-> ->].
  assert (Ece: ce = d).
  { rewrite round_to_grid_R in Hce. injection Hce as <-. replace (from_axes _ _ _ _ _) with d by (destruct (m_plane m), d; reflexivity). apply snap_id, Dg. }
  subst ce. assert (Z: csub (N:=RN) d d = Quad 0 0 0 0) by (unfold csub, coords; cbn; f_equal; lra).
  assert (Lg: lg = None).
  { destruct lg; [|reflexivity]. destruct Hlg as [Hlg _]. rewrite Hld, Z in Hlg. unfold is_zero in Hlg. cbn [qx qy qz qe] in Hlg. change (eqb (p:=RN) 0 (@zero RN)) with (Reqb 0 0) in Hlg. rewrite (proj2 (Reqb_true 0 0) eq_refl) in Hlg. discriminate Hlg. }
  subst lg. exists g. split; [reflexivity|]. split.
  - exact (k_delta _ _ _ _ _ _ _ (make_circular_made (N:=RN) cfg d r0 (m_plane m) rot v g Hg)).
  - rewrite Hld, Z. unfold cadd, coords. cbn. f_equal; lra.
Qed.
End Command.
