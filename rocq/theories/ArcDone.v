(** binary64 arcs whose plane axes have equal steps: the generator runs to its end. *)
From Coq Require Import ZArith Bool Reals Lra Lia List Psatz.
From Flocq Require Import Core BinarySingleNaN.
From Verif Require Import PyBase PyNum PyFloatFacts Config Coordinates Pulses PulseSpec Decimal MachinePos MachineArc LinearGen ArcSpec ArcRun ArcMake ArcFloat ArcGrid.
From Coq Require Import List.
From Flocq Require Import Core.
Import ListNotations.
Local Open Scope R_scope.

(* ---------- finite and not negative ---------- *)
Definition nn (e : Z) (x : f64) : Prop := fin x /\ 0 <= val x <= bpow radix2 e.

Lemma nn_bd e x : nn e x -> bd e x.
Proof. intros [F H]. split; [exact F|]. rewrite Rabs_pos_eq; lra. Qed.
Lemma bd_nn e x : bd e x -> 0 <= val x -> nn e x.
Proof. intros [F H] H0. split; [exact F|]. rewrite Rabs_pos_eq in H; lra. Qed.
Lemma nn_weak e e' x : nn e x -> (e <= e')%Z -> nn e' x.
Proof. intros [F H] L. split; [exact F|]. assert (X := bpow_le radix2 e e' L). lra. Qed.
Lemma nn_abs e x : bd e x -> nn e (Babs x).
Proof. intros [F H]. split; [now apply fin_abs|]. rewrite val_abs. split; [apply Rabs_pos|exact H]. Qed.
Lemma nn_mul e1 e2 x y : (-1074 <= e1 + e2 <= 1000)%Z -> nn e1 x -> nn e2 y -> nn (e1 + e2) (f_mul x y).
Proof.
  intros L [Fx Hx] [Fy Hy].
  assert (B: 0 <= val x * val y <= bpow radix2 (e1 + e2)) by (rewrite bpow_plus; split; [apply Rmult_le_pos|apply Rmult_le_compat]; lra).
  destruct (f_mul_val x y Fx Fy) as [F V]; [apply (bd_big (e1 + e2)); [rewrite Rabs_pos_eq; lra|lia]|].
  split; [exact F|]. rewrite V. split; [rewrite <- rd_0|rewrite <- (rd_bpow (e1 + e2)) by lia]; apply rd_le; lra.
Qed.
Lemma nn_add e x y : (-1074 <= e < 1000)%Z -> nn e x -> nn e y -> nn (e + 1) (f_add x y) /\ val x <= val (f_add x y) /\ val y <= val (f_add x y).
Proof.
  intros L [Fx Hx] [Fy Hy]. assert (D := bpow_double e).
  destruct (f_add_val x y Fx Fy) as [F V]; [apply (bd_big (e + 1)); [rewrite Rabs_pos_eq; lra|lia]|].
  split; [split; [exact F|]|].
  - rewrite V. split; [rewrite <- rd_0|rewrite <- (rd_bpow (e + 1)) by lia]; apply rd_le; lra.
  - rewrite V. split; [rewrite <- (rd_val x) at 1|rewrite <- (rd_val y) at 1]; apply rd_le; lra.
Qed.
Lemma nn_div e1 e2 x y : (-1074 <= e1 - e2 <= 1000)%Z -> nn e1 x -> fin y -> bpow radix2 e2 <= val y -> exists q, f_div x y = Ok q /\ nn (e1 - e2) q.
Proof.
  intros L [Fx Hx] Fy Hy. assert (P := bpow_gt_0 radix2 e2).
  assert (B: 0 <= val x / val y <= bpow radix2 (e1 - e2)).
  { unfold Rdiv, Zminus. rewrite bpow_plus, bpow_opp. split; [apply Rmult_le_pos; [lra|]; left; apply Rinv_0_lt_compat; lra|].
    apply Rmult_le_compat; [lra|left; apply Rinv_0_lt_compat; lra|lra|]. apply Rinv_le_contravar; lra. }
  destruct (f_div_val x y Fx Fy) as (q & E & F & V); [lra|apply (bd_big (e1 - e2)); [rewrite Rabs_pos_eq; lra|lia]|].
  exists q. split; [exact E|]. split; [exact F|]. rewrite V. split; [rewrite <- rd_0|rewrite <- (rd_bpow (e1 - e2)) by lia]; apply rd_le; lra.
Qed.
Lemma nn_sqrt e x : (-1074 <= e)%Z -> nn (e + e) x -> exists q, f_sqrt x = Ok q /\ nn e q /\ val q = rd (sqrt (val x)).
Proof.
  intros L [F H]. destruct (f_sqrt_val x F) as (q & E & Fq & Vq); [lra|]. exists q. split; [exact E|]. split; [|exact Vq].
  destruct (bd_sqrt e x q L (nn_bd _ _ (conj F H)) E) as [B N]. now apply bd_nn.
Qed.

(** A velocity: a number of ten decimals. *)
Definition speed (x : f64) : Prop := nn 400 x /\ (val x = 0 \/ bpow radix2 (-35) <= val x).
Lemma speed_rnd10 x : nn 400 x -> speed (f_rnd10 x).
Proof.
  intros H. assert (F := proj1 H). assert (B := bd_rnd10 400 x ltac:(lia) (nn_bd _ _ H)).
  destruct (f_rnd10_val x F) as (F' & V & _).
  assert (K: (0 <= dec10 (val x))%Z). { assert (X := dec10_ge (val x) 0). simpl in X. apply X. exact (proj1 (proj2 H)). }
  assert (V0: val (f_rnd10 x) = 0 \/ bpow radix2 (-35) <= val (f_rnd10 x)).
  { rewrite V. destruct (Z.eq_dec (dec10 (val x)) 0) as [E|E].
    - left. rewrite E. unfold Rdiv. rewrite Rmult_0_l. apply rd_0.
    - right. rewrite <- (rd_bpow (-35)) by lia. apply rd_le. assert (1 <= IZR (dec10 (val x))) by (apply IZR_le; lia).
      b2n. unfold e10. lra. }
  split; [|exact V0]. apply bd_nn; [exact B|]. assert (Y := bpow_ge_0 radix2 (-35)). destruct V0 as [V0|X]; lra.
Qed.
Lemma speed_0 : speed (f_ofZ 0).
Proof. destruct (f_ofZ_val 0) as [F V]; [lia|]. split; [split; [exact F|]|left; exact V]. rewrite V. split; [lra|apply bpow_ge_0]. Qed.
Lemma ofZ_nn e n : (0 <= n <= 2 ^ e)%Z -> (0 <= e <= 53)%Z -> nn e (f_ofZ n) /\ val (f_ofZ n) = IZR n.
Proof.
  intros H He. assert (2 ^ e <= 2 ^ 53)%Z by (apply Z.pow_le_mono_r; lia). destruct (f_ofZ_val n) as [F V]; [lia|]. split; [|exact V]. split; [exact F|].
  rewrite V, <- (IZR_Zpower radix2) by lia. split; [apply (IZR_le 0); lia|apply IZR_le; exact (proj2 H)].
Qed.

Section Speeds.
Variable acos : f64 -> f64.
Notation N := (F64 acos).
Variable cfg : config.
Hypothesis Hmax : forall m, (0 <= qat m (max_velocity_min cfg) <= 2 ^ 53)%Z.
Hypothesis Hacc : (1 <= max_acceleration cfg <= 2 ^ 53)%Z.

Definition speeds (q : quad N) : Prop := forall m, speed (qat m q).

Lemma pmin_cases (x y : N) : pmin x y = x \/ pmin x y = y.
Proof. unfold pmin. destruct (ltb y x); auto. Qed.
Lemma pmax_cases (x y : N) : pmax x y = x \/ pmax x y = y.
Proof. unfold pmax. destruct (ltb x y); auto. Qed.
Lemma find_max_speed (q : quad N) (P : N -> Prop) : (forall m, P (qat m q)) -> P (find_max q).
Proof.
  intros H. assert (X := H MX). assert (Y := H MY). assert (Z := H MZ). assert (E := H ME). cbn [qat] in *. unfold find_max.
  destruct (pmax_cases (pmax (pmax (qx q) (qy q)) (qz q)) (qe q)) as [->| ->]; [|exact E].
  destruct (pmax_cases (pmax (qx q) (qy q)) (qz q)) as [->| ->]; [|exact Z].
  destruct (pmax_cases (qx q) (qy q)) as [->| ->]; assumption.
Qed.
Definition factor (k : f64) : Prop := fin k /\ 0 <= val k <= 1.
Lemma adjust1_factor (k v : N) n k' : factor k -> speed v -> (0 <= n <= 2 ^ 53)%Z -> adjust1 k v (ofZ n) = Ok k' -> factor k'.
Proof.
  intros [Fk Hk] [[Fv Hv] Sv] Hn. unfold adjust1. cbn [ltb mul ofZ F64 div]. change (@sixty N) with (f_ofZ 60).
  destruct (ofZ_nn 53 n Hn ltac:(lia)) as [Nn Vn]. destruct (ofZ_nn 6 60 ltac:(lia) ltac:(lia)) as [N60 V60].
  destruct (f_lt (f_ofZ n) (f_mul v (f_ofZ 60))) eqn:L; [|intros H; injection H as <-; split; assumption].
  assert (Nv: val v <> 0).
  { intros E. apply f_lt_true in L; [|apply Nn|apply (nn_mul 400 6); [lia|split; auto|auto]]. destruct (f_mul_val v (f_ofZ 60) Fv (proj1 N60)) as [_ V]; [rewrite E, Rmult_0_l, Rabs_R0; apply bpow_ge_0|].
    rewrite V, E, Rmult_0_l, rd_0 in L. destruct Nn as [_ Nn]. lra. }
  destruct Sv as [Sv|Sv]; [contradiction|].
  destruct (nn_div 53 (-35) (f_ofZ n) v ltac:(lia) Nn Fv Sv) as (a & -> & Na). cbn [rbind].
  destruct (nn_div (53 - -35) 0 a (f_ofZ 60) ltac:(lia) Na (proj1 N60)) as (b & -> & Nb); [rewrite V60; simpl; lra|]. cbn [rbind].
  intros H. injection H as <-. unfold pmin. cbn [ltb F64]. destruct (f_lt b k) eqn:Lb; [|split; assumption].
  apply f_lt_true in Lb; [|apply Nb|exact Fk]. destruct Nb as [Fb Hb]. split; [exact Fb|lra].
Qed.
Lemma adjust_speeds (q q' : quad N) : speeds q -> adjust_velocity cfg q = Ok q' -> speeds q'.
Proof.
  intros S. unfold adjust_velocity. destruct (negb (auto_velocity cfg)); [intros H; now injection H as <-|].
  intros H.
  destruct (adjust1 one (qx q) (maxv cfg qx)) as [k1|] eqn:E1; cbn [rbind] in H; [|discriminate].
  destruct (adjust1 k1 (qy q) (maxv cfg qy)) as [k2|] eqn:E2; cbn [rbind] in H; [|discriminate].
  destruct (adjust1 k2 (qz q) (maxv cfg qz)) as [k3|] eqn:E3; cbn [rbind] in H; [|discriminate].
  destruct (adjust1 k3 (qe q) (maxv cfg qe)) as [k4|] eqn:E4; cbn [rbind] in H; [|discriminate].
  injection H as <-.
  assert (K0: factor (@one N)). { destruct (f_ofZ_val 1) as [F V]; [lia|]. split; [exact F|]. change (@one N) with (f_ofZ 1). rewrite V. simpl. lra. }
  assert (K1 := adjust1_factor _ _ _ _ K0 (S MX) (Hmax MX) E1). assert (K2 := adjust1_factor _ _ _ _ K1 (S MY) (Hmax MY) E2).
  assert (K3 := adjust1_factor _ _ _ _ K2 (S MZ) (Hmax MZ) E3). assert (K4 := adjust1_factor _ _ _ _ K3 (S ME) (Hmax ME) E4).
  assert (K5: nn 0 k4) by (destruct K4; split; auto).
  intros m. assert (X: qat m (cmul q k4) = f_rnd10 (f_mul (qat m q) k4)) by (destruct m; reflexivity). rewrite X.
  apply speed_rnd10. destruct (S m) as [Sm _]. change 400%Z with (400 + 0)%Z. apply nn_mul; [lia|exact Sm|exact K5].
Qed.
End Speeds.

(* ---------- the acceleration ---------- *)
Section Accel.
Variable acos : f64 -> f64.
Notation N := (F64 acos).
(** A pulse time. *)
Definition moment (x : f64) : Prop := fin x /\ 0 <= val x.

Lemma mul_sqrt_ok (x y : f64) : moment x -> moment y -> exists t, f_sqrt (f_mul x y) = Ok t /\ (val y = 0 -> fin t /\ val t = 0).
Proof.
  intros [Fx Hx] [Fy Hy]. assert (P: 0 <= val x * val y) by now apply Rmult_le_pos.
  destruct (f_mul_cases x y Fx Fy) as [[F V]|[b E]].
  - assert (0 <= val (f_mul x y)) by (rewrite V, <- rd_0; now apply rd_le).
    destruct (f_sqrt_val _ F H) as (t & E & Ft & Vt). exists t. split; [exact E|]. intros Z. split; [exact Ft|]. rewrite Vt, V, Z, Rmult_0_r, rd_0, sqrt_0. apply rd_0.
  - destruct b.
    + exfalso. assert (X := Bmult_correct prec64 emax64 _ _ mode_NE x y). change (Bmult mode_NE x y) with (f_mul x y) in X. rewrite E in X.
      destruct (Rlt_bool _ _) in X.
      * destruct X as (_ & X & _). rewrite Fx, Fy in X. discriminate.
      * cbn in X. destruct x as [sx|sx| |sx mx ex Bx]; try discriminate; destruct y as [sy|sy| |sy my ey By]; try discriminate; cbn in E; try discriminate.
        assert (sx = false). { destruct sx; [|reflexivity]. exfalso. assert (Y := F2R_lt_0 radix2 (Float radix2 (Z.neg mx) ex) ltac:(simpl; lia)). simpl in Hx. unfold F2R in *. simpl in *. lra. }
        assert (sy = false). { destruct sy; [|reflexivity]. exfalso. assert (Y := F2R_lt_0 radix2 (Float radix2 (Z.neg my) ey) ltac:(simpl; lia)). simpl in Hy. unfold F2R in *. simpl in *. lra. }
        subst. cbn in X. discriminate.
    + rewrite E. cbn. eexists. split; [reflexivity|]. intros Z. exfalso.
      assert (X := f_mul_val x y Fx Fy). rewrite Z, Rmult_0_r, Rabs_R0 in X. destruct (X (bpow_ge_0 _ _)) as [F _]. rewrite E in F. discriminate.
Qed.
Lemma accel_ok (acc lin c pt : N) : nn 400 acc -> moment c -> moment pt -> exists y, to_accelerated_time (N:=N) acc lin c pt = Ok y.
Proof.
  intros Na Nc Np. unfold to_accelerated_time. cbn [sqrtn mul F64 leb sqr div add sub ltb].
  destruct (mul_sqrt_ok pt c Np Nc) as (t & -> & Z). cbn [rbind].
  destruct (f_le t acc) eqn:L; [eauto|].
  assert (NZ: val c <> 0). { intros E. destruct (Z E) as [Ft Vt]. apply f_le_false in L; [|exact Ft|apply Na]. destruct Na as [_ Na]. lra. }
  assert (N2 := nn_mul 400 400 acc acc ltac:(lia) Na Na).
  assert (S: f_sqr acc = Ok (f_mul acc acc)).
  { unfold f_sqr. destruct N2 as [F _]. unfold fin in F. rewrite F. now rewrite andb_false_r. }
  rewrite S. cbn [rbind]. unfold f_div.
  replace (is_zero_f c) with false. 2: { symmetry. destruct (is_zero_f c) eqn:E; [|reflexivity]. apply is_zero_f_val in E; [|apply Nc]. contradiction. }
  cbn [rbind]. match goal with |- context [if f_le ?a ?b then _ else _] => destruct (f_le a b) end; [eauto|].
  destruct (f_lt (@zero N) _) eqn:E; [|cbn [rbind]; eauto].
  revert E. match goal with |- context [f_sqrt ?d] => destruct d as [[]|[]| |[] md ed Bd] end; intros E; try discriminate E; cbn [f_sqrt rbind]; eexists; reflexivity.
Qed.
End Accel.
