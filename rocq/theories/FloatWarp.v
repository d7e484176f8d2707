(** The acceleration of pulse times in binary64, on the values of the numbers. *)
From Coq Require Import ZArith Bool Reals Lra Lia Psatz.
From Flocq Require Import Core BinarySingleNaN.
From Verif Require Import PyBase PyNum PyFloatFacts FloatRel.
From Flocq Require Import Core.
Local Open Scope R_scope.

Lemma rd_ab y B : Rabs y <= B -> bpow radix2 (-900) <= B -> Rabs (rd y - y) <= ep * B.
Proof.
  intros H HB. assert (B0: 0 < B) by (eapply Rlt_le_trans; [apply bpow_gt_0|exact HB]).
  destruct (mag radix2 B) as [e He]. specialize (He (Rgt_not_eq _ _ B0)). rewrite (Rabs_pos_eq B) in He by lra. destruct He as [L U].
  assert (E: (-900 < e)%Z) by (apply (lt_bpow radix2); lra).
  assert (Z: Rabs (rd y - y) <= bpow radix2 (e - 54)) by (apply rd_error; [lia|lra]).
  eapply Rle_trans; [exact Z|]. replace (e - 54)%Z with (-53 + (e - 1))%Z by lia. rewrite bpow_plus. change (bpow radix2 (-53)) with (/ 9007199254740992). unfold ep.
  assert (0 <= bpow radix2 (e - 1)) by apply bpow_ge_0. nra.
Qed.
Lemma sqrt_gap a u w : 0 < a -> 0 <= u <= w -> w <= a * a -> (w - u) / (2 * a) <= sqrt w - sqrt u.
Proof.
  intros A0 [U0 UW] WA. assert (W0: 0 <= w) by lra. assert (Su := sqrt_sqrt u U0). assert (Sw := sqrt_sqrt w W0).
  assert (Pu := sqrt_pos u). assert (Pw := sqrt_pos w). assert (Le := sqrt_le_1_alt _ _ UW).
  assert (Ua: sqrt w <= a) by (rewrite <- (sqrt_square a) by lra; now apply sqrt_le_1_alt).
  apply Rmult_le_reg_r with (2 * a); [lra|]. replace ((w - u) / (2 * a) * (2 * a)) with (w - u) by (field; apply Rgt_not_eq; lra). rewrite <- Su at 1. rewrite <- Sw at 1.
  set (s := sqrt w) in *. set (t := sqrt u) in *. clearbody s t. replace (s * s - t * t) with ((s - t) * (s + t)) by ring. apply Rmult_le_compat_l; lra.
Qed.
Lemma sqrt_close u w E b : 0 <= u -> 0 < b -> b * b <= w -> Rabs (u - w) <= E -> Rabs (sqrt u - sqrt w) <= E / b.
Proof.
  intros U0 B0 Bw H. assert (W0: 0 <= w) by nra. assert (Su := sqrt_sqrt u U0). assert (Sw := sqrt_sqrt w W0).
  assert (Pu := sqrt_pos u). assert (Bs: b <= sqrt w) by (rewrite <- (sqrt_square b) by lra; now apply sqrt_le_1_alt).
  apply Rmult_le_reg_r with b; [exact B0|]. replace (E / b * b) with E by (field; apply Rgt_not_eq; lra).
  apply Rle_trans with (Rabs (sqrt u - sqrt w) * (sqrt u + sqrt w)); [apply Rmult_le_compat_l; [apply Rabs_pos|lra]|].
  rewrite <- (Rabs_pos_eq (sqrt u + sqrt w)) by lra. rewrite <- Rabs_mult.
  replace ((sqrt u - sqrt w) * (sqrt u + sqrt w)) with (u - w); [exact H|]. rewrite <- Su at 1. rewrite <- Sw at 1. ring.
Qed.

Section Warp.
Variables a L C : R.
Hypothesis fa : rd a = a.
Hypothesis Ba : bpow radix2 (-28) <= a.
Hypothesis BL : 0 <= L <= bpow radix2 22.
Hypothesis BC : 99 / 100 * a <= C <= 201 / 100 * a.

Definition Q := a * a / C.
Definition M := a + L.
Definition acc2 := rd (a * a).
Definition q := rd (acc2 / C).
Definition tA x := rd (sqrt (rd (x * C))).
Definition tB x := rd (rd (a + x) - q).
Definition bt x := rd (rd (tB x - a) - L).
Definition dd x := rd (acc2 - rd (C * bt x)).
Definition ss x := if Rlt_dec 0 (dd x) then rd (sqrt (dd x)) else 0.
Definition T := rd (rd (2 * a) + L).
Definition tC x := rd (T - ss x).
Definition W x := if Rle_dec (tA x) a then tA x else if Rle_dec (bt x) 0 then tB x else tC x.

Lemma a0 : 0 < a. Proof. eapply Rlt_le_trans; [apply bpow_gt_0|exact Ba]. Qed.
Lemma a_small : bpow radix2 (-100) <= a. Proof. eapply Rle_trans; [|exact Ba]. apply bpow_le. lia. Qed.
Lemma C0 : 0 < C. Proof. pose proof a0. lra. Qed.
Lemma QC : Q * C = a * a. Proof. unfold Q. field. apply Rgt_not_eq, C0. Qed.
Lemma Q_bounds : 49 / 100 * a <= Q <= 102 / 100 * a.
Proof. pose proof a0. pose proof C0. pose proof QC. split; apply Rmult_le_reg_r with C; try lra; rewrite H1; nra. Qed.
Lemma aa_low : bpow radix2 (-200) <= a * a.
Proof. change (-200)%Z with (-100 + -100)%Z. rewrite bpow_plus. pose proof (bpow_ge_0 radix2 (-100)). apply Rmult_le_compat; try assumption; apply a_small. Qed.
Lemma small1 e : (-900 <= e)%Z -> bpow radix2 (-900) <= bpow radix2 e. Proof. intros. apply bpow_le. lia. Qed.
Lemma M_low : bpow radix2 (-100) <= M. Proof. unfold M. pose proof a_small. lra. Qed.
Lemma M900 k : 1 <= k -> bpow radix2 (-900) <= k * M.
Proof. intros K. pose proof M_low. pose proof (bpow_gt_0 radix2 (-100)). apply Rle_trans with M; [|nra]. eapply Rle_trans; [apply (bpow_le radix2 (-900) (-100)); lia|exact H]. Qed.
Lemma acc2_cl : cl 2 acc2 (a * a).
Proof. unfold acc2. replace 2 with (0 + 2) by ring. apply cl_rd; [lra| |apply cl_refl; pose proof a0; nra]. right. eapply Rle_trans; [|exact aa_low]. apply bpow_le. lia. Qed.
Lemma q_cl : cl 6 q Q.
Proof.
  unfold q. replace 6 with (2 + 0 + 2 + 2) by ring. apply cl_rd; [lra| |].
  - right. pose proof Q_bounds. pose proof a_small. apply Rle_trans with (49 / 100 * bpow radix2 (-100)); [|lra].
    apply Rle_trans with (bpow radix2 (-2) * bpow radix2 (-100)); [rewrite <- bpow_plus; apply bpow_le; lia|]. apply Rmult_le_compat_r; [apply bpow_ge_0|]. change (bpow radix2 (-2)) with (/ 4). lra.
  - unfold Q. pose proof a0. pose proof C0. apply cl_div; try lra; [nra|exact acc2_cl|apply cl_refl; lra].
Qed.

(* ---------- monotone in each phase ---------- *)
Lemma tA_mono x y : x <= y -> tA x <= tA y.
Proof. intros H. apply rd_le, sqrt_le_1_alt, rd_le. apply Rmult_le_compat_r; [apply Rlt_le, C0|exact H]. Qed.
Lemma tB_mono x y : x <= y -> tB x <= tB y.
Proof. intros H. apply rd_le. apply Rplus_le_compat_r, rd_le. lra. Qed.
Lemma bt_mono x y : x <= y -> bt x <= bt y.
Proof. intros H. apply rd_le. apply Rplus_le_compat_r, rd_le. apply Rplus_le_compat_r. now apply tB_mono. Qed.
Lemma dd_mono x y : x <= y -> dd y <= dd x.
Proof. intros H. apply rd_le. apply Rplus_le_compat_l, Ropp_le_contravar, rd_le. apply Rmult_le_compat_l; [apply Rlt_le, C0|now apply bt_mono]. Qed.
Lemma rd_pos x : 0 <= x -> 0 <= rd x. Proof. intros. rewrite <- rd_0. now apply rd_le. Qed.
Lemma ss_pos x : 0 <= ss x. Proof. unfold ss. destruct (Rlt_dec 0 (dd x)); [apply rd_pos, sqrt_pos|lra]. Qed.
Lemma ss_mono x y : x <= y -> ss y <= ss x.
Proof.
  intros H. assert (D := dd_mono x y H). unfold ss. destruct (Rlt_dec 0 (dd y)), (Rlt_dec 0 (dd x)); try lra.
  - apply rd_le. now apply sqrt_le_1_alt.
  - apply rd_pos, sqrt_pos.
Qed.
Lemma tC_mono x y : x <= y -> tC x <= tC y.
Proof. intros H. apply rd_le. assert (D := ss_mono x y H). lra. Qed.

(* ---------- errors ---------- *)
Definition normal x := x = 0 \/ bpow radix2 (-200) <= x.
Lemma tA_cl x : 0 <= x -> normal x -> cl 4 (tA x) (sqrt (x * C)).
Proof.
  intros X0 Hx. pose proof C0. pose proof a_small. unfold tA.
  assert (N1: x * C = 0 \/ bpow radix2 (-302) <= x * C).
  { destruct Hx as [->|Hx]; [left; ring|right]. change (-302)%Z with (-200 + -102)%Z. rewrite bpow_plus. apply Rmult_le_compat; try apply bpow_ge_0; [exact Hx|].
    apply Rle_trans with (bpow radix2 (-2) * bpow radix2 (-100)); [rewrite <- bpow_plus; apply bpow_le; lia|]. change (bpow radix2 (-2)) with (/ 4). lra. }
  replace 4 with (0 + 2 + 2) by ring. apply cl_rd; [lra| |].
  - destruct N1 as [->|N1]; [left; apply sqrt_0|right]. apply Rle_trans with (bpow radix2 (-151)); [apply bpow_le; lia|].
    rewrite <- (sqrt_square (bpow radix2 (-151))) by apply bpow_ge_0. rewrite <- bpow_plus. now apply sqrt_le_1_alt.
  - apply cl_sqrt; [lra|nra|]. apply cl_rd; [lra| |apply cl_refl; nra]. destruct N1 as [N1|N1]; [now left|right]. eapply Rle_trans; [|exact N1]. apply bpow_le. lia.
Qed.
Lemma inA x : 0 <= x -> normal x -> tA x <= a -> x <= Q * (1 + 10 * ep).
Proof.
  intros X0 Hx H. destruct (tA_cl x X0 Hx) as [Lo _]. pose proof C0. pose proof a0. assert (XC: 0 <= x * C) by nra. assert (S := sqrt_sqrt _ XC). assert (Sp := sqrt_pos (x * C)).
  set (s := sqrt (x * C)) in *. assert (Z: (1 - 4 * ep) * s * ((1 - 4 * ep) * s) <= a * a).
  { apply Rmult_le_compat; try lra; apply Rmult_le_pos; try lra; unfold ep; lra. }
  assert (Z2: (1 - 8 * ep) * (x * C) <= Q * C). { rewrite QC, <- S. assert (0 <= ep * ep * (s * s)) by (unfold ep; nra). lra. }
  assert (Z3: (1 - 8 * ep) * x <= Q) by (apply Rmult_le_reg_r with C; [lra|]; lra).
  assert (Z4: (1 - 8 * ep) * x * (1 + 10 * ep) <= Q * (1 + 10 * ep)) by (apply Rmult_le_compat_r; [unfold ep; lra|exact Z3]).
  eapply Rle_trans; [|exact Z4]. unfold ep. lra.
Qed.
Lemma outA x : 0 <= x -> normal x -> a < tA x -> Q * (1 - 10 * ep) <= x.
Proof.
  intros X0 Hx H. destruct (tA_cl x X0 Hx) as [_ Up]. pose proof C0. pose proof a0. assert (XC: 0 <= x * C) by nra. assert (S := sqrt_sqrt _ XC). assert (Sp := sqrt_pos (x * C)).
  set (s := sqrt (x * C)) in *. assert (Z: a * a <= (1 + 4 * ep) * s * ((1 + 4 * ep) * s)) by (apply Rmult_le_compat; lra).
  assert (Z2: Q * C <= (1 + 9 * ep) * (x * C)). { rewrite QC, <- S. assert (0 <= (ep - 16 * ep * ep) * (s * s)) by (apply Rmult_le_pos; [unfold ep; lra|nra]). lra. }
  assert (Z3: Q <= (1 + 9 * ep) * x) by (apply Rmult_le_reg_r with C; [lra|]; lra).
  assert (Z4: Q * (1 - 10 * ep) <= (1 + 9 * ep) * x * (1 - 10 * ep)) by (apply Rmult_le_compat_r; [unfold ep; lra|exact Z3]).
  eapply Rle_trans; [exact Z4|]. unfold ep. lra.
Qed.
Lemma ax900 x : 0 <= x -> bpow radix2 (-900) <= a + x.
Proof. intros X0. apply Rle_trans with a; [|lra]. eapply Rle_trans; [|exact a_small]. apply bpow_le. lia. Qed.
Lemma tB_err x : 0 <= x -> Rabs (tB x - (a + x - Q)) <= 10 * ep * (a + x).
Proof.
  intros X0. pose proof a0. pose proof Q_bounds. assert (N := ax900 x X0). destruct q_cl as [q1 q2].
  assert (E1: Rabs (rd (a + x) - (a + x)) <= ep * (a + x)) by (apply rd_ab; [rewrite Rabs_pos_eq; lra|exact N]). apply Rabs_le_inv in E1.
  assert (eax: 0 <= ep * (a + x) <= / 1000 * (a + x)) by (split; [apply Rmult_le_pos|apply Rmult_le_compat_r]; try (unfold ep; lra); lra).
  assert (eQ: 0 <= ep * Q <= / 1000 * Q) by (split; [apply Rmult_le_pos|apply Rmult_le_compat_r]; try (unfold ep; lra); lra).
  assert (eQa: ep * Q <= 102 / 100 * (ep * (a + x))) by (replace (102 / 100 * (ep * (a + x))) with (ep * (102 / 100 * (a + x))) by ring; apply Rmult_le_compat_l; [unfold ep; lra|lra]).
  assert (E2: Rabs (tB x - (rd (a + x) - q)) <= ep * (2 * (a + x))) by (apply rd_ab; [apply Rabs_le; lra|lra]). apply Rabs_le_inv in E2. apply Rabs_le. lra.
Qed.
Lemma bt_err1 x : 0 <= x -> Rabs (bt x - (tB x - a - L)) <= 6 * ep * (a + x + L).
Proof.
  intros X0. pose proof a0. pose proof Q_bounds. assert (N := ax900 x X0). assert (B := tB_err x X0). apply Rabs_le_inv in B.
  assert (eax: 0 <= ep * (a + x) <= / 1000 * (a + x)) by (split; [apply Rmult_le_pos|apply Rmult_le_compat_r]; try (unfold ep; lra); lra).
  assert (eL: 0 <= ep * L) by (apply Rmult_le_pos; [unfold ep; lra|lra]).
  assert (E1: Rabs (rd (tB x - a) - (tB x - a)) <= ep * (2 * (a + x))) by (apply rd_ab; [apply Rabs_le; lra|lra]). apply Rabs_le_inv in E1.
  assert (E2: Rabs (bt x - (rd (tB x - a) - L)) <= ep * (3 * (a + x) + L)) by (apply rd_ab; [apply Rabs_le; lra|lra]). apply Rabs_le_inv in E2.
  apply Rabs_le. lra.
Qed.
Definition inside x := 0 <= x <= 2 * Q + L.
Lemma inside_M x : inside x -> a + x + L <= 31 / 10 * M /\ 0 <= ep * M.
Proof. intros [X0 X1]. pose proof a0. pose proof Q_bounds. unfold M. split; [lra|]. apply Rmult_le_pos; [unfold ep; lra|lra]. Qed.
Lemma ep_M x k : inside x -> 0 <= k -> k * ep * (a + x + L) <= 31 / 10 * k * ep * M.
Proof. intros I K. destruct (inside_M x I) as [H _]. replace (31 / 10 * k * ep * M) with (k * ep * (31 / 10 * M)) by ring. apply Rmult_le_compat_l; [apply Rmult_le_pos; [lra|unfold ep; lra]|exact H]. Qed.
Lemma tB_errM x : inside x -> Rabs (tB x - (a + x - Q)) <= 31 * ep * M.
Proof.
  intros I. assert (X0 := proj1 I). eapply Rle_trans; [exact (tB_err x X0)|]. assert (K := ep_M x 10 I ltac:(lra)).
  assert (10 * ep * (a + x) <= 10 * ep * (a + x + L)) by (apply Rmult_le_compat_l; [unfold ep; lra|lra]). lra.
Qed.
Lemma bt_errM1 x : inside x -> Rabs (bt x - (tB x - a - L)) <= 19 * ep * M.
Proof. intros I. assert (X0 := proj1 I). eapply Rle_trans; [exact (bt_err1 x X0)|]. assert (K := ep_M x 6 I ltac:(lra)). destruct (inside_M x I). lra. Qed.
Lemma bt_errM x : inside x -> Rabs (bt x - (x - Q - L)) <= 50 * ep * M.
Proof. intros I. assert (A1 := tB_errM x I). assert (A2 := bt_errM1 x I). apply Rabs_le_inv in A1, A2. apply Rabs_le. lra. Qed.

(* ---------- the values at the ends of the phases ---------- *)
Lemma tB_low x : 0 <= x -> normal x -> a < tA x -> a * (1 - 40 * ep) <= tB x.
Proof.
  intros X0 Hx H. assert (O := outA x X0 Hx H). assert (B := tB_err x X0). apply Rabs_le_inv in B. pose proof a0. pose proof Q_bounds.
  assert (ea: 0 <= ep * a) by (apply Rmult_le_pos; [unfold ep; lra|lra]).
  assert (eQ: ep * Q <= 102 / 100 * (ep * a)) by (replace (102 / 100 * (ep * a)) with (ep * (102 / 100 * a)) by ring; apply Rmult_le_compat_l; [unfold ep; lra|lra]).
  assert (Z: (1 - 10 * ep) * (Q * (1 - 10 * ep)) <= (1 - 10 * ep) * x) by (apply Rmult_le_compat_l; [unfold ep; lra|exact O]).
  assert (0 <= ep * ep * Q) by (apply Rmult_le_pos; [unfold ep; lra|lra]). lra.
Qed.
Lemma tB_up x : inside x -> bt x <= 0 -> tB x <= M * (1 + 19 * ep).
Proof. intros I H. assert (B := bt_errM1 x I). apply Rabs_le_inv in B. unfold M in *. lra. Qed.
Lemma a2_bounds : 2 * a * (1 - 2 * ep) <= rd (2 * a) <= 2 * a * (1 + 2 * ep).
Proof.
  pose proof a0. assert (X: cl 2 (rd (2 * a)) (2 * a)); [|destruct X; lra]. replace 2 with (0 + 2) at 1 by ring. apply cl_rd; [lra| |apply cl_refl; lra].
  right. pose proof a_small. apply Rle_trans with (bpow radix2 (-100)); [apply bpow_le; lia|lra].
Qed.
Lemma T_bounds : (2 * a + L) * (1 - 4 * ep) <= T <= (2 * a + L) * (1 + 4 * ep).
Proof.
  pose proof a0. assert (X: cl 4 T (2 * a + L)); [|destruct X; lra]. unfold T. replace 4 with (2 + 2) by ring. apply cl_rd; [lra| |].
  - right. pose proof a_small. apply Rle_trans with (bpow radix2 (-100)); [apply bpow_le; lia|lra].
  - assert (A2 := a2_bounds). assert (0 <= ep * L) by (apply Rmult_le_pos; [unfold ep; lra|lra]). unfold cl. lra.
Qed.
Lemma dd_le x : 0 < bt x -> dd x <= acc2.
Proof.
  intros H. assert (R: acc2 = rd acc2) by (unfold acc2; symmetry; apply rd_idem). rewrite R at 1. unfold dd. apply rd_le. assert (0 <= rd (C * bt x)) by (apply rd_pos; pose proof C0; nra). lra.
Qed.
Lemma ss_le x : 0 < bt x -> ss x <= a * (1 + 4 * ep).
Proof.
  intros H. assert (D := dd_le x H). pose proof a0. unfold ss. destruct (Rlt_dec 0 (dd x)); [|apply Rmult_le_pos; [lra|unfold ep; lra]].
  apply Rle_trans with (rd (sqrt acc2)); [apply rd_le, sqrt_le_1_alt, D|].
  assert (X: cl (2 + 2) (rd (sqrt acc2)) a).
  { rewrite <- (sqrt_square a) by lra. apply cl_rd; [lra| |apply cl_sqrt; [lra|nra|exact acc2_cl]]. right. rewrite sqrt_square by lra. eapply Rle_trans; [|exact a_small]. apply bpow_le. lia. }
  destruct X. lra.
Qed.
Lemma tC_low x : 0 < bt x -> M * (1 - 20 * ep) <= tC x.
Proof.
  intros H. assert (S1 := ss_le x H). assert (S0 := ss_pos x). assert (TB := T_bounds). pose proof a0. unfold M, tC.
  assert (ea: 0 <= ep * a <= / 1000 * a) by (split; [apply Rmult_le_pos|apply Rmult_le_compat_r]; try (unfold ep; lra); lra).
  assert (eL: 0 <= ep * L <= / 1000 * L) by (split; [apply Rmult_le_pos|apply Rmult_le_compat_r]; try (unfold ep; lra); lra).
  assert (E: Rabs (rd (T - ss x) - (T - ss x)) <= ep * (3 * (a + L))).
  { apply rd_ab; [apply Rabs_le; lra|]. exact (M900 3 ltac:(lra)). }
  apply Rabs_le_inv in E. lra.
Qed.

(* ---------- order ---------- *)
Lemma W_nonneg x : inside x -> normal x -> 0 <= W x.
Proof.
  intros I Hx. unfold W. pose proof a0. destruct (Rle_dec (tA x) a) as [HA|HA]; [apply rd_pos, sqrt_pos|]. destruct (Rle_dec (bt x) 0) as [HB|HB].
  - eapply Rle_trans; [|apply tB_low; [apply I|exact Hx|lra]]. apply Rmult_le_pos; [lra|unfold ep; lra].
  - eapply Rle_trans; [|apply tC_low; lra]. apply Rmult_le_pos; [unfold M; lra|unfold ep; lra].
Qed.
Lemma W_0 : W 0 = 0.
Proof.
  unfold W, tA. rewrite Rmult_0_l, rd_0, sqrt_0, rd_0. pose proof a0. destruct (Rle_dec 0 a); [reflexivity|lra].
Qed.
Lemma W_le_T x : inside x -> W x <= T.
Proof.
  intros I. assert (TB := T_bounds). pose proof a0. assert (A2 := a2_bounds).
  assert (ea: 0 <= ep * a <= / 1000 * a) by (split; [apply Rmult_le_pos|apply Rmult_le_compat_r]; try (unfold ep; lra); lra).
  assert (eL: 0 <= ep * L) by (apply Rmult_le_pos; [unfold ep; lra|lra]).
  unfold W. destruct (Rle_dec (tA x) a) as [HA|HA]; [|destruct (Rle_dec (bt x) 0) as [HB|HB]].
  - eapply Rle_trans; [exact HA|]. rewrite <- fa. apply rd_le. lra.
  - assert (R: tB x = rd (tB x)) by (unfold tB; symmetry; apply rd_idem). rewrite R. unfold T. apply rd_le. apply Rnot_lt_le. intros Lt.
    (* then the duration of the linear phase would have been exceeded *)
    assert (Lep: ep * L <= / 4 * a). { apply Rle_trans with (/ 4 * bpow radix2 (-28)); [|lra]. apply Rle_trans with (ep * bpow radix2 22); [apply Rmult_le_compat_l; [unfold ep; lra|apply BL]|]. rewrite ep_bpow, <- bpow_plus. change (/ 4) with (bpow radix2 (-2)). rewrite <- bpow_plus. apply bpow_le. lia. }
    assert (G: L + a / 2 <= rd (tB x - a)).
    { apply Rle_trans with (rd (99 / 100 * a + L)); [|apply rd_le; lra].
      assert (E: Rabs (rd (99 / 100 * a + L) - (99 / 100 * a + L)) <= ep * M).
      { apply rd_ab; [rewrite Rabs_pos_eq; unfold M; lra|]. assert (X := M900 1 ltac:(lra)). lra. }
      apply Rabs_le_inv in E. unfold M in E. lra. }
    assert (G2: rd (a / 2) <= bt x) by (apply rd_le; lra).
    assert (X: cl 2 (rd (a / 2)) (a / 2)). { replace 2 with (0 + 2) at 1 by ring. apply cl_rd; [lra| |apply cl_refl; lra]. right. pose proof a_small. apply Rle_trans with (bpow radix2 (-101)); [apply bpow_le; lia|].
      change (-101)%Z with (-1 + -100)%Z. rewrite bpow_plus. change (bpow radix2 (-1)) with (/ 2). lra. }
    destruct X as [X _]. lra.
  - assert (R: T = rd T) by (unfold T; symmetry; apply rd_idem). rewrite R. unfold tC. apply rd_le. assert (S0 := ss_pos x). lra.
Qed.
Theorem W_order x y : inside x -> inside y -> normal x -> normal y -> x <= y -> W x <= W y * (1 + 80 * ep).
Proof.
  intros Ix Iy Nx Ny H. assert (A1 := tA_mono x y H). assert (A2 := bt_mono x y H). assert (Wy := W_nonneg y Iy Ny). pose proof a0.
  assert (Same: forall u w, 0 <= w -> u <= w -> u <= w * (1 + 80 * ep)). { intros u w P K. assert (0 <= w * ep) by (apply Rmult_le_pos; [exact P|unfold ep; lra]). lra. }
  revert Wy. unfold W. destruct (Rle_dec (tA x) a) as [XA|XA], (Rle_dec (tA y) a) as [YA|YA]; try lra.
  - intros Wy. now apply Same.
  - intros _. assert (G: a * (1 - 40 * ep) <= (if Rle_dec (bt y) 0 then tB y else tC y)).
    { destruct (Rle_dec (bt y) 0); [apply tB_low; [apply Iy|exact Ny|lra]|]. eapply Rle_trans; [|apply tC_low; lra]. unfold M. assert (0 <= ep * a) by (apply Rmult_le_pos; [unfold ep; lra|lra]).
      assert (0 <= L * (1 - 20 * ep)) by (apply Rmult_le_pos; [lra|unfold ep; lra]). lra. }
    eapply Rle_trans; [exact XA|]. apply Rle_trans with (a * (1 - 40 * ep) * (1 + 80 * ep)); [unfold ep; lra|]. apply Rmult_le_compat_r; [unfold ep; lra|exact G].
  - destruct (Rle_dec (bt x) 0) as [XB|XB], (Rle_dec (bt y) 0) as [YB|YB]; try lra; intros Wy.
    + apply Same; [exact Wy|]. now apply tB_mono.
    + assert (X1 := tB_up x Ix XB). assert (Y1 := tC_low y ltac:(lra)). eapply Rle_trans; [exact X1|].
      assert (M0: 0 < M) by (unfold M; lra). apply Rle_trans with (M * (1 - 20 * ep) * (1 + 80 * ep)); [unfold ep; lra|]. apply Rmult_le_compat_r; [unfold ep; lra|exact Y1].
    + apply Same; [exact Wy|]. now apply tC_mono.
Qed.

(* ---------- the exact profile ---------- *)
Definition om x := sqrt (Rmin x Q * C) + Rmax 0 (Rmin (x - Q) L) + (a - sqrt (a * a - C * Rmax 0 (x - Q - L))).
Lemma om_slope x y : inside x -> inside y -> x <= y -> 49 / 100 * (y - x) <= om y - om x.
Proof.
  intros [X0 X1] [Y0 Y1] H. pose proof a0. pose proof C0. pose proof Q_bounds. assert (QC' := QC).
  assert (Sl: 49 / 100 <= C / (2 * a)). { apply Rmult_le_reg_r with (2 * a); [lra|]. replace (C / (2 * a) * (2 * a)) with C by (field; apply Rgt_not_eq; lra). lra. }
  assert (P1: 49 / 100 * (Rmin y Q - Rmin x Q) <= sqrt (Rmin y Q * C) - sqrt (Rmin x Q * C)).
  { assert (Mx: 0 <= Rmin x Q <= Rmin y Q) by (split; [apply Rmin_glb; lra|apply Rle_min_compat_r; exact H]). assert (My := Rmin_r y Q).
    assert (G := sqrt_gap a (Rmin x Q * C) (Rmin y Q * C) H0 ltac:(split; [apply Rmult_le_pos; lra|apply Rmult_le_compat_r; lra]) ltac:(rewrite <- QC'; apply Rmult_le_compat_r; lra)).
    replace ((Rmin y Q * C - Rmin x Q * C) / (2 * a)) with (C / (2 * a) * (Rmin y Q - Rmin x Q)) in G by (field; apply Rgt_not_eq; lra).
    eapply Rle_trans; [|exact G]. apply Rmult_le_compat_r; lra. }
  assert (P3: 49 / 100 * (Rmax 0 (y - Q - L) - Rmax 0 (x - Q - L)) <= sqrt (a * a - C * Rmax 0 (x - Q - L)) - sqrt (a * a - C * Rmax 0 (y - Q - L))).
  { assert (Mx: 0 <= Rmax 0 (x - Q - L) <= Rmax 0 (y - Q - L)) by (split; [apply Rmax_l|apply Rle_max_compat_l; lra]).
    assert (My: Rmax 0 (y - Q - L) <= Q) by (apply Rmax_lub; lra).
    assert (Z: C * Rmax 0 (y - Q - L) <= a * a) by (rewrite <- QC', (Rmult_comm Q); apply Rmult_le_compat_l; lra).
    assert (Z2: C * Rmax 0 (x - Q - L) <= C * Rmax 0 (y - Q - L)) by (apply Rmult_le_compat_l; lra).
    assert (Z3: 0 <= C * Rmax 0 (x - Q - L)) by (apply Rmult_le_pos; lra).
    assert (G := sqrt_gap a (a * a - C * Rmax 0 (y - Q - L)) (a * a - C * Rmax 0 (x - Q - L)) H0 ltac:(lra) ltac:(lra)).
    replace ((a * a - C * Rmax 0 (x - Q - L) - (a * a - C * Rmax 0 (y - Q - L))) / (2 * a)) with (C / (2 * a) * (Rmax 0 (y - Q - L) - Rmax 0 (x - Q - L))) in G by (field; apply Rgt_not_eq; lra).
    eapply Rle_trans; [|exact G]. apply Rmult_le_compat_r; lra. }
  assert (P2: 49 / 100 * (Rmax 0 (Rmin (y - Q) L) - Rmax 0 (Rmin (x - Q) L)) <= Rmax 0 (Rmin (y - Q) L) - Rmax 0 (Rmin (x - Q) L)).
  { assert (Rmax 0 (Rmin (x - Q) L) <= Rmax 0 (Rmin (y - Q) L)) by (apply Rle_max_compat_l, Rle_min_compat_r; lra). lra. }
  assert (Sum: forall z, Rmin z Q + Rmax 0 (Rmin (z - Q) L) + Rmax 0 (z - Q - L) = z).
  { intros z. unfold Rmin. destruct (Rle_dec z Q), (Rle_dec (z - Q) L); unfold Rmax; repeat match goal with |- context [Rle_dec ?u ?w] => destruct (Rle_dec u w) end; lra. }
  assert (Sx := Sum x). assert (Sy := Sum y). unfold om. lra.
Qed.
Lemma gamma_le z : 0 <= z -> z <= Q -> 0 <= a - sqrt (a * a - C * z) <= C / a * z.
Proof.
  intros Z0 ZQ. pose proof a0. pose proof C0. assert (QC' := QC). assert (U: C * z <= a * a) by (rewrite <- QC', (Rmult_comm Q); apply Rmult_le_compat_l; lra).
  assert (P: 0 <= C * z) by (apply Rmult_le_pos; lra). split.
  - assert (sqrt (a * a - C * z) <= sqrt (a * a)) by (apply sqrt_le_1_alt; lra). rewrite (sqrt_square a) in * by lra. lra.
  - set (t := C / a * z). assert (E: a * t = C * z) by (unfold t; field; apply Rgt_not_eq; lra). assert (t0: 0 <= t) by (unfold t; apply Rmult_le_pos; [|lra]; apply Rmult_le_pos; [lra|apply Rlt_le, Rinv_0_lt_compat; lra]).
    assert (ta: t <= a) by (apply Rmult_le_reg_l with a; [lra|]; lra).
    assert (a - t <= sqrt (a * a - C * z)); [|lra]. rewrite <- (sqrt_square (a - t)) by lra. apply sqrt_le_1_alt. rewrite <- E.
    replace ((a - t) * (a - t)) with (a * a - a * t - t * (a - t)) by ring. assert (0 <= t * (a - t)) by (apply Rmult_le_pos; lra). lra.
Qed.
Lemma alpha_low x e : 0 <= e <= / 2 -> Q * (1 - e) <= x -> a * (1 - e) <= sqrt (Rmin x Q * C) <= a.
Proof.
  intros E H. pose proof a0. pose proof C0. pose proof Q_bounds. assert (QC' := QC). split.
  - rewrite <- (sqrt_square (a * (1 - e))) by (apply Rmult_le_pos; lra). apply sqrt_le_1_alt.
    assert (Mn: Q * (1 - e) <= Rmin x Q). { assert (Q * (1 - e) <= Q) by (rewrite <- (Rmult_1_r Q) at 2; apply Rmult_le_compat_l; lra). now apply Rmin_glb. }
    apply Rle_trans with (Q * (1 - e) * C); [|apply Rmult_le_compat_r; lra].
    replace (a * (1 - e) * (a * (1 - e))) with (Q * C * ((1 - e) * (1 - e))) by (rewrite QC'; ring). replace (Q * (1 - e) * C) with (Q * C * (1 - e)) by ring.
    apply Rmult_le_compat_l; [rewrite QC'; nra|]. nra.
  - rewrite <- (sqrt_square a) by lra. apply sqrt_le_1_alt. rewrite <- QC'. apply Rmult_le_compat_r; [lra|apply Rmin_r].
Qed.
Definition room x := x <= (2 * Q + L) * (1 - 5 / 100000000).
Lemma om_close x : inside x -> normal x -> room x -> Rabs (W x - om x) <= / 1000000000 * M.
Proof.
  intros I Nx Rm. assert (I' := I). destruct I' as [X0 X1]. pose proof a0 as A0. pose proof C0 as c0. pose proof Q_bounds as QB. assert (QC' := QC).
  destruct (inside_M x I) as [XM eM]. assert (M0: a <= M) by (unfold M; lra).
  assert (Ca: 0 <= C / a <= 201 / 100).
  { split; [apply Rmult_le_pos; [lra|apply Rlt_le, Rinv_0_lt_compat; lra]|]. apply Rmult_le_reg_r with a; [lra|]. replace (C / a * a) with C by (field; apply Rgt_not_eq; lra). lra. }
  assert (ea: 0 <= ep * a <= ep * M) by (split; [apply Rmult_le_pos|apply Rmult_le_compat_l]; try (unfold ep; lra); lra).
  assert (eQ: 0 <= ep * Q <= 102 / 100 * (ep * M)).
  { split; [apply Rmult_le_pos; [unfold ep; lra|lra]|]. replace (102 / 100 * (ep * M)) with (ep * (102 / 100 * M)) by ring. apply Rmult_le_compat_l; [unfold ep; lra|lra]. }
  assert (B200: 400 * ep * M <= / 1000000000000 * M) by (apply Rmult_le_compat_r; [lra|unfold ep; lra]).
  assert (g0: 0 <= Rmax 0 (x - Q - L)) by apply Rmax_l. assert (gQ: Rmax 0 (x - Q - L) <= Q) by (apply Rmax_lub; lra).
  assert (G := gamma_le _ g0 gQ).
  unfold W. destruct (Rle_dec (tA x) a) as [HA|HA]; [|destruct (Rle_dec (bt x) 0) as [HB|HB]].
  - assert (In := inA x X0 Nx HA). destruct (tA_cl x X0 Nx) as [t1 t2].
    destruct (Rle_lt_dec x Q) as [Le|Lt].
    + unfold om. rewrite (Rmin_left x Q) by lra. rewrite (Rmax_left 0 (Rmin (x - Q) L)) by (eapply Rle_trans; [apply Rmin_l|lra]).
      rewrite (Rmax_left 0 (x - Q - L)) by lra. rewrite Rmult_0_r, Rminus_0_r, (sqrt_square a) by lra.
      assert (sqrt (x * C) <= a) by (rewrite <- (sqrt_square a) by lra; apply sqrt_le_1_alt; rewrite <- QC'; apply Rmult_le_compat_r; lra).
      assert (0 <= 4 * ep * sqrt (x * C) <= 4 * ep * a) by (split; [apply Rmult_le_pos; [unfold ep; lra|apply sqrt_pos]|apply Rmult_le_compat_l; [unfold ep; lra|assumption]]). apply Rabs_le. lra.
    + assert (sL: a <= sqrt (x * C)) by (rewrite <- (sqrt_square a) at 1 by lra; apply sqrt_le_1_alt; rewrite <- QC'; apply Rmult_le_compat_r; lra).
      assert (Tl: (1 - 4 * ep) * a <= tA x) by (eapply Rle_trans; [|exact t1]; apply Rmult_le_compat_l; [unfold ep; lra|exact sL]).
      unfold om. rewrite (Rmin_right x Q) by lra. rewrite QC', (sqrt_square a) by lra.
      assert (b0: 0 <= Rmax 0 (Rmin (x - Q) L) <= 10 * ep * Q) by (split; [apply Rmax_l|apply Rmax_lub; [lra|eapply Rle_trans; [apply Rmin_l|lra]]]).
      assert (z: Rmax 0 (x - Q - L) <= 10 * ep * Q) by (apply Rmax_lub; lra).
      assert (C / a * Rmax 0 (x - Q - L) <= 201 / 100 * (10 * ep * Q)) by (apply Rmult_le_compat; lra). apply Rabs_le. lra.
  - assert (Out := outA x X0 Nx ltac:(lra)). assert (E := tB_errM x I). assert (F := bt_errM x I). apply Rabs_le_inv in E, F.
    destruct (alpha_low x (10 * ep) ltac:(unfold ep; lra) Out) as [al1 al2].
    assert (z: Rmax 0 (x - Q - L) <= 50 * ep * M) by (apply Rmax_lub; lra).
    assert (g1: C / a * Rmax 0 (x - Q - L) <= 201 / 100 * (50 * ep * M)) by (apply Rmult_le_compat; lra).
    assert (b1: x - Q - 50 * ep * M <= Rmax 0 (Rmin (x - Q) L)) by (eapply Rle_trans; [|apply Rmax_r]; apply Rmin_glb; lra).
    assert (b2: Rmax 0 (Rmin (x - Q) L) <= x - Q + 10 * ep * Q) by (apply Rmax_lub; [lra|eapply Rle_trans; [apply Rmin_l|lra]]).
    unfold om. apply Rabs_le. lra.
  - assert (F := bt_errM x I). apply Rabs_le_inv in F.
    assert (xL: - (50 * ep * M) <= x - Q - L) by lra.
    assert (al: a * (1 - 201 / 100 * (102 * ep) ) <= sqrt (Rmin x Q * C) + 110 * ep * M /\ sqrt (Rmin x Q * C) <= a).
    { (* x may be a little less than Q *)
      assert (Out := outA x X0 Nx ltac:(lra)). destruct (alpha_low x (10 * ep) ltac:(unfold ep; lra) Out) as [al1 al2]. split; [|exact al2]. lra. }
    assert (b1: L - 50 * ep * M <= Rmax 0 (Rmin (x - Q) L)) by (eapply Rle_trans; [|apply Rmax_r]; apply Rmin_glb; lra).
    assert (b2: Rmax 0 (Rmin (x - Q) L) <= L) by (apply Rmax_lub; [lra|apply Rmin_r]).
    set (z := Rmax 0 (x - Q - L)) in *. assert (zb: Rabs (bt x - z) <= 100 * ep * M).
    { unfold z, Rmax. destruct (Rle_dec 0 (x - Q - L)); apply Rabs_le; lra. }
    apply Rabs_le_inv in zb.
    (* the number under the root *)
    set (D := a * a - C * z). assert (aM: 0 <= a * M) by (apply Rmult_le_pos; lra).
    assert (eaM: 0 <= ep * (a * M)) by (apply Rmult_le_pos; [unfold ep; lra|lra]).
    assert (aa: 0 <= a * a <= a * M) by (split; [apply Rmult_le_pos; lra|apply Rmult_le_compat_l; lra]).
    assert (eaa: 0 <= ep * (a * a) <= ep * (a * M)) by (split; [apply Rmult_le_pos|apply Rmult_le_compat_l]; try (unfold ep; lra); lra).
    assert (CM: C * M <= 201 / 100 * (a * M)) by (replace (201 / 100 * (a * M)) with (201 / 100 * a * M) by ring; apply Rmult_le_compat_r; lra).
    assert (Dl: 4 / 100000000 * (a * M) <= D).
    { unfold D, z, Rmax. destruct (Rle_dec 0 (x - Q - L)) as [Pz|Pz].
      - replace (a * a - C * (x - Q - L)) with (C * (2 * Q + L - x)) by (rewrite <- QC'; ring). unfold room in Rm.
        apply Rle_trans with (99 / 100 * a * (5 / 100000000 * (98 / 100 * M))); [lra|]. apply Rmult_le_compat; [lra| |lra|].
        + unfold M. lra.
        + unfold M. lra.
      - rewrite Rmult_0_r, Rminus_0_r. assert (aL: a * L <= a * L) by lra.
        (* x is near Q + L but also at most (2 Q + L) (1 - 5e-8) *)
        unfold room in Rm. assert (K1: Q + L - 50 * ep * M <= (2 * Q + L) * (1 - 5 / 100000000)) by lra.
        assert (K2: 5 / 100000000 * L <= Q + 50 * ep * M) by lra.
        assert (K3: 4 / 100000000 * M <= a).
        { assert (50 * ep * M <= / 1000000000 * M) by (apply Rmult_le_compat_r; [lra|unfold ep; lra]). unfold M in *. lra. }
        replace (4 / 100000000 * (a * M)) with (a * (4 / 100000000 * M)) by ring. apply Rmult_le_compat_l; lra. }
    destruct acc2_cl as [c1 c2].
    assert (bu: 0 < bt x <= 2 * M).
    { split; [lra|]. assert (z <= Q) by exact gQ. assert (100 * ep * M <= / 1000 * M) by (apply Rmult_le_compat_r; [lra|unfold ep; lra]). lra. }
    assert (Cb: Rabs (rd (C * bt x) - C * bt x) <= ep * (5 * (a * M))).
    { apply rd_ab.
      - rewrite Rabs_pos_eq by (apply Rmult_le_pos; lra). apply Rle_trans with (C * (2 * M)); [apply Rmult_le_compat_l; lra|lra].
      - apply Rle_trans with (a * a); [|lra]. eapply Rle_trans; [|exact aa_low]. apply bpow_le. lia. }
    apply Rabs_le_inv in Cb.
    assert (Cz: Rabs (C * bt x - C * z) <= 205 * (ep * (a * M))).
    { rewrite <- Rmult_minus_distr_l, Rabs_mult, (Rabs_pos_eq C) by lra. apply Rle_trans with (C * (100 * ep * M)); [apply Rmult_le_compat_l; [lra|apply Rabs_le; lra]|].
      replace (C * (100 * ep * M)) with (100 * ep * (C * M)) by ring. replace (205 * (ep * (a * M))) with (100 * ep * (205 / 100 * (a * M))) by field. apply Rmult_le_compat_l; [unfold ep; lra|lra]. }
    apply Rabs_le_inv in Cz.
    assert (Cbu: C * bt x <= 402 / 100 * (a * M)) by (apply Rle_trans with (C * (2 * M)); [apply Rmult_le_compat_l; lra|lra]).
    assert (Cb0: 0 <= C * bt x) by (apply Rmult_le_pos; lra).
    assert (k1: ep * (a * M) <= / 1000 * (a * M)) by (apply Rmult_le_compat_r; [lra|unfold ep; lra]).
    assert (Dd: Rabs (dd x - (acc2 - rd (C * bt x))) <= ep * (5 * (a * M))).
    { apply rd_ab; [apply Rabs_le; lra|]. apply Rle_trans with (a * a); [|lra]. eapply Rle_trans; [|exact aa_low]. apply bpow_le. lia. }
    apply Rabs_le_inv in Dd.
    assert (DD: Rabs (dd x - D) <= 220 * (ep * (a * M))) by (unfold D; apply Rabs_le; lra).
    assert (k2: 220 * (ep * (a * M)) <= / 10000000000 * (a * M)) by (rewrite <- Rmult_assoc; apply Rmult_le_compat_r; [lra|unfold ep; lra]).
    assert (d0: 0 < dd x).
    { apply Rabs_le_inv in DD. assert (0 < a * M) by (apply Rmult_lt_0_compat; lra). lra. }
    (* the roots *)
    set (b := sqrt (4 / 100000000 * (a * M))). assert (b0: 0 < b) by (apply sqrt_lt_R0; assert (0 < a * M) by (apply Rmult_lt_0_compat; lra); lra).
    assert (bb: b * b = 4 / 100000000 * (a * M)) by (apply sqrt_sqrt; lra).
    assert (SC := sqrt_close (dd x) D _ b ltac:(lra) b0 ltac:(lra) DD).
    assert (Eb: 220 * (ep * (a * M)) / b = 5500000000 * ep * b) by (apply Rmult_eq_reg_r with b; [|apply Rgt_not_eq; exact b0]; replace (5500000000 * ep * b * b) with (5500000000 * ep * (b * b)) by ring; rewrite bb; field; apply Rgt_not_eq; exact b0).
    assert (bM: b <= 2 / 10000 * M).
    { rewrite <- (sqrt_square (2 / 10000 * M)) by lra. apply sqrt_le_1_alt. replace (2 / 10000 * M * (2 / 10000 * M)) with (4 / 100000000 * (M * M)) by field. apply Rmult_le_compat_l; [lra|]. apply Rmult_le_compat_r; lra. }
    assert (Eb2: 5500000000 * ep * b <= 5500000000 * ep * (2 / 10000 * M)) by (apply Rmult_le_compat_l; [unfold ep; lra|exact bM]).
    rewrite Eb in SC. apply Rabs_le_inv in SC.
    assert (sU: ss x = rd (sqrt (dd x))) by (unfold ss; destruct (Rlt_dec 0 (dd x)); [reflexivity|lra]).
    fold D in G. assert (sD: 0 <= sqrt D <= a) by (pose proof (sqrt_pos D); lra).
    assert (sp := sqrt_pos (dd x)).
    assert (k3: 5500000000 * ep * (2 / 10000 * M) <= / 1000 * M) by (replace (5500000000 * ep * (2 / 10000 * M)) with (1100000 * ep * M) by field; apply Rmult_le_compat_r; [lra|unfold ep; lra]).
    assert (SR: Rabs (rd (sqrt (dd x)) - sqrt (dd x)) <= ep * (2 * M)) by (apply rd_ab; [rewrite Rabs_pos_eq; lra|exact (M900 2 ltac:(lra))]). apply Rabs_le_inv in SR.
    assert (TB := T_bounds). assert (eL: 0 <= ep * L) by (apply Rmult_le_pos; [unfold ep; lra|lra]).
    assert (k4: ep * M <= / 1000000 * M) by (apply Rmult_le_compat_r; [lra|unfold ep; lra]).
    assert (TM: - (8 * (ep * M)) <= T - (2 * a + L) <= 8 * (ep * M)).
    { replace (ep * M) with (ep * a + ep * L) in * by (unfold M; ring). lra. }
    assert (TR: Rabs (tC x - (T - ss x)) <= ep * (4 * M)).
    { apply rd_ab; [rewrite sU; apply Rabs_le; unfold M in *; lra|exact (M900 4 ltac:(lra))]. }
    apply Rabs_le_inv in TR. rewrite sU in TR.
    assert (k5: 5500000000 * ep * (2 / 10000 * M) <= 3 / 10000000000 * M) by (replace (5500000000 * ep * (2 / 10000 * M)) with (1100000 * ep * M) by field; apply Rmult_le_compat_r; [lra|unfold ep; lra]).
    unfold om. fold z. fold D. apply Rabs_le. lra.
Qed.
End Warp.
