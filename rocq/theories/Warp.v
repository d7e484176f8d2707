(** The time profile of any generator in exact arithmetic: acceleration, uniform
    movement, braking. As in LinearReal.v, for any profile. *)
From Coq Require Import Reals Lra Lia Bool.
From Verif Require Import PyBase PyNum Config Coordinates Pulses PulseSpec LinearGen LinearReal.
Local Open Scope R_scope.

Section Warp.
Variables acc lin c T : R.
Hypothesis Hacc : 0 < acc.
Hypothesis Hlin : 0 <= lin.
Hypothesis Hcp : 0 < c.
Hypothesis lin_case : lin = 0 \/ c = 2 * acc.
Let q0 := acc * acc / c.
Hypothesis HT : T <= 2 * q0 + lin.

Lemma q0_pos : 0 < q0.
Proof. apply Rdiv_lt_0_compat; nra. Qed.
Lemma q0_c : q0 * c = acc * acc.
Proof. unfold q0. field. lra. Qed.
(** Time of the accelerated movement. *)
Definition warp (pt : R) : R :=
  if Rle_dec pt q0 then sqrt (pt * c)
  else if Rle_dec pt (q0 + lin) then acc + pt - q0
  else 2 * acc + lin - sqrt (acc * acc - c * (pt - q0 - lin)).

Lemma root_arg pt : q0 + lin < pt <= T -> 0 <= acc * acc - c * (pt - q0 - lin).
Proof. intros H. pose proof HT. pose proof Hcp. rewrite <- q0_c. nra. Qed.

Lemma to_accelerated_R pt : 0 <= pt <= T -> to_accelerated_time (N:=RN) acc lin c pt = Ok (warp pt).
Proof.
  intros H. pose proof Hcp as HC. pose proof q0_c as HQ. pose proof Hacc as Hac.
  unfold to_accelerated_time, warp. change (mul (p:=RN)) with Rmult. rewrite sqrt_R by nra. cbn [rbind].
  change (leb (p:=RN)) with Rleb.
  destruct (Rle_dec pt q0) as [K|K].
  - replace (Rleb (sqrt (pt * c)) acc) with true; [reflexivity|]. symmetry. apply Rleb_true.
    replace acc with (sqrt (acc * acc)) by (apply sqrt_square; lra). apply sqrt_le_1_alt. rewrite <- HQ. nra.
  - replace (Rleb (sqrt (pt * c)) acc) with false.
    2: { symmetry. apply Rleb_false. replace acc with (sqrt (acc * acc)) at 1 by (apply sqrt_square; lra).
         apply sqrt_lt_1_alt. rewrite <- HQ. pose proof q0_pos. nra. }
    change (sqr (p:=RN) acc) with (Ok (acc * acc)). cbn [rbind]. rewrite div_R by lra. cbn [rbind]. fold q0.
    change (add (p:=RN)) with Rplus. change (sub (p:=RN)) with Rminus. change (@zero RN) with 0. change (@two RN) with 2.
    destruct (Rle_dec pt (q0 + lin)) as [K2|K2].
    + replace (Rleb (acc + pt - q0 - acc - lin) 0) with true; [reflexivity|]. symmetry. apply Rleb_true. lra.
    + replace (Rleb (acc + pt - q0 - acc - lin) 0) with false by (symmetry; apply Rleb_false; lra).
      replace (acc + pt - q0 - acc - lin) with (pt - q0 - lin) by ring.
      pose proof (root_arg pt ltac:(lra)) as HR. change (ltb (p:=RN)) with Rltb.
      destruct (Rltb 0 (acc * acc - c * (pt - q0 - lin))) eqn:E.
      * rewrite sqrt_R by lra. reflexivity.
      * apply Rltb_false in E. replace (acc * acc - c * (pt - q0 - lin)) with 0 by lra. rewrite sqrt_0. reflexivity.
Qed.

(** Uniform-movement time reached at time [t], and its derivative. *)
Definition gone (t : R) : R :=
  (pp t * pp t - pp (t - acc) * pp (t - acc) - pp (t - (acc + lin)) * pp (t - (acc + lin))
   + pp (t - (2 * acc + lin)) * pp (t - (2 * acc + lin))) / c.
Definition rate (t : R) : R :=
  2 / c * (pp t - pp (t - acc) - pp (t - (acc + lin)) + pp (t - (2 * acc + lin))).

Lemma gone_deriv t : derivable_pt_lim gone t (rate t).
Proof.
  assert (S: forall k, derivable_pt_lim (fun u => pp (u - k) * pp (u - k)) t (2 * pp (t - k))).
  { intros k. replace (2 * pp (t - k)) with (2 * pp (t - k) * 1) by ring.
    apply (derivable_pt_lim_comp (fun u => u - k) (fun y => pp y * pp y)).
    - replace 1 with (1 - 0) by ring. apply derivable_pt_lim_minus; [apply derivable_pt_lim_id|apply derivable_pt_lim_const].
    - apply pp_deriv. }
  unfold gone, rate.
  replace (2 / c * (pp t - pp (t - acc) - pp (t - (acc + lin)) + pp (t - (2 * acc + lin))))
    with (/ c * (2 * pp t - 2 * pp (t - acc) - 2 * pp (t - (acc + lin)) + 2 * pp (t - (2 * acc + lin)))) by (unfold Rdiv; ring).
  apply (derivable_pt_lim_ext (fun u => / c * (pp u * pp u - pp (u - acc) * pp (u - acc) - pp (u - (acc + lin)) * pp (u - (acc + lin))
   + pp (u - (2 * acc + lin)) * pp (u - (2 * acc + lin))))).
  - intros u. unfold Rdiv. ring.
  - apply derivable_pt_lim_scal.
    apply derivable_pt_lim_plus; [|apply S]. apply derivable_pt_lim_minus; [|apply S].
    apply derivable_pt_lim_minus; [apply pp_deriv|apply S].
Qed.

Lemma rate_bounds t : 0 <= rate t <= 2 * acc / c.
Proof.
  pose proof Hcp as HC. pose proof Hacc. pose proof Hlin. unfold rate.
  assert (IC: 0 < / c) by now apply Rinv_0_lt_compat.
  assert (B: 0 <= pp t - pp (t - acc) - pp (t - (acc + lin)) + pp (t - (2 * acc + lin)) <= acc).
  { unfold pp, Rmax. repeat match goal with |- context [Rle_dec ?a ?b] => destruct (Rle_dec a b) end; lra. }
  unfold Rdiv. split; [nra|]. replace (2 * acc * / c) with (2 * / c * acc) by ring. apply Rmult_le_compat_l; [nra|lra].
Qed.
Lemma rate_lipschitz t u : Rabs (rate t - rate u) <= 2 / c * Rabs (t - u).
Proof.
  pose proof Hcp as HC. pose proof Hacc. pose proof Hlin. unfold rate.
  assert (IC: 0 < / c) by now apply Rinv_0_lt_compat.
  rewrite <- Rmult_minus_distr_l, Rabs_mult, (Rabs_pos_eq (2 / c)) by (unfold Rdiv; nra).
  apply Rmult_le_compat_l; [unfold Rdiv; nra|]. unfold pp, Rmax, Rabs.
  repeat match goal with |- context [Rle_dec ?a ?b] => destruct (Rle_dec a b) end;
  repeat match goal with |- context [Rcase_abs ?a] => destruct (Rcase_abs a) end; lra.
Qed.
Lemma gone_0 : gone 0 = 0.
Proof.
  pose proof Hacc. pose proof Hlin. unfold gone, pp, Rmax.
  repeat match goal with |- context [Rle_dec ?a ?b] => destruct (Rle_dec a b) end; try lra; unfold Rdiv; ring.
Qed.

Lemma root_le x : x <= acc * acc -> sqrt x <= acc.
Proof.
  intros H. rewrite <- (sqrt_square acc) by (pose proof Hacc; lra). now apply sqrt_le_1_alt.
Qed.
Lemma warp_range pt : 0 <= pt <= T -> 0 <= warp pt <= 2 * acc + lin.
Proof.
  intros H. pose proof Hcp as HC. pose proof q0_c as HQ. pose proof Hacc as Hac. pose proof Hlin as Hl.
  unfold warp. destruct (Rle_dec pt q0) as [K|K].
  - split; [apply sqrt_pos|]. apply Rle_trans with acc; [|lra].
    replace acc with (sqrt (acc * acc)) by (apply sqrt_square; lra). apply sqrt_le_1_alt. nra.
  - destruct (Rle_dec pt (q0 + lin)) as [K2|K2]; [lra|].
    pose proof (root_arg pt ltac:(lra)) as HR. pose proof (sqrt_pos (acc * acc - c * (pt - q0 - lin))).
    assert (sqrt (acc * acc - c * (pt - q0 - lin)) <= acc); [|lra]. apply root_le. nra.
Qed.

Lemma gone_warp pt : 0 <= pt <= T -> gone (warp pt) = pt.
Proof.
  intros H. pose proof Hcp as HC. pose proof q0_c as HQ. pose proof Hacc as Hac. pose proof Hlin as Hl.
  apply Rmult_eq_reg_r with c; [|lra]. unfold gone. unfold Rdiv at 1. rewrite Rmult_assoc, Rinv_l, Rmult_1_r by lra.
  unfold warp. destruct (Rle_dec pt q0) as [K|K].
  - assert (S1: sqrt (pt * c) <= acc).
    { replace acc with (sqrt (acc * acc)) by (apply sqrt_square; lra). apply sqrt_le_1_alt. nra. }
    pose proof (sqrt_pos (pt * c)) as S0. pose proof (sqrt_sqrt (pt * c) ltac:(nra)) as S2.
    set (r := sqrt (pt * c)) in *. clearbody r.
    unfold pp. rewrite (Rmax_right 0 r) by lra. rewrite !(Rmax_left 0) by lra. nra.
  - destruct (Rle_dec pt (q0 + lin)) as [K2|K2].
    + destruct lin_case as [E|E]; [lra|].
      assert (Q2: q0 * 2 = acc) by (rewrite E in HQ; nra).
      unfold pp. rewrite (Rmax_right 0 (acc + pt - q0)), (Rmax_right 0 (acc + pt - q0 - acc)) by lra.
      rewrite !(Rmax_left 0) by lra. rewrite E. nra.
    + pose proof (root_arg pt ltac:(lra)) as HR.
      pose proof (sqrt_pos (acc * acc - c * (pt - q0 - lin))) as S0. pose proof (sqrt_sqrt _ HR) as S2.
      assert (S1: sqrt (acc * acc - c * (pt - q0 - lin)) <= acc).
      { apply root_le. nra. }
      set (r := sqrt (acc * acc - c * (pt - q0 - lin))) in *. clearbody r.
      unfold pp. rewrite (Rmax_right 0 (2 * acc + lin - r)), (Rmax_right 0 (2 * acc + lin - r - acc)), (Rmax_right 0 (2 * acc + lin - r - (acc + lin))) by lra.
      rewrite (Rmax_left 0) by lra.
      destruct lin_case as [E|E]; [rewrite E in *; nra|].
      assert (Q2: q0 * 2 = acc) by (rewrite E in HQ; nra). rewrite E in *. nra.
Qed.

Lemma gone_mono t u : t <= u -> gone t <= gone u.
Proof.
  intros H. assert (D': derivable gone) by (intros x; exists (rate x); apply gone_deriv).
  apply (nonneg_derivative_1 gone D'); [|exact H].
  intros x. rewrite (derive_pt_eq_0 gone x (rate x) (D' x)); [apply rate_bounds|apply gone_deriv].
Qed.
Lemma warp_mono x y : 0 <= x -> x < y -> y <= T -> warp x < warp y.
Proof.
  intros H1 H2 H3. apply Rnot_le_lt. intros K. apply gone_mono in K. rewrite !gone_warp in K; lra.
Qed.
Lemma warp_0 : warp 0 = 0.
Proof. unfold warp. pose proof q0_pos. destruct (Rle_dec 0 q0); [|lra]. now rewrite Rmult_0_l, sqrt_0. Qed.
Lemma rate_0 : rate 0 = 0.
Proof. pose proof Hacc. pose proof Hlin. unfold rate. replace (pp 0) with 0 by (unfold pp; rewrite Rmax_left; lra). unfold pp. rewrite !Rmax_left by lra. ring. Qed.
Lemma rate_top x : acc <= x <= acc + lin -> rate x = 2 * acc / c.
Proof.
  intros H. pose proof Hacc. pose proof Hlin. unfold rate, pp. rewrite (Rmax_right 0 x), (Rmax_right 0 (x - acc)), !(Rmax_left 0) by lra. unfold Rdiv. ring.
Qed.
Lemma rate_end : rate (2 * acc + lin) = 0.
Proof.
  pose proof Hacc. pose proof Hlin. unfold rate, pp. rewrite !Rmax_right by lra. ring.
Qed.
Lemma gone_acc x : 0 <= x <= acc -> gone x = x * x / c.
Proof. intros H. pose proof Hlin. pose proof Hacc. unfold gone, pp. rewrite (Rmax_right 0 x), !(Rmax_left 0) by lra. unfold Rdiv. ring. Qed.
(** From standstill and to standstill with the acceleration 2 / c. *)
Lemma gone_start x : 0 <= x -> gone x <= x * x / c.
Proof.
  intros H. pose proof Hacc. pose proof Hlin. assert (IC: 0 < / c) by (apply Rinv_0_lt_compat; exact Hcp). unfold gone, Rdiv. apply Rmult_le_compat_r; [lra|].
  assert (P1: 0 <= pp (x - (2 * acc + lin)) <= pp (x - acc)) by (unfold pp, Rmax; repeat match goal with |- context [Rle_dec ?a ?b] => destruct (Rle_dec a b) end; lra).
  assert (P2: 0 <= pp (x - (acc + lin))) by (unfold pp; apply Rmax_l). replace (pp x) with x by (unfold pp; rewrite Rmax_right; lra). nra.
Qed.
Lemma gone_stop x : c = 2 * acc -> x <= 2 * acc + lin -> acc + lin - gone x <= (2 * acc + lin - x) * (2 * acc + lin - x) / c.
Proof.
  intros E H. pose proof Hacc as Ha. pose proof Hlin as Hl. pose proof Hcp as HC.
  apply (Rmult_le_reg_r c); [exact HC|]. unfold gone. replace ((acc + lin - (pp x * pp x - pp (x - acc) * pp (x - acc) - pp (x - (acc + lin)) * pp (x - (acc + lin)) + pp (x - (2 * acc + lin)) * pp (x - (2 * acc + lin))) / c) * c)
    with ((acc + lin) * c - (pp x * pp x - pp (x - acc) * pp (x - acc) - pp (x - (acc + lin)) * pp (x - (acc + lin)) + pp (x - (2 * acc + lin)) * pp (x - (2 * acc + lin)))) by (field; lra).
  replace ((2 * acc + lin - x) * (2 * acc + lin - x) / c * c) with ((2 * acc + lin - x) * (2 * acc + lin - x)) by (field; lra). rewrite E.
  unfold pp. rewrite (Rmax_left 0 (x - (2 * acc + lin))) by lra. set (a := acc) in *. set (li := lin) in *. clearbody a li.
  unfold Rmax. destruct (Rle_dec 0 x), (Rle_dec 0 (x - a)), (Rle_dec 0 (x - (a + li))); try lra; nra.
Qed.
Lemma gone_end : c = 2 * acc -> gone (2 * acc + lin) = acc + lin.
Proof.
  intros E. pose proof Hacc as Ha. pose proof Hlin as Hl. unfold gone, pp. rewrite !Rmax_right by lra. rewrite E. field. lra.
Qed.
End Warp.
