(** Property C92: the quick test of utils/heater_model_finder.py accepts the coefficients of a
    heater that obeys its own differential equation. Theorems are followed by their assumptions
    and by Examples. *)
From Coq Require Import ZArith Bool Reals Lra Lia List.
From Flocq Require Import Core.
From Verif Require Import PyBase PyNum QuickTest.
Local Open Scope R_scope.

(** A heater with full power: it gains h degrees per second and loses c degrees per second for
    every degree above 25. *)
Definition obeys (c h : R) (T : R -> R) : Prop := forall s, derivable_pt_lim T s (h - c * (T s - 25)).

Lemma obeys_solution c h T s : 0 < c -> 0 <= s -> obeys c h T -> T s = 25 + h / c + (T 0 - (25 + h / c)) * exp (- (c * s)).
Proof.
  intros C S O. set (E := 25 + h / c). set (g := fun s => (T s - E) * exp (c * s)).
  assert (D: forall s, derivable_pt_lim g s 0).
  { intros x. assert (D1: derivable_pt_lim (fun s => T s - E) x (h - c * (T x - 25))).
    { replace (h - c * (T x - 25)) with (h - c * (T x - 25) - 0) by ring. apply (derivable_pt_lim_minus T (fun _ => E)); [apply O|apply derivable_pt_lim_const]. }
    assert (D2: derivable_pt_lim (fun s => exp (c * s)) x (exp (c * x) * c)).
    { apply (derivable_pt_lim_comp (fun s => c * s) exp); [|apply derivable_pt_lim_exp].
      pose proof (derivable_pt_lim_scal id c x 1 (derivable_pt_lim_id x)) as L. rewrite Rmult_1_r in L. exact L. }
    pose proof (derivable_pt_lim_mult _ _ _ _ _ D1 D2) as D3. cbv beta in D3. unfold mult_fct in D3.
    replace 0 with ((h - c * (T x - 25)) * exp (c * x) + (T x - E) * (exp (c * x) * c)); [exact D3|]. unfold E. field. lra. }
  assert (G: g s = g 0).
  { destruct S as [S| <-]; [|reflexivity]. destruct (MVT_cor2 g (fun _ => 0) 0 s S) as (x & K & _); [intros; apply D|]. lra. }
  unfold g in G. rewrite Rmult_0_r, exp_0, Rmult_1_r in G. rewrite <- G, Rmult_assoc, <- exp_plus.
  replace (c * s + - (c * s)) with 0 by ring. rewrite exp_0. unfold E. lra.
Qed.

Lemma steps_closed c h n : forall t, 0 < c <= 1 -> 0 <= h -> 25 <= t ->
  quick_steps (N:=RN) n c h t = 25 + h / c + (t - (25 + h / c)) * (1 - c) ^ n.
Proof.
  induction n as [|n IH]; intros t C H T; cbn [quick_steps pow]; [lra|].
  assert (S: quick_step (N:=RN) c h t = t - (t - 25) * c + h). { unfold quick_step. cbn [sub add mul absn ofZ RN]. rewrite Rabs_right by lra. reflexivity. }
  rewrite S, IH; auto.
  - change (num RN) with R. field. lra.
  - assert (0 <= (t - 25) * (1 - c)) by (apply Rmult_le_pos; lra). lra.
Qed.
Lemma pow_gap a b n : 0 <= b <= a -> a * (a ^ n - b ^ n) <= INR n * (a - b) * a ^ n.
Proof.
  intros [B A]. induction n as [|n IH]; [cbn; lra|]. rewrite S_INR. cbn [pow].
  assert (P: b ^ n <= a ^ n) by (apply pow_incr; lra). assert (Q: 0 <= a ^ n) by (apply pow_le; lra).
  replace (a * (a * a ^ n - b * b ^ n)) with (a * (a * (a ^ n - b ^ n)) + a * ((a - b) * b ^ n)) by ring.
  replace ((INR n + 1) * (a - b) * (a * a ^ n)) with (a * (INR n * (a - b) * a ^ n) + a * ((a - b) * a ^ n)) by ring.
  apply Rplus_le_compat; apply Rmult_le_compat_l; try lra. apply Rmult_le_compat_l; lra.
Qed.
Lemma exp_inv_le x : 0 <= x -> exp (- x) * (1 + x) <= 1.
Proof.
  intros X. replace 1 with (exp (- x) * exp x) at 2 by (rewrite <- exp_plus, Rplus_opp_l; apply exp_0).
  apply Rmult_le_compat_l; [left; apply exp_pos|apply exp_ineq1_le].
Qed.
Lemma exp_pow c n : exp (- c) ^ n = exp (- (c * INR n)).
Proof.
  induction n as [|n IH]; [cbn [pow INR]; now rewrite Rmult_0_r, Ropp_0, exp_0|].
  cbn [pow]. rewrite IH, <- exp_plus, S_INR. f_equal. ring.
Qed.
(** Steps of one second against the exponential function. *)
Lemma euler_gap c n : 0 < c <= 1 -> 0 <= exp (- (c * INR n)) - (1 - c) ^ n <= c / 2.
Proof.
  intros C. rewrite <- exp_pow. set (a := exp (- c)).
  assert (A: 0 < a) by apply exp_pos. assert (B: 1 - c <= a) by (pose proof (exp_ineq1_le (- c)); unfold a; lra).
  split; [assert ((1 - c) ^ n <= a ^ n) by (apply pow_incr; lra); lra|].
  pose proof (pow_gap a (1 - c) n ltac:(lra)) as G.
  assert (U: a * (1 + c) <= 1) by (apply exp_inv_le; lra).
  assert (V: (a - (1 - c)) * (1 + c) <= c * c) by lra.
  (* x * exp (- x) <= exp (- 1) *)
  assert (W: INR n * c * a ^ n <= exp (- 1)).
  { unfold a. rewrite exp_pow. set (x := c * INR n). replace (INR n * c) with x by (unfold x; ring).
    pose proof (exp_ineq1_le (x - 1)) as K. replace (exp (- 1)) with (exp (x - 1) * exp (- x)) by (rewrite <- exp_plus; f_equal; ring).
    apply Rmult_le_compat_r; [left; apply exp_pos|lra]. }
  (* exp (- 1) = a * exp (- (1 - c)) <= a * (1 + c) / 2 *)
  assert (Z: exp (- 1) <= a * ((1 + c) / 2)).
  { replace (exp (- 1)) with (a * exp (- (1 - c))) by (unfold a; rewrite <- exp_plus; f_equal; ring).
    apply Rmult_le_compat_l; [lra|]. pose proof (exp_inv_le (1 - c) ltac:(lra)) as K. set (e := exp (- (1 - c))) in *. clearbody e.
    assert (J: 1 <= (1 + c) / 2 * (1 + (1 - c))) by nra. nra. }
  assert (Q: 0 <= INR n * a ^ n) by (apply Rmult_le_pos; [apply pos_INR|apply pow_le; lra]).
  assert (X: INR n * (a - (1 - c)) * a ^ n * (1 + c) <= a * (c / 2) * (1 + c)).
  { apply Rle_trans with (c * (INR n * c * a ^ n)).
    - replace (INR n * (a - (1 - c)) * a ^ n * (1 + c)) with ((INR n * a ^ n) * ((a - (1 - c)) * (1 + c))) by ring.
      replace (c * (INR n * c * a ^ n)) with ((INR n * a ^ n) * (c * c)) by ring. apply Rmult_le_compat_l; lra.
    - apply Rle_trans with (c * (a * ((1 + c) / 2))); [apply Rmult_le_compat_l; lra|]. right. field. }
  apply Rmult_le_reg_r in X; [|lra]. apply (Rmult_le_reg_l a); [exact A|]. lra.
Qed.
Lemma exp_gap x y : 0 <= x -> 0 <= y -> Rabs (exp (- x) - exp (- y)) <= Rabs (x - y).
Proof.
  assert (L: forall x y, 0 <= x -> x <= y -> 0 <= exp (- x) - exp (- y) <= y - x).
  { intros u v U V. replace (exp (- v)) with (exp (- u) * exp (- (v - u))) by (rewrite <- exp_plus; f_equal; ring).
    pose proof (exp_ineq1_le (- (v - u))). pose proof (exp_inv_le u U) as K. pose proof (exp_pos (- u)). pose proof (exp_inv_le (v - u) ltac:(lra)) as M.
    set (e := exp (- u)) in *. set (f := exp (- (v - u))) in *. clearbody e f. assert (e <= 1) by nra. assert (f <= 1) by nra. nra. }
  intros X Y. destruct (Rle_dec x y) as [H|H].
  - specialize (L x y X H). rewrite Rabs_right by lra. rewrite Rabs_left1; lra.
  - specialize (L y x Y ltac:(lra)). rewrite Rabs_left1 by lra. rewrite Rabs_right; lra.
Qed.
Lemma round_half s : 0 <= s -> exists n : nat, trunc (p:=RN) (add (p:=RN) s (ofdec false 5 1)) = Ok (Z.of_nat n) /\ Rabs (INR n - s) <= / 2.
Proof.
  intros S. assert (H: add (p:=RN) s (ofdec false 5 1) = s + / 2). { cbn. lra. }
  rewrite H. exists (Z.to_nat (Ztrunc (s + / 2))). rewrite (Ztrunc_floor (s + / 2)) by lra.
  assert (P: (0 <= Zfloor (s + / 2))%Z) by (apply Zfloor_lub; cbn; lra). rewrite INR_IZR_INZ, !Z2Nat.id by exact P. split.
  - cbn [trunc RN]. now rewrite Ztrunc_floor by lra.
  - pose proof (Zfloor_lb (s + / 2)). pose proof (Zfloor_ub (s + / 2)). apply Rabs_le. lra.
Qed.

(** C92. For a heater that needs [tau] seconds from max - delta to max, the temperature at the
    end of the test differs from max by at most the rise of the first second, and the test
    succeeds if that is below a tenth of max. Exact arithmetic. *)
Theorem C92_right_model max delta c h tau T : 0 < c <= 1 -> 0 <= h -> 0 < delta -> 25 <= max - delta -> 0 <= tau ->
  obeys c h T -> T 0 = max - delta -> T tau = max ->
  exists t ok, quick_test (N:=RN) max delta c h tau = Ok (t, ok) /\
  Rabs (max - t) <= h - c * (T 0 - 25) /\ (h - c * (T 0 - 25) < max / 10 -> ok = true).
Proof.
  intros C H D M S O T0 T1. pose proof (obeys_solution c h T tau ltac:(lra) S O) as K. rewrite T1, T0 in K.
  destruct (round_half tau S) as (n & N1 & N2).
  assert (B: Rabs (max - quick_steps (N:=RN) n c h (max - delta)) <= h - c * (max - delta - 25)).
  { rewrite steps_closed by lra. set (E := 25 + h / c) in *.
    assert (U: 0 < E - (max - delta)).
    { assert (X: 0 < exp (- (c * tau)) <= 1). { split; [apply exp_pos|]. pose proof (exp_inv_le (c * tau)) as J. assert (0 <= c * tau) by (apply Rmult_le_pos; lra).
        specialize (J ltac:(assumption)). pose proof (exp_pos (- (c * tau))). nra. }
      destruct (Rlt_dec 0 (E - (max - delta))) as [|Y]; [assumption|]. set (e := exp (- (c * tau))) in *. clearbody e. nra. }
    replace (h - c * (max - delta - 25)) with (c * (E - (max - delta))) by (unfold E; field; lra).
    replace (max - (E + (max - delta - E) * (1 - c) ^ n)) with ((E - (max - delta)) * ((1 - c) ^ n - exp (- (c * tau))))
      by (clearbody E; set (e := exp (- (c * tau))) in *; set (p := (1 - c) ^ n); clearbody e p; change (num RN) with R; nra).
    rewrite Rabs_mult, (Rabs_right (E - (max - delta))) by lra. rewrite (Rmult_comm c (E - (max - delta))). apply Rmult_le_compat_l; [lra|].
    pose proof (euler_gap c n C) as G. pose proof (exp_gap (c * INR n) (c * tau) ltac:(apply Rmult_le_pos; [lra|apply pos_INR]) ltac:(apply Rmult_le_pos; lra)) as J.
    rewrite <- Rmult_minus_distr_l, Rabs_mult, (Rabs_right c) in J by lra.
    assert (c * Rabs (INR n - tau) <= c * / 2) by (apply Rmult_le_compat_l; lra).
    set (e := exp (- (c * INR n))) in *. set (f := exp (- (c * tau))) in *. set (p := (1 - c) ^ n) in *. clearbody e f p.
    apply Rabs_le. assert (J2: Rabs (e - f) <= c / 2) by lra. apply Rabs_le_inv in J2. lra. }
  unfold quick_test. rewrite N1, Nat2Z.id. do 2 eexists. split; [reflexivity|]. rewrite T0. split; [exact B|]. intros F.
  cbn [ltb RN]. unfold Rltb. match goal with |- (if ?d then _ else _) = _ => destruct d as [|Y]; [reflexivity|elim Y] end.
  cbn [absn mul sub ofdec RN] in *. eapply Rle_lt_trans; [exact B|]. eapply Rlt_le_trans; [exact F|]. cbn. lra.
Qed.
Print Assumptions C92_right_model.
(** A heater with c = 1/100 and h = 4 from 150 to 200 degrees. *)
Example C92_right_model_ex : exists tau T, 0 <= tau /\ obeys (1 / 100) 4 T /\ T 0 = 200 - 50 /\ T tau = 200 /\ 4 - 1 / 100 * (T 0 - 25) < 200 / 10.
Proof.
  exists (100 * ln (11 / 9)), (fun s => 425 + - 275 * exp (- (1 / 100) * s)). cbv beta. rewrite Rmult_0_r, exp_0.
  assert (L: 0 <= ln (11 / 9)). { rewrite <- ln_1. left. apply ln_increasing; lra. }
  split; [lra|]. split; [|split; [lra|split; [|lra]]].
  - intros s. assert (D2: derivable_pt_lim (fun s => exp (- (1 / 100) * s)) s (exp (- (1 / 100) * s) * - (1 / 100))).
    { apply (derivable_pt_lim_comp (fun s => - (1 / 100) * s) exp); [|apply derivable_pt_lim_exp].
      pose proof (derivable_pt_lim_scal id (- (1 / 100)) s 1 (derivable_pt_lim_id s)) as K. rewrite Rmult_1_r in K. exact K. }
    pose proof (derivable_pt_lim_plus _ _ _ _ _ (derivable_pt_lim_const 425 s) (derivable_pt_lim_scal _ (- 275) _ _ D2)) as K.
    match type of K with derivable_pt_lim _ _ ?v => match goal with |- derivable_pt_lim _ _ ?w => replace w with v by field end end. exact K.
  - replace (- (1 / 100) * (100 * ln (11 / 9))) with (- ln (11 / 9)) by field. rewrite exp_Ropp, exp_ln by lra. field.
Qed.

Lemma ok_inj {A} (a b : A) : Ok a = Ok b -> a = b.
Proof. congruence. Qed.
(** The test rejects a wrong heating coefficient h': if the error |h' - h|, times the duration
    that delta would take at the rate of the first second, less half a second, exceeds a tenth
    of max by the rise of the first second, the test fails. *)
Theorem C92_wrong_heating max delta c h h' tau T : 0 < c <= 1 -> 0 <= h -> 0 <= h' -> 0 < delta -> 25 <= max - delta -> 0 <= tau ->
  obeys c h T -> T 0 = max - delta -> T tau = max ->
  let rate := h - c * (T 0 - 25) in max / 10 + rate <= Rabs (h' - h) * (delta / rate - / 2) ->
  exists t, quick_test (N:=RN) max delta c h' tau = Ok (t, false).
Proof.
  intros C H H' D M S O T0 T1 rate F. destruct (C92_right_model max delta c h tau T C H D M S O T0 T1) as (t & ok & Q & B & _).
  destruct (round_half tau S) as (n & N1 & N2). unfold quick_test in *. rewrite N1, Nat2Z.id in *. apply ok_inj in Q. apply pair_equal_spec in Q. destruct Q as [Q _].
  change (sub (p:=RN) max delta) with (max - delta) in *. pose proof (obeys_solution c h T tau ltac:(lra) S O) as K. rewrite T1, T0 in K.
  rewrite steps_closed in Q by lra. rewrite steps_closed by lra.
  eexists. apply f_equal. apply pair_equal_spec. split; [reflexivity|].
  assert (RT: rate = c * (25 + h / c - (max - delta))) by (unfold rate; rewrite T0; field; lra).
  set (X := 25 + h / c - (max - delta)) in *.
  pose proof (euler_gap c n C) as G. pose proof (exp_gap (c * INR n) (c * tau) ltac:(apply Rmult_le_pos; [lra|apply pos_INR]) ltac:(apply Rmult_le_pos; lra)) as J.
  rewrite <- Rmult_minus_distr_l, Rabs_mult, (Rabs_right c) in J by lra.
  assert (c * Rabs (INR n - tau) <= c * / 2) by (apply Rmult_le_compat_l; lra).
  set (e := exp (- (c * INR n))) in *. set (f := exp (- (c * tau))) in *. set (p := (1 - c) ^ n) in *.
  assert (J2: Rabs (e - f) <= c / 2) by lra. apply Rabs_le_inv in J2.
  assert (K2: delta = X * (1 - f)). { unfold X. clearbody f. nra. }
  assert (F1: f <= 1). { unfold f. pose proof (exp_inv_le (c * tau) ltac:(apply Rmult_le_pos; lra)) as Y. pose proof (exp_pos (- (c * tau))). assert (0 <= c * tau) by (apply Rmult_le_pos; lra). nra. }
  assert (XP: 0 < X) by (clearbody X f; nra).
  assert (L: delta / rate - / 2 <= (1 - p) / c).
  { rewrite RT, K2. replace (X * (1 - f) / (c * X)) with ((1 - f) / c) by (field; lra). apply (Rmult_le_reg_r c); [lra|].
    replace (((1 - f) / c - / 2) * c) with (1 - f - c / 2) by (field; lra). replace ((1 - p) / c * c) with (1 - p) by (field; lra). lra. }
  assert (W: Rabs (h' - h) * (delta / rate - / 2) <= Rabs ((h' - h) * ((1 - p) / c))).
  { rewrite Rabs_mult. apply Rmult_le_compat_l; [apply Rabs_pos|]. eapply Rle_trans; [exact L|apply Rle_abs]. }
  set (t' := 25 + h' / c + (max - delta - (25 + h' / c)) * p).
  assert (V: (h' - h) * ((1 - p) / c) = (t' - max) + (max - t)). { rewrite <- Q. unfold t'. field. lra. }
  rewrite V in W. pose proof (Rabs_triang (t' - max) (max - t)) as Y. rewrite (Rabs_minus_sym t' max) in Y.
  cbn [ltb RN]. unfold Rltb. fold rate in B. match goal with |- (if ?d then _ else _) = _ => destruct d as [Z|Z]; [exfalso|reflexivity] end.
  cbn [absn mul sub ofdec RN] in Z. change (num RN) with R in *. cbn [pow] in Z. lra.
Qed.
Print Assumptions C92_wrong_heating.
(** The heater of C92_right_model_ex: with 6 instead of 4 the test fails. *)
Example C92_wrong_heating_ex : 200 / 10 + (4 - 1 / 100 * (150 - 25)) <= Rabs (6 - 4) * (50 / (4 - 1 / 100 * (150 - 25)) - / 2).
Proof. rewrite Rabs_right by lra. lra. Qed.
