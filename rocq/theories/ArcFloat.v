(** binary64 facts about arcs whose plane axes have equal steps: the start lies on
    the circle in whole steps, and the generator never fails. *)
From Coq Require Import ZArith Bool Reals Lra Lia List Psatz.
From Flocq Require Import Core BinarySingleNaN.
From Verif Require Import PyBase PyNum PyFloatFacts Config Coordinates Pulses PulseSpec Decimal MachinePos MachineArc LinearGen ArcSpec ArcRun ArcMake.
From Coq Require Import List.
From Flocq Require Import Core.
Import ListNotations.
Local Open Scope R_scope.

Notation fmt := (generic_format radix2 (SpecFloat.fexp prec64 emax64)).

(* ---------- sqrt of a square ---------- *)
Lemma val_format (x : f64) : fmt (val x).
Proof. apply generic_format_B2R. Qed.
Lemma rd_below x e y : fmt x -> (-1022 <= e)%Z -> bpow radix2 e <= x -> fmt y -> y < x -> bpow radix2 e <= y -> y <= x - bpow radix2 (e - 52).
Proof.
  intros Fx He Hx Fy Hlt Hy. assert (P := bpow_gt_0 radix2 e).
  destruct (format_multiple x e Fx He) as [n En]; [rewrite Rabs_pos_eq; lra|].
  destruct (format_multiple y e Fy He) as [k Ek]; [rewrite Rabs_pos_eq; lra|].
  assert (Q := bpow_gt_0 radix2 (e - 52)). rewrite En, Ek in *. apply Rmult_lt_reg_r in Hlt; [|exact Q]. apply lt_IZR in Hlt.
  replace (IZR n * bpow radix2 (e - 52) - bpow radix2 (e - 52)) with (IZR (n - 1) * bpow radix2 (e - 52)) by (rewrite minus_IZR; ring).
  apply Rmult_le_compat_r; [lra|]. apply IZR_le. lia.
Qed.
Lemma rd_sqrt_sqr x : fmt x -> bpow radix2 (-400) <= Rabs x <= bpow radix2 400 -> Rabs x <= rd (sqrt (rd (x * x))).
Proof.
  intros F0 H. replace (x * x) with (Rabs x * Rabs x) by (rewrite <- Rabs_mult, Rabs_pos_eq; [reflexivity|apply Rle_0_sqr]).
  assert (F: fmt (Rabs x)) by now apply generic_format_abs.
  set (y := Rabs x) in *. clearbody y. clear x F0. rename y into x.
  assert (Px: 0 < x) by (apply Rlt_le_trans with (bpow radix2 (-400)); [apply bpow_gt_0|lra]).
  set (e := (mag radix2 x - 1)%Z).
  assert (He: bpow radix2 e <= x < bpow radix2 (e + 1)).
  { unfold e. replace (mag radix2 x - 1 + 1)%Z with (mag radix2 x : Z) by lia. destruct (mag radix2 x) as [m Hm]. cbn.
    assert (Hm' := Hm ltac:(lra)). rewrite Rabs_pos_eq in Hm' by lra. exact Hm'. }
  assert (Re: (-401 <= e <= 400)%Z).
  { split.
    - assert (bpow radix2 (-400) < bpow radix2 (e + 1)) by lra. apply lt_bpow in H0. lia.
    - assert (bpow radix2 e <= bpow radix2 400) by lra. apply le_bpow in H0. lia. }
  clearbody e. set (B := bpow radix2 e) in *. assert (PB: 0 < B) by apply bpow_gt_0.
  assert (E2: forall k, bpow radix2 (e + e + k) = B * B * bpow radix2 k) by (intros k; rewrite !bpow_plus; reflexivity).
  assert (B1: bpow radix2 (e + 1) = 2 * B) by (rewrite bpow_plus; change (bpow radix2 1) with 2; fold B; ring).
  rewrite B1 in He.
  destruct (Rle_lt_or_eq_dec B x) as [Lt|<-]; [lra| |].
  2: { unfold B. rewrite <- bpow_plus, rd_bpow by lia. rewrite bpow_plus, sqrt_square by apply bpow_ge_0. rewrite rd_bpow by lia. lra. }
  set (u := bpow radix2 (-53)). assert (Pu: 0 < u < / 1000).
  { split; [apply bpow_gt_0|]. unfold u. simpl. lra. }
  assert (ERR: Rabs (rd (x * x) - x * x) < 2 * x * (B * u) - B * u * (B * u)).
  { destruct (Rlt_le_dec (x * x) (2 * (B * B))) as [C|C].
    - assert (X := rd_error (x * x) (e + e + 1)). rewrite E2 in X. change (bpow radix2 1) with 2 in X.
      rewrite (Rabs_pos_eq (x * x)) in X by nra. replace (e + e + 1 - 54)%Z with (e + e + (-53))%Z in X by lia. rewrite E2 in X. fold u in X.
      specialize (X ltac:(lia) ltac:(lra)). eapply Rle_lt_trans; [exact X|].
      assert (B * B * u < B * x * u) by (apply Rmult_lt_compat_r; nra).
      assert (B * u * (B * u) <= B * B * u * / 1000). { replace (B * u * (B * u)) with (B * B * u * u) by ring. apply Rmult_le_compat_l; [|lra]. nra. }
      nra.
    - assert (X := rd_error (x * x) (e + e + 2)). rewrite E2 in X. change (bpow radix2 2) with 4 in X.
      rewrite (Rabs_pos_eq (x * x)) in X by nra. replace (e + e + 2 - 54)%Z with (e + e + (-52))%Z in X by lia. rewrite E2 in X.
      replace (bpow radix2 (-52)) with (2 * u) in X by (unfold u; simpl; lra).
      specialize (X ltac:(lia) ltac:(nra)). eapply Rle_lt_trans; [exact X|].
      assert (14 / 10 * B <= x). { destruct (Rle_lt_dec (14 / 10 * B) x); [assumption|]. exfalso. nra. }
      assert (14 / 10 * B * (B * u) <= x * (B * u)) by (apply Rmult_le_compat_r; nra).
      assert (B * u * (B * u) <= B * B * u * / 1000). { replace (B * u * (B * u)) with (B * B * u * u) by ring. apply Rmult_le_compat_l; [|lra]. nra. }
      assert (0 < B * B * u) by (apply Rmult_lt_0_compat; nra). replace (14 / 10 * B * (B * u)) with (14 / 10 * (B * B * u)) in * by ring.
      replace (B * B * (2 * u)) with (2 * (B * B * u)) by ring. replace (2 * x * (B * u)) with (2 * (x * (B * u))) by ring. lra. }
  assert (Y: x - B * u < sqrt (rd (x * x))).
  { assert (B * u < B * / 1000) by (apply Rmult_lt_compat_l; lra). assert (0 < x - B * u) by lra. rewrite <- (sqrt_square (x - B * u)) by lra. apply sqrt_lt_1_alt. split; [nra|].
    apply Rabs_def2 in ERR. nra. }
  set (y := sqrt (rd (x * x))) in *. clearbody y.
  destruct (Rle_lt_dec x (rd y)) as [|Hlt]; [assumption|exfalso].
  assert (Hy: y < x). { destruct (Rlt_le_dec y x); [assumption|]. assert (rd x <= rd y) by now apply rd_le. rewrite (rd_format x F) in *. lra. }
  assert (P': rd y <= x - 2 * (B * u)).
  { replace (2 * (B * u)) with (bpow radix2 (e - 52)).
    2: { unfold Zminus. rewrite bpow_plus. fold B. unfold u. simpl. lra. }
    destruct (Rle_lt_dec (bpow radix2 e) (rd y)) as [G|G].
    - apply rd_below; auto; [lia|fold B; lra|apply rd_format_rd].
    - fold B in G. assert (bpow radix2 (e - 52) <= x - B); [|lra].
      assert (Z := rd_below x e B F ltac:(lia) ltac:(fold B; lra) (bpow_format e ltac:(lia)) Lt ltac:(fold B; lra)). lra. }
  assert (K := rd_nearest y x F). assert (0 < B * u) by (apply Rmult_lt_0_compat; lra). rewrite (Rabs_left (rd y - y)) in K by lra. rewrite (Rabs_pos_eq (x - y)) in K by lra. lra.
Qed.

(* ---------- lengths and angles ---------- *)
(** Neither extremely small nor extremely large. *)
Definition mid (x : f64) : Prop := fin x /\ (val x = 0 \/ bpow radix2 (-200) <= Rabs (val x)) /\ Rabs (val x) <= bpow radix2 100.

Lemma mid_sq x : mid x -> fin (f_mul x x) /\ val (f_mul x x) = rd (val x * val x) /\ 0 <= val (f_mul x x) <= bpow radix2 200 /\
  Rabs (val x) <= rd (sqrt (val (f_mul x x))).
Proof.
  intros (F & L & U).
  assert (B: Rabs (val x * val x) <= bpow radix2 200).
  { rewrite Rabs_mult. change 200%Z with (100 + 100)%Z. rewrite bpow_plus. apply Rmult_le_compat; auto using Rabs_pos. }
  destruct (f_mul_val x x F F) as [Fm Vm]; [eapply bd_big; eauto; lia|]. split; [exact Fm|]. split; [exact Vm|].
  assert (N0: 0 <= val (f_mul x x)). { rewrite Vm, <- rd_0. apply rd_le. apply Rle_0_sqr. }
  split.
  - split; [exact N0|]. rewrite <- (Rabs_pos_eq (val (f_mul x x)) N0). rewrite Vm. apply rd_abs_le; [lia|exact B].
  - rewrite Vm. destruct L as [Z|L].
    + rewrite Z, Rabs_R0, Rmult_0_l, rd_0, sqrt_0, rd_0. lra.
    + apply rd_sqrt_sqr; [apply val_format|]. split; [eapply Rle_trans; [|exact L]|eapply Rle_trans; [exact U|]]; apply bpow_le; lia.
Qed.
Lemma hyp_ok a b : mid a -> mid b ->
  exists h, f_sqrt (f_add (f_mul a a) (f_mul b b)) = Ok h /\ fin h /\ Rabs (val a) <= val h /\ Rabs (val b) <= val h /\ val h <= bpow radix2 101.
Proof.
  intros Ma Mb. destruct (mid_sq a Ma) as (Fa & Va & [La Ua] & Sa). destruct (mid_sq b Mb) as (Fb & Vb & [Lb Ub] & Sb).
  assert (B: Rabs (val (f_mul a a) + val (f_mul b b)) <= bpow radix2 201).
  { rewrite Rabs_pos_eq by lra. change 201%Z with (200 + 1)%Z. rewrite <- bpow_double. lra. }
  destruct (f_add_val _ _ Fa Fb) as [Fs Vs]; [eapply bd_big; eauto; lia|].
  assert (G1: val (f_mul a a) <= val (f_add (f_mul a a) (f_mul b b))) by (rewrite Vs, <- (rd_val (f_mul a a)) at 1; apply rd_le; lra).
  assert (G2: val (f_mul b b) <= val (f_add (f_mul a a) (f_mul b b))) by (rewrite Vs, <- (rd_val (f_mul b b)) at 1; apply rd_le; lra).
  destruct (f_sqrt_val _ Fs) as (h & E & Fh & Vh); [lra|]. exists h. split; [exact E|]. split; [exact Fh|]. rewrite Vh. repeat split.
  - eapply Rle_trans; [exact Sa|]. apply rd_le. apply sqrt_le_1_alt. exact G1.
  - eapply Rle_trans; [exact Sb|]. apply rd_le. apply sqrt_le_1_alt. exact G2.
  - assert (X: Rabs (sqrt (val (f_add (f_mul a a) (f_mul b b)))) <= bpow radix2 101).
    { rewrite Rabs_pos_eq by apply sqrt_pos. rewrite <- (sqrt_square (bpow radix2 101)) by apply bpow_ge_0. apply sqrt_le_1_alt.
      rewrite <- bpow_plus. apply Rle_trans with (bpow radix2 201); [|apply bpow_le; lia].
      rewrite Vs. eapply Rle_trans; [apply Rle_abs|]. apply rd_abs_le; [lia|exact B]. }
    eapply Rle_trans; [apply Rle_abs|]. apply rd_abs_le; [lia|exact X].
Qed.

Lemma pi_val : fin f_pi /\ val f_pi = 884279719003555 / 281474976710656.
Proof.
  split; [reflexivity|]. unfold f_pi.
  assert (E: forall x : f64, B2SF x = SpecFloat.S754_finite false 7074237752028440 (-51) -> val x = 884279719003555 / 281474976710656).
  { intros x Hx. destruct x; try discriminate Hx. injection Hx as -> -> ->. cbn. unfold F2R. cbn. lra. }
  apply E. vm_compute. reflexivity.
Qed.
Lemma two_val : fin (f_ofZ 2) /\ val (f_ofZ 2) = 2.
Proof. apply (f_ofZ_val 2). lia. Qed.
Lemma twopi_val : fin (f_mul (f_ofZ 2) f_pi) /\ val (f_mul (f_ofZ 2) f_pi) = 2 * val f_pi.
Proof.
  split; [reflexivity|]. rewrite (proj2 pi_val).
  assert (E: forall x : f64, B2SF x = SpecFloat.S754_finite false 7074237752028440 (-50) -> val x = 2 * (884279719003555 / 281474976710656)).
  { intros x Hx. destruct x; try discriminate Hx. injection Hx as -> -> ->. cbn. unfold F2R. cbn. lra. }
  apply E. vm_compute. reflexivity.
Qed.
Lemma f_lt_one : fin f_one /\ val f_one = 1.
Proof. apply (f_ofZ_val 1). lia. Qed.

Section Angle.
Variable acos : f64 -> f64.
Hypothesis Hacos : good_acos acos.
Notation N := (F64 acos).

Lemma angle_ok (a b : f64) : mid a -> mid b -> val a <> 0 \/ val b <> 0 ->
  exists an, angle_of (N:=N) a b = Ok an /\ fin an /\ 0 <= val an <= 2 * val f_pi.
Proof.
  intros Ma Mb NZ. unfold angle_of. cbn [sqrtn add mul F64 div acosn ltb sub].
  destruct (hyp_ok a b Ma Mb) as (h & -> & Fh & Ha & Hb & Uh). cbn [rbind].
  assert (Ph: 0 < val h).
  { destruct NZ as [NZ|NZ]; apply Rabs_pos_lt in NZ; lra. }
  assert (Q: Rabs (val b / val h) <= 1).
  { unfold Rdiv. rewrite Rabs_mult, (Rabs_pos_eq (/ val h)) by (left; now apply Rinv_0_lt_compat).
    apply Rmult_le_reg_r with (val h); [exact Ph|]. rewrite Rmult_assoc, Rinv_l by lra. lra. }
  destruct Mb as (Fb & _ & _).
  destruct (f_div_val b h Fb Fh) as (q & -> & Fq & Vq); [lra|eapply (bd_big 0); [exact Q|lia]|]. cbn [rbind].
  assert (Hq: -1 <= val q <= 1).
  { apply Rabs_le_inv. rewrite Vq. apply (rd_abs_le _ 0); [lia|exact Q]. }
  destruct f_lt_one as [F1 V1]. unfold f_acos.
  replace (f_lt f_one q) with false by (symmetry; apply f_lt_false; auto; lra).
  replace (f_lt q (Bopp f_one)) with false by (symmetry; apply f_lt_false; [exact Fq|reflexivity|rewrite val_opp; lra]).
  cbn [orb rbind]. destruct (Hacos q Fq Hq) as [Fa [La Ua]]. destruct pi_val as [Fp Vp]. destruct twopi_val as [Ft Vt].
  destruct (f_lt a (@zero N)); [|exists (acos q); repeat split; auto; lra].
  destruct (f_sub_val (f_mul (f_ofZ 2) f_pi) (acos q) Ft Fa) as [Fs Vs].
  { rewrite Vt. apply big_27. rewrite Rabs_pos_eq by lra. b2n. lra. }
  eexists. split; [reflexivity|]. change (mul (p:=N)) with f_mul. change (@two N) with (f_ofZ 2). change (@pin N) with f_pi. split; [exact Fs|]. rewrite Vs, Vt. split.
  - rewrite <- rd_0. apply rd_le. lra.
  - rewrite <- Vt at 2. rewrite <- (rd_val (f_mul (f_ofZ 2) f_pi)). apply rd_le. rewrite Vt. lra.
Qed.
End Angle.
