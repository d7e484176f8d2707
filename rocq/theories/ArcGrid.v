(** binary64 arcs whose plane axes have equal steps: the start and the end are
    whole steps inside the circle, the iterations are at most four radii. *)
From Coq Require Import ZArith Bool Reals Lra Lia List Psatz.
From Flocq Require Import Core BinarySingleNaN.
From Verif Require Import PyBase PyNum PyFloatFacts Config Coordinates Pulses PulseSpec Decimal MachinePos MachineArc LinearGen ArcSpec ArcRun ArcMake ArcFloat.
From Coq Require Import List.
From Flocq Require Import Core.
Import ListNotations.
Local Open Scope R_scope.

Ltac c2n := b2n; change (bpow radix2 29) with 536870912 in *; change (bpow radix2 (-20)) with (/ 1048576) in *;
            change (bpow radix2 (-11)) with (/ 2048) in *.

Section Near.
Variable p : Z.
Hypothesis Hp : (0 < p <= 1000)%Z.

(** [x] is [j] steps up to rounding, and exactly 0 for [j = 0]. *)
Record near (j : Z) (x : f64) : Prop := {
  n_fin : fin x;
  n_small : (Z.abs j <= 262144 * p)%Z;
  n_err : Rabs (val x * IZR p - IZR j) <= bpow radix2 (-20);
  n_zero : j = 0%Z -> val x = 0
}.

Lemma near_R j x : near j x -> Rabs (val x * IZR p) <= bpow radix2 29.
Proof.
  intros [F S E _]. assert (Rabs (IZR j) <= 262144 * 1000).
  { rewrite <- abs_IZR. rewrite <- mult_IZR. apply IZR_le. lia. }
  replace (val x * IZR p) with ((val x * IZR p - IZR j) + IZR j) by ring. eapply Rle_trans; [apply Rabs_triang|]. c2n. lra.
Qed.
Lemma near_val j x : near j x -> Rabs (val x) <= bpow radix2 29.
Proof.
  intros H. assert (X := near_R j x H). rewrite Rabs_mult in X. assert (Pp := p_pos p Hp). rewrite (Rabs_pos_eq (IZR p)) in X by lra.
  assert (1 <= IZR p) by (apply IZR_le; lia). assert (Y := Rabs_pos (val x)). nra.
Qed.
Lemma near_ge j x : near j x -> j <> 0%Z -> bpow radix2 (-11) <= Rabs (val x).
Proof.
  intros [F S E _] NZ. assert (1 <= Rabs (IZR j)) by (rewrite <- abs_IZR; apply IZR_le; lia).
  assert (Pp := p_pos p Hp). assert (Pl := p_le p Hp).
  assert (Rabs (IZR j) <= Rabs (val x * IZR p) + bpow radix2 (-20)).
  { replace (IZR j) with (val x * IZR p - (val x * IZR p - IZR j)) at 1 by ring. unfold Rminus at 1. eapply Rle_trans; [apply Rabs_triang|]. rewrite Rabs_Ropp. lra. }
  rewrite Rabs_mult, (Rabs_pos_eq (IZR p)) in H0 by lra. assert (Y := Rabs_pos (val x)). c2n. nra.
Qed.
Lemma near_mid j x : near j x -> mid x.
Proof.
  intros H. split; [apply H|]. split.
  - destruct (Z.eq_dec j 0) as [Z|NZ]; [left; now apply (n_zero j)|]. right. eapply Rle_trans; [|now apply (near_ge j)]. apply bpow_le. lia.
  - eapply Rle_trans; [now apply (near_val j)|]. apply bpow_le. lia.
Qed.
Lemma near_nz j x : near j x -> val x <> 0 <-> j <> 0%Z.
Proof.
  intros H. split; intros NZ E.
  - apply NZ. now apply (n_zero j).
  - assert (X := near_ge j x H NZ). rewrite E, Rabs_R0 in X. c2n. lra.
Qed.
Lemma near_opp j x : near j x -> near (- j) (Bopp x).
Proof.
  intros [F S E Z]. split; [now apply fin_opp|lia| |intros; rewrite val_opp, Z by lia; ring].
  rewrite val_opp, opp_IZR. replace (- val x * IZR p - - IZR j) with (- (val x * IZR p - IZR j)) by ring. now rewrite Rabs_Ropp.
Qed.
Lemma near_abs j x : near j x -> near (Z.abs j) (Babs x).
Proof.
  intros [F S E Z]. split; [now apply fin_abs|lia| |intros; rewrite val_abs, Z by lia; apply Rabs_R0].
  rewrite val_abs, abs_IZR. assert (Pp := p_pos p Hp). replace (Rabs (val x) * IZR p) with (Rabs (val x * IZR p)) by (rewrite Rabs_mult, (Rabs_pos_eq (IZR p)); lra).
  eapply Rle_trans; [apply Rabs_triang_inv2|]. exact E.
Qed.
Lemma near_mul j x : near j x -> fin (f_mul x (f_ofZ p)) /\ val (f_mul x (f_ofZ p)) = rd (val x * IZR p) /\
  Rabs (val (f_mul x (f_ofZ p)) - IZR j) <= / 1000 /\ (j = 0%Z -> val (f_mul x (f_ofZ p)) = 0).
Proof.
  intros H. destruct (f_ofZ_val p) as [Fp Vp]; [lia|]. assert (B := near_R j x H).
  destruct (f_mul_val x (f_ofZ p) (n_fin j x H) Fp) as [F V]; [rewrite Vp; eapply bd_big; [exact B|lia]|].
  rewrite Vp in V. split; [exact F|]. split; [exact V|]. split.
  - rewrite V. assert (Er := rd_error _ 29 ltac:(lia) B). change (29 - 54)%Z with (-25)%Z in Er. assert (E := n_err j x H).
    replace (rd (val x * IZR p) - IZR j) with ((rd (val x * IZR p) - val x * IZR p) + (val x * IZR p - IZR j)) by ring.
    eapply Rle_trans; [apply Rabs_triang|]. c2n. lra.
  - intros Z. rewrite V, (n_zero j x H Z), Rmult_0_l. apply rd_0.
Qed.
Lemma near_rnd j x : near j x -> f_rnd (f_mul x (f_ofZ p)) = Ok j.
Proof.
  intros H. destruct (near_mul j x H) as (F & _ & E & _). rewrite (f_rnd_val _ F). f_equal. apply ZnearestE_unique. lra.
Qed.
Lemma near_trunc j x k : near j x -> f_trunc (f_mul x (f_ofZ p)) = Ok k -> (Z.abs k <= Z.abs j)%Z.
Proof.
  intros H. destruct (near_mul j x H) as (F & _ & E & Z). rewrite (f_trunc_val _ F). intros K. injection K as <-.
  set (y := val (f_mul x (f_ofZ p))) in *. destruct (Z.eq_dec j 0) as [J|NZ].
  - rewrite (Z J). rewrite Ztrunc_IZR. lia.
  - apply Rabs_le_inv in E. unfold Ztrunc. destruct (Rlt_bool_spec y 0) as [L|L].
    + assert (j < 0)%Z. { destruct (Z_lt_le_dec j 0); [assumption|]. assert (1 <= IZR j) by (apply IZR_le; lia). lra. }
      assert (Zceil y <= 0)%Z by (apply Zceil_glb; simpl; lra). assert (j <= Zceil y)%Z; [|lia].
      assert (IZR j - 1 < IZR (Zceil y)) by (assert (U := Zceil_ub y); lra). rewrite <- minus_IZR in H2. apply lt_IZR in H2. lia.
    + assert (0 < j)%Z. { destruct (Z_lt_le_dec 0 j); [assumption|]. assert (IZR j <= -1) by (apply (IZR_le j (-1)); lia). lra. }
      assert (0 <= Zfloor y)%Z by (apply Zfloor_lub; simpl; lra). assert (Zfloor y <= j)%Z; [|lia].
      assert (IZR (Zfloor y) < IZR j + 1) by (assert (U := Zfloor_lb y); lra). rewrite <- plus_IZR in H2. apply lt_IZR in H2. lia.
Qed.
Lemma near_trunc_le j k x y a b : near j x -> near k y -> Rabs (val x) <= val y ->
  f_trunc (f_mul x (f_ofZ p)) = Ok a -> f_trunc (f_mul y (f_ofZ p)) = Ok b -> (Z.abs a <= b)%Z.
Proof.
  intros H K L. destruct (near_mul j x H) as (F & V & _). destruct (near_mul k y K) as (F' & V' & _).
  rewrite (f_trunc_val _ F), (f_trunc_val _ F'). intros A B. injection A as <-. injection B as <-.
  rewrite <- Ztrunc_abs. apply Ztrunc_le. rewrite V, V', <- rd_abs. apply rd_le. assert (Pp := p_pos p Hp).
  rewrite Rabs_mult, (Rabs_pos_eq (IZR p)) by lra. apply Rmult_le_compat_r; lra.
Qed.
Lemma near_div k q : (Z.abs k <= 262144 * p)%Z -> f_div (f_ofZ k) (f_ofZ p) = Ok q -> near k q /\ val q = rd (IZR k / IZR p).
Proof.
  intros K E. destruct (f_ofZ_val p) as [Fp Vp]; [lia|]. destruct (f_ofZ_val k) as [Fk Vk]; [lia|].
  assert (Pp := p_pos p Hp). assert (Pl := p_le p Hp).
  assert (B: Rabs (IZR k / IZR p) <= bpow radix2 18).
  { unfold Rdiv. rewrite Rabs_mult, (Rabs_pos_eq (/ IZR p)), <- abs_IZR by (left; now apply Rinv_0_lt_compat).
    apply Rmult_le_reg_r with (IZR p); [lra|]. rewrite Rmult_assoc, Rinv_l, Rmult_1_r by lra. c2n. rewrite <- mult_IZR. now apply IZR_le. }
  destruct (f_div_val (f_ofZ k) (f_ofZ p) Fk Fp) as (q' & E' & Fq & Vq); [lra|rewrite Vk, Vp; eapply bd_big; [exact B|lia]|].
  rewrite E' in E. injection E as ->. rewrite Vk, Vp in Vq. split; [|exact Vq]. split; auto.
  - rewrite Vq. assert (Er := rd_error _ 18 ltac:(lia) B). change (18 - 54)%Z with (-36)%Z in Er.
    replace (rd (IZR k / IZR p) * IZR p - IZR k) with ((rd (IZR k / IZR p) - IZR k / IZR p) * IZR p) by (field; lra).
    rewrite Rabs_mult, (Rabs_pos_eq (IZR p)) by lra. c2n. apply Rle_trans with (/ 68719476736 * 1000); [|lra].
    apply Rmult_le_compat; try apply Rabs_pos; lra.
  - intros ->. rewrite Vq. unfold Rdiv. rewrite Rmult_0_l. apply rd_0.
Qed.
Lemma pow2_exact n k q : (0 <= n)%Z -> (p = 2 ^ n)%Z -> (Z.abs k <= 262144 * p)%Z -> val q = rd (IZR k / IZR p) -> fin q ->
  val q = IZR k / IZR p /\ f_trunc (f_mul q (f_ofZ p)) = Ok k.
Proof.
  intros Hn Ep K V F. assert (Pp := p_pos p Hp).
  assert (X: rd (IZR k / IZR p) = IZR k / IZR p).
  { apply rd_format. replace (IZR k / IZR p) with (F2R (Float radix2 k (- n))).
    - apply generic_format_FLT. exists (Float radix2 k (- n)); [reflexivity| |].
      + cbn [Fnum]. change (prec64) with 53%Z. change (radix2 ^ 53)%Z with (2 ^ 53)%Z. lia.
      + cbn [Fexp]. unfold SpecFloat.emin. change prec64 with 53%Z. change emax64 with 1024%Z.
        assert (n <= 10)%Z; [|lia]. apply (Z.pow_le_mono_r_iff 2); try lia.
    - unfold F2R. cbn [Fnum Fexp]. rewrite bpow_opp, <- (IZR_Zpower radix2) by exact Hn. change (radix2 ^ n)%Z with (2 ^ n)%Z. rewrite <- Ep. reflexivity. }
  rewrite X in V. split; [exact V|].
  destruct (f_ofZ_val p) as [Fp Vp]; [lia|].
  assert (Y: val q * IZR p = IZR k) by (rewrite V; field; lra).
  destruct (f_mul_val q (f_ofZ p) F Fp) as [F' V'].
  { rewrite Vp, Y. apply (bd_big 40); [|lia]. rewrite <- abs_IZR, <- (IZR_Zpower radix2) by lia. apply IZR_le. change (radix2 ^ 40)%Z with (2 ^ 40)%Z. lia. }
  rewrite (f_trunc_val _ F'), V', Vp, Y, rd_IZR, Ztrunc_IZR by lia. reflexivity.
Qed.
Lemma near_mono j k x y : near j x -> near k y -> val x <= val y -> (j <= k)%Z.
Proof.
  intros [F S E _] [F' S' E' _] L. assert (Pp := p_pos p Hp). apply Rabs_le_inv in E, E'.
  assert (val x * IZR p <= val y * IZR p) by (apply Rmult_le_compat_r; lra). c2n.
  assert (IZR j < IZR k + 1) by lra. rewrite <- plus_IZR in H0. apply lt_IZR in H0. lia.
Qed.
Lemma near_fun j k x : near j x -> near k x -> j = k.
Proof. intros A B. assert (X := near_mono j k x x A B (Rle_refl _)). assert (Y := near_mono k j x x B A (Rle_refl _)). lia. Qed.

Variable s : Z.
Hypothesis Hs : (p * s = 10000000000)%Z.
Lemma dec_near j x : dec (j * s) x -> (Z.abs j <= 131072 * p)%Z -> near j x.
Proof.
  intros D J. split; [apply D|lia| |intros ->; rewrite Z.mul_0_l in D; now apply dec_zero_val].
  eapply Rle_trans; [apply (dec_times_p p Hp s Hs j x D J)|]. apply bpow_le. lia.
Qed.
(** Sum and difference of whole steps. *)
Lemma dec_near_add i j x y : dec (i * s) x -> dec (j * s) y -> (Z.abs i <= 65536 * p)%Z -> (Z.abs j <= 65536 * p)%Z ->
  near (i + j) (f_add x y).
Proof.
  intros Dx Dy Si Sj. assert (Ei := dec_times_p p Hp s Hs i x Dx ltac:(lia)). assert (Ej := dec_times_p p Hp s Hs j y Dy ltac:(lia)).
  assert (Bx := dec_bound _ _ Dx (step_small p Hp s Hs i ltac:(lia))). assert (By := dec_bound _ _ Dy (step_small p Hp s Hs j ltac:(lia))).
  assert (B: Rabs (val x + val y) <= bpow radix2 18).
  { eapply Rle_trans; [apply Rabs_triang|]. c2n. lra. }
  destruct (f_add_val x y (proj1 Dx) (proj1 Dy)) as [F V]; [eapply bd_big; [exact B|lia]|].
  assert (Pp := p_pos p Hp). assert (Pl := p_le p Hp).
  split; [exact F|lia| |].
  - rewrite V. assert (Er := rd_error _ 18 ltac:(lia) B). change (18 - 54)%Z with (-36)%Z in Er.
    replace (rd (val x + val y) * IZR p - IZR (i + j)) with
      ((rd (val x + val y) - (val x + val y)) * IZR p + ((val x * IZR p - IZR i) + (val y * IZR p - IZR j))) by (rewrite plus_IZR; ring).
    eapply Rle_trans; [apply Rabs_triang|]. eapply Rle_trans; [apply Rplus_le_compat_l; apply Rabs_triang|].
    rewrite Rabs_mult, (Rabs_pos_eq (IZR p)) by lra.
    assert (Rabs (rd (val x + val y) - (val x + val y)) * IZR p <= / 68719476736 * 1000) by (apply Rmult_le_compat; try apply Rabs_pos; c2n; lra).
    c2n. lra.
  - intros Z. rewrite V. replace (val x + val y) with 0; [apply rd_0|]. destruct Dx as [_ ->], Dy as [_ ->].
    replace (j * s)%Z with (- (i * s))%Z by (replace j with (- i)%Z by lia; ring).
    rewrite opp_IZR. replace (- IZR (i * s) / e10) with (- (IZR (i * s) / e10)) by (unfold Rdiv; ring). rewrite rd_opp. ring.
Qed.
End Near.

(* ---------- the arcs ---------- *)
Section Arc.
Variable acos : f64 -> f64.
Notation N := (F64 acos).
Variable cfg : config.
Variables (delta radius : quad N) (pl : plane) (rot : rotation) (v : N).
Variable g : circular_gen N.
Variables (p s : Z).
Hypothesis Hp : (0 < p <= 1000)%Z.
Hypothesis Hs : (p * s = 10000000000)%Z.
Hypothesis Pa : axis_a pl (ppm cfg) = p.
Hypothesis Pb : axis_b pl (ppm cfg) = p.
Variables (ka kb ja jb : Z).
Hypothesis Dka : dec (ka * s) (axis_a pl radius).
Hypothesis Dkb : dec (kb * s) (axis_b pl radius).
Hypothesis Dja : dec (ja * s) (axis_a pl delta).
Hypothesis Djb : dec (jb * s) (axis_b pl delta).
Hypothesis Ska : (Z.abs ka <= 65536 * p)%Z.
Hypothesis Skb : (Z.abs kb <= 65536 * p)%Z.
Hypothesis Sja : (Z.abs ja <= 65536 * p)%Z.
Hypothesis Sjb : (Z.abs jb <= 65536 * p)%Z.
Hypothesis M : made cfg delta radius pl rot v g.
Notation near := (near p).

Let sa : f64 := Bopp (axis_a pl radius).
Let sb : f64 := Bopp (axis_b pl radius).
Let ea : f64 := f_add sa (axis_a pl delta).
Let eb : f64 := f_add sb (axis_b pl delta).

Lemma sa_dec : dec (- ka * s) sa. Proof. replace (- ka * s)%Z with (- (ka * s))%Z by ring. now apply dec_opp. Qed.
Lemma sb_dec : dec (- kb * s) sb. Proof. replace (- kb * s)%Z with (- (kb * s))%Z by ring. now apply dec_opp. Qed.
Lemma sa_near : near (- ka) sa. Proof. apply (dec_near p Hp s Hs); [apply sa_dec|lia]. Qed.
Lemma sb_near : near (- kb) sb. Proof. apply (dec_near p Hp s Hs); [apply sb_dec|lia]. Qed.
Lemma ea_near : near (- ka + ja) ea. Proof. apply (dec_near_add p Hp s Hs); auto using sa_dec; lia. Qed.
Lemma eb_near : near (- kb + jb) eb. Proof. apply (dec_near_add p Hp s Hs); auto using sb_dec; lia. Qed.

(** The length of a vector in steps is not less than its components. *)
Lemma hyp_steps (x y h : f64) i j k : near i x -> near j y -> (Z.abs i <= 131072 * p)%Z -> (Z.abs j <= 131072 * p)%Z ->
  f_sqrt (f_add (f_mul x x) (f_mul y y)) = Ok h -> f_rnd (f_mul h (f_ofZ p)) = Ok k ->
  fin h /\ (Z.abs i <= k)%Z /\ (Z.abs j <= k)%Z /\ (0 <= k <= 262144 * p)%Z.
Proof.
  intros Hx Hy Si Sj Eh Ek. assert (Pp := p_pos p Hp). assert (Pl := p_le p Hp).
  destruct (hyp_ok x y (near_mid p Hp _ _ Hx) (near_mid p Hp _ _ Hy)) as (h' & E' & Fh & Lx & Ly & _).
  rewrite E' in Eh. injection Eh as ->.
  assert (B: bd 18 h).
  { assert (K: forall i x, near i x -> (Z.abs i <= 131072 * p)%Z -> Rabs (val x) <= 131073 /\ fin x).
    { clear - Hp. intros i x H S. destruct H as [F _ E _]. split; [|exact F]. assert (Pp := p_pos p Hp).
      assert (Rabs (IZR i) <= 131072 * IZR p) by (rewrite <- abs_IZR, <- mult_IZR; now apply IZR_le).
      assert (1 <= IZR p) by (apply IZR_le; lia).
      assert (Rabs (val x * IZR p) <= 131073 * IZR p).
      { replace (val x * IZR p) with ((val x * IZR p - IZR i) + IZR i) by ring. eapply Rle_trans; [apply Rabs_triang|]. c2n. lra. }
      rewrite Rabs_mult, (Rabs_pos_eq (IZR p)) in H1 by lra. apply Rmult_le_reg_r in H1; lra. }
    destruct (K i x Hx Si) as [Bx Fx]. destruct (K j y Hy Sj) as [By Fy].
    assert (Q: forall z, fin z -> Rabs (val z) <= 131073 -> fin (f_mul z z) /\ val (f_mul z z) = rd (val z * val z) /\ 0 <= val z * val z <= 131073 * 131073).
    { clear. intros z F B. assert (U: 0 <= val z * val z <= 131073 * 131073).
      { split; [apply Rle_0_sqr|]. replace (val z * val z) with (Rabs (val z) * Rabs (val z)) by (rewrite <- Rabs_mult; apply Rabs_pos_eq, Rle_0_sqr).
        apply Rmult_le_compat; auto using Rabs_pos. }
      destruct (f_mul_val z z F F) as [G V]; [apply (bd_big 35); [|lia]; rewrite Rabs_pos_eq by lra; change (bpow radix2 35) with 34359738368; lra|]. auto. }
    destruct (Q x Fx Bx) as (F1 & V1 & L1 & U1). destruct (Q y Fy By) as (F2 & V2 & L2 & U2).
    assert (R1: 0 <= rd (val x * val x) <= 17180131329 + 1).
    { split; [rewrite <- rd_0; now apply rd_le|]. assert (X := rd_error (val x * val x) 35 ltac:(lia)). rewrite (Rabs_pos_eq (val x * val x)) in X by lra.
      change (bpow radix2 35) with 34359738368 in X. specialize (X ltac:(lra)). change (35 - 54)%Z with (-19)%Z in X. change (bpow radix2 (-19)) with (/ 524288) in X. apply Rabs_le_inv in X. lra. }
    assert (R2: 0 <= rd (val y * val y) <= 17180131329 + 1).
    { split; [rewrite <- rd_0; now apply rd_le|]. assert (X := rd_error (val y * val y) 35 ltac:(lia)). rewrite (Rabs_pos_eq (val y * val y)) in X by lra.
      change (bpow radix2 35) with 34359738368 in X. specialize (X ltac:(lra)). change (35 - 54)%Z with (-19)%Z in X. change (bpow radix2 (-19)) with (/ 524288) in X. apply Rabs_le_inv in X. lra. }
    apply (bd_sqrt 18 (f_add (f_mul x x) (f_mul y y)) h); [lia| |exact E'].
    assert (B: Rabs (val (f_mul x x) + val (f_mul y y)) <= bpow radix2 36) by (rewrite V1, V2, Rabs_pos_eq by lra; change (bpow radix2 36) with 68719476736; lra).
    destruct (f_add_val _ _ F1 F2) as [G V]; [eapply bd_big; [exact B|lia]|]. split; [exact G|]. rewrite V. apply rd_abs_le; [lia|exact B]. }
  destruct B as [_ Bh].
  assert (H0: 0 <= val h) by (assert (X := Rabs_pos (val x)); lra). rewrite Rabs_pos_eq in Bh by exact H0. change (bpow radix2 18) with 262144 in Bh.
  assert (U: 0 <= val h * IZR p <= 262144 * IZR p) by (split; [apply Rmult_le_pos|apply Rmult_le_compat_r]; lra).
  destruct (f_ofZ_val p) as [Fp Vp]; [lia|].
  destruct (f_mul_val h (f_ofZ p) Fh Fp) as [F V]; [rewrite Vp, Rabs_pos_eq by lra; apply big_27; change (bpow radix2 28) with 268435456; lra|].
  rewrite (f_rnd_val _ F) in Ek. injection Ek as Ek. rewrite V, Vp in Ek.
  assert (MONO: forall i x, near i x -> Rabs (val x) <= val h -> (Z.abs i <= k)%Z).
  { clear - Hp Ek Pp. intros i x Hx L. apply near_abs in Hx; [|exact Hp]. destruct (near_mul p Hp _ _ Hx) as (F & V & E & _).
    assert (Rn := near_rnd p Hp _ _ Hx). rewrite (f_rnd_val _ F) in Rn. injection Rn as <-. rewrite <- Ek.
    apply Zrnd_le; [apply valid_rnd_N|]. rewrite V. apply rd_le. rewrite val_abs. apply Rmult_le_compat_r; lra. }
  split; [exact Fh|]. split; [now apply (MONO i x)|]. split; [now apply (MONO j y)|].
  assert (Z.abs i <= k)%Z by now apply (MONO i x). split; [lia|].
  rewrite <- Ek. rewrite <- (ZnearestE_IZR (262144 * p)). apply Zrnd_le; [apply valid_rnd_N|].
  rewrite <- (rd_IZR (262144 * p)) by lia. apply rd_le. rewrite mult_IZR. lra.
Qed.

Lemma sq_opp (x : f64) : f_mul (Bopp x) (Bopp x) = f_mul x x.
Proof. destruct x as [b|b| |b m e H]; try reflexivity; destruct b; try reflexivity; apply B2SF_inj; unfold f_mul, Bmult, Bopp; rewrite !B2SF_SF2B; reflexivity. Qed.

Lemma min_p : Z.min (axis_a pl (ppm cfg)) (axis_b pl (ppm cfg)) = p.
Proof. rewrite Pa, Pb. lia. Qed.

Let rm := k_rm _ _ _ _ _ _ _ M.
Lemma rm_facts : (Z.abs ka <= rm)%Z /\ (Z.abs kb <= rm)%Z /\ (0 <= rm <= 262144 * p)%Z.
Proof.
  assert (E1 := k_h_eq _ _ _ _ _ _ _ M). assert (E2 := k_rm_eq _ _ _ _ _ _ _ M). fold rm in E2. rewrite min_p in E2.
  destruct (hyp_steps _ _ _ _ _ _ sa_near sb_near ltac:(lia) ltac:(lia) E1 E2) as (_ & A & B & C). lia.
Qed.
Let r := k_r _ _ _ _ _ _ _ M.
Lemma r_near : near rm r /\ val r = rd (IZR rm / IZR p).
Proof.
  destruct rm_facts as (_ & _ & B). apply (near_div p Hp); [lia|]. assert (E := k_r_eq _ _ _ _ _ _ _ M). rewrite min_p in E. exact E.
Qed.
Lemma radius_ab : k_radius_a _ _ _ _ _ _ _ M = r /\ k_radius_b _ _ _ _ _ _ _ M = r.
Proof.
  assert (E := k_r_eq _ _ _ _ _ _ _ M). assert (R := k_rm_eq _ _ _ _ _ _ _ M). rewrite min_p in E, R.
  assert (E1 := k_radius_a_eq _ _ _ _ _ _ _ M). assert (R1 := k_ra_eq _ _ _ _ _ _ _ M).
  assert (E2 := k_radius_b_eq _ _ _ _ _ _ _ M). assert (R2 := k_rb_eq _ _ _ _ _ _ _ M). rewrite Pa in E1, R1. rewrite Pb in E2, R2.
  fold r. split.
  - assert (X: k_ra _ _ _ _ _ _ _ M = k_rm _ _ _ _ _ _ _ M) by congruence. rewrite X in E1. unfold r. congruence.
  - assert (X: k_rb _ _ _ _ _ _ _ M = k_rm _ _ _ _ _ _ _ M) by congruence. rewrite X in E2. unfold r. congruence.
Qed.
Lemma end_facts : (Z.abs (- ka + ja) <= rm)%Z /\ (Z.abs (- kb + jb) <= rm)%Z.
Proof.
  assert (E1 := k_he_eq _ _ _ _ _ _ _ M). assert (E2 := k_rme_eq _ _ _ _ _ _ _ M). rewrite min_p in E2.
  destruct (hyp_steps _ _ _ _ _ _ ea_near eb_near ltac:(lia) ltac:(lia) E1 E2) as (_ & A & B & C).
  assert (E3 := k_re_eq _ _ _ _ _ _ _ M). rewrite min_p in E3.
  destruct (near_div p Hp (k_rme _ _ _ _ _ _ _ M) (k_re _ _ _ _ _ _ _ M)) as [Nr _]; [lia|exact E3|].
  destruct r_near as [Nm _]. assert (Q := k_end_ok _ _ _ _ _ _ _ M). fold r in Q. change (f_eq (k_re _ _ _ _ _ _ _ M) r = true) in Q.
  apply f_eq_true in Q; [|apply Nr|apply Nm].
  assert (X := near_mono p Hp _ _ _ _ Nr Nm ltac:(lra)). lia.
Qed.
Lemma rr_facts : k_rra _ _ _ _ _ _ _ M = rm /\ k_rrb _ _ _ _ _ _ _ M = rm.
Proof.
  assert (E1 := k_rra_eq _ _ _ _ _ _ _ M). assert (E2 := k_rrb_eq _ _ _ _ _ _ _ M). fold r in E1, E2. rewrite Pa in E1. rewrite Pb in E2.
  destruct r_near as [Nm _]. assert (X := near_rnd p Hp _ _ Nm). change (f_rnd (f_mul r (f_ofZ p)) = Ok (k_rra _ _ _ _ _ _ _ M)) in E1. change (f_rnd (f_mul r (f_ofZ p)) = Ok (k_rrb _ _ _ _ _ _ _ M)) in E2.
  split; congruence.
Qed.

(** Iterations over at most four quarters. *)
Lemma zrange_length a b : length (zrange a b) = Z.to_nat (b - a).
Proof. unfold zrange. now rewrite map_length, seq_length. Qed.
Lemma quarter_bound qs qe rr rsa rsb rea reb ia ib : (qe - qs <= 3)%Z ->
  (0 <= rsa <= rr)%Z -> (0 <= rsb <= rr)%Z -> (0 <= rea <= rr)%Z -> (0 <= reb <= rr)%Z ->
  quarter_iterations qs qe rr rr rsa rsb rea reb = (ia, ib) -> (0 <= ia <= 4 * rr)%Z /\ (0 <= ib <= 4 * rr)%Z.
Proof.
  intros Q A B C D. unfold quarter_iterations.
  assert (L: (length (zrange qs (qe + 1)) <= 4)%nat) by (rewrite zrange_length; lia). revert L.
  generalize (zrange qs (qe + 1)). intros l L.
  assert (G: forall l x y, (0 <= x <= 4 * rr - Z.of_nat (length l) * rr)%Z -> (0 <= y <= 4 * rr - Z.of_nat (length l) * rr)%Z ->
     forall i j, fold_left
    (fun '(ia, ib) r =>
       let i := if (4 <=? r)%Z then (r - 4)%Z else r in
       if (r =? qs)%Z then
         (if (i =? 0)%Z || (i =? 2)%Z then (ia + (rr - rsa))%Z else (ia + rsa)%Z,
          if (i =? 1)%Z || (i =? 3)%Z then (ib + (rr - rsb))%Z else (ib + rsb)%Z)
       else if (r =? qe)%Z then
         (if (i =? 0)%Z || (i =? 2)%Z then (ia + rea)%Z else (ia + (rr - rea))%Z,
          if (i =? 1)%Z || (i =? 3)%Z then (ib + reb)%Z else (ib + (rr - reb))%Z)
       else (ia + rr, ib + rr)%Z) l (x, y) = (i, j) -> (0 <= i <= 4 * rr)%Z /\ (0 <= j <= 4 * rr)%Z).
  { clear L l. induction l as [|q l IH]; intros x y X Y i j E.
    - cbn in E. injection E as <- <-. cbn [length Z.of_nat] in X, Y. lia.
    - cbn [fold_left] in E. cbn [length] in X, Y. rewrite Nat2Z.inj_succ, Z.mul_succ_l in X, Y. revert E.
      cbv zeta. destruct (q =? qs)%Z; [|destruct (q =? qe)%Z];
        [destruct ((_ =? 0)%Z || (_ =? 2)%Z), ((_ =? 1)%Z || (_ =? 3)%Z) ..|]; intros E; apply IH in E; auto; lia. }
  assert (L4: (Z.of_nat (length l) * rr <= 4 * rr)%Z) by (apply Z.mul_le_mono_nonneg_r; lia).
  intros E. eapply G in E; [exact E| |]; lia.
Qed.

Lemma iterations : (0 <= c_iterations_a g <= 4 * rm)%Z /\ (0 <= c_iterations_b g <= 4 * rm)%Z.
Proof.
  assert (I := k_iter _ _ _ _ _ _ _ M). destruct rr_facts as [Ra Rb]. rewrite Ra, Rb in I. destruct rm_facts as (A & B & C). destruct end_facts as (A' & B').
  destruct (Z.leb_spec 4 (k_qe _ _ _ _ _ _ _ M - k_qs _ _ _ _ _ _ _ M)) as [L|L]; [lia|].
  destruct I as (ia & ib & E & I).
  assert (BI: (0 <= ia <= 4 * rm)%Z /\ (0 <= ib <= 4 * rm)%Z); [|destruct rot; lia].
  unfold base_iterations in E. rewrite Pa, Pb in E.
  destruct (_ =? _)%Z.
  - (* both ends in one quarter *)
    assert (K: forall x y i j, near i x -> near j y -> (Z.abs i <= rm)%Z -> (Z.abs j <= rm)%Z -> forall k, f_rnd (f_mul (Babs (f_sub x y)) (f_ofZ p)) = Ok k -> (0 <= k <= 4 * rm)%Z).
    { clear - Hp C. intros x y i j Nx Ny Si Sj k Ek.
      assert (Pp := p_pos p Hp). assert (Pl := p_le p Hp).
      assert (Bx := near_val p Hp _ _ Nx). assert (By := near_val p Hp _ _ Ny).
      assert (B: Rabs (val x - val y) <= bpow radix2 30).
      { unfold Rminus. eapply Rle_trans; [apply Rabs_triang|]. rewrite Rabs_Ropp. change (bpow radix2 30) with 1073741824. c2n. lra. }
      destruct (f_sub_val x y (n_fin _ _ _ Nx) (n_fin _ _ _ Ny)) as [F V]; [eapply bd_big; [exact B|lia]|].
      assert (Er := rd_error _ 30 ltac:(lia) B). change (30 - 54)%Z with (-24)%Z in Er. rewrite <- V in Er. change (bpow radix2 (-24)) with (/ 16777216) in Er.
      assert (E1 := n_err _ _ _ Nx). assert (E2 := n_err _ _ _ Ny). apply Rabs_le_inv in E1, E2, Er. change (bpow radix2 (-20)) with (/ 1048576) in *.
      assert (W: Rabs (val (f_sub x y) * IZR p - IZR (i - j)) <= / 1000).
      { apply Rabs_le. rewrite minus_IZR. assert (- / 16777216 * IZR p <= (val (f_sub x y) - (val x - val y)) * IZR p <= / 16777216 * IZR p) by (split; apply Rmult_le_compat_r; lra).
        replace ((val (f_sub x y) - (val x - val y)) * IZR p) with (val (f_sub x y) * IZR p - (val x * IZR p - val y * IZR p)) in H by ring. lra. }
      assert (SI: Rabs (IZR (i - j)) <= 536870912) by (rewrite <- abs_IZR; apply IZR_le; lia).
      assert (B2: Rabs (val (Babs (f_sub x y)) * IZR p) <= bpow radix2 30).
      { rewrite val_abs, Rabs_mult, Rabs_Rabsolu, <- Rabs_mult. replace (val (f_sub x y) * IZR p) with ((val (f_sub x y) * IZR p - IZR (i - j)) + IZR (i - j)) by ring.
        eapply Rle_trans; [apply Rabs_triang|]. change (bpow radix2 30) with 1073741824. lra. }
      destruct (f_ofZ_val p) as [Fp Vp]; [lia|]. assert (Fa: fin (Babs (f_sub x y))) by now apply fin_abs.
      destruct (f_mul_val _ _ Fa Fp) as [Fm Vm]; [rewrite Vp; eapply bd_big; [exact B2|lia]|].
      rewrite (f_rnd_val _ Fm) in Ek. injection Ek as Ek. rewrite Vm, Vp in Ek.
      assert (E3 := rd_error _ 30 ltac:(lia) B2). change (30 - 54)%Z with (-24)%Z in E3. change (bpow radix2 (-24)) with (/ 16777216) in E3.
      assert (k = Z.abs (i - j)); [|lia]. rewrite <- Ek. apply ZnearestE_unique. rewrite abs_IZR.
      assert (W2: Rabs (val (Babs (f_sub x y)) * IZR p - Rabs (IZR (i - j))) <= / 1000).
      { rewrite val_abs. replace (Rabs (val (f_sub x y)) * IZR p) with (Rabs (val (f_sub x y) * IZR p)) by (rewrite Rabs_mult, (Rabs_pos_eq (IZR p)); lra).
        eapply Rle_trans; [apply Rabs_triang_inv2|]. exact W. }
      apply Rabs_le_inv in E3, W2. apply Rabs_def1; lra. }
    destruct (rnd _) as [ia'|] eqn:E1; cbn [rbind] in E; [|discriminate]. destruct (rnd (mul (absn (sub (neg (axis_b pl radius)) _)) _)) as [ib'|] eqn:E2; cbn [rbind] in E; [|discriminate].
    injection E as -> ->. split.
    + eapply (K sa ea); [apply sa_near|apply ea_near|lia|lia|exact E1].
    + eapply (K sb eb); [apply sb_near|apply eb_near|lia|lia|exact E2].
  - assert (Q1 := near_rnd p Hp _ _ (near_abs p Hp _ _ sa_near)). assert (Q2 := near_rnd p Hp _ _ (near_abs p Hp _ _ sb_near)).
    assert (Q3 := near_rnd p Hp _ _ (near_abs p Hp _ _ ea_near)). assert (Q4 := near_rnd p Hp _ _ (near_abs p Hp _ _ eb_near)).
    unfold ea, eb, sa, sb in Q1, Q2, Q3, Q4. cbn [rnd mul absn neg add ofZ F64] in E. rewrite Q1 in E. cbn [rbind] in E. rewrite Q2 in E. cbn [rbind] in E. rewrite Q3 in E. cbn [rbind] in E. rewrite Q4 in E. cbn [rbind] in E. injection E as E.
    eapply quarter_bound in E; [exact E|lia|lia|lia|lia|lia].
Qed.

Lemma dirs_pm (d : f64) h t : let '(a, b) := start_dirs (N:=N) rot d h t in (a = 1 \/ a = -1)%Z /\ (b = 1 \/ b = -1)%Z.
Proof. unfold start_dirs. destruct rot; repeat match goal with |- context [if ?b then _ else _] => destruct b end; auto. Qed.

(** The radius in steps survives the conversion to a length and back. *)
Lemma whole_radius : f_trunc (f_mul r (f_ofZ p)) = Ok rm -> c_radius_a_pulses g = rm /\ c_radius_b_pulses g = rm.
Proof.
  intros W. assert (E1 := k_Ra_eq _ _ _ _ _ _ _ M). assert (E2 := k_Rb_eq _ _ _ _ _ _ _ M). rewrite Pa in E1. rewrite Pb in E2. fold r in E1, E2.
  change (f_trunc (f_mul r (f_ofZ p)) = Ok (c_radius_a_pulses g)) in E1. change (f_trunc (f_mul r (f_ofZ p)) = Ok (c_radius_b_pulses g)) in E2. split; congruence.
Qed.
Lemma dec_le j k x y : (Z.abs j <= k)%Z -> dec (j * s) x -> val y = rd (IZR k / IZR p) -> Rabs (val x) <= val y.
Proof.
  intros L [_ V] Vy. rewrite V, Vy, <- rd_abs. apply rd_le. assert (Pp := p_pos p Hp).
  assert (S0: IZR s <> 0) by (apply IZR_neq; lia).
  replace (IZR (j * s) / e10) with (IZR j / IZR p).
  2: { unfold e10. rewrite <- Hs, !mult_IZR. field. split; lra. }
  unfold Rdiv. rewrite Rabs_mult, <- abs_IZR, (Rabs_pos_eq (/ IZR p)) by (left; apply Rinv_0_lt_compat; lra).
  apply Rmult_le_compat_r; [left; apply Rinv_0_lt_compat; lra|]. now apply IZR_le.
Qed.
(** The start is not further from the centre than the radius, both in steps. *)
Lemma start_inside : (Z.abs (c_start_a_pulses g) <= c_radius_a_pulses g <= rm)%Z /\ (Z.abs (c_start_b_pulses g) <= c_radius_b_pulses g <= rm)%Z.
Proof.
  destruct rm_facts as (A & B & C). destruct r_near as [Nr Vr].
  assert (E1 := k_Sa_eq _ _ _ _ _ _ _ M). assert (E2 := k_Sb_eq _ _ _ _ _ _ _ M). rewrite Pa in E1. rewrite Pb in E2.
  assert (E3 := k_Ra_eq _ _ _ _ _ _ _ M). assert (E4 := k_Rb_eq _ _ _ _ _ _ _ M). rewrite Pa in E3. rewrite Pb in E4. fold r in E3, E4.
  assert (X1 := near_trunc_le p Hp _ _ _ _ _ _ sa_near Nr (dec_le (- ka) rm _ _ ltac:(lia) sa_dec Vr) E1 E3).
  assert (X2 := near_trunc_le p Hp _ _ _ _ _ _ sb_near Nr (dec_le (- kb) rm _ _ ltac:(lia) sb_dec Vr) E2 E4).
  apply (near_trunc p Hp _ _ _ Nr) in E3. apply (near_trunc p Hp _ _ _ Nr) in E4. lia.
Qed.
Lemma arc_starts_inside : starts_inside g.
Proof.
  destruct start_inside as [[S1 _] [S2 _]].
  assert (D := k_dirs _ _ _ _ _ _ _ M). assert (D2 := dirs_pm (c_start_angle g) (k_half _ _ _ _ _ _ _ M) (k_threehalf _ _ _ _ _ _ _ M)). rewrite <- D in D2.
  split; lia.
Qed.
Lemma arc_on_circle : room g -> on_circle g.
Proof. intros W. split; [exact arc_starts_inside|exact W]. Qed.
Lemma whole_room : f_trunc (f_mul r (f_ofZ p)) = Ok rm -> room g.
Proof.
  intros W. destruct (whole_radius W) as [Ra Rb]. destruct iterations as [Ia Ib]. destruct start_inside as [[S1 _] [S2 _]].
  assert (D := k_dirs _ _ _ _ _ _ _ M). assert (D2 := dirs_pm (c_start_angle g) (k_half _ _ _ _ _ _ _ M) (k_threehalf _ _ _ _ _ _ _ M)). rewrite <- D in D2.
  unfold room, room_within. destruct D2 as [[D3|D3] [D4|D4]]; rewrite D3, D4; lia.
Qed.
Lemma pow2_whole n : (0 <= n)%Z -> (p = 2 ^ n)%Z -> f_trunc (f_mul r (f_ofZ p)) = Ok rm.
Proof.
  intros Hn Ep. destruct r_near as [Nr Vr]. destruct rm_facts as (_ & _ & C).
  apply (pow2_exact p Hp n); auto; [lia|apply Nr].
Qed.
End Arc.
