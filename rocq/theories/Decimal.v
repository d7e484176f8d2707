(** Binary64 numbers standing for ten-decimals numbers: arithmetic followed by
    round(x, 10) is exact on them, and so is rounding to a motor grid. *)
From Coq Require Import ZArith Bool Reals Lra Lia List.
From Flocq Require Import Core BinarySingleNaN.
From Verif Require Import PyBase PyNum PyFloatFacts Config Coordinates MachineFloat.
From Flocq Require Import Core.
Local Open Scope R_scope.

(** x is the double nearest to k / 10^10. *)
Definition dec (k : Z) (x : f64) : Prop := fin x /\ val x = rd (IZR k / e10).
(** |k / 10^10| <= 2^17. *)
Definition small (k : Z) : Prop := (Z.abs k <= 131072 * 10000000000)%Z.

Lemma small_R k : small k -> Rabs (IZR k / e10) <= bpow radix2 17.
Proof.
  unfold small. intros H. unfold Rdiv. rewrite Rabs_mult, <- abs_IZR.
  rewrite (Rabs_pos_eq (/ e10)) by (unfold e10; lra).
  apply Rmult_le_reg_r with e10; [unfold e10; lra|].
  rewrite Rmult_assoc, Rinv_l by (unfold e10; lra). rewrite Rmult_1_r.
  apply IZR_le in H. rewrite mult_IZR in H. unfold e10. simpl. lra.
Qed.
Lemma dec_bound k x : dec k x -> small k -> Rabs (val x) <= bpow radix2 17.
Proof. intros [_ ->] H. apply rd_abs_le; [lia|]. now apply small_R. Qed.
Lemma dec_err k x : dec k x -> small k -> Rabs (val x - IZR k / e10) <= bpow radix2 (-37).
Proof. intros [_ ->] H. apply (rd_error _ 17); [lia|]. now apply small_R. Qed.

Lemma dec_fun j k x : dec j x -> dec k x -> small j -> small k -> j = k.
Proof.
  intros [_ E1] [_ E2] Hj Hk.
  rewrite <- (dec10_rd_small j), <- (dec10_rd_small k).
  - now rewrite <- E1, <- E2.
  - eapply Rle_trans; [now apply small_R|apply bpow_le; lia].
  - eapply Rle_trans; [now apply small_R|apply bpow_le; lia].
Qed.

Ltac b2n := change (bpow radix2 (-37)) with (/ 137438953472) in *;
            change (bpow radix2 (-36)) with (/ 68719476736) in *;
            change (bpow radix2 (-35)) with (/ 34359738368) in *;
            change (bpow radix2 (-54)) with (/ 18014398509481984) in *;
            change (bpow radix2 (-53)) with (/ 9007199254740992) in *;
            change (bpow radix2 (-25)) with (/ 33554432) in *;
            change (bpow radix2 (-27)) with (/ 134217728) in *;
            change (bpow radix2 (-26)) with (/ 67108864) in *;
            change (bpow radix2 13) with 8192 in *;
            change (bpow radix2 14) with 16384 in *;
            change (bpow radix2 15) with 32768 in *;
            change (bpow radix2 16) with 65536 in *;
            change (bpow radix2 17) with 131072 in *;
            change (bpow radix2 18) with 262144 in *;
            change (bpow radix2 27) with 134217728 in *;
            change (bpow radix2 28) with 268435456 in *.
Lemma big_27 x : x <= bpow radix2 28 -> x <= big.
Proof. intros H. eapply Rle_trans; [exact H|apply bpow_le; lia]. Qed.

Lemma dec_close k x : fin x -> Rabs (val x - IZR k / e10) <= bpow radix2 (-35) -> dec k (f_rnd10 x).
Proof.
  intros Hf H. destruct (f_rnd10_val x Hf) as (F & V & _). split; auto. rewrite V. f_equal. f_equal. f_equal.
  unfold dec10. apply ZnearestE_unique. b2n.
  replace (val x * e10 - IZR k) with ((val x - IZR k / e10) * e10) by (unfold e10; field).
  rewrite Rabs_mult, (Rabs_pos_eq e10) by (unfold e10; lra).
  apply Rle_lt_trans with (/ 34359738368 * e10); [|unfold e10; lra].
  apply Rmult_le_compat_r; [unfold e10; lra|exact H].
Qed.
Lemma dec_close_inv x : fin x -> dec (dec10 (val x)) (f_rnd10 x).
Proof. intros Hf. destruct (f_rnd10_val x Hf) as (F & V & _). split; auto. Qed.

Lemma dec_add a b x y : dec a x -> dec b y -> small a -> small b -> dec (a + b) (f_rnd10 (f_add x y)).
Proof.
  intros Dx Dy Sa Sb. assert (Bx := dec_bound _ _ Dx Sa). assert (By := dec_bound _ _ Dy Sb).
  assert (Ex := dec_err _ _ Dx Sa). assert (Ey := dec_err _ _ Dy Sb).
  assert (Bs: Rabs (val x + val y) <= bpow radix2 18).
  { eapply Rle_trans; [apply Rabs_triang|]. b2n. lra. }
  destruct (f_add_val x y (proj1 Dx) (proj1 Dy)) as [F V]; [apply big_27; b2n; lra|].
  apply dec_close; auto. rewrite V.
  assert (Es := rd_error _ 18 ltac:(lia) Bs). change (18 - 54)%Z with (-36)%Z in Es.
  rewrite plus_IZR. set (s := rd (val x + val y)) in *. clearbody s. b2n.
  replace (s - (IZR a + IZR b) / e10) with
    ((s - (val x + val y)) + ((val x - IZR a / e10) + (val y - IZR b / e10))) by (unfold Rdiv; ring).
  eapply Rle_trans; [apply Rabs_triang|]. eapply Rle_trans; [apply Rplus_le_compat_l, Rabs_triang|]. lra.
Qed.
Lemma dec_opp k x : dec k x -> dec (- k) (Bopp x).
Proof.
  intros [F V]. split; [now apply fin_opp|]. rewrite val_opp, V, <- rd_opp, opp_IZR. f_equal. unfold Rdiv. ring.
Qed.
Lemma dec_sub a b x y : dec a x -> dec b y -> small a -> small b -> dec (a - b) (f_rnd10 (f_sub x y)).
Proof.
  intros Dx Dy Sa Sb. assert (Bx := dec_bound _ _ Dx Sa). assert (By := dec_bound _ _ Dy Sb).
  assert (Ex := dec_err _ _ Dx Sa). assert (Ey := dec_err _ _ Dy Sb).
  assert (Bs: Rabs (val x - val y) <= bpow radix2 18).
  { unfold Rminus. eapply Rle_trans; [apply Rabs_triang|]. rewrite Rabs_Ropp. b2n. lra. }
  destruct (f_sub_val x y (proj1 Dx) (proj1 Dy)) as [F V]; [apply big_27; b2n; lra|].
  apply dec_close; auto. rewrite V.
  assert (Es := rd_error _ 18 ltac:(lia) Bs). change (18 - 54)%Z with (-36)%Z in Es.
  rewrite minus_IZR. set (s := rd (val x - val y)) in *. clearbody s. b2n.
  replace (s - (IZR a - IZR b) / e10) with
    ((s - (val x - val y)) + ((val x - IZR a / e10) - (val y - IZR b / e10))) by (unfold Rdiv; ring).
  eapply Rle_trans; [apply Rabs_triang|].
  assert (Rabs (val x - IZR a / e10 - (val y - IZR b / e10)) <= / 137438953472 + / 137438953472).
  { unfold Rminus at 1. eapply Rle_trans; [apply Rabs_triang|]. rewrite Rabs_Ropp. lra. }
  lra.
Qed.
Lemma dec_abs k x : dec k x -> dec (Z.abs k) (Babs x).
Proof.
  intros [F V]. split; [now apply fin_abs|]. rewrite val_abs, V, <- rd_abs, abs_IZR. f_equal.
  unfold Rdiv. rewrite Rabs_mult, (Rabs_pos_eq (/ e10)) by (unfold e10; lra). reflexivity.
Qed.
Lemma dec_rnd10 k x : dec k x -> small k -> dec k (f_rnd10 x).
Proof.
  intros D S. apply dec_close; [apply D|]. eapply Rle_trans; [now apply dec_err|apply bpow_le; lia].
Qed.
Lemma dec_0 : dec 0 (f_ofZ 0).
Proof. split; [reflexivity|]. unfold Rdiv. rewrite Rmult_0_l, rd_0. reflexivity. Qed.
Lemma dec_zero_val x : dec 0 x -> val x = 0.
Proof. intros [_ ->]. unfold Rdiv. now rewrite Rmult_0_l, rd_0. Qed.
Lemma dec_ofZ n : small (n * 10000000000) -> dec (n * 10000000000) (f_ofZ n).
Proof.
  unfold small. intros H. destruct (f_ofZ_val n) as [F V]; [lia|]. split; auto.
  rewrite V, mult_IZR. replace (IZR n * 10000000000 / e10) with (IZR n) by (unfold e10; field).
  symmetry. apply rd_IZR. lia.
Qed.
Lemma dec_val_0 k x : dec k x -> small k -> val x = 0 -> k = 0%Z.
Proof.
  intros D S E. assert (H := dec_err _ _ D S). rewrite E in H. b2n.
  rewrite Rminus_0_l, Rabs_Ropp in H. unfold Rdiv in H.
  rewrite Rabs_mult, (Rabs_pos_eq (/ e10)), <- abs_IZR in H by (unfold e10; lra).
  assert (IZR (Z.abs k) < 1).
  { apply Rle_lt_trans with (/ 137438953472 * e10); [|unfold e10; lra].
    apply Rmult_le_reg_r with (/ e10); [unfold e10; lra|]. rewrite Rmult_assoc, Rinv_r by (unfold e10; lra). lra. }
  apply lt_IZR in H0. lia.
Qed.
(** Order of small decimals is the order of their doubles. *)
Lemma dec_le_int k x t : dec k x -> small k -> (val x <= IZR t <-> (k <= t * 10000000000)%Z).
Proof.
  intros D S. assert (H := dec_err _ _ D S). b2n. apply Rabs_le_inv in H. split; intros Hle.
  - destruct (Z_le_gt_dec k (t * 10000000000)) as [|Hgt]; auto. exfalso.
    assert (Hk: (t * 10000000000 + 1 <= k)%Z) by lia. apply IZR_le in Hk. rewrite plus_IZR, mult_IZR in Hk.
    assert (IZR t + / e10 <= IZR k / e10).
    { apply Rmult_le_reg_r with e10; [unfold e10; lra|]. unfold Rdiv.
      rewrite Rmult_assoc, Rinv_l, Rmult_plus_distr_r, Rinv_l by (unfold e10; lra). unfold e10 in *. lra. }
    assert (/ e10 > / 137438953472) by (unfold e10; lra). lra.
  - destruct D as [_ ->]. apply IZR_le in Hle. rewrite mult_IZR in Hle.
    assert (IZR k / e10 <= IZR t).
    { apply Rmult_le_reg_r with e10; [unfold e10; lra|]. unfold Rdiv.
      rewrite Rmult_assoc, Rinv_l by (unfold e10; lra). unfold e10 in *. lra. }
    destruct (Z_le_gt_dec (Z.abs t) (2 ^ 53)) as [Ht|Ht].
    + rewrite <- (rd_IZR t) by exact Ht. now apply rd_le.
    + destruct (Z_le_gt_dec 0 t) as [Hp|Hp].
      * apply Rle_trans with (bpow radix2 53).
        -- eapply Rle_trans; [apply Rle_abs|]. apply Rle_trans with (bpow radix2 17); [|apply bpow_le; lia].
           apply rd_abs_le; [lia|]. now apply small_R.
        -- rewrite <- (IZR_Zpower radix2) by lia. apply IZR_le. change (radix2 ^ 53)%Z with (2 ^ 53)%Z. lia.
      * exfalso. apply small_R in S. apply Rabs_le_inv in S. b2n.
        assert (IZR t <= -131073) by (apply IZR_le; lia). lra.
Qed.
Lemma dec_ge_0 k x : dec k x -> small k -> (0 <= val x <-> (0 <= k)%Z).
Proof.
  intros D S. split; intros H.
  - assert (D' := dec_opp _ _ D). apply (dec_le_int _ _ 0) in D'; [|unfold small in *; lia].
    rewrite val_opp in D'. destruct D' as [D' _]. assert (- val x <= 0) by lra. apply D' in H0. lia.
  - destruct D as [_ ->]. rewrite <- rd_0. apply rd_le. apply Rmult_le_pos; [now apply IZR_le|unfold e10; lra].
Qed.

(* ---------- far away numbers ---------- *)
Definition atleast (b : R) (x : f64) : Prop :=
  (exists s, x = B754_infinity s) \/ (fin x /\ b <= Rabs (val x)).

Lemma overflow_inf s (x : f64) : B2SF x = binary_overflow prec64 emax64 mode_NE s -> x = B754_infinity s.
Proof. destruct x; simpl; intros H; try discriminate. now injection H as <-. Qed.

Lemma f_ofZ_cases n : (fin (f_ofZ n) /\ val (f_ofZ n) = rd (IZR n)) \/ exists s, f_ofZ n = B754_infinity s.
Proof.
  generalize (binary_normalize_correct prec64 emax64 prec64_gt_0 prec64_lt_emax mode_NE n 0 false).
  cbv zeta. replace (F2R (Float radix2 n 0)) with (IZR n) by (unfold F2R; simpl; ring).
  match goal with |- (if ?c then _ else _) -> _ => destruct c end.
  - intros (V & F & _). left. split; assumption.
  - intros HH. right. eexists. apply overflow_inf. exact HH.
Qed.
Lemma f_mul_cases x y : fin x -> fin y ->
  (fin (f_mul x y) /\ val (f_mul x y) = rd (val x * val y)) \/ exists s, f_mul x y = B754_infinity s.
Proof.
  intros Fx Fy. generalize (Bmult_correct prec64 emax64 _ _ mode_NE x y).
  match goal with |- (if ?c then _ else _) -> _ => destruct c end.
  - unfold fin in Fx, Fy. rewrite Fx, Fy. intros (V & F & _). left. split; assumption.
  - intros HH. right. eexists. apply overflow_inf. exact HH.
Qed.
Lemma f_add_cases x y : fin x -> fin y ->
  (fin (f_add x y) /\ val (f_add x y) = rd (val x + val y)) \/ exists s, f_add x y = B754_infinity s.
Proof.
  intros Fx Fy. generalize (Bplus_correct prec64 emax64 _ _ mode_NE x y Fx Fy).
  match goal with |- (if ?c then _ else _) -> _ => destruct c end.
  - intros (V & F & _). left. split; assumption.
  - intros (HH & _). right. eexists. apply overflow_inf. exact HH.
Qed.
Lemma rd_ge e x : (-1074 <= e)%Z -> bpow radix2 e <= Rabs x -> bpow radix2 e <= Rabs (rd x).
Proof. intros He H. rewrite <- rd_abs, <- (rd_bpow e He). now apply rd_le. Qed.

Lemma ofZ_atleast n e : (-1074 <= e)%Z -> bpow radix2 e <= Rabs (IZR n) -> atleast (bpow radix2 e) (f_ofZ n).
Proof.
  intros He H. destruct (f_ofZ_cases n) as [[F V]|I]; [right|now left]. split; auto. rewrite V. now apply rd_ge.
Qed.
Lemma mul_atleast b c e (x y : f64) : (-1074 <= e)%Z -> 0 <= b -> 0 < c -> atleast b x -> fin y -> c <= val y -> bpow radix2 e <= b * c ->
  atleast (bpow radix2 e) (f_mul x y).
Proof.
  intros He Hb0 Hc0 [(s & ->)|[Fx Hb]] Fy Hc H.
  - left. destruct y as [sy|sy| |sy my ey By]; try discriminate; [|eexists; reflexivity].
    simpl in Hc. lra.
  - destruct (f_mul_cases x y Fx Fy) as [[F V]|I]; [right|now left]. split; auto. rewrite V. apply rd_ge; auto.
    rewrite Rabs_mult, (Rabs_pos_eq (val y)) by lra. eapply Rle_trans; [exact H|].
    apply Rmult_le_compat; lra.
Qed.
Lemma add_atleast b c e (x y : f64) : (-1074 <= e)%Z -> fin x -> Rabs (val x) <= c -> atleast b y -> bpow radix2 e <= b - c ->
  atleast (bpow radix2 e) (f_add x y).
Proof.
  intros He Fx Hc [(s & ->)|[Fy Hb]] H.
  - left. destruct x as [sx|sx| |sx mx ex Bx]; try discriminate; eexists; reflexivity.
  - destruct (f_add_cases x y Fx Fy) as [[F V]|I]; [right|now left]. split; auto. rewrite V. apply rd_ge; auto.
    replace (val y) with ((val x + val y) + (- val x)) in Hb by ring.
    assert (T := Rabs_triang (val x + val y) (- val x)). rewrite Rabs_Ropp in T. lra.
Qed.
Lemma dec10_ge x n : IZR n <= x -> (n * 10000000000 <= dec10 x)%Z.
Proof.
  intros H. unfold dec10. rewrite <- (ZnearestE_IZR (n * 10000000000)). apply Zrnd_le; [apply valid_rnd_N|].
  rewrite mult_IZR. change (IZR 10000000000) with e10. apply Rmult_le_compat_r; [unfold e10; lra|exact H].
Qed.
Lemma rnd10_atleast e x : (0 <= e)%Z -> atleast (bpow radix2 e) x -> atleast (bpow radix2 e) (f_rnd10 x).
Proof.
  intros He [(s & ->)|[F H]]; [left; exists s; reflexivity|].
  destruct (f_rnd10_val x F) as (F' & V & _). right. split; auto. rewrite V, <- rd_abs.
  rewrite <- (rd_bpow e ltac:(lia)). apply rd_le. rewrite <- (IZR_Zpower radix2) in * by lia.
  unfold Rdiv. rewrite Rabs_mult, (Rabs_pos_eq (/ e10)), <- abs_IZR by (unfold e10; lra).
  apply Rmult_le_reg_r with e10; [unfold e10; lra|]. rewrite Rmult_assoc, Rinv_l, Rmult_1_r by (unfold e10; lra).
  change e10 with (IZR 10000000000). rewrite <- mult_IZR. apply IZR_le.
  unfold Rabs in H. destruct (Rcase_abs (val x)).
  - apply dec10_ge in H. rewrite dec10_opp in H. lia.
  - apply dec10_ge in H. lia.
Qed.

(* ---------- the motor grid ---------- *)
Section Grid.
Variable acos : f64 -> f64.
Notation N := (F64 acos).
Variable p : Z.
Hypothesis Hp : (0 < p <= 1000)%Z.

Lemma p_pos : 0 < IZR p. Proof. apply IZR_lt. lia. Qed.
Lemma p_le : IZR p <= 1000. Proof. apply IZR_le. lia. Qed.

Lemma base_ok : exists b, f_div (f_ofZ 1) (f_ofZ p) = Ok b /\ fin b /\ val b = rd (/ IZR p).
Proof.
  destruct (f_ofZ_val 1) as [F1 V1]; [vm_compute; discriminate|].
  destruct (f_ofZ_val p) as [Fp Vp]; [lia|]. assert (P := p_pos).
  destruct (f_div_val _ _ F1 Fp) as (b & E & F & V).
  - rewrite Vp. lra.
  - rewrite V1, Vp. apply big_27. unfold Rdiv. rewrite Rmult_1_l, Rabs_pos_eq.
    + apply Rle_trans with 1; [|b2n; lra]. rewrite <- Rinv_1. apply Rinv_le_contravar; [lra|].
      apply IZR_le. lia.
    + left. now apply Rinv_0_lt_compat.
  - exists b. rewrite V, V1, Vp. repeat split; auto. unfold Rdiv. now rewrite Rmult_1_l.
Qed.

Variable b : f64.
Hypothesis Hb : fin b /\ val b = rd (/ IZR p).

Lemma inv_p_lo : / 1000 <= / IZR p.
Proof. apply Rinv_le_contravar; [apply p_pos|apply p_le]. Qed.
Lemma inv_p_hi : / IZR p <= 1.
Proof. rewrite <- Rinv_1. apply Rinv_le_contravar; [lra|apply IZR_le; lia]. Qed.
(** val b = (1 + eps) / p *)
Lemma base_rel : exists eps, Rabs eps <= bpow radix2 (-53) /\ val b = (1 + eps) / IZR p.
Proof.
  destruct Hb as [_ V]. assert (P := p_pos). assert (L := inv_p_lo).
  assert (H := rd_error_rel (/ IZR p)).
  rewrite (Rabs_pos_eq (/ IZR p)) in H by lra.
  assert (H0: bpow radix2 (-1022) <= / IZR p).
  { apply Rle_trans with (bpow radix2 (-10)); [apply bpow_le; lia|]. simpl. lra. }
  specialize (H H0). exists ((rd (/ IZR p) - / IZR p) * IZR p). split.
  - rewrite Rabs_mult, (Rabs_pos_eq (IZR p)) by lra.
    apply Rmult_le_reg_r with (/ IZR p); [lra|]. rewrite Rmult_assoc, Rinv_r, Rmult_1_r by lra. exact H.
  - rewrite V. field. lra.
Qed.

(** round1 always gives an integer times the base. *)
Lemma round1_form (v y : N) : round1 (N:=N) v b = Ok y -> exists n, y = f_mul (f_ofZ n) b.
Proof.
  unfold round1. cbn [div F64]. destruct (f_div v b) as [q|]; [|discriminate]. simpl.
  destruct (f_rnd q) as [n|]; [|discriminate]. simpl. intros E. injection E as <-. eauto.
Qed.

Lemma prod_bound n (P := IZR n * val b) : (Z.abs n <= 131072 * p)%Z ->
  Rabs (P - IZR n / IZR p) <= bpow radix2 (-36) /\ Rabs P <= bpow radix2 18.
Proof.
  intros Hn. destruct base_rel as (eps & He & E). unfold P. rewrite E.
  assert (Pp := p_pos).
  assert (Q: Rabs (IZR n / IZR p) <= 131072).
  { unfold Rdiv. rewrite Rabs_mult, (Rabs_pos_eq (/ IZR p)), <- abs_IZR by (left; now apply Rinv_0_lt_compat).
    apply Rmult_le_reg_r with (IZR p); [lra|]. rewrite Rmult_assoc, Rinv_l, Rmult_1_r by lra.
    rewrite <- mult_IZR. now apply IZR_le. }
  replace (IZR n * ((1 + eps) / IZR p)) with (IZR n / IZR p + IZR n / IZR p * eps) by (field; lra).
  set (t := IZR n / IZR p) in *.
  assert (Rabs (t * eps) <= / 68719476736).
  { rewrite Rabs_mult. b2n. apply Rle_trans with (131072 * / 9007199254740992); [|lra].
    apply Rmult_le_compat; try apply Rabs_pos; lra. }
  b2n. split.
  - replace (t + t * eps - t) with (t * eps) by ring. exact H.
  - eapply Rle_trans; [apply Rabs_triang|]. lra.
Qed.

Lemma ofZ_small n : (Z.abs n <= 131072 * p)%Z -> fin (f_ofZ n) /\ val (f_ofZ n) = IZR n.
Proof. intros H. apply f_ofZ_val. lia. Qed.

Variable s : Z.
Hypothesis Hs : (p * s = 10000000000)%Z.

Lemma step_R n : IZR (n * s) / e10 = IZR n / IZR p.
Proof.
  assert (Pp := p_pos). assert (E: IZR p * IZR s = e10) by (rewrite <- mult_IZR, Hs; reflexivity).
  rewrite mult_IZR, <- E.
  assert (IZR s <> 0). { intros Z. rewrite Z, Rmult_0_r in E. unfold e10 in E. lra. }
  field. lra.
Qed.
Lemma step_small n : (Z.abs n <= 131072 * p)%Z -> small (n * s).
Proof.
  intros H. unfold small. rewrite Z.abs_mul.
  assert (0 < s)%Z by nia. rewrite (Z.abs_eq s) by lia.
  replace (131072 * 10000000000)%Z with (131072 * p * s)%Z by (rewrite <- Hs; ring). nia.
Qed.

Lemma grid_mul n : (Z.abs n <= 131072 * p)%Z -> dec (n * s) (f_rnd10 (f_mul (f_ofZ n) b)).
Proof.
  intros Hn. destruct (ofZ_small n Hn) as [Fn Vn]. destruct (prod_bound n Hn) as [E B].
  destruct (f_mul_val (f_ofZ n) b Fn (proj1 Hb)) as [F V]; [rewrite Vn; apply big_27; b2n; lra|].
  apply dec_close; auto. rewrite V, Vn, step_R.
  assert (Es := rd_error _ 18 ltac:(lia) B). change (18 - 54)%Z with (-36)%Z in Es.
  set (r := rd (IZR n * val b)) in *. clearbody r. b2n.
  replace (r - IZR n / IZR p) with ((r - IZR n * val b) + (IZR n * val b - IZR n / IZR p)) by ring.
  eapply Rle_trans; [apply Rabs_triang|]. lra.
Qed.
Lemma grid_far n : (32768 * p <= Z.abs n)%Z -> atleast (bpow radix2 14) (f_rnd10 (f_mul (f_ofZ n) b)).
Proof.
  intros Hn. apply rnd10_atleast; [lia|]. assert (Pp := p_pos).
  destruct base_rel as (eps & He & E). b2n. apply Rabs_le_inv in He.
  assert (Hin: / 2 * / IZR p <= val b).
  { rewrite E. unfold Rdiv. apply Rmult_le_compat_r; [left; now apply Rinv_0_lt_compat|]. lra. }
  (* 2^e <= p < 2^(e+1) *)
  assert (Hlog: (2 ^ Z.log2 p <= p < 2 ^ Z.succ (Z.log2 p))%Z) by (apply Z.log2_spec; lia).
  set (lg := Z.log2 p) in *. assert (Hl0 : (0 <= lg)%Z) by apply Z.log2_nonneg.
  assert (R1: bpow radix2 (15 + lg) <= Rabs (IZR n)).
  { rewrite <- abs_IZR, <- (IZR_Zpower radix2) by lia. apply IZR_le.
    change (radix2 ^ (15 + lg))%Z with (2 ^ (15 + lg))%Z. rewrite Z.pow_add_r by lia. change (2 ^ 15)%Z with 32768%Z. lia. }
  assert (H1 := ofZ_atleast n (15 + lg) ltac:(lia) R1).
  assert (H2: atleast (IZR (32768 * p)) (f_ofZ n)).
  { destruct H1 as [H1|[F1 H1]]; [now left|right]. split; auto.
    assert (V: (Z.abs n <= 2 ^ 53 \/ 2 ^ 53 < Z.abs n)%Z) by lia. destruct V as [V|V].
    - rewrite (proj2 (f_ofZ_val n V)), <- abs_IZR. apply IZR_le. exact Hn.
    - assert (H3: atleast (bpow radix2 53) (f_ofZ n)).
      { apply ofZ_atleast; [lia|]. rewrite <- abs_IZR, <- (IZR_Zpower radix2) by lia. apply IZR_le.
        change (radix2 ^ 53)%Z with (2 ^ 53)%Z. lia. }
      destruct H3 as [(s' & H3)|[_ H3]]; [rewrite H3 in F1; discriminate|].
      eapply Rle_trans; [|exact H3]. rewrite <- (IZR_Zpower radix2) by lia. apply IZR_le.
      change (radix2 ^ 53)%Z with (2 ^ 53)%Z. lia. }
  apply (mul_atleast (IZR (32768 * p)) (/ 2 * / IZR p) 14); auto; try lia.
  - apply IZR_le. lia.
  - apply Rmult_lt_0_compat; [lra|now apply Rinv_0_lt_compat].
  - apply Hb.
  - rewrite mult_IZR. b2n. replace (32768 * IZR p * (/ 2 * / IZR p)) with 16384 by (field; lra). lra.
Qed.

(** The grid point chosen is at most (a little more than) half a step away. *)
Lemma round1_val (v : f64) : fin v -> Rabs (val v) <= bpow radix2 16 ->
  exists n, round1 (N:=N) v b = Ok (f_mul (f_ofZ n) b) /\
    Rabs (IZR n - val v * IZR p) <= / 2 + IZR p * bpow radix2 (-35) /\ (Z.abs n <= 131072 * p)%Z /\
    (forall j, Rabs (val v * IZR p - IZR j) <= / 4 -> n = j).
Proof.
  intros Fv Bv. destruct base_rel as (eps & He & E). assert (Pp := p_pos). assert (Pl := p_le).
  b2n. assert (He' := He). apply Rabs_le_inv in He'.
  assert (Hb0: val b <> 0).
  { rewrite E. apply Rmult_integral_contrapositive_currified; [lra|]. apply Rinv_neq_0_compat. lra. }
  set (w := val v * IZR p).
  assert (Bw: Rabs w <= 65536 * 1000).
  { unfold w. rewrite Rabs_mult, (Rabs_pos_eq (IZR p)) by lra. apply Rmult_le_compat; try apply Rabs_pos; lra. }
  assert (Q: val v / val b = w - w * eps / (1 + eps)).
  { rewrite E. unfold w. field. split; lra. }
  assert (Bw2: Rabs w <= 65536 * IZR p).
  { unfold w. rewrite Rabs_mult, (Rabs_pos_eq (IZR p)) by lra. apply Rmult_le_compat_r; lra. }
  assert (Eq: Rabs (w * eps / (1 + eps)) <= IZR p * / 68719476736).
  { unfold Rdiv. rewrite !Rabs_mult, (Rabs_pos_eq (/ (1 + eps))) by (left; apply Rinv_0_lt_compat; lra).
    apply Rle_trans with (65536 * IZR p * / 9007199254740992 * 2); [|lra].
    apply Rmult_le_compat.
    - apply Rmult_le_pos; apply Rabs_pos.
    - left; apply Rinv_0_lt_compat; lra.
    - apply Rmult_le_compat; try apply Rabs_pos; lra.
    - rewrite <- (Rinv_inv 2). apply Rinv_le_contravar; lra. }
  assert (Bq: Rabs (val v / val b) <= bpow radix2 27).
  { rewrite Q. unfold Rminus. eapply Rle_trans; [apply Rabs_triang|]. rewrite Rabs_Ropp. b2n. lra. }
  destruct (f_div_val v b Fv (proj1 Hb) Hb0) as (q & Dq & Fq & Vq); [apply big_27; b2n; lra|].
  assert (P1: 1 <= IZR p) by (apply IZR_le; lia).
  assert (Er: Rabs (val q - val v / val b) <= IZR p * / 68719476736).
  { rewrite Vq. destruct (Rle_lt_dec (Rabs (val v / val b)) (bpow radix2 0)) as [Hq|Hq].
    - assert (Er := rd_error _ 0 ltac:(lia) Hq). change (0 - 54)%Z with (-54)%Z in Er. b2n. lra.
    - assert (Er := rd_error_rel (val v / val b)).
      eapply Rle_trans; [apply Er; apply Rle_trans with (bpow radix2 0); [apply bpow_le; lia|lra]|]. b2n.
      apply Rle_trans with (/ 9007199254740992 * (131072 * IZR p)); [|lra]. apply Rmult_le_compat_l; [lra|].
      rewrite Q. unfold Rminus. eapply Rle_trans; [apply Rabs_triang|]. rewrite Rabs_Ropp. lra. }
  assert (Ew: Rabs (val q - w) <= IZR p * / 34359738368).
  { replace (val q - w) with ((val q - val v / val b) - w * eps / (1 + eps)) by (rewrite Q; ring).
    unfold Rminus at 1. eapply Rle_trans; [apply Rabs_triang|]. rewrite Rabs_Ropp. lra. }
  exists (ZnearestE (val q)). split; [|split; [|split]].
  - unfold round1. cbn [div F64 rnd]. rewrite Dq. simpl. rewrite (f_rnd_val q Fq). reflexivity.
  - assert (N1 := ZnearestE_error (val q)). fold w.
    replace (IZR (ZnearestE (val q)) - w) with (- (val q - IZR (ZnearestE (val q))) + (val q - w)) by ring.
    eapply Rle_trans; [apply Rabs_triang|]. rewrite Rabs_Ropp. lra.
  - apply le_IZR. rewrite abs_IZR, mult_IZR.
    assert (N1 := ZnearestE_error (val q)).
    assert (T: Rabs (IZR (ZnearestE (val q))) <= Rabs w + 1).
    { replace (IZR (ZnearestE (val q))) with (w + (- (val q - IZR (ZnearestE (val q))) + (val q - w))) by ring.
      eapply Rle_trans; [apply Rabs_triang|]. apply Rplus_le_compat_l.
      eapply Rle_trans; [apply Rabs_triang|]. rewrite Rabs_Ropp. lra. }
    assert (Tw: Rabs w <= 65536 * IZR p).
    { unfold w. rewrite Rabs_mult, (Rabs_pos_eq (IZR p)) by lra. apply Rmult_le_compat_r; lra. }
    assert (1 <= IZR p) by (apply IZR_le; lia). lra.
  - intros j Hj. fold w in Hj. apply ZnearestE_unique.
    replace (val q - IZR j) with ((val q - w) + (w - IZR j)) by ring.
    eapply Rle_lt_trans; [apply Rabs_triang|]. lra.
Qed.

(** Multiples of the step are kept. *)
Lemma dec_times_p j v : dec (j * s) v -> (Z.abs j <= 131072 * p)%Z -> Rabs (val v * IZR p - IZR j) <= bpow radix2 (-27).
Proof.
  intros D Hj. assert (E := dec_err _ _ D (step_small _ Hj)). rewrite step_R in E. assert (Pp := p_pos). assert (Pl := p_le).
  replace (val v * IZR p - IZR j) with ((val v - IZR j / IZR p) * IZR p) by (field; lra).
  rewrite Rabs_mult, (Rabs_pos_eq (IZR p)) by lra. b2n.
  apply Rle_trans with (/ 137438953472 * 1000); [|lra].
  apply Rmult_le_compat; try apply Rabs_pos; lra.
Qed.
Lemma round1_exact j v : dec (j * s) v -> (Z.abs j <= 65536 * p)%Z ->
  round1 (N:=N) v b = Ok (f_mul (f_ofZ j) b).
Proof.
  intros D Hj. assert (Pp := p_pos).
  assert (B: Rabs (val v) <= bpow radix2 16).
  { destruct D as [_ ->]. apply rd_abs_le; [lia|]. rewrite step_R. unfold Rdiv.
    rewrite Rabs_mult, (Rabs_pos_eq (/ IZR p)), <- abs_IZR by (left; now apply Rinv_0_lt_compat).
    apply Rmult_le_reg_r with (IZR p); [lra|]. rewrite Rmult_assoc, Rinv_l, Rmult_1_r by lra.
    b2n. rewrite <- mult_IZR. now apply IZR_le. }
  destruct (round1_val v (proj1 D) B) as (n & E & _ & _ & U). rewrite E.
  rewrite (U j); auto. eapply Rle_trans; [apply dec_times_p; auto; lia|]. b2n. lra.
Qed.
(** Pulses counted from a multiple of the step. *)
Lemma pulses_exact j v : dec (j * s) v -> (Z.abs j <= 131072 * p)%Z ->
  f_rnd (f_mul v (f_ofZ p)) = Ok j.
Proof.
  intros D Hj. assert (H := dec_times_p j v D Hj). assert (Pp := p_pos). assert (Pl := p_le).
  destruct (f_ofZ_val p) as [Fp Vp]; [lia|].
  assert (B: Rabs (val v * IZR p) <= bpow radix2 27).
  { rewrite Rabs_mult, (Rabs_pos_eq (IZR p)) by lra.
    assert (Bv := dec_bound _ _ D (step_small _ Hj)). b2n.
    apply Rle_trans with (131072 * 1000); [|lra]. apply Rmult_le_compat; try apply Rabs_pos; lra. }
  destruct (f_mul_val v (f_ofZ p) (proj1 D) Fp) as [F V]; [rewrite Vp; apply big_27; b2n; lra|].
  rewrite (f_rnd_val _ F), V, Vp. f_equal. apply ZnearestE_unique.
  assert (Er := rd_error _ 27 ltac:(lia) B). change (27 - 54)%Z with (-27)%Z in Er.
  set (r := rd (val v * IZR p)) in *. clearbody r. b2n.
  replace (r - IZR j) with ((r - val v * IZR p) + (val v * IZR p - IZR j)) by ring.
  eapply Rle_lt_trans; [apply Rabs_triang|]. lra.
Qed.
End Grid.
