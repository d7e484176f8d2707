(** Relative errors of chains of binary64 operations on numbers that are not negative. *)
From Coq Require Import ZArith Bool Reals Lra Lia Psatz.
From Flocq Require Import Core BinarySingleNaN.
From Verif Require Import PyBase PyNum PyFloatFacts Decimal.
From Flocq Require Import Core.
Local Open Scope R_scope.

Definition ep : R := / 4503599627370496.
Lemma ep_pos : 0 < ep. Proof. unfold ep. lra. Qed.
Lemma ep_bpow : ep = bpow radix2 (-52). Proof. unfold ep. reflexivity. Qed.

(** [x] is [r] up to the relative error [k ep]. *)
Definition cl (k x r : R) : Prop := (1 - k * ep) * r <= x <= (1 + k * ep) * r.
Lemma cl_refl x : 0 <= x -> cl 0 x x. Proof. unfold cl. lra. Qed.
Lemma cl_weak k k' x r : 0 <= r -> k <= k' -> cl k x r -> cl k' x r.
Proof.
  intros R0 L [A B]. pose proof ep_pos. assert (P: 0 <= (k' - k) * ep * r) by (apply Rmult_le_pos; [apply Rmult_le_pos|]; lra).
  unfold cl. split; nra.
Qed.
Lemma cl_rd k x r : 0 <= k <= 1000 -> r = 0 \/ bpow radix2 (-1000) <= r -> cl k x r -> cl (k + 2) (rd x) r.
Proof.
  intros K [->|Hr] [A B].
  - unfold cl. assert (x = 0) by lra. subst x. rewrite rd_0. lra.
  - assert (P: 0 < r) by (eapply Rlt_le_trans; [|exact Hr]; apply bpow_gt_0).
    assert (Hx: bpow radix2 (-1022) <= x).
    { apply Rle_trans with (/ 2 * r); [|unfold ep in A; nra]. apply Rle_trans with (/ 2 * bpow radix2 (-1000)); [|lra].
      change (/ 2) with (bpow radix2 (-1)). rewrite <- bpow_plus. apply bpow_le. lia. }
    assert (X: 0 < x) by (eapply Rlt_le_trans; [|exact Hx]; apply bpow_gt_0).
    assert (E := rd_error_rel x). rewrite Rabs_pos_eq in E by lra. specialize (E Hx). apply Rabs_le_inv in E.
    change (bpow radix2 (-53)) with (/ 9007199254740992) in E. unfold cl. unfold ep in *. split; nra.
Qed.
Lemma cl_mul k j x y r s : 0 <= k <= 1000 -> 0 <= j <= 1000 -> 0 <= r -> 0 <= s -> cl k x r -> cl j y s -> cl (k + j + 1) (x * y) (r * s).
Proof.
  intros K J R0 S0 [A B] [C D]. assert (P: 0 <= r * s) by now apply Rmult_le_pos.
  assert (A0: 0 <= (1 - k * ep) * r) by (apply Rmult_le_pos; [unfold ep; lra|lra]). assert (C0: 0 <= (1 - j * ep) * s) by (apply Rmult_le_pos; [unfold ep; lra|lra]).
  assert (Q: 0 <= k * j <= 1000000) by nra.
  assert (L1: (1 - k * ep) * r * ((1 - j * ep) * s) <= x * y) by (apply Rmult_le_compat; lra).
  assert (L2: x * y <= (1 + k * ep) * r * ((1 + j * ep) * s)) by (apply Rmult_le_compat; lra).
  unfold cl. split.
  - eapply Rle_trans; [|exact L1]. replace ((1 - k * ep) * r * ((1 - j * ep) * s)) with ((1 - (k + j) * ep + k * j * (ep * ep)) * (r * s)) by ring.
    apply Rmult_le_compat_r; [exact P|]. unfold ep. lra.
  - eapply Rle_trans; [exact L2|]. replace ((1 + k * ep) * r * ((1 + j * ep) * s)) with ((1 + (k + j) * ep + k * j * (ep * ep)) * (r * s)) by ring.
    apply Rmult_le_compat_r; [exact P|]. unfold ep. lra.
Qed.
Lemma cl_inv j y s : 0 <= j <= 1000 -> 0 < s -> cl j y s -> cl (j + 1) (/ y) (/ s).
Proof.
  intros J S0 [C D]. assert (C0: 0 < (1 - j * ep) * s) by (apply Rmult_lt_0_compat; [unfold ep; lra|lra]).
  assert (Q: 0 <= j * j <= 1000000) by nra.
  assert (I: 0 < / s) by now apply Rinv_0_lt_compat.
  unfold cl. split.
  - apply Rle_trans with (/ ((1 + j * ep) * s)); [|apply Rinv_le_contravar; lra].
    rewrite Rinv_mult. apply Rmult_le_compat_r; [lra|]. apply Rmult_le_reg_r with (1 + j * ep); [unfold ep; lra|]. rewrite Rinv_l by (unfold ep; lra).
    replace ((1 - (j + 1) * ep) * (1 + j * ep)) with (1 - ep - (j * j + j) * (ep * ep)) by ring. unfold ep. lra.
  - apply Rle_trans with (/ ((1 - j * ep) * s)); [apply Rinv_le_contravar; lra|].
    rewrite Rinv_mult. apply Rmult_le_compat_r; [lra|]. apply Rmult_le_reg_r with (1 - j * ep); [unfold ep; lra|]. rewrite Rinv_l by (unfold ep; lra).
    replace ((1 + (j + 1) * ep) * (1 - j * ep)) with (1 + ep - (j * j + j) * (ep * ep)) by ring. unfold ep. lra.
Qed.
Lemma cl_div k j x y r s : 0 <= k <= 998 -> 0 <= j <= 998 -> 0 <= r -> 0 < s -> cl k x r -> cl j y s -> cl (k + j + 2) (x / y) (r / s).
Proof.
  intros K J R0 S0 X Y. unfold Rdiv. replace (k + j + 2) with (k + (j + 1) + 1) by ring. apply cl_mul; [lra|lra|exact R0|left; now apply Rinv_0_lt_compat|exact X|].
  apply cl_inv; [lra|exact S0|exact Y].
Qed.
Lemma cl_sqrt k x r : 0 <= k <= 1000 -> 0 <= r -> cl k x r -> cl k (sqrt x) (sqrt r).
Proof.
  intros K R0 [A B]. pose proof (sqrt_pos r). unfold cl.
  assert (H1: 0 <= 1 - k * ep <= 1) by (unfold ep; lra). assert (H2: 1 <= 1 + k * ep) by (unfold ep; lra).
  split.
  - apply Rle_trans with (sqrt ((1 - k * ep) * r)); [|apply sqrt_le_1_alt; exact A]. rewrite sqrt_mult by lra.
    apply Rmult_le_compat_r; [lra|]. rewrite <- (sqrt_square (1 - k * ep)) at 1 by lra. apply sqrt_le_1_alt. nra.
  - apply Rle_trans with (sqrt ((1 + k * ep) * r)); [apply sqrt_le_1_alt; exact B|]. rewrite sqrt_mult by lra.
    apply Rmult_le_compat_r; [lra|]. rewrite <- (sqrt_square (1 + k * ep)) at 2 by lra. apply sqrt_le_1_alt. nra.
Qed.
Lemma cl_add k x y r s : 0 <= r -> 0 <= s -> cl k x r -> cl k y s -> cl k (x + y) (r + s).
Proof. unfold cl. lra. Qed.
Lemma cl_nonneg k x r : 0 <= k <= 1000 -> 0 <= r -> cl k x r -> 0 <= x.
Proof. intros K R0 [A _]. assert (0 <= (1 - k * ep) * r) by (apply Rmult_le_pos; [unfold ep; lra|lra]). lra. Qed.
Lemma cl_double k x r e : 0 <= k <= 1000 -> 0 <= r <= bpow radix2 e -> cl k x r -> Rabs x <= bpow radix2 (e + 1).
Proof.
  intros K R0 H. assert (X := cl_nonneg _ _ _ K (proj1 R0) H). destruct H as [_ B]. rewrite Rabs_pos_eq by exact X.
  rewrite bpow_plus. change (bpow radix2 1) with 2. assert (k * ep <= 1) by (unfold ep; lra). nra.
Qed.

(** The double [x] is about [r], with 2^a <= r <= 2^b or r = 0. *)
Definition ap (k : R) (a b : Z) (x : f64) (r : R) : Prop :=
  fin x /\ cl k (val x) r /\ (r = 0 \/ bpow radix2 a <= r) /\ r <= bpow radix2 b.
Lemma ap_r0 k a b x r : ap k a b x r -> 0 <= r.
Proof. intros (_ & _ & [->|H] & _); [lra|]. assert (X := bpow_ge_0 radix2 a). lra. Qed.
Lemma ap_weak k a b k' a' b' x r : k <= k' -> (a' <= a)%Z -> (b <= b')%Z -> ap k a b x r -> ap k' a' b' x r.
Proof.
  intros K A B H. assert (R0 := ap_r0 _ _ _ _ _ H). destruct H as (F & C & L & U). split; [exact F|]. split; [eapply cl_weak; eauto|].
  assert (X := bpow_le radix2 a' a A). assert (Y := bpow_le radix2 b b' B). split; [destruct L as [L|L]; [left|right]; lra|lra].
Qed.
Lemma ap_bounds k a b x r : 0 <= k <= 1000 -> ap k a b x r -> 0 <= val x <= 2 * bpow radix2 b /\ (r <> 0 -> / 2 * bpow radix2 a <= val x).
Proof.
  intros K H. assert (R0 := ap_r0 _ _ _ _ _ H). destruct H as (F & C & L & U). assert (X := cl_nonneg _ _ _ K R0 C). destruct C as [C1 C2].
  assert (k * ep <= / 2) by (unfold ep; lra). split; [split; [exact X|nra]|]. intros Z. destruct L as [L|L]; [contradiction|]. nra.
Qed.
Lemma big_le e : (e <= 1000)%Z -> bpow radix2 e <= big.
Proof. intros H. unfold big. now apply bpow_le. Qed.
Lemma rd_lower r a : r = 0 \/ bpow radix2 a <= r -> (-1000 <= a)%Z -> r = 0 \/ bpow radix2 (-1000) <= r.
Proof. intros [->|H] A; [auto|]. right. eapply Rle_trans; [|exact H]. now apply bpow_le. Qed.
Lemma ap_mul k j a b a' b' x y r s : 0 <= k -> 0 <= j -> k + j <= 900 -> (-1000 <= a + a')%Z -> (b + b' < 1000)%Z ->
  ap k a b x r -> ap j a' b' y s -> ap (k + j + 3) (a + a') (b + b') (f_mul x y) (r * s).
Proof.
  intros K J KJ A B Hx Hy. assert (R0 := ap_r0 _ _ _ _ _ Hx). assert (S0 := ap_r0 _ _ _ _ _ Hy).
  destruct Hx as (Fx & Cx & Lx & Ux), Hy as (Fy & Cy & Ly & Uy).
  assert (U: r * s <= bpow radix2 (b + b')) by (rewrite bpow_plus; apply Rmult_le_compat; auto).
  assert (L: r * s = 0 \/ bpow radix2 (a + a') <= r * s).
  { destruct Lx as [->|Lx]; [left; ring|]. destruct Ly as [->|Ly]; [left; ring|]. right. rewrite bpow_plus. apply Rmult_le_compat; auto using bpow_ge_0. }
  assert (C := cl_mul k j _ _ _ _ ltac:(lra) ltac:(lra) R0 S0 Cx Cy).
  destruct (f_mul_val x y Fx Fy) as [F V].
  { eapply Rle_trans; [eapply cl_double; [|split; [apply Rmult_le_pos; [exact R0|exact S0]|exact U]|exact C]; lra|]. apply big_le. lia. }
  split; [exact F|]. rewrite V. split; [|auto]. replace (k + j + 3) with (k + j + 1 + 2) by ring. apply cl_rd; [lra|exact (rd_lower _ _ L A)|exact C].
Qed.
Lemma ap_div k j a b a' b' x y r s : 0 <= k -> 0 <= j -> k + j <= 900 -> (-1000 <= a - b')%Z -> (b - a' < 1000)%Z -> s <> 0 ->
  ap k a b x r -> ap j a' b' y s -> exists q, f_div x y = Ok q /\ ap (k + j + 4) (a - b') (b - a') q (r / s).
Proof.
  intros K J KJ A B NZ Hx Hy. assert (R0 := ap_r0 _ _ _ _ _ Hx). assert (S0 := ap_r0 _ _ _ _ _ Hy).
  assert (By := ap_bounds j a' b' y s ltac:(lra) Hy).
  destruct Hx as (Fx & Cx & Lx & Ux), Hy as (Fy & Cy & Ly & Uy). destruct Ly as [Ly|Ly]; [contradiction|].
  assert (SP: 0 < s) by lra. assert (Pa := bpow_gt_0 radix2 a'). assert (Pb := bpow_gt_0 radix2 b').
  assert (U: r / s <= bpow radix2 (b - a')).
  { unfold Zminus, Rdiv. rewrite bpow_plus, bpow_opp. apply Rmult_le_compat; [exact R0|left; now apply Rinv_0_lt_compat|exact Ux|]. apply Rinv_le_contravar; lra. }
  assert (Q0: 0 <= r / s) by (apply Rmult_le_pos; [exact R0|left; now apply Rinv_0_lt_compat]).
  assert (L: r / s = 0 \/ bpow radix2 (a - b') <= r / s).
  { destruct Lx as [->|Lx]; [left; unfold Rdiv; ring|]. right. unfold Zminus, Rdiv. rewrite bpow_plus, bpow_opp.
    apply Rmult_le_compat; [apply bpow_ge_0|left; now apply Rinv_0_lt_compat|exact Lx|]. apply Rinv_le_contravar; lra. }
  assert (C := cl_div k j _ _ _ _ ltac:(lra) ltac:(lra) R0 SP Cx Cy).
  destruct (f_div_val x y Fx Fy) as (q & E & F & V).
  { destruct By as [_ By]. specialize (By NZ). intros Z0. rewrite Z0 in By. lra. }
  { eapply Rle_trans; [eapply cl_double; [|split; [exact Q0|exact U]|exact C]; lra|]. apply big_le. lia. }
  exists q. split; [exact E|]. split; [exact F|]. rewrite V. split; [|auto]. replace (k + j + 4) with (k + j + 2 + 2) by ring. apply cl_rd; [lra|exact (rd_lower _ _ L A)|exact C].
Qed.
Lemma ap_add k a b x y r s : 0 <= k <= 900 -> (-1000 <= a)%Z -> (b < 998)%Z ->
  ap k a b x r -> ap k a b y s -> ap (k + 2) a (b + 1) (f_add x y) (r + s).
Proof.
  intros K A B Hx Hy. assert (R0 := ap_r0 _ _ _ _ _ Hx). assert (S0 := ap_r0 _ _ _ _ _ Hy).
  destruct Hx as (Fx & Cx & Lx & Ux), Hy as (Fy & Cy & Ly & Uy).
  assert (U: r + s <= bpow radix2 (b + 1)) by (rewrite bpow_plus; change (bpow radix2 1) with 2; lra).
  assert (Pa := bpow_gt_0 radix2 a).
  assert (L: r + s = 0 \/ bpow radix2 a <= r + s) by (destruct Lx as [->|Lx], Ly as [->|Ly]; [left|right|right|right]; lra).
  assert (C := cl_add k _ _ _ _ R0 S0 Cx Cy).
  destruct (f_add_val x y Fx Fy) as [F V].
  { eapply Rle_trans; [eapply cl_double; [|split; [|exact U]|exact C]; lra|]. apply big_le. lia. }
  split; [exact F|]. rewrite V. split; [|auto]. apply cl_rd; [lra|exact (rd_lower _ _ L A)|exact C].
Qed.
Lemma ap_sqrt k a b x r : 0 <= k <= 900 -> (-1000 <= a)%Z -> ap k (a + a) (b + b) x r ->
  exists q, f_sqrt x = Ok q /\ ap (k + 2) a b q (sqrt r).
Proof.
  intros K A H. assert (R0 := ap_r0 _ _ _ _ _ H). destruct H as (F & C & L & U).
  destruct (f_sqrt_val x F (cl_nonneg k (val x) r ltac:(lra) R0 C)) as (q & E & Fq & V). exists q. split; [exact E|]. split; [exact Fq|]. rewrite V.
  assert (Sq: forall e, sqrt (bpow radix2 (e + e)) = bpow radix2 e) by (intros e; rewrite bpow_plus; apply sqrt_square, bpow_ge_0).
  assert (L': sqrt r = 0 \/ bpow radix2 a <= sqrt r).
  { destruct L as [->|L]; [left; apply sqrt_0|right]. rewrite <- Sq. now apply sqrt_le_1_alt. }
  split; [|split; [exact L'|]].
  - apply cl_rd; [lra|exact (rd_lower _ _ L' A)|]. apply cl_sqrt; [lra|exact R0|exact C].
  - rewrite <- (Sq b). now apply sqrt_le_1_alt.
Qed.
Lemma ap_ofZ n b : (1 <= n)%Z -> (n <= 2 ^ b)%Z -> (0 <= b <= 53)%Z -> ap 0 0 b (f_ofZ n) (IZR n).
Proof.
  intros L U B. assert (2 ^ b <= 2 ^ 53)%Z by (apply Z.pow_le_mono_r; lia). destruct (f_ofZ_val n) as [F V]; [lia|].
  split; [exact F|]. rewrite V. split; [apply cl_refl; apply (IZR_le 0); lia|]. split; [right; apply (IZR_le 1); exact L|].
  rewrite <- (IZR_Zpower radix2) by lia. now apply IZR_le.
Qed.
Lemma ap_exact a b x : fin x -> (val x = 0 \/ bpow radix2 a <= val x) -> val x <= bpow radix2 b -> ap 0 a b x (val x).
Proof. intros F L U. split; [exact F|]. split; [|auto]. apply cl_refl. destruct L as [->|L]; [lra|]. assert (Y := bpow_ge_0 radix2 a). lra. Qed.

(** Rounding to ten decimals. *)
Lemma rnd10_close x : fin x -> 0 <= val x -> fin (f_rnd10 x) /\ 0 <= val (f_rnd10 x) /\ (val (f_rnd10 x) = 0 \/ bpow radix2 (-35) <= val (f_rnd10 x)) /\
  Rabs (val (f_rnd10 x) - val x) <= 51 / 1000000000000 + ep * val x.
Proof.
  intros F H. destruct (f_rnd10_val x F) as (F' & V & _). split; [exact F'|].
  assert (E := ZnearestE_error (val x * e10)). fold (dec10 (val x)) in E.
  assert (K: (0 <= dec10 (val x))%Z). { assert (X := dec10_ge (val x) 0). simpl in X. apply X. exact H. }
  set (y := IZR (dec10 (val x)) / e10) in *.
  assert (Y: Rabs (val x - y) <= / 2 / e10).
  { replace (val x - y) with ((val x * e10 - IZR (dec10 (val x))) / e10) by (unfold y, e10; field). unfold Rdiv. rewrite Rabs_mult, (Rabs_pos_eq (/ e10)) by (unfold e10; lra).
    apply Rmult_le_compat_r; [unfold e10; lra|exact E]. }
  apply Rabs_le_inv in Y. unfold e10 in Y. rewrite V. destruct (Z.eq_dec (dec10 (val x)) 0) as [Z0|NZ].
  - assert (y = 0) by (unfold y; rewrite Z0; unfold Rdiv; ring). rewrite H0, rd_0. split; [lra|]. split; [auto|].
    rewrite Rabs_left1 by lra. pose proof ep_pos. nra.
  - assert (Y1: / 10000000000 <= y). { unfold y, e10. assert (1 <= IZR (dec10 (val x))) by (apply IZR_le; lia). lra. }
    assert (C: cl (0 + 2) (rd y) y). { apply cl_rd; [lra| |apply cl_refl; lra]. right. apply Rle_trans with (bpow radix2 (-35)); [apply bpow_le; lia|]. b2n. lra. }
    split; [eapply cl_nonneg; [|  |exact C]; lra|]. split.
    + right. rewrite <- (rd_bpow (-35)) by lia. apply rd_le. b2n. lra.
    + assert (R := rd_error_rel y). rewrite Rabs_pos_eq in R by lra.
      assert (Hm: bpow radix2 (-1022) <= y). { apply Rle_trans with (bpow radix2 (-35)); [apply bpow_le; lia|]. b2n. lra. }
      specialize (R Hm). apply Rabs_le_inv in R. change (bpow radix2 (-53)) with (/ 9007199254740992) in R. apply Rabs_le. unfold ep. lra.
Qed.
