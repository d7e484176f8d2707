(** The number of slots computed from a duty cycle in binary64. *)
From Coq Require Import ZArith Bool Lia List Reals Lra.
From Flocq Require Import Core BinarySingleNaN.
From Verif Require Import PyBase PyNum PyFloatFacts FloatBound Pwm.
From Flocq Require Import Core.
Import ListNotations.
Local Open Scope R_scope.

Section F.
Variable acos : f64 -> f64.

Lemma le_fin (x y z : f64) : fin x -> fin z -> f_le x y = true -> f_le y z = true -> fin y.
Proof.
  unfold fin, f_le. destruct y as [s|s| |s m e H]; auto.
  - intros Fx Fz A B. destruct s.
    + destruct x as [sx|sx| |sx mx ex Hx]; try discriminate.
    + destruct z as [sz|sz| |sz mz ez Hz]; try discriminate.
Qed.

Lemma block_number_F64 (d : F64 acos) b : block_number (N := F64 acos) d = Ok b ->
  fin d /\ 0 <= val d <= 100 /\ (0 <= b <= 256)%Z /\ Rabs (IZR b - val d * 256 / 100) < 1 + bpow radix2 (-40).
Proof.
  unfold block_number. cbn [leb ofZ F64 num]. intros H. destruct (f_le (f_ofZ 0) d && f_le d (f_ofZ 100)) eqn:C; [|discriminate].
  apply andb_prop in C. destruct C as [C1 C2]. destruct (f_ofZ_val 0 ltac:(lia)) as [F0 V0]. destruct (f_ofZ_val 100 ltac:(lia)) as [F1 V1].
  destruct (f_ofZ_val 256 ltac:(lia)) as [F2 V2]. pose proof (le_fin _ _ _ F0 F1 C1 C2) as Fd.
  apply f_le_true in C1; [|assumption..]. apply f_le_true in C2; [|assumption..]. rewrite V0 in C1. rewrite V1 in C2.
  assert (BB: bpow radix2 20 <= big) by (apply bpow_le; lia). assert (B20: bpow radix2 20 = 1048576) by reflexivity.
  destruct (f_mul_val d (f_ofZ 256) Fd F2) as [FM VM]. { rewrite V2. rewrite Rabs_pos_eq; lra. }
  assert (M1: 0 <= val (f_mul d (f_ofZ 256)) <= 25600).
  { rewrite VM, V2. split; [rewrite <- rd_0|rewrite <- (rd_IZR 25600) by lia]; apply rd_le; lra. }
  assert (EM: Rabs (rd (val d * 256) - val d * 256) <= bpow radix2 (-38)).
  { replace (-38)%Z with (15 - 53)%Z by lia. eapply Rle_trans; [apply (rd_error _ 15)|].
    - lia.
    - rewrite Rabs_pos_eq by lra. replace (bpow radix2 15) with 32768 by reflexivity. lra.
    - apply bpow_le. lia. }
  cbn [rbind guard] in H. unfold div, mul, F64, trunc in H.
  destruct (f_div_val (f_mul d (f_ofZ 256)) (f_ofZ 100) FM F1) as (q & Eq & FQ & VQ).
  { rewrite V1. lra. } { rewrite V1. rewrite Rabs_pos_eq; lra. }
  rewrite Eq in H. cbn [rbind] in H. rewrite (f_trunc_val q FQ) in H. injection H as <-.
  assert (Q1: 0 <= val q <= 256).
  { rewrite VQ, V1. split; [rewrite <- rd_0|rewrite <- (rd_IZR 256) by lia]; apply rd_le; lra. }
  assert (EQ: Rabs (rd (val (f_mul d (f_ofZ 256)) / 100) - val (f_mul d (f_ofZ 256)) / 100) <= bpow radix2 (-44)).
  { replace (-44)%Z with (9 - 53)%Z by lia. eapply Rle_trans; [apply (rd_error _ 9)|].
    - lia.
    - rewrite Rabs_pos_eq by lra. replace (bpow radix2 9) with 512 by reflexivity. lra.
    - apply bpow_le. lia. }
  split; [exact Fd|]. split; [lra|].
  assert (T: (0 <= Ztrunc (val q))%Z /\ IZR (Ztrunc (val q)) <= val q < IZR (Ztrunc (val q)) + 1).
  { rewrite Ztrunc_floor by lra. split; [|split; [apply Zfloor_lb|apply Zfloor_ub]]. apply le_IZR. apply Rle_trans with (IZR (Zfloor 0)).
    - change 0 with (IZR 0) at 2. rewrite Zfloor_IZR. lra.
    - apply IZR_le, Zfloor_le. lra. }
  destruct T as (T0 & T1 & T2). split; [split; [exact T0|apply le_IZR; lra]|].
  rewrite VM, V2 in EQ. rewrite VQ, V1, VM, V2 in *.
  assert (bpow radix2 (-38) = bpow radix2 (-40) * 4). { change 4 with (bpow radix2 2). rewrite <- bpow_plus. reflexivity. }
  assert (bpow radix2 (-40) = bpow radix2 (-44) * 16). { change 16 with (bpow radix2 4). rewrite <- bpow_plus. reflexivity. }
  pose proof (bpow_gt_0 radix2 (-44)). apply Rabs_le_inv in EM, EQ. apply Rabs_def1; lra.
Qed.

Lemma block_number_total (d : F64 acos) : fin d -> 0 <= val d <= 100 -> exists b, block_number (N := F64 acos) d = Ok b.
Proof.
  intros Fd Hd. unfold block_number. cbn [leb ofZ F64 num]. destruct (f_ofZ_val 0 ltac:(lia)) as [F0 V0]. destruct (f_ofZ_val 100 ltac:(lia)) as [F1 V1].
  destruct (f_ofZ_val 256 ltac:(lia)) as [F2 V2].
  replace (f_le (f_ofZ 0) d) with true by (symmetry; apply f_le_true; [assumption..|lra]).
  replace (f_le d (f_ofZ 100)) with true by (symmetry; apply f_le_true; [assumption..|lra]).
  assert (BB: bpow radix2 20 <= big) by (apply bpow_le; lia). assert (B20: bpow radix2 20 = 1048576) by reflexivity.
  destruct (f_mul_val d (f_ofZ 256) Fd F2) as [FM VM]. { rewrite V2. rewrite Rabs_pos_eq; lra. }
  assert (M1: 0 <= val (f_mul d (f_ofZ 256)) <= 25600).
  { rewrite VM, V2. split; [rewrite <- rd_0|rewrite <- (rd_IZR 25600) by lia]; apply rd_le; lra. }
  destruct (f_div_val (f_mul d (f_ofZ 256)) (f_ofZ 100) FM F1) as (q & Eq & FQ & VQ).
  { rewrite V1. lra. } { rewrite V1. rewrite Rabs_pos_eq; lra. }
  cbn [rbind guard andb]. unfold div, mul, F64, trunc. rewrite Eq. cbn [rbind]. rewrite (f_trunc_val q FQ). eauto.
Qed.

End F.
