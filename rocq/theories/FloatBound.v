(** Bounds on results of binary64 operations: no overflow, no nan. *)
From Coq Require Import ZArith Bool Lia Reals Lra.
From Flocq Require Import Core BinarySingleNaN.
From Verif Require Import PyBase PyNum PyFloatFacts.
Local Open Scope R_scope.

(** Finite, of magnitude at most 2^e. *)
Definition fb (x : f64) (e : Z) : Prop := fin x /\ Rabs (val x) <= bpow radix2 e.

Lemma fb_weak x e e' : fb x e -> (e <= e')%Z -> fb x e'.
Proof. intros [H1 H2] H. split; [exact H1|]. eapply Rle_trans; [exact H2|]. now apply bpow_le. Qed.
Lemma fb_big x e : fb x e -> (e <= 1000)%Z -> Rabs (val x) <= big.
Proof. intros [_ H] He. eapply Rle_trans; [exact H|]. now apply bpow_le. Qed.
Lemma fb_rd x r e : fin x -> val x = rd r -> (-1074 <= e)%Z -> Rabs r <= bpow radix2 e -> fb x e.
Proof. intros H E He Hr. split; [exact H|]. rewrite E. now apply rd_abs_le. Qed.
Lemma bpow_S e : bpow radix2 (e + 1) = 2 * bpow radix2 e.
Proof. rewrite bpow_plus. change (bpow radix2 1) with 2. ring. Qed.

Lemma fb_add x y e : fb x e -> fb y e -> (-1074 <= e < 1000)%Z ->
  fb (f_add x y) (e + 1) /\ val (f_add x y) = rd (val x + val y).
Proof.
  intros [X1 X2] [Y1 Y2] He.
  assert (B: Rabs (val x + val y) <= bpow radix2 (e + 1)).
  { rewrite bpow_S. eapply Rle_trans; [apply Rabs_triang|]. lra. }
  destruct (f_add_val x y X1 Y1) as [F V]; [eapply Rle_trans; [exact B|]; apply bpow_le; lia|].
  split; [|exact V]. eapply fb_rd; eauto. lia.
Qed.
Lemma fb_sub x y e : fb x e -> fb y e -> (-1074 <= e < 1000)%Z ->
  fb (f_sub x y) (e + 1) /\ val (f_sub x y) = rd (val x - val y).
Proof.
  intros [X1 X2] [Y1 Y2] He.
  assert (B: Rabs (val x - val y) <= bpow radix2 (e + 1)).
  { rewrite bpow_S. eapply Rle_trans; [apply Rabs_triang|]. rewrite Rabs_Ropp. lra. }
  destruct (f_sub_val x y X1 Y1) as [F V]; [eapply Rle_trans; [exact B|]; apply bpow_le; lia|].
  split; [|exact V]. eapply fb_rd; eauto. lia.
Qed.
Lemma fb_mul x y e1 e2 : fb x e1 -> fb y e2 -> (-1074 <= e1 + e2 <= 1000)%Z ->
  fb (f_mul x y) (e1 + e2) /\ val (f_mul x y) = rd (val x * val y).
Proof.
  intros [X1 X2] [Y1 Y2] He.
  assert (B: Rabs (val x * val y) <= bpow radix2 (e1 + e2)).
  { rewrite Rabs_mult, bpow_plus. apply Rmult_le_compat; auto; apply Rabs_pos. }
  destruct (f_mul_val x y X1 Y1) as [F V]; [eapply Rle_trans; [exact B|]; apply bpow_le; lia|].
  split; [|exact V]. eapply fb_rd; eauto. lia.
Qed.
Lemma fb_ofZ n e : (Z.abs n <= 2 ^ e)%Z -> (0 <= e <= 53)%Z -> fb (f_ofZ n) e /\ val (f_ofZ n) = IZR n.
Proof.
  intros H He. destruct (f_ofZ_val n) as [F V].
  { eapply Z.le_trans; [exact H|]. apply Z.pow_le_mono_r; lia. }
  split; [|exact V]. split; [exact F|]. rewrite V, <- abs_IZR. change 2%Z with (radix_val radix2) in H.
  rewrite <- IZR_Zpower by lia. apply IZR_le. exact H.
Qed.
Lemma fb_abs x e : fb x e -> fb (Babs x) e.
Proof. intros [H1 H2]. split; [now apply fin_abs|]. rewrite val_abs, Rabs_Rabsolu. exact H2. Qed.
