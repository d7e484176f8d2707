(** The velocity of rapid moves (G0) in exact arithmetic (C62). *)
From Coq Require Import ZArith Bool List Lia Reals Lra.
From Flocq Require Import Core.
From Verif Require Import PyBase PyNum Config Coordinates Pulses GMachine PulseSpec LinearGen LinearReal.
From Flocq Require Import Core.
Local Open Scope R_scope.

Definition fits (vmax : Z) (p : R) (v : Z) : Prop := IZR v * p <= IZR vmax.
Lemma rapid1_R (vl vmax : Z) (p : R) : (0 < vmax)%Z -> 0 <= p -> (0 <= vl)%Z ->
  exists v, rapid1 (N:=RN) vl vmax p = Ok v /\ (0 <= v <= vl)%Z /\ fits vmax p v /\ (v = vl \/ ~ fits vmax p (v + 1)).
Proof.
  intros Hm Hp Hv. unfold rapid1, fits. change (@zero RN) with 0. cbn -[div trunc]. apply IZR_lt in Hm.
  destruct (Rltb 0 p) eqn:E.
  - apply Rltb_true in E. rewrite div_R by lra. cbn [rbind]. change (trunc (p:=RN) (IZR vmax / p)) with (Ok (Ztrunc (IZR vmax / p))).
    cbn [rbind]. assert (P: 0 < IZR vmax / p) by (apply Rdiv_lt_0_compat; lra).
    rewrite Ztrunc_floor by lra. set (q := Zfloor (IZR vmax / p)).
    assert (Q1: IZR q <= IZR vmax / p) by apply Zfloor_lb.
    assert (Q2: IZR vmax / p < IZR q + 1) by apply Zfloor_ub.
    assert (Q0: (0 <= q)%Z) by (apply Zfloor_lub; simpl; lra).
    assert (D: IZR vmax / p * p = IZR vmax) by (field; lra).
    destruct (q <? vl)%Z eqn:F.
    + apply Z.ltb_lt in F. exists q. split; [reflexivity|]. split; [lia|]. split; [nra|]. right. rewrite plus_IZR. nra.
    + apply Z.ltb_ge, IZR_le in F. exists vl. split; [reflexivity|]. split; [lia|]. split; [nra|now left].
  - apply Rltb_false in E. assert (p = 0) by lra. subst p. exists vl. split; [reflexivity|]. split; [lia|]. split; [lra|now left].
Qed.
Lemma fits_less vmax p v v' : 0 <= p -> (v' <= v)%Z -> fits vmax p v -> fits vmax p v'.
Proof. unfold fits. intros Hp Hv H. apply IZR_le in Hv. nra. Qed.

Lemma quad_max_ge (q : quad Z) m : (qat m q <= quad_max q)%Z.
Proof. unfold quad_max. destruct m, q; cbn; lia. Qed.
Lemma quad_max_is (q : quad Z) : exists m, quad_max q = qat m q.
Proof.
  unfold quad_max. destruct q as [a b c d]; cbn.
  destruct (Z.max_spec a b) as [[? ->]|[? ->]];
  match goal with |- context [Z.max ?x c] => destruct (Z.max_spec x c) as [[? ->]|[? ->]] end;
  match goal with |- context [Z.max ?x d] => destruct (Z.max_spec x d) as [[? ->]|[? ->]] end;
  first [now exists MX|now exists MY|now exists MZ|now exists ME].
Qed.

Lemma rapid_exact cfg (delta : quad R) : sane_cfg cfg -> (exists m, qat m delta <> 0) ->
  exists v, rapid_velocity (N:=RN) cfg delta = Ok v /\
    (forall m, IZR v * (Rabs (qat m delta) / len delta) <= IZR (qat m (max_velocity_min cfg))) /\
    ((exists m, IZR (qat m (max_velocity_min cfg)) < (IZR v + 1) * (Rabs (qat m delta) / len delta)) \/
     (forall m, (qat m (max_velocity_min cfg) <= v)%Z)).
Proof.
  intros Hc Hd. pose proof (len_pos _ Hd) as L. unfold rapid_velocity. cbv zeta. rewrite length_R. cbn [rbind].
  change (@zero RN) with 0. cbn [ltb RN]. rewrite (proj2 (Rltb_true 0 (len delta)) L).
  rewrite cabs_R, cdiv_R by lra. cbn [rbind]. change (num RN) with R. set (mv := max_velocity_min cfg). set (p := qmap _ (qmap _ _)).
  assert (Ep: forall m, Rabs (qat m delta) / len delta = qat m p) by (intros []; reflexivity).
  assert (P: forall m, 0 <= qat m p).
  { intros m. rewrite <- Ep. apply Rmult_le_pos; [apply Rabs_pos|]. left. now apply Rinv_0_lt_compat. }
  assert (V: forall m, (0 < qat m mv)%Z) by apply (sane_vel _ Hc).
  set (vl := quad_max mv). assert (V0: (0 <= vl)%Z) by (pose proof (quad_max_ge mv MX); pose proof (V MX); unfold vl; lia).
  destruct (rapid1_R vl (qx mv) (qx p) (V MX) (P MX) V0) as (v1 & E1 & B1 & F1 & D1). rewrite E1. cbn [rbind].
  destruct (rapid1_R v1 (qy mv) (qy p) (V MY) (P MY) ltac:(lia)) as (v2 & E2 & B2 & F2 & D2). rewrite E2. cbn [rbind].
  destruct (rapid1_R v2 (qz mv) (qz p) (V MZ) (P MZ) ltac:(lia)) as (v3 & E3 & B3 & F3 & D3). rewrite E3. cbn [rbind].
  destruct (rapid1_R v3 (qe mv) (qe p) (V ME) (P ME) ltac:(lia)) as (v4 & E4 & B4 & F4 & D4). rewrite E4. cbn [rbind].
  exists v4. split; [reflexivity|]. split.
  - intros m. rewrite Ep. change (fits (qat m mv) (qat m p) v4).
    destruct m; cbn [qat]; [apply (fits_less _ _ v1)|apply (fits_less _ _ v2)|apply (fits_less _ _ v3)|exact F4]; try lia; auto; [apply (P MX)|apply (P MY)|apply (P MZ)].
  - assert (K: forall m, ~ fits (qat m mv) (qat m p) (v4 + 1) -> exists m, IZR (qat m mv) < (IZR v4 + 1) * (Rabs (qat m delta) / len delta)).
    { intros m H. exists m. rewrite Ep. unfold fits in H. rewrite plus_IZR in H. lra. }
    destruct D4 as [->|D4]; [|left; apply (K ME D4)].
    destruct D3 as [->|D3]; [|left; apply (K MZ D3)].
    destruct D2 as [->|D2]; [|left; apply (K MY D2)].
    destruct D1 as [->|D1]; [|left; apply (K MX D1)].
    right. intros m. apply quad_max_ge.
Qed.
