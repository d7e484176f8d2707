(** The iteration of a linear pulse generator in exact arithmetic. *)
From Coq Require Import ZArith Bool List Lia Reals Lra Sorted.
From Flocq Require Import Core.
From Verif Require Import PyBase PyNum Config Coordinates Pulses PulseSpec LinearGen LinearReal.
From Coq Require Import List.
From Flocq Require Import Core.
Import ListNotations.
Local Open Scope R_scope.

Section Run.
Variable cfg : config.
Hypothesis Hc : sane_cfg cfg.
Variable delta : quad R.
Hypothesis Hd : exists m, qat m delta <> 0.
Variable v : R.
Hypothesis Hv : 0 < v.
Variable g : linear_gen RN.
Variables kap kap0 acc lin c : R.
Hypothesis P : profile cfg delta v g kap kap0 acc lin c.
Let T := / kap.
Let w : R -> RN := warp acc lin c.
Notation total m := (qat m (l_total g)).
Notation p_ m := (IZR (qat m (ppm cfg))).
Notation d_ m := (Rabs (qat m delta)).

Lemma total_is m : total m = ZnearestE (d_ m * p_ m).
Proof. rewrite (pf_total _ _ _ _ _ _ _ _ _ P). destruct m; reflexivity. Qed.
Lemma ppm_pos m : 0 < p_ m. Proof. apply (IZR_lt 0). apply sane_ppm, Hc. Qed.
Lemma total_close m : Rabs (IZR (total m) - d_ m * p_ m) <= / 2.
Proof. rewrite total_is. rewrite Rabs_minus_sym. apply Znearest_half. Qed.
Lemma total_nonneg m : (0 <= total m)%Z.
Proof.
  pose proof (total_close m) as H. apply Rabs_le_inv in H. pose proof (ppm_pos m). pose proof (Rabs_pos (qat m delta)).
  assert (K: -1 < IZR (total m)) by nra. apply lt_IZR in K. lia.
Qed.
Lemma d_pos m : (0 < total m)%Z -> 0 < d_ m.
Proof.
  intros H. pose proof (total_close m) as K. apply Rabs_le_inv in K. assert (H1: (1 <= total m)%Z) by lia. apply IZR_le in H1. pose proof (ppm_pos m).
  pose proof (Rabs_pos (qat m delta)). destruct (Req_dec (d_ m) 0) as [E|E]; [rewrite E in K; lra|lra].
Qed.
Lemma kap_pos : 0 < kap. Proof. apply P. Qed.

(** Uniform-movement time of step [i] of a motor. *)
Definition tau (m : motor) (i : Z) : RN := IZR i / p_ m / (d_ m * kap).
Lemma tau_mono m i j : (0 < total m)%Z -> (i < j)%Z -> tau m i < tau m j.
Proof.
  intros H K. apply IZR_lt in K. pose proof (ppm_pos m). pose proof (d_pos m H). pose proof kap_pos. unfold tau, Rdiv.
  apply Rmult_lt_compat_r; [apply Rinv_0_lt_compat; nra|]. apply Rmult_lt_compat_r; [now apply Rinv_0_lt_compat|exact K].
Qed.
Lemma tau_inv m i x : (0 < total m)%Z -> tau m i = x -> x * kap * d_ m * p_ m = IZR i.
Proof. intros H <-. pose proof (ppm_pos m). pose proof (d_pos m H). pose proof kap_pos. unfold tau. field. lra. Qed.
Lemma tau_lt m i x : (0 < total m)%Z -> x < tau m i <-> x * kap * d_ m * p_ m < IZR i.
Proof.
  intros H. pose proof (tau_inv m i _ H eq_refl) as E. rewrite <- E. pose proof (ppm_pos m). pose proof (d_pos m H). pose proof kap_pos.
  assert (K: 0 < kap * d_ m * p_ m) by (apply Rmult_lt_0_compat; nra).
  rewrite !Rmult_assoc in *. rewrite <- !(Rmult_assoc kap) in *. split; intros X.
  - apply Rmult_lt_compat_r; assumption.
  - apply Rmult_lt_reg_r in X; assumption.
Qed.
Lemma tau_end m i : (i < total m)%Z -> (0 <= i)%Z -> tau m i < T.
Proof.
  intros H K. assert (T0: (0 < total m)%Z) by lia. pose proof (total_close m) as C. apply Rabs_le_inv in C.
  assert (I: IZR i <= IZR (total m) - 1) by (rewrite <- minus_IZR; apply IZR_le; lia).
  pose proof (ppm_pos m). pose proof (d_pos m T0). pose proof kap_pos. unfold tau, T.
  apply Rmult_lt_reg_r with (p_ m * (d_ m * kap)); [apply Rmult_lt_0_compat; nra|].
  replace (IZR i / p_ m / (d_ m * kap) * (p_ m * (d_ m * kap))) with (IZR i) by (field; lra).
  replace (/ kap * (p_ m * (d_ m * kap))) with (d_ m * p_ m) by (field; lra). lra.
Qed.
Lemma tau_0 m : tau m 0 = 0.
Proof. unfold tau, Rdiv. rewrite !Rmult_0_l. reflexivity. Qed.

(** A run of the generator: the uniform-movement times [y] of the items increase;
    an item moves exactly those motors whose next step is due at [y]. *)
Definition moved (i : quad Z) (q : quad (option RN)) : quad Z :=
  (Quad (qx i + step_of (N:=RN) MX (Pulse q)) (qy i + step_of (N:=RN) MY (Pulse q))
       (qz i + step_of (N:=RN) MZ (Pulse q)) (qe i + step_of (N:=RN) ME (Pulse q)))%Z.
Lemma qat_moved m i q : qat m (moved i q) = (qat m i + step_of (N:=RN) m (Pulse q))%Z.
Proof. destruct m; reflexivity. Qed.
Inductive good_run : R -> quad Z -> list (item RN) -> Prop :=
| gr_nil x i : (forall m, qat m i = total m) -> good_run x i []
| gr_cons x i y (q : quad (option RN)) l :
    x < y -> 0 <= y < T ->
    (forall m, (qat m q = Some (w y) /\ (qat m i < total m)%Z /\ tau m (qat m i) = y) \/
               (qat m q = None /\ (qat m i = total m \/ (qat m i < total m)%Z /\ y < tau m (qat m i)))) ->
    (exists m, qat m q = Some (w y)) ->
    good_run y (moved i q) l ->
    good_run x i (Pulse q :: l).

Lemma linear_time_R m i : (0 <= i <= total m)%Z ->
  linear_time (N:=RN) i (qat m (ppm cfg)) (total m) (qat m (l_vel g))
  = Ok (if (i <? total m)%Z then Some (tau m i) else None).
Proof.
  intros H. unfold linear_time. destruct (i <? total m)%Z eqn:E.
  - apply Z.ltb_lt in E. replace ((total m =? 0)%Z || (total m <=? i)%Z) with false.
    2: { symmetry. rewrite orb_false_iff, Z.eqb_neq, Z.leb_gt. lia. }
    pose proof (ppm_pos m). pose proof (d_pos m ltac:(lia)). pose proof kap_pos.
    rewrite (pf_vel _ _ _ _ _ _ _ _ _ P), qat_qmap. change (ofZ (p:=RN)) with IZR.
    rewrite div_R by lra. cbn [rbind]. rewrite div_R by nra. reflexivity.
  - apply Z.ltb_ge in E. replace ((total m =? 0)%Z || (total m <=? i)%Z) with true; [reflexivity|].
    symmetry. rewrite orb_true_iff, Z.leb_le. lia.
Qed.
Lemma linear_interp_R i : within g i ->
  linear_interp cfg g i = Ok (l_dir g, Quad (if (qx i <? total MX)%Z then Some (tau MX (qx i)) else None)
                                           (if (qy i <? total MY)%Z then Some (tau MY (qy i)) else None)
                                           (if (qz i <? total MZ)%Z then Some (tau MZ (qz i)) else None)
                                           (if (qe i <? total ME)%Z then Some (tau ME (qe i)) else None)).
Proof.
  intros H. unfold linear_interp.
  pose proof (linear_time_R MX _ (H MX)) as E1. pose proof (linear_time_R MY _ (H MY)) as E2.
  pose proof (linear_time_R MZ _ (H MZ)) as E3. pose proof (linear_time_R ME _ (H ME)) as E4. cbn [qat] in *.
  rewrite E1. cbn [rbind]. rewrite E2. cbn [rbind]. rewrite E3. cbn [rbind]. rewrite E4. reflexivity.
Qed.
Lemma min_time_le (q : quad (option RN)) x : min_time (N:=RN) q = Some x -> forall m y, qat m q = Some y -> x <= y.
Proof.
  unfold min_time, min_step. cbn [ltb RN]. unfold Rltb. intros H m y.
  destruct (qx q) as [x1|] eqn:E1, (qy q) as [x2|] eqn:E2, (qz q) as [x3|] eqn:E3, (qe q) as [x4|] eqn:E4;
  repeat match goal with H : context [Rlt_dec ?a ?b] |- _ => destruct (Rlt_dec a b) end;
  try discriminate H; injection H as <-;
  destruct m; cbn [qat]; rewrite ?E1, ?E2, ?E3, ?E4; intros K; try discriminate K; inversion K; subst; lra.
Qed.

(** All due steps lie after [x]. *)
Definition ahead (x : R) (i : quad Z) : Prop :=
  within g i /\ forall m, (qat m i < total m)%Z -> x < tau m (qat m i).

Lemma next_R x (s : iter_state RN) : it_dir s = Some (l_dir g) -> it_c s = c -> ahead x (it_i s) ->
  (next cfg (GLinear g) s = Ok None /\ forall m, qat m (it_i s) = total m) \/
  (exists y q, next cfg (GLinear g) s
                 = Ok (Some (Pulse q, {| it_i := moved (it_i s) q; it_dir := it_dir s; it_c := it_c s |})) /\
     x < y /\ 0 <= y < T /\
     (forall m, (qat m q = Some (w y) /\ (qat m (it_i s) < total m)%Z /\ tau m (qat m (it_i s)) = y) \/
               (qat m q = None /\ (qat m (it_i s) = total m \/ (qat m (it_i s) < total m)%Z /\ y < tau m (qat m (it_i s))))) /\
     (exists m, qat m q = Some (w y)) /\ ahead y (moved (it_i s) q)).
Proof.
  intros Hdir Hcc [Hw Ha].
  set (t := Quad (if (qx (it_i s) <? total MX)%Z then Some (tau MX (qx (it_i s))) else None)
                 (if (qy (it_i s) <? total MY)%Z then Some (tau MY (qy (it_i s))) else None)
                 (if (qz (it_i s) <? total MZ)%Z then Some (tau MZ (qz (it_i s))) else None)
                 (if (qe (it_i s) <? total ME)%Z then Some (tau ME (qe (it_i s))) else None)).
  assert (Et: forall m, qat m t = if (qat m (it_i s) <? total m)%Z then Some (tau m (qat m (it_i s))) else None) by (intros []; reflexivity).
  unfold next. cbn [gen_interp]. rewrite (linear_interp_R _ Hw). fold t. cbn [rbind]. rewrite Hdir, quadZ_eqb_refl. cbn [negb].
  destruct (min_time t) as [y|] eqn:Em.
  2: { left. split; [reflexivity|]. intros m. rewrite min_time_none in Em. specialize (Em m). rewrite Et in Em.
       destruct (qat m (it_i s) <? total m)%Z eqn:E; [discriminate|]. apply Z.ltb_ge in E. specialize (Hw m). lia. }
  right. destruct (min_time_some _ _ Em) as [m0 Hm0]. rewrite Et in Hm0.
  destruct (qat m0 (it_i s) <? total m0)%Z eqn:E0; [|discriminate]. apply Z.ltb_lt in E0. injection Hm0 as Hm0.
  assert (Y1: x < y) by (rewrite <- Hm0; apply Ha; exact E0).
  assert (Y2: y < T) by (rewrite <- Hm0; apply tau_end; [exact E0|apply Hw]).
  assert (Y3: 0 <= y).
  { rewrite <- Hm0. destruct (Z.eq_dec (qat m0 (it_i s)) 0) as [->|]; [rewrite tau_0; lra|].
    rewrite <- (tau_0 m0). left. apply tau_mono; [|specialize (Hw m0); lia]. specialize (Hw m0). lia. }
  cbn [gen_acc gen_lin]. rewrite (pf_acc _ _ _ _ _ _ _ _ _ P), (pf_lin _ _ _ _ _ _ _ _ _ P), Hcc.
  rewrite (to_accelerated_R cfg Hc delta Hd v g kap kap0 acc lin c P y) by (fold T; lra). cbn [rbind]. fold w.
  set (fr := fun m => fire (N:=RN) y (w y) (qat m t) (qat m (it_i s))).
  exists y, (Quad (fst (fr MX)) (fst (fr MY)) (fst (fr MZ)) (fst (fr ME))).
  assert (Q: forall m, (fst (fr m) = Some (w y) /\ snd (fr m) = (qat m (it_i s) + 1)%Z /\ (qat m (it_i s) < total m)%Z /\ tau m (qat m (it_i s)) = y) \/
       (fst (fr m) = None /\ snd (fr m) = qat m (it_i s) /\ (qat m (it_i s) = total m \/ (qat m (it_i s) < total m)%Z /\ y < tau m (qat m (it_i s))))).
  { intros m. unfold fr, fire. pose proof (min_time_le _ _ Em m) as Hle. rewrite Et in *.
    destruct (qat m (it_i s) <? total m)%Z eqn:E.
    - apply Z.ltb_lt in E. specialize (Hle _ eq_refl). change (ltb (p:=RN)) with Rltb. destruct (Rltb y (tau m (qat m (it_i s)))) eqn:F.
      + apply Rltb_true in F. right. auto.
      + apply Rltb_false in F. left. cbn. repeat split; auto. lra.
    - apply Z.ltb_ge in E. right. cbn. repeat split. left. specialize (Hw m). lia. }
  assert (QF: forall m, qat m (Quad (fst (fr MX)) (fst (fr MY)) (fst (fr MZ)) (fst (fr ME))) = fst (fr m)) by (intros []; reflexivity).
  assert (SF: forall m, (qat m (it_i s) + step_of (N:=RN) m (Pulse (Quad (fst (fr MX)) (fst (fr MY)) (fst (fr MZ)) (fst (fr ME)))) = snd (fr m))%Z).
  { intros m. cbn [step_of]. rewrite QF. destruct (Q m) as [(-> & -> & _)|(-> & -> & _)]; lia. }
  split.
  { change (qx t) with (qat MX t). change (qy t) with (qat MY t). change (qz t) with (qat MZ t). change (qe t) with (qat ME t).
    change (qx (it_i s)) with (qat MX (it_i s)) at 1. change (qy (it_i s)) with (qat MY (it_i s)) at 1.
    change (qz (it_i s)) with (qat MZ (it_i s)) at 1. change (qe (it_i s)) with (qat ME (it_i s)) at 1.
    fold (fr MX) (fr MY) (fr MZ) (fr ME). unfold moved.
    pose proof (SF MX) as S1. pose proof (SF MY) as S2. pose proof (SF MZ) as S3. pose proof (SF ME) as S4. cbn [qat] in S1, S2, S3, S4.
    rewrite S1, S2, S3, S4.
    destruct (fr MX), (fr MY), (fr MZ), (fr ME). reflexivity. }
  split; [exact Y1|]. split; [lra|]. split; [|split; [|split]].
  - intros m. rewrite QF. destruct (Q m) as [(E1 & _ & E2)|(E1 & _ & E2)]; [left|right]; auto.
  - exists m0. rewrite QF. destruct (Q m0) as [(E1 & _)|(_ & _ & [E|(_ & E)])]; [exact E1|lia|lra].
  - intros m. rewrite qat_moved, SF. specialize (Hw m). destruct (Q m) as [(_ & -> & K & _)|(_ & -> & _)]; lia.
  - intros m. rewrite qat_moved, SF. specialize (Hw m). destruct (Q m) as [(_ & -> & K & E)|(_ & -> & [E|(_ & E)])]; intros X.
    + rewrite <- E. apply tau_mono; lia.
    + lia.
    + exact E.
Qed.

Lemma iterate_R fuel x (s : iter_state RN) : it_dir s = Some (l_dir g) -> it_c s = c -> ahead x (it_i s) ->
  (Z.to_nat (pending g (it_i s)) < fuel)%nat ->
  exists l, iterate cfg fuel (GLinear g) s = Finished l /\ good_run x (it_i s) l.
Proof.
  revert x s. induction fuel as [|f IH]; intros x s Hdir Hcc Ha Hf; [lia|]. cbn [iterate].
  destruct (next_R x s Hdir Hcc Ha) as [(-> & E)|(y & q & En & Y1 & Y2 & Q & M & A')].
  - exists []. split; [reflexivity|]. now constructor.
  - rewrite En. set (s' := {| it_i := _; it_dir := _; it_c := _ |}).
    assert (PF: (0 <= pending g (it_i s') < pending g (it_i s))%Z).
    { destruct A' as [W _]. assert (St: forall m, (0 <= step_of (N:=RN) m (Pulse q))%Z) by (intros m; cbn [step_of]; destruct (qat m q); lia).
      assert (St1: exists m, step_of (N:=RN) m (Pulse q) = 1%Z) by (destruct M as [m M]; exists m; cbn [step_of]; now rewrite M).
      pose proof (St MX). pose proof (St MY). pose proof (St MZ). pose proof (St ME).
      pose proof (W MX) as W1. pose proof (W MY) as W2. pose proof (W MZ) as W3. pose proof (W ME) as W4.
      unfold pending, s'. cbn [it_i]. cbn [qat moved qx qy qz qe] in *. destruct St1 as [[] St1]; lia. }
    destruct (IH y s' Hdir Hcc A' ltac:(lia)) as (l & -> & Hl).
    exists (Pulse q :: l). split; [reflexivity|]. econstructor; eauto.
Qed.

Lemma run_R fuel : (Z.to_nat (pending g zero4) + 1 < fuel)%nat ->
  exists l, run_gen cfg fuel (GLinear g) = Finished (Dir (invert_dirs cfg (l_dir g)) :: l) /\ good_run (-1) zero4 l.
Proof.
  intros Hf. unfold run_gen, iter_start. cbn [gen_vel].
  assert (EC: div (p:=RN) (mul (@two RN) (find_max (l_vel g))) (accel cfg) = Ok c).
  { pose proof (A_pos cfg Hc). change (accel cfg) with (IZR (max_acceleration cfg)). rewrite div_R by lra. f_equal.
    rewrite (pf_c _ _ _ _ _ _ _ _ _ P). change (@two RN) with 2. change (mul (p:=RN)) with Rmult.
    change (@find_max RN (l_vel g)) with (top (l_vel g)). rewrite (pf_vel _ _ _ _ _ _ _ _ _ P).
    replace (qmap (fun x => Rabs x * kap) delta) with (qmap (fun x => x * kap) (qmap Rabs delta)) by reflexivity.
    rewrite top_scale; [reflexivity|]. pose proof kap_pos. lra. }
  rewrite EC. cbn [rbind].
  destruct fuel as [|f]; [lia|]. cbn [iterate].
  assert (W: within g zero4) by (intros m; pose proof (total_nonneg m); destruct m; cbn in *; lia).
  assert (EN: next cfg (GLinear g) {| it_i := zero4; it_dir := None; it_c := (c : RN) |}
              = Ok (Some (Dir (invert_dirs cfg (l_dir g)), {| it_i := zero4; it_dir := Some (l_dir g); it_c := (c : RN) |}))).
  { unfold next. cbn [gen_interp it_i it_dir]. rewrite (linear_interp_R _ W). reflexivity. }
  fold zero4. rewrite EN. clear EN.
  destruct (iterate_R f (-1) {| it_i := zero4; it_dir := Some (l_dir g); it_c := (c : RN) |}) as (l & E & G); try reflexivity.
  - split; [exact W|]. intros m _. cbn [it_i]. replace (qat m zero4) with 0%Z by (destruct m; reflexivity). rewrite tau_0. lra.
  - cbn [it_i]. lia.
  - rewrite E. exists l. auto.
Qed.

(* ---------- consequences ---------- *)
Lemma good_run_steps x i l m : good_run x i l -> (qat m i + steps m l = total m)%Z.
Proof.
  intros H. induction H as [x i E|x i y q l _ _ Hq _ _ IH]; [cbn; rewrite E; lia|].
  cbn [steps fold_right]. fold (steps m l). rewrite qat_moved in IH. lia.
Qed.
Lemma good_run_within x i l m : good_run x i l -> (forall m, 0 <= qat m i)%Z -> (qat m i <= total m)%Z.
Proof. intros H _. destruct H as [x i E|x i y q l _ _ Hq _ _]; [rewrite E; lia|]. destruct (Hq m) as [(_ & K & _)|(_ & [K|(K & _)])]; lia. Qed.

(** Times of the items. *)
Definition time_of (it : item RN) (t : R) : Prop := pulse_at (N:=RN) t it.
Lemma good_run_times x i l : good_run x i l ->
  exists ts, Forall2 time_of l ts /\ StronglySorted Rlt ts /\ Forall (fun t => exists y, x < y /\ 0 <= y < T /\ t = w y) ts.
Proof.
  intros H. induction H as [x i E|x i y q l H1 H2 Hq Hm _ IH].
  - exists []. repeat split; constructor.
  - destruct IH as (ts & F & S & B). exists (w y :: ts). split; [|split].
    + constructor; [|exact F]. exists q. split; [reflexivity|]. split; [exact Hm|]. intros m t' Et.
      destruct (Hq m) as [(E & _)|(E & _)]; congruence.
    + constructor; [exact S|]. rewrite Forall_forall in *. intros t Ht. destruct (B t Ht) as (z & Z1 & Z2 & ->).
      apply (warp_mono cfg Hc delta Hd v g kap kap0 acc lin c P); fold T; lra.
    + constructor; [exists y; auto|]. rewrite Forall_forall in *. intros t Ht. destruct (B t Ht) as (z & Z1 & Z2 & ->).
      exists z. repeat split; lra.
Qed.

(** The state at each item. *)
Definition behind (x : R) (i : quad Z) : Prop := forall m, (0 < qat m i)%Z -> tau m (qat m i - 1) <= x.
Lemma good_run_split x i l1 q l2 : good_run x i (l1 ++ Pulse q :: l2) -> behind x i ->
  exists y, x < y /\ 0 <= y < T /\
    (forall m, (qat m q = Some (w y) /\ (qat m i + steps m l1 < total m)%Z /\ tau m (qat m i + steps m l1) = y) \/
               (qat m q = None /\ ((qat m i + steps m l1)%Z = total m \/
                  (qat m i + steps m l1 < total m)%Z /\ y < tau m (qat m i + steps m l1)))) /\
    (forall m, let n := (qat m i + steps m (l1 ++ [Pulse q]))%Z in (0 < n)%Z -> tau m (n - 1) <= y).
Proof.
  revert x i. induction l1 as [|it l1 IH]; intros x i H B.
  - cbn [app] in H. inversion H as [|? ? y ? ? H1 H2 Hq Hm Hr]; subst. exists y. split; [exact H1|]. split; [exact H2|].
    split.
    + intros m. cbn [steps fold_right]. rewrite Z.add_0_r. apply Hq.
    + intros m n Hn. assert (En: n = (qat m i + step_of (N:=RN) m (Pulse q))%Z) by (unfold n; cbn [app steps fold_right]; lia).
      clearbody n. cbn [step_of] in En. destruct (Hq m) as [(Eq & _ & E)|(Eq & _)]; rewrite Eq in En; subst n.
      * replace (qat m i + 1 - 1)%Z with (qat m i) by lia. lra.
      * rewrite Z.add_0_r in *. apply Rle_trans with x; [apply B; lia|lra].
  - cbn [app] in H. inversion H as [|? ? y q1 ? H1 H2 Hq Hm Hr]; subst.
    assert (B': behind y (moved i q1)).
    { intros m. rewrite qat_moved. cbn [step_of]. destruct (Hq m) as [(-> & _ & E)|(-> & _)]; intros Hn.
      - replace (qat m i + 1 - 1)%Z with (qat m i) by lia. lra.
      - rewrite Z.add_0_r in *. apply Rle_trans with x; [apply B; lia|lra]. }
    destruct (IH _ _ Hr B') as (z & Z1 & Z2 & Z3 & Z4). exists z. split; [lra|]. split; [exact Z2|].
    assert (EQ: forall m l, (qat m i + steps m (Pulse q1 :: l) = qat m i + step_of (N:=RN) m (Pulse q1) + steps m l)%Z).
    { intros m l. cbn [steps fold_right]. fold (steps m l). lia. }
    split; intros m; [specialize (Z3 m)|specialize (Z4 m)]; rewrite qat_moved in *.
    + rewrite EQ. exact Z3.
    + cbn [app]. rewrite EQ. exact Z4.
Qed.
End Run.
