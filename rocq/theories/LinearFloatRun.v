(** Straight moves in binary64: the iteration. *)
From Coq Require Import ZArith Bool Reals Lra Lia List Psatz.
From Flocq Require Import Core BinarySingleNaN.
From Verif Require Import PyBase PyNum PyFloatFacts Config Coordinates Pulses PulseSpec Decimal MachineArc ArcDone FloatRel LinearGen LinearLaw LinearFloat.
From Coq Require Import List.
From Flocq Require Import Core.
Import ListNotations.
Local Open Scope R_scope.

Section Run.
Variable acos : f64 -> f64.
Notation N := (F64 acos).
Variable cfg : config.
Hypothesis Hc : lin_cfg cfg.
Variable delta : quad f64.
Variable v : f64.
Hypothesis Hm : fit_move cfg delta v.
Variable g : linear_gen N.
Variable kap : R.
Hypothesis P : fprof acos cfg delta g kap.

Notation dst := (dst acos delta).
Notation d m := (val (qat m dst)).
Notation p m := (IZR (qat m (ppm cfg))).
Notation vel m := (val (qat m (l_vel g : quad f64))).
Notation total m := (qat m (l_total g)).
Notation A := (IZR (max_acceleration cfg)).

Lemma p_bounds m : 1 <= p m <= 1000.
Proof. destruct (lc_ppm cfg Hc m) as [L U]. split; [now apply (IZR_le 1)|now apply IZR_le]. Qed.
Lemma p_ap m : ap 0 0 10 (f_ofZ (qat m (ppm cfg))) (p m).
Proof. destruct (lc_ppm cfg Hc m). apply ap_ofZ; lia. Qed.
Lemma d0 m : 0 <= d m. Proof. exact (d_pos acos cfg delta v Hm m). Qed.
Lemma d4 m : d m <= 4097. Proof. exact (dst_le acos cfg delta v Hm m). Qed.
Lemma dp_bound m : 0 <= d m * p m <= 4097000.
Proof. assert (X := d0 m). assert (Y := d4 m). assert (Z := p_bounds m). split; [apply Rmult_le_pos; lra|]. apply Rle_trans with (4097 * 1000); [apply Rmult_le_compat; lra|lra]. Qed.

(** The number of pulses. *)
Lemma total_close m : Rabs (IZR (total m) - d m * p m) <= / 2 + 3 * ep * (d m * p m).
Proof.
  assert (C := fp_count _ _ _ _ _ P m).
  assert (T := ap_mul 0 0 (-35) 13 0 10 _ _ _ _ ltac:(lra) ltac:(lra) ltac:(lra) ltac:(lia) ltac:(lia) (dq_ap 13 _ m (dst_dq acos cfg delta v Hm)) (p_ap m)).
  rewrite (f_rnd_val _ (proj1 T)) in C. injection C as C. rewrite <- C. destruct T as (_ & [T1 T2] & _).
  set (x := val (f_mul (qat m dst) (f_ofZ (qat m (ppm cfg))))) in *. assert (E := ZnearestE_error x).
  replace (0 + 0 + 3) with 3 in * by ring. apply Rabs_le_inv in E. apply Rabs_le. lra.
Qed.
Lemma total_bounds m : (0 <= total m <= 2 ^ 22)%Z.
Proof.
  assert (C := total_close m). assert (B := dp_bound m). apply Rabs_le_inv in C.
  assert (3 * ep * (d m * p m) <= / 100) by (apply Rle_trans with (3 * ep * 4097000); [apply Rmult_le_compat_l; [unfold ep; lra|lra]|unfold ep; lra]).
  assert (L: (-1 < total m)%Z) by (apply lt_IZR; lra). assert (U: (total m < 2 ^ 22)%Z) by (apply lt_IZR; simpl; lra). lia.
Qed.
(** An axis which pulses has a velocity. *)
Lemma moving m : (0 < total m)%Z -> 499 / 1000 <= d m * p m /\ bpow radix2 (-35) <= vel m.
Proof.
  intros T. assert (C := total_close m). assert (B := dp_bound m). apply Rabs_le_inv in C.
  assert (3 * ep * (d m * p m) <= / 10000) by (apply Rle_trans with (3 * ep * 4097000); [apply Rmult_le_compat_l; [unfold ep; lra|lra]|unfold ep; lra]).
  assert (T1: 1 <= IZR (total m)) by (apply (IZR_le 1); lia). assert (D: 499 / 1000 <= d m * p m) by lra. split; [exact D|].
  assert (K := fp_kap _ _ _ _ _ P). destruct (fp_vel _ _ _ _ _ P m) as (_ & [V|V] & _); [|exact V]. exfalso.
  assert (Nr := fp_near _ _ _ _ _ P m). rewrite V in Nr. apply Rabs_le_inv in Nr. assert (Q := p_bounds m).
  assert (Dm: 499 / 1000000 <= d m). { assert (d m * p m <= d m * 1000) by (apply Rmult_le_compat_l; [apply d0|lra]). lra. }
  assert (KD: / 500000 * (499 / 1000000) <= kap * d m) by (apply Rmult_le_compat; lra).
  assert (40 * ep * (kap * d m) <= / 1000000 * (kap * d m)) by (apply Rmult_le_compat_r; [lra|unfold ep; lra]). lra.
Qed.

(** Time of the [i]th pulse before the acceleration. *)
Definition tm (m : motor) (i : Z) : f64 :=
  match linear_time (N:=N) i (qat m (ppm cfg)) (total m) (qat m (l_vel g)) with Ok (Some t) => t | _ => f_ofZ 0 end.
Lemma ofZ_ap i : (0 <= i <= 2 ^ 22)%Z -> ap 0 0 22 (f_ofZ i) (IZR i).
Proof.
  intros I. destruct (Z.eq_dec i 0) as [->|Z]; [|apply ap_ofZ; lia].
  destruct (f_ofZ_val 0) as [F V]; [lia|]. split; [exact F|]. rewrite V. split; [apply cl_refl; simpl; lra|]. split; [now left|]. simpl. lra.
Qed.
Lemma tm_spec m i : (0 <= i < total m)%Z ->
  linear_time (N:=N) i (qat m (ppm cfg)) (total m) (qat m (l_vel g)) = Ok (Some (tm m i)) /\ ap 8 (-102) 57 (tm m i) (IZR i / p m / vel m).
Proof.
  intros I. assert (TB := total_bounds m). destruct (moving m ltac:(lia)) as [_ V]. assert (PB := p_bounds m).
  assert (pz: p m <> 0) by (apply Rgt_not_eq; lra). assert (vz: vel m <> 0) by (pose proof (bpow_gt_0 radix2 (-35)); apply Rgt_not_eq; lra).
  destruct (ap_div 0 0 0 22 0 10 _ _ _ _ ltac:(lra) ltac:(lra) ltac:(lra) ltac:(lia) ltac:(lia) pz (ofZ_ap i ltac:(lia)) (p_ap m)) as (q & E1 & A1).
  destruct (ap_div (0 + 0 + 4) 0 (0 - 10) (22 - 0) (-35) 92 _ _ _ _ ltac:(lra) ltac:(lra) ltac:(lra) ltac:(lia) ltac:(lia) vz A1 (dq_ap 92 _ m (fp_vel _ _ _ _ _ P))) as (t & E2 & A2).
  assert (E: linear_time (N:=N) i (qat m (ppm cfg)) (total m) (qat m (l_vel g)) = Ok (Some t)).
  { unfold linear_time. replace ((total m =? 0)%Z || (total m <=? i)%Z) with false. 2: { symmetry. rewrite orb_false_iff, Z.eqb_neq, Z.leb_gt. lia. }
    cbn [div ofZ F64]. rewrite E1. cbn [rbind]. replace (f_div q (qat m (l_vel g))) with (Ok t) by (symmetry; exact E2). reflexivity. }
  unfold tm. rewrite E. split; [reflexivity|]. replace 8 with (0 + 0 + 4 + 0 + 4) by ring. exact A2.
Qed.
Lemma tm_none m i : (total m <= i)%Z -> linear_time (N:=N) i (qat m (ppm cfg)) (total m) (qat m (l_vel g)) = Ok None.
Proof.
  intros I. unfold linear_time. replace ((total m =? 0)%Z || (total m <=? i)%Z) with true; [reflexivity|].
  symmetry. rewrite orb_true_iff, Z.leb_le. lia.
Qed.
Lemma tm_fin m i : (0 <= i < total m)%Z -> fin (tm m i) /\ 0 <= val (tm m i).
Proof. intros I. destruct (tm_spec m i I) as [_ T]. split; [apply T|]. apply (ap_bounds 8 (-102) 57 _ _ ltac:(lra) T). Qed.
Lemma tm_strict m i : (0 <= i)%Z -> (i + 1 < total m)%Z -> val (tm m i) < val (tm m (i + 1)).
Proof.
  intros I J. destruct (tm_spec m i ltac:(lia)) as [_ (_ & [_ U] & _)]. destruct (tm_spec m (i + 1) ltac:(lia)) as [_ (_ & [L _] & _)].
  destruct (moving m ltac:(lia)) as [_ V]. assert (PB := p_bounds m). assert (B := bpow_gt_0 radix2 (-35)). assert (TB := total_bounds m).
  eapply Rle_lt_trans; [exact U|]. eapply Rlt_le_trans; [|exact L].
  assert (H: 0 < / p m * / vel m) by (apply Rmult_lt_0_compat; apply Rinv_0_lt_compat; lra).
  replace ((1 + 8 * ep) * (IZR i / p m / vel m)) with (((1 + 8 * ep) * IZR i) * (/ p m * / vel m)) by (unfold Rdiv; ring).
  replace ((1 - 8 * ep) * (IZR (i + 1) / p m / vel m)) with (((1 - 8 * ep) * IZR (i + 1)) * (/ p m * / vel m)) by (unfold Rdiv; ring).
  apply Rmult_lt_compat_r; [exact H|]. rewrite plus_IZR.
  assert (IB: 0 <= IZR i <= 4194304) by (split; apply IZR_le; lia). unfold ep. lra.
Qed.
Lemma tm_zero m : (0 < total m)%Z -> val (tm m 0) = 0.
Proof. intros T. destruct (tm_spec m 0 ltac:(lia)) as [_ (_ & [L U] & _)]. unfold Rdiv in *. rewrite !Rmult_0_l, Rmult_0_r in *. lra. Qed.

(** The iteration. *)
Variable c : f64.
Hypothesis Hcc : moment c.
Definition fmoved (i : quad Z) (q : quad (option N)) : quad Z :=
  (Quad (qx i + step_of (N:=N) MX (Pulse q)) (qy i + step_of (N:=N) MY (Pulse q))
       (qz i + step_of (N:=N) MZ (Pulse q)) (qe i + step_of (N:=N) ME (Pulse q)))%Z.
Lemma qat_fmoved m i q : qat m (fmoved i q) = (qat m i + step_of (N:=N) m (Pulse q))%Z.
Proof. destruct m; reflexivity. Qed.
Definition warps (x am : f64) : Prop := to_accelerated_time (N:=N) (l_acc g) (l_lin g) c x = Ok am.
Inductive frun : R -> quad Z -> list (item N) -> list f64 -> Prop :=
| fr_nil r i : (forall m, qat m i = total m) -> frun r i [] []
| fr_cons r i (x am : f64) (q : quad (option N)) l xs :
    fin x -> 0 <= val x -> r <= val x -> warps x am ->
    (forall m, (qat m q = Some am /\ (0 <= qat m i < total m)%Z /\ val (tm m (qat m i)) = val x) \/
               (qat m q = None /\ (qat m i = total m \/ (0 <= qat m i < total m)%Z /\ val x < val (tm m (qat m i))))) ->
    (exists m, qat m q = Some am) ->
    frun (val x) (fmoved i q) l xs ->
    frun r i (Pulse q :: l) (x :: xs).

Lemma min_time_least (q : quad (option N)) x : (forall m y, qat m q = Some y -> fin y) -> min_time (N:=N) q = Some x -> forall m y, qat m q = Some y -> val x <= val y.
Proof.
  unfold min_time, min_step. cbn [ltb F64]. intros F H m y. assert (F1 := F MX). assert (F2 := F MY). assert (F3 := F MZ). assert (F4 := F ME). cbn [qat] in F1, F2, F3, F4.
  destruct (qx q) as [x1|] eqn:E1, (qy q) as [x2|] eqn:E2, (qz q) as [x3|] eqn:E3, (qe q) as [x4|] eqn:E4;
  repeat match goal with X : forall y, Some ?a = Some y -> fin y |- _ => specialize (X a eq_refl) | X : forall y, None = Some y -> _ |- _ => clear X end;
  repeat match goal with H : context [f_lt ?a ?b] |- _ => let E := fresh "L" in destruct (f_lt a b) eqn:E; [apply f_lt_true in E; [|assumption|assumption]|apply f_lt_false in E; [|assumption|assumption]] end;
  try discriminate H; injection H as <-;
  destruct m; cbn [qat]; rewrite ?E1, ?E2, ?E3, ?E4; intros K; try discriminate K; inversion K; subst; lra.
Qed.
Definition fahead (r : R) (i : quad Z) : Prop :=
  (forall m, 0 <= qat m i <= total m)%Z /\ forall m, (qat m i < total m)%Z -> r <= val (tm m (qat m i)).
Lemma interp_ok i : (forall m, 0 <= qat m i <= total m)%Z -> exists t, linear_interp (N:=N) cfg g i = Ok (l_dir g, t) /\
  forall m, qat m t = if (qat m i <? total m)%Z then Some (tm m (qat m i)) else None.
Proof.
  intros W. assert (E: forall m, linear_time (N:=N) (qat m i) (qat m (ppm cfg)) (total m) (qat m (l_vel g)) = Ok (if (qat m i <? total m)%Z then Some (tm m (qat m i)) else None)).
  { intros m. specialize (W m). destruct (Z.ltb_spec (qat m i) (total m)); [apply tm_spec; lia|apply tm_none; lia]. }
  exists (Quad (if (qx i <? total MX)%Z then Some (tm MX (qx i)) else None) (if (qy i <? total MY)%Z then Some (tm MY (qy i)) else None)
               (if (qz i <? total MZ)%Z then Some (tm MZ (qz i)) else None) (if (qe i <? total ME)%Z then Some (tm ME (qe i)) else None)).
  split; [|intros []; reflexivity]. unfold linear_interp. assert (E1 := E MX). assert (E2 := E MY). assert (E3 := E MZ). assert (E4 := E ME). cbn [qat] in *.
  rewrite E1. cbn [rbind]. rewrite E2. cbn [rbind]. rewrite E3. cbn [rbind]. rewrite E4. reflexivity.
Qed.
Lemma next_F r (s : iter_state N) : it_dir s = Some (l_dir g) -> it_c s = c -> fahead r (it_i s) ->
  (next cfg (GLinear g) s = Ok None /\ forall m, qat m (it_i s) = total m) \/
  (exists (x am : f64) (q : quad (option N)) s', next cfg (GLinear g) s = Ok (Some (Pulse q, s')) /\ it_i s' = fmoved (it_i s) q /\ it_dir s' = it_dir s /\ it_c s' = it_c s /\
     fin x /\ 0 <= val x /\ r <= val x /\ warps x am /\
     (forall m, (qat m q = Some am /\ (0 <= qat m (it_i s) < total m)%Z /\ val (tm m (qat m (it_i s))) = val x) \/
               (qat m q = None /\ (qat m (it_i s) = total m \/ (0 <= qat m (it_i s) < total m)%Z /\ val x < val (tm m (qat m (it_i s)))))) /\
     (exists m, qat m q = Some am) /\ fahead (val x) (fmoved (it_i s) q)).
Proof.
  intros Hdir Hce [W Ah]. destruct (interp_ok _ W) as (t & Ei & Et).
  assert (Ft: forall m y, qat m t = Some y -> fin y /\ 0 <= val y /\ y = tm m (qat m (it_i s)) /\ (qat m (it_i s) < total m)%Z).
  { intros m y. rewrite Et. destruct (Z.ltb_spec (qat m (it_i s)) (total m)); [|discriminate]. intros E. injection E as <-. specialize (W m).
    destruct (tm_fin m (qat m (it_i s)) ltac:(lia)). auto. }
  assert (OK: exists r', next cfg (GLinear g) s = Ok r').
  { unfold next. cbn [gen_interp]. rewrite Ei. cbn [rbind]. rewrite Hdir, quadZ_eqb_refl. cbn [negb]. destruct (min_time t) as [x|] eqn:Em; [|eauto].
    destruct (min_time_some _ _ Em) as [m0 E0]. destruct (Ft m0 x E0) as (Fx & X0 & _). cbn [gen_acc gen_lin]. rewrite Hce.
    destruct (accel_ok acos (l_acc g) (l_lin g) c x) as [am ->]; [|exact Hcc|split; assumption|].
    - destruct (fp_acc _ _ _ _ _ P) as (Fa & L & U). split; [exact Fa|]. split; [pose proof (bpow_gt_0 radix2 (-28)); lra|]. eapply Rle_trans; [exact U|]. apply bpow_le. lia.
    - cbn [rbind]. destruct (fire x am (qx t) _), (fire x am (qy t) _), (fire x am (qz t) _), (fire x am (qe t) _). eauto. }
  destruct OK as [r' En]. rewrite En. destruct (next_pulse cfg _ _ _ En) as (dir & t' & Ei' & H). cbn [gen_interp] in Ei'. rewrite Ei in Ei'.
  assert (dir = l_dir g /\ t' = t) as [-> ->] by (split; congruence). clear Ei'.
  destruct H as [(H & _)|[(_ & Hn & ->)|(_ & x & am & q & s' & Em & Ea & -> & Hd' & Hc' & Hf)]].
  - rewrite Hdir, quadZ_eqb_refl in H. discriminate.
  - left. split; [reflexivity|]. intros m. specialize (Hn m). rewrite Et in Hn. specialize (W m). destruct (Z.ltb_spec (qat m (it_i s)) (total m)); [discriminate|lia].
  - right. exists x, am, q, s'. split; [reflexivity|]. destruct (min_time_some _ _ Em) as [m0 E0]. destruct (Ft m0 x E0) as (Fx & X0 & Ex & I0).
    assert (Least := min_time_least t x ltac:(intros m y Hy; apply (Ft m y Hy)) Em). cbn [gen_acc gen_lin] in Ea. rewrite Hce in Ea.
    assert (Q: forall m, (qat m q = Some am /\ qat m (it_i s') = (qat m (it_i s) + 1)%Z /\ (0 <= qat m (it_i s) < total m)%Z /\ val (tm m (qat m (it_i s))) = val x) \/
         (qat m q = None /\ qat m (it_i s') = qat m (it_i s) /\ (qat m (it_i s) = total m \/ (0 <= qat m (it_i s) < total m)%Z /\ val x < val (tm m (qat m (it_i s)))))).
    { intros m. specialize (Hf m). apply fire_inv in Hf. specialize (W m). destruct Hf as [(Eq & Ei2 & Lt)|(y & Ey & Lt & Eq & Ei2)].
      - right. split; [exact Eq|]. split; [exact Ei2|]. specialize (Et m). destruct (Z.ltb_spec (qat m (it_i s)) (total m)); [right|left; lia]. split; [lia|].
        specialize (Lt _ Et). cbn [ltb F64] in Lt. apply f_lt_true in Lt; [exact Lt|exact Fx|]. apply tm_fin. lia.
      - left. split; [exact Eq|]. split; [exact Ei2|]. destruct (Ft m y Ey) as (Fy & _ & -> & Iy). split; [lia|]. cbn [ltb F64] in Lt. apply f_lt_false in Lt; [|exact Fx|exact Fy].
        specialize (Least m _ Ey). lra. }
    assert (Im: forall m, qat m (it_i s') = qat m (fmoved (it_i s) q)).
    { intros m. rewrite qat_fmoved. cbn [step_of]. destruct (Q m) as [(-> & -> & _)|(-> & -> & _)]; lia. }
    assert (Ieq: it_i s' = fmoved (it_i s) q).
    { pose proof (Im MX). pose proof (Im MY). pose proof (Im MZ). pose proof (Im ME). destruct (it_i s'), (fmoved (it_i s) q). cbn in *. congruence. }
    split; [exact Ieq|]. split; [exact Hd'|]. split; [exact Hc'|]. split; [exact Fx|]. split; [exact X0|]. split; [rewrite Ex; apply Ah; exact I0|]. split; [exact Ea|].
    split; [|split; [|split]].
    + intros m. destruct (Q m) as [(E1 & _ & E2)|(E1 & _ & E2)]; [left|right]; auto.
    + exists m0. destruct (Q m0) as [(E1 & _)|(_ & _ & [E|(_ & E)])]; [exact E1|lia|rewrite Ex in E; lra].
    + intros m. rewrite <- Im. specialize (W m). destruct (Q m) as [(_ & -> & K & _)|(_ & -> & _)]; lia.
    + intros m. rewrite <- Im. specialize (W m). destruct (Q m) as [(_ & -> & K & E)|(_ & -> & [E|(_ & E)])]; intros X; [|lia|lra].
      rewrite <- E. apply Rlt_le, tm_strict; lia.
Qed.
Lemma iterate_F fuel r (s : iter_state N) : it_dir s = Some (l_dir g) -> it_c s = c -> fahead r (it_i s) ->
  (Z.to_nat (pending g (it_i s)) < fuel)%nat ->
  exists l xs, iterate cfg fuel (GLinear g) s = Finished l /\ frun r (it_i s) l xs.
Proof.
  revert r s. induction fuel as [|f IH]; intros r s Hdir Hce Ha Hf; [lia|]. cbn [iterate].
  destruct (next_F r s Hdir Hce Ha) as [(-> & E)|(x & am & q & s' & En & Ei & Ed & Ec & Fx & X0 & Y1 & Wa & Q & M & A')].
  - exists [], []. split; [reflexivity|]. now constructor.
  - rewrite En.
    assert (PF: (0 <= pending g (it_i s') < pending g (it_i s))%Z).
    { rewrite Ei. destruct A' as [W _]. assert (St: forall m, (0 <= step_of (N:=N) m (Pulse q))%Z) by (intros m; cbn [step_of]; destruct (qat m q); lia).
      assert (St1: exists m, step_of (N:=N) m (Pulse q) = 1%Z) by (destruct M as [m M]; exists m; cbn [step_of]; now rewrite M).
      pose proof (St MX). pose proof (St MY). pose proof (St MZ). pose proof (St ME).
      pose proof (W MX) as W1. pose proof (W MY) as W2. pose proof (W MZ) as W3. pose proof (W ME) as W4.
      unfold pending. cbn [qat fmoved qx qy qz qe] in *. destruct St1 as [[] St1]; lia. }
    rewrite <- Ei in A'. destruct (IH (val x) s' ltac:(congruence) ltac:(congruence) A' ltac:(lia)) as (l & xs & -> & Hl).
    exists (Pulse q :: l), (x :: xs). split; [reflexivity|]. rewrite Ei in Hl. econstructor; eauto.
Qed.

(* ---------- consequences ---------- *)
Lemma frun_steps r i l xs m : frun r i l xs -> (qat m i + steps m l = total m)%Z.
Proof.
  intros H. induction H as [r i E|r i x am q l xs _ _ _ _ Hq _ _ IH]; [cbn; rewrite E; lia|].
  cbn [steps fold_right]. fold (steps m l). rewrite qat_fmoved in IH. lia.
Qed.
Lemma frun_pulses r i l xs : frun r i l xs -> Forall is_pulse l.
Proof.
  intros H. induction H as [r i E|r i x am q l xs _ _ _ _ Hq Hx _ IH]; constructor; [|exact IH].
  exists am, q. split; [reflexivity|]. split; [exact Hx|]. intros m t' Et. destruct (Hq m) as [(E & _)|(E & _)]; congruence.
Qed.
Definition fbehind (r : R) (i : quad Z) : Prop := forall m, (0 < qat m i)%Z -> (qat m i <= total m)%Z /\ val (tm m (qat m i - 1)) <= r.
Lemma fbehind_moved r i x am (q : quad (option N)) : r <= x -> fbehind r i ->
  (forall m, (qat m q = Some am /\ (0 <= qat m i < total m)%Z /\ val (tm m (qat m i)) = x) \/
             (qat m q = None /\ (qat m i = total m \/ (0 <= qat m i < total m)%Z /\ x < val (tm m (qat m i))))) ->
  fbehind x (fmoved i q).
Proof.
  intros L B Q m. rewrite qat_fmoved. cbn [step_of]. destruct (Q m) as [(-> & I & E)|(-> & _)]; intros Hn.
  - replace (qat m i + 1 - 1)%Z with (qat m i) by lia. split; [lia|lra].
  - rewrite Z.add_0_r in *. destruct (B m Hn). split; [assumption|lra].
Qed.
(** The state after each item. *)
Lemma frun_split r i l1 q l2 xs : frun r i (l1 ++ Pulse q :: l2) xs -> fbehind r i ->
  exists (x : f64) j, fin x /\ 0 <= val x /\ r <= val x /\ (forall m, qat m j = qat m i + steps m (l1 ++ [Pulse q]))%Z /\ fbehind (val x) j /\
    (forall m, qat m j = total m \/ (qat m j < total m)%Z /\ val x <= val (tm m (qat m j))) /\
    exists m, (0 < qat m j)%Z /\ val x = val (tm m (qat m j - 1)).
Proof.
  revert r i xs. induction l1 as [|it l1 IH]; intros r i xs H B.
  - cbn [app] in H. inversion H as [|? ? x am ? ? ? Fx X0 L W Q M Hr]; subst. exists x, (fmoved i q).
    assert (B' := fbehind_moved r i (val x) am q L B Q).
    split; [exact Fx|]. split; [exact X0|]. split; [exact L|]. split; [|split; [exact B'|split]].
    + intros m. rewrite qat_fmoved. cbn [app steps fold_right]. lia.
    + intros m. rewrite qat_fmoved. cbn [step_of]. destruct (Q m) as [(-> & I & E)|(-> & [E|(I & E)])].
      * destruct (Z.eq_dec (qat m i + 1) (total m)); [now left|right]. split; [lia|]. rewrite <- E. apply Rlt_le, tm_strict; lia.
      * left. lia.
      * right. rewrite Z.add_0_r. split; [lia|lra].
    + destruct M as [m M]. exists m. rewrite qat_fmoved. cbn [step_of]. rewrite M. destruct (Q m) as [(_ & I & E)|(E & _)]; [|congruence].
      replace (qat m i + 1 - 1)%Z with (qat m i) by lia. split; [lia|now rewrite E].
  - cbn [app] in H. inversion H as [|? ? x am q1 ? ? Fx X0 L W Q M Hr]; subst.
    destruct (IH _ _ _ Hr (fbehind_moved r i (val x) am q1 L B Q)) as (y & j & Fy & Y0 & Ly & Ej & R). exists y, j.
    split; [exact Fy|]. split; [exact Y0|]. split; [lra|]. split; [|exact R]. intros m. rewrite Ej, qat_fmoved. cbn [app steps fold_right].
    fold (steps m (l1 ++ [Pulse q])). lia.
Qed.

(** How far a line is from the state at a time. *)
Lemma kx_le (x : f64) j m : (0 < j <= total m)%Z -> val x = val (tm m (j - 1)) -> 0 <= val x /\ kap * val x <= 1.
Proof.
  intros J E. destruct (tm_spec m (j - 1) ltac:(lia)) as [_ T]. assert (T0 := tm_fin m (j - 1) ltac:(lia)). destruct T as (_ & [_ U] & _).
  rewrite <- E in *. split; [apply T0|]. destruct (moving m ltac:(lia)) as [D V]. assert (PB := p_bounds m). assert (B := bpow_gt_0 radix2 (-35)).
  assert (K := fp_kap _ _ _ _ _ P). assert (Nr := fp_near _ _ _ _ _ P m). apply Rabs_le_inv in Nr. assert (C := total_close m). apply Rabs_le_inv in C.
  assert (BD := dp_bound m). set (u := d m * p m) in *.
  assert (J1: IZR (j - 1) <= u - 499 / 1000).
  { assert (IZR (j - 1) <= IZR (total m) - 1) by (rewrite <- minus_IZR; apply IZR_le; lia).
    assert (3 * ep * u <= / 1000) by (apply Rle_trans with (3 * ep * 4097000); [apply Rmult_le_compat_l; [unfold ep; lra|lra]|unfold ep; lra]). lra. }
  assert (J0: 0 <= IZR (j - 1)) by (apply (IZR_le 0); lia).
  (* p vel >= kap (u - 0.06) *)
  assert (KD: kap * d m * p m = kap * u) by (unfold u; ring).
  assert (PV: kap * (u - 6 / 100) <= p m * vel m).
  { assert (E1: p m * (kap * d m - (103 / 1000000000000 + 40 * ep * (kap * d m))) <= p m * vel m) by (apply Rmult_le_compat_l; lra).
    assert (E2: p m * (kap * d m - (103 / 1000000000000 + 40 * ep * (kap * d m))) = kap * u - p m * (103 / 1000000000000) - kap * (40 * ep * u)) by (unfold u; ring).
    assert (E3: p m * (103 / 1000000000000) <= kap * (52 / 1000)).
    { apply Rle_trans with (1000 * (103 / 1000000000000)); [apply Rmult_le_compat_r; lra|]. lra. }
    assert (E4: kap * (40 * ep * u) <= kap * (1 / 1000)).
    { apply Rmult_le_compat_l; [lra|]. apply Rle_trans with (40 * ep * 4097000); [apply Rmult_le_compat_l; [unfold ep; lra|lra]|unfold ep; lra]. }
    lra. }
  assert (PV0: 0 < p m * vel m) by (apply Rmult_lt_0_compat; lra).
  apply Rmult_le_reg_r with (p m * vel m); [exact PV0|]. rewrite Rmult_1_l.
  assert (XV: val x * (p m * vel m) <= (1 + 8 * ep) * IZR (j - 1)).
  { apply Rle_trans with ((1 + 8 * ep) * (IZR (j - 1) / p m / vel m) * (p m * vel m)); [apply Rmult_le_compat_r; lra|].
    right. field. split; apply Rgt_not_eq; lra. }
  rewrite Rmult_assoc. apply Rle_trans with (kap * ((1 + 8 * ep) * IZR (j - 1))); [apply Rmult_le_compat_l; lra|].
  eapply Rle_trans; [|exact PV]. apply Rmult_le_compat_l; [lra|].
  assert ((1 + 8 * ep) * IZR (j - 1) <= IZR (j - 1) + / 1000).
  { rewrite Rmult_plus_distr_r, Rmult_1_l. apply Rplus_le_compat_l. apply Rle_trans with (8 * ep * 4097000); [apply Rmult_le_compat_l; [unfold ep; lra|lra]|unfold ep; lra]. }
  lra.
Qed.
Lemma line_at (x : R) j m : 0 <= x -> kap * x <= 1 -> (0 <= j <= total m)%Z ->
  ((0 < j)%Z -> val (tm m (j - 1)) <= x) -> (j = total m \/ (j < total m)%Z /\ x <= val (tm m j)) ->
  Rabs (IZR j - kap * x * (d m * p m)) <= 106 / 100.
Proof.
  intros X0 KX J H1 H2. assert (PB := p_bounds m). assert (B := bpow_gt_0 radix2 (-35)).
  assert (K := fp_kap _ _ _ _ _ P). assert (Nr := fp_near _ _ _ _ _ P m). assert (C := total_close m). apply Rabs_le_inv in C. apply Rabs_le_inv in Nr.
  assert (BD := dp_bound m). set (u := d m * p m) in *. assert (KX0: 0 <= kap * x) by (apply Rmult_le_pos; lra).
  assert (U1: 3 * ep * u <= / 1000) by (apply Rle_trans with (3 * ep * 4097000); [apply Rmult_le_compat_l; [unfold ep; lra|lra]|unfold ep; lra]).
  assert (KU: 0 <= kap * x * u <= u). { split; [apply Rmult_le_pos; lra|]. rewrite <- (Rmult_1_l u) at 2. apply Rmult_le_compat_r; lra. }
  destruct (Z.eq_dec (total m) 0) as [Z|Z].
  { assert (j = 0)%Z by lia. subst j. rewrite Z in *. apply Rabs_le. simpl in *. lra. }
  destruct (moving m ltac:(lia)) as [D V].
  (* x p vel = kap x u +- 0.053 *)
  assert (XV: Rabs (x * (p m * vel m) - kap * x * u) <= 53 / 1000).
  { replace (x * (p m * vel m) - kap * x * u) with (x * p m * (vel m - kap * d m)) by (unfold u; ring).
    assert (XP: 0 <= x * p m) by (apply Rmult_le_pos; lra). rewrite Rabs_mult, (Rabs_pos_eq (x * p m)) by exact XP.
    apply Rle_trans with (x * p m * (103 / 1000000000000 + 40 * ep * (kap * d m))); [apply Rmult_le_compat_l; [exact XP|apply Rabs_le; exact Nr]|].
    replace (x * p m * (103 / 1000000000000 + 40 * ep * (kap * d m))) with (x * p m * (103 / 1000000000000) + 40 * ep * (kap * x * u)) by (unfold u; ring).
    assert (40 * ep * (kap * x * u) <= / 1000) by (apply Rle_trans with (40 * ep * 4097000); [apply Rmult_le_compat_l; [unfold ep; lra|lra]|unfold ep; lra]).
    assert (x <= 500000). { assert (/ 500000 * x <= kap * x) by (apply Rmult_le_compat_r; lra). lra. }
    assert (x * p m <= 500000 * 1000) by (apply Rmult_le_compat; lra). lra. }
  apply Rabs_le_inv in XV. assert (PV0: 0 < p m * vel m) by (apply Rmult_lt_0_compat; lra).
  assert (RR: forall i, IZR i / p m / vel m * (p m * vel m) = IZR i) by (intros i; field; split; apply Rgt_not_eq; lra).
  assert (Up: IZR j <= 1 + 1 / 1000 + x * (p m * vel m)).
  { destruct (Z.eq_dec j 0) as [->|J0]; [assert (0 <= x * (p m * vel m)) by (apply Rmult_le_pos; lra); simpl; lra|].
    specialize (H1 ltac:(lia)). destruct (tm_spec m (j - 1) ltac:(lia)) as [_ (_ & [T _] & _)].
    assert (Q: (1 - 8 * ep) * IZR (j - 1) <= x * (p m * vel m)).
    { rewrite <- (RR (j - 1)%Z), <- Rmult_assoc. apply Rmult_le_compat_r; lra. }
    rewrite minus_IZR in Q. assert (IZR j <= 4194304) by (apply (IZR_le _ 4194304); pose proof (total_bounds m); lia).
    assert (8 * ep * (IZR j - 1) <= / 1000) by (apply Rle_trans with (8 * ep * 4194304); [apply Rmult_le_compat_l; [unfold ep; lra|lra]|unfold ep; lra]). lra. }
  assert (Lo: kap * x * u - 54 / 1000 <= IZR j \/ u - 502 / 1000 <= IZR j).
  { destruct H2 as [->|[H2 H3]]; [right; lra|left]. destruct (tm_spec m j ltac:(lia)) as [_ (_ & [_ T] & _)].
    assert (Q: x * (p m * vel m) <= (1 + 8 * ep) * IZR j).
    { rewrite <- (RR j), <- (Rmult_assoc (1 + 8 * ep)). apply Rmult_le_compat_r; lra. }
    assert (IZR j <= 4194304) by (apply (IZR_le _ 4194304); pose proof (total_bounds m); lia).
    assert (8 * ep * IZR j <= / 1000) by (apply Rle_trans with (8 * ep * 4194304); [apply Rmult_le_compat_l; [unfold ep; lra|lra]|unfold ep; lra]). lra. }
  apply Rabs_le. lra.
Qed.
Lemma frun_straight r l xs l1 q l2 : frun r (Quad 0 0 0 0)%Z l xs -> l = l1 ++ Pulse q :: l2 ->
  exists a, 0 <= a <= 1 /\ forall m, Rabs (IZR (steps m (l1 ++ [Pulse q])) - a * Rabs (val (qat m delta)) * p m) <= 107 / 100.
Proof.
  intros H ->. destruct (frun_split _ _ _ _ _ _ H) as (x & j & Fx & X0 & _ & Ej & B & Q & m0 & J0 & E0).
  { intros m Hn. destruct m; cbn in Hn; lia. }
  destruct (B m0 J0) as [J1 _]. destruct (kx_le x (qat m0 j) m0 ltac:(lia) E0) as [_ KX]. assert (K := fp_kap _ _ _ _ _ P).
  assert (KX0: 0 <= kap * val x) by (apply Rmult_le_pos; lra).
  exists (kap * val x). split; [lra|]. intros m. specialize (Ej m). replace (qat m (Quad 0 0 0 0)%Z) with 0%Z in Ej by (destruct m; reflexivity).
  rewrite Z.add_0_l in Ej. rewrite <- Ej.
  assert (J: (0 <= qat m j <= total m)%Z).
  { split; [rewrite Ej; clear; induction (l1 ++ [Pulse q]) as [|it l IH]; [cbn; lia|cbn [steps fold_right]; fold (steps m l); destruct it as [|qq]; cbn [step_of]; [|destruct (qat m qq)]; lia]|].
    destruct (Q m) as [->|[]]; lia. }
  assert (L := line_at (val x) (qat m j) m X0 KX J (fun h => proj2 (B m h)) (Q m)).
  assert (Dc := dst_close acos cfg delta v Hm m). assert (PB := p_bounds m).
  replace (IZR (qat m j) - kap * val x * Rabs (val (qat m delta)) * p m)
    with ((IZR (qat m j) - kap * val x * (d m * p m)) + kap * val x * p m * (d m - Rabs (val (qat m delta)))) by ring.
  eapply Rle_trans; [apply Rabs_triang|]. assert (Z: Rabs (kap * val x * p m * (d m - Rabs (val (qat m delta)))) <= 1000 * (53 / 1000000000000)).
  { assert (0 <= kap * val x * p m <= 1000). { split; [apply Rmult_le_pos; lra|]. rewrite <- (Rmult_1_l 1000). apply Rmult_le_compat; lra. }
    rewrite Rabs_mult, (Rabs_pos_eq (kap * val x * p m)) by lra. apply Rmult_le_compat; try lra. apply Rabs_pos. }
  lra.
Qed.
End Run.

Section Whole.
Variable acos : f64 -> f64.
Notation N := (F64 acos).
Variable cfg : config.
Hypothesis Hc : lin_cfg cfg.
Variable delta : quad f64.
Variable v : f64.
Hypothesis Hm : fit_move cfg delta v.

Lemma c_ok g kap : fprof acos cfg delta g kap ->
  exists c, f_div (f_mul (f_ofZ 2) (find_max (N:=N) (l_vel g))) (f_ofZ (max_acceleration cfg)) = Ok c /\
    ap 7 (-27) 94 c (2 * val (find_max (N:=N) (l_vel g)) / IZR (max_acceleration cfg)).
Proof.
  intros P. destruct (find_max_top acos (l_vel g) (fp_vel _ _ _ _ _ P) (fp_top _ _ _ _ _ P)) as [Am _].
  assert (A2 := ap_mul 0 0 0 1 (-7) 92 _ _ _ _ ltac:(lra) ltac:(lra) ltac:(lra) ltac:(lia) ltac:(lia) (ap_ofZ 2 1 ltac:(lia) ltac:(lia) ltac:(lia)) Am).
  assert (Anz: IZR (max_acceleration cfg) <> 0) by (destruct (lc_acc cfg Hc); apply not_0_IZR; lia).
  destruct (ap_div (0 + 0 + 3) 0 (0 + -7) (1 + 92) 0 20 _ _ _ _ ltac:(lra) ltac:(lra) ltac:(lra) ltac:(lia) ltac:(lia) Anz A2 (A_ap cfg Hc)) as (c & E & Ac).
  exists c. split; [exact E|]. replace (0 + 0 + 3 + 0 + 4) with 7 in Ac by ring. apply (ap_weak 7 (0 + -7 - 20) (1 + 92 - 0) 7 (-27) 94 _ _ ltac:(lra) ltac:(lia) ltac:(lia) Ac).
Qed.

Lemma whole : exists g kap c l xs, make_linear (N:=N) cfg delta v = Ok g /\ fprof acos cfg delta g kap /\
  ap 7 (-27) 94 c (2 * val (find_max (N:=N) (l_vel g)) / IZR (max_acceleration cfg)) /\
  (exists fuel, run_gen cfg fuel (GLinear g) = Finished (Dir (invert_dirs cfg (l_dir g)) :: l)) /\ frun acos cfg g c 0 (Quad 0 0 0 0)%Z l xs.
Proof.
  destruct (build acos cfg Hc delta v Hm) as (g & kap & Eg & P). destruct (c_ok g kap P) as (c & Ec & Ac).
  assert (Mc: moment c) by (split; [apply Ac|apply (ap_bounds 7 (-27) 94 _ _ ltac:(lra) Ac)]).
  set (z4 := Quad 0%Z 0%Z 0%Z 0%Z).
  assert (W: forall m, (0 <= qat m z4 <= qat m (l_total g))%Z).
  { intros m. destruct (total_bounds acos cfg Hc delta v Hm g kap P m). replace (qat m z4) with 0%Z by (destruct m; reflexivity). lia. }
  assert (Ah: fahead acos cfg g 0 z4).
  { split; [exact W|]. intros m T. replace (qat m z4) with 0%Z in * by (destruct m; reflexivity). rewrite (tm_zero acos cfg Hc delta v Hm g kap P m T). lra. }
  set (s0 := {| it_i := z4; it_dir := Some (l_dir g); it_c := c : N |}).
  destruct (iterate_F acos cfg Hc delta v Hm g kap P c Mc (Datatypes.S (Z.to_nat (pending g z4))) 0 s0 eq_refl eq_refl Ah ltac:(cbn [it_i s0]; lia)) as (l & xs & El & Hl).
  exists g, kap, c, l, xs. split; [exact Eg|]. split; [exact P|]. split; [exact Ac|]. split; [|exact Hl].
  exists (Datatypes.S (Datatypes.S (Z.to_nat (pending g z4)))). unfold run_gen, iter_start. cbn [gen_vel div mul F64]. change (@two N) with (f_ofZ 2). change (accel (N:=N) cfg) with (f_ofZ (max_acceleration cfg)).
  rewrite Ec. cbn [rbind]. fold z4.
  assert (EN: next cfg (GLinear g) {| it_i := z4; it_dir := None; it_c := (c : N) |} = Ok (Some (Dir (invert_dirs cfg (l_dir g)), s0))).
  { unfold next. cbn [gen_interp it_i it_dir]. destruct (interp_ok acos cfg Hc delta v Hm g kap P z4 W) as (t & -> & _). reflexivity. }
  remember (Datatypes.S (Z.to_nat (pending g z4))) as f. cbn [iterate]. rewrite EN. rewrite El. reflexivity.
Qed.

Lemma emits_float : exists g l, emits (N:=N) cfg delta v g (Dir (invert_dirs cfg (qmap f_copysign1 delta)) :: l) /\ Forall is_pulse l /\
  forall m, exists x, f_rnd (f_mul (f_rnd10 (Babs (qat m delta))) (f_ofZ (qat m (ppm cfg)))) = Ok x /\ steps m l = x.
Proof.
  destruct whole as (g & kap & c & l & xs & Eg & P & _ & Er & Hl). exists g, l. split; [|split].
  - split; [exact Eg|]. assert (D := fp_dir _ _ _ _ _ P). change (dirs_of (N:=N) delta) with (qmap f_copysign1 delta) in D. rewrite <- D. exact Er.
  - exact (frun_pulses _ _ _ _ _ _ _ _ Hl).
  - intros m. exists (qat m (l_total g)). split; [|].
    + rewrite <- (dst_at acos delta m). exact (fp_count _ _ _ _ _ P m).
    + assert (S := frun_steps _ _ _ _ _ _ _ _ m Hl). destruct m; cbn in *; lia.
Qed.
Lemma emits_float_inv g l : emits (N:=N) cfg delta v g l -> exists kap c l' xs, l = Dir (invert_dirs cfg (l_dir g)) :: l' /\ fprof acos cfg delta g kap /\
  ap 7 (-27) 94 c (2 * val (find_max (N:=N) (l_vel g)) / IZR (max_acceleration cfg)) /\ frun acos cfg g c 0 (Quad 0 0 0 0)%Z l' xs.
Proof.
  intros [E [f Ef]]. destruct whole as (g' & kap & c & l' & xs & Eg & P & Ac & [f' Er] & Hl).
  assert (g' = g) by congruence. subst g'. exists kap, c, l', xs. split; [|auto]. exact (run_gen_det _ _ _ _ _ _ Ef Er).
Qed.
Lemma straight_float g l l1 q l2 : emits (N:=N) cfg delta v g l -> l = l1 ++ Pulse q :: l2 ->
  exists a, 0 <= a <= 1 /\ forall m, Rabs (IZR (steps m (l1 ++ [Pulse q])) - a * Rabs (val (qat m delta)) * IZR (qat m (ppm cfg))) <= 107 / 100.
Proof.
  intros He El. destruct (emits_float_inv g l He) as (kap & c & l' & xs & -> & P & _ & Hl).
  destruct l1 as [|it l1]; [discriminate El|]. injection El as <- El.
  destruct (frun_straight acos cfg Hc delta v Hm g kap P c 0 l' xs l1 q l2 Hl El) as (a & A & H). exists a. split; [exact A|].
  intros m. specialize (H m). cbn [app steps fold_right step_of]. exact H.
Qed.
End Whole.

Lemma emits_float_counts acos cfg delta v : lin_cfg cfg -> fit_move cfg delta v ->
  exists g l, emits (N:=F64 acos) cfg delta v g (Dir (invert_dirs cfg (qmap f_copysign1 delta)) :: l) /\ Forall is_pulse l /\
  forall m, Rabs (IZR (steps m l) - Rabs (val (qat m delta)) * IZR (qat m (ppm cfg))) <= / 2 + / 10000000.
Proof.
  intros Hc Hm. destruct (whole acos cfg Hc delta v Hm) as (g & kap & c & l & xs & Eg & P & _ & Er & Hl). exists g, l. split; [|split].
  - split; [exact Eg|]. assert (D := fp_dir _ _ _ _ _ P). change (dirs_of (N:=F64 acos) delta) with (qmap f_copysign1 delta) in D. rewrite <- D. exact Er.
  - exact (frun_pulses _ _ _ _ _ _ _ _ Hl).
  - intros m. assert (S := frun_steps _ _ _ _ _ _ _ _ m Hl). replace (qat m (Quad 0 0 0 0)%Z) with 0%Z in S by (destruct m; reflexivity). rewrite Z.add_0_l in S. rewrite S.
    assert (T := total_close acos cfg Hc delta v Hm g kap P m). assert (B := dp_bound acos cfg Hc delta v Hm m). assert (D := dst_close acos cfg delta v Hm m). assert (Q := p_bounds cfg Hc m).
    apply Rabs_le_inv in T, D.
    assert (U: 3 * ep * (val (qat m (dst acos delta)) * IZR (qat m (ppm cfg))) <= / 100000000) by (eapply Rle_trans; [apply Rmult_le_compat_l; [unfold ep; lra|apply B]|unfold ep; lra]).
    assert (E: Rabs (val (qat m (dst acos delta)) * IZR (qat m (ppm cfg)) - Rabs (val (qat m delta)) * IZR (qat m (ppm cfg))) <= 53 / 1000000000000 * 1000).
    { rewrite <- Rmult_minus_distr_r, Rabs_mult, (Rabs_pos_eq (IZR (qat m (ppm cfg)))) by lra. apply Rmult_le_compat; try lra; [apply Rabs_pos|apply Rabs_le; lra]. }
    apply Rabs_le_inv in E. apply Rabs_le. lra.
Qed.
