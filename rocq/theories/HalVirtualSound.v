(** What the checks of the virtual device guarantee (C71). *)
From Coq Require Import ZArith Bool Reals Lra Lia List Sorted.
From Flocq Require Import Core BinarySingleNaN.
From Verif Require Import PyBase PyNum PyFloatFacts Config Coordinates Pulses PulseSpec HalVirtual ArcSpec LinearFloatTime LinearLaw StraightRun HalVirtualProofs.
From Coq Require Import List.
From Flocq Require Import Core.
Import ListNotations.

Section Sound.
Context {N : PyNum}.
Variable cfg : config.
Variable g : gen N.

Lemma check_ok b : check b = Ok tt -> b = true. Proof. destruct b; [reflexivity|discriminate]. Qed.
Lemma check_unit b u : check b = Ok u -> b = true. Proof. destruct b; [reflexivity|discriminate]. Qed.

Lemma vpulse1_inv (a : vaxis N) d t a' o : vpulse1 a d t = Ok (a', o) ->
  match t with
  | None => a' = a /\ o = None
  | Some t => exists k, micros t = Ok k /\ o = Some k /\ va_i a' = (va_i a + d)%Z /\ va_last a' = Some k /\
      va_max a' = (if ltb (va_max a) t then t else va_max a) /\ match va_last a with Some l => (l < k)%Z | None => True end
  end.
Proof.
  destruct t as [t|]; cbn [vpulse1]; [|intros H; injection H as <- <-; auto]. destruct (micros t) as [k|]; cbn [rbind]; [|discriminate].
  destruct (va_last a) as [l|] eqn:El.
  - destruct (check (0 <? k - l)%Z) as [u|] eqn:Ec; cbn [rbind]; [|discriminate]. apply check_unit, Z.ltb_lt in Ec. intros H. injection H as <- <-. exists k. cbn. repeat split. lia.
  - cbn [rbind]. intros H. injection H as <- <-. exists k. cbn. repeat split.
Qed.
(** One pulse message. *)
Lemma vpulse_inv (s s' : vstate N) q : vpulse s q = Ok s' -> v_dir s' = v_dir s /\ v_found s' = v_found s /\
  (exists k, forall m t, qat m q = Some t -> micros t = Ok k) /\
  forall m, match qat m q with
    | None => qat m (v_axes s') = qat m (v_axes s)
    | Some t => exists k, micros t = Ok k /\ va_i (qat m (v_axes s')) = (va_i (qat m (v_axes s)) + qat m (v_dir s))%Z /\ va_last (qat m (v_axes s')) = Some k /\
        va_max (qat m (v_axes s')) = (if ltb (va_max (qat m (v_axes s))) t then t else va_max (qat m (v_axes s))) /\
        match va_last (qat m (v_axes s)) with Some l => (l < k)%Z | None => True end end.
Proof.
  unfold vpulse. intros H.
  destruct (vpulse1 (qx (v_axes s)) _ _) as [[ax kx]|] eqn:Ex; cbn [rbind] in H; [|discriminate]. destruct (vpulse1 (qy (v_axes s)) _ _) as [[ay ky]|] eqn:Ey; cbn [rbind] in H; [|discriminate].
  destruct (vpulse1 (qz (v_axes s)) _ _) as [[az kz]|] eqn:Ez; cbn [rbind] in H; [|discriminate]. destruct (vpulse1 (qe (v_axes s)) _ _) as [[ae ke]|] eqn:Ee; cbn [rbind] in H; [|discriminate].
  destruct (check _) as [u|] eqn:Ec; cbn [rbind] in H; [|discriminate]. injection H as <-. apply check_unit in Ec. cbn [v_dir v_found v_axes].
  apply vpulse1_inv in Ex, Ey, Ez, Ee. split; [reflexivity|]. split; [reflexivity|]. split.
  - assert (S: forall m t, qat m q = Some t -> exists k, micros t = Ok k /\ qat m (Quad kx ky kz ke) = Some k).
    { intros m t E. destruct m; cbn [qat] in *; rewrite E in *; [destruct Ex as (k & A & B & _)|destruct Ey as (k & A & B & _)|destruct Ez as (k & A & B & _)|destruct Ee as (k & A & B & _)]; eauto. }
    unfold together in Ec. destruct (given (Quad kx ky kz ke)) as [|k0 f] eqn:Eg; [discriminate|]. exists k0. intros m t E. destruct (S m t E) as (k & A & B).
    assert (I: In k (given (Quad kx ky kz ke))). { unfold given. cbn [flat_map]. rewrite !in_app_iff. destruct m; cbn [qat] in B; rewrite B; cbn; tauto. }
    rewrite Eg in I. rewrite forallb_forall in Ec. apply Ec in I. apply Z.eqb_eq in I. congruence.
  - intros m. destruct m; cbn [qat] in *; [destruct (qx q)|destruct (qy q)|destruct (qz q)|destruct (qe q)].
    all: try (destruct Ex as [-> _]; reflexivity); try (destruct Ey as [-> _]; reflexivity); try (destruct Ez as [-> _]; reflexivity); try (destruct Ee as [-> _]; reflexivity).
    + destruct Ex as (k & A & _ & B). exists k. auto.
    + destruct Ey as (k & A & _ & B). exists k. auto.
    + destruct Ez as (k & A & _ & B). exists k. auto.
    + destruct Ee as (k & A & _ & B). exists k. auto.
Qed.

(** Where a motor is after some items, counted from the direction [d]. *)
Definition walk (m : motor) (d : Z) (l : list (item N)) : Z :=
  snd (fold_left (fun '(d, p) it => match it with Dir q => (qat m q, p) | Pulse _ => (d, (p + d * step_of m it)%Z) end) l (d, 0%Z)).
Lemma walk_from m l : forall d p, snd (fold_left (fun '(d, p) it => match it with Dir q => (qat m q, p) | Pulse _ => (d, (p + d * step_of m it)%Z) end) l (d, p)) = (p + walk m d l)%Z.
Proof.
  induction l as [|it l IH]; intros d p; [unfold walk; cbn; lia|]. unfold walk. cbn [fold_left]. destruct it as [q|q]; rewrite !IH; lia.
Qed.
Lemma walk_dir m d q l : walk m d (Dir q :: l) = walk m (qat m q) l. Proof. reflexivity. Qed.
Lemma walk_pulse m d q l : walk m d (Pulse q :: l) = (d * step_of m (Pulse q) + walk m d l)%Z.
Proof. unfold walk at 1. cbn [fold_left]. now rewrite walk_from. Qed.
Lemma travel_walk m q l : travel cfg m (Dir q :: l) = turn (qat m (inverted cfg)) (walk m (qat m q) l).
Proof. reflexivity. Qed.

Lemma vdir_inv (s s' : vstate N) t : vdir cfg g s t = Ok s' -> v_axes s' = v_axes s /\ v_found s' = true /\ forall m, qat m (v_dir s') = turn (qat m (inverted cfg)) (qat m t).
Proof.
  unfold vdir. intros H. match type of H with rbind ?c _ = _ => destruct c as [u|] end; cbn [rbind] in H; [|discriminate]. injection H as <-. split; [reflexivity|]. split; [reflexivity|]. intros []; reflexivity.
Qed.
Lemma turn_add b x y : turn b (x + y) = (turn b x + turn b y)%Z. Proof. destruct b; cbn; lia. Qed.
Lemma turn_mul b x y : turn b (x * y) = (turn b x * y)%Z. Proof. destruct b; cbn; lia. Qed.

Lemma vloop_inv l : forall s s' : vstate N, vloop cfg g s l = Ok s' -> (forall q, In (Pulse q) l -> exists k, forall m t, qat m q = Some t -> micros t = Ok k) /\
  forall m d, qat m (v_dir s) = turn (qat m (inverted cfg)) d ->
    va_i (qat m (v_axes s')) = (va_i (qat m (v_axes s)) + turn (qat m (inverted cfg)) (walk m d l))%Z /\
    past (va_last (qat m (v_axes s))) (motor_times m l) /\ StronglySorted apart (motor_times m l) /\
    va_max (qat m (v_axes s')) = fold_left (fun a t => if ltb a t then t else a) (motor_times m l) (va_max (qat m (v_axes s))).
Proof.
  induction l as [|it l IH]; intros s s' H.
  - cbn in H. injection H as <-. split; [intros q []|]. intros m d Hd. cbn. split; [unfold walk; cbn; destruct (qat m (inverted cfg)); cbn; lia|]. split; [destruct (va_last _); [constructor|exact I]|]. split; [constructor|reflexivity].
  - destruct it as [t|q]; cbn [vloop] in H.
    + destruct (vdir cfg g s t) as [s1|] eqn:E1; cbn [rbind] in H; [|discriminate]. destruct (vdir_inv s s1 t E1) as (A1 & _ & D1). destruct (IH s1 s' H) as [Q M]. split.
      * intros q [Z|I]; [discriminate|auto].
      * intros m d _. rewrite walk_dir. destruct (M m (qat m t) (D1 m)) as (B1 & B2 & B3 & B4). rewrite A1 in *. auto.
    + destruct (vpulse s q) as [s1|] eqn:E1; cbn [rbind] in H; [|discriminate]. destruct (vpulse_inv s s1 q E1) as (D1 & _ & K1 & A1). destruct (IH s1 s' H) as [Q M]. split.
      * intros q' [Z|I]; [injection Z as <-; exact K1|auto].
      * intros m d Hd. rewrite walk_pulse, motor_times_cons. specialize (A1 m). rewrite <- D1 in Hd. destruct (M m d Hd) as (B1 & B2 & B3 & B4). rewrite D1 in Hd. cbn [step_of]. destruct (qat m q) as [t|] eqn:Et; cbn [just app].
        -- destruct A1 as (k & Ek & I1 & L1 & X1 & La). rewrite L1 in B2. cbn [past] in B2. split; [|split; [|split]].
           ++ rewrite B1, I1, Hd, Z.mul_1_r, turn_add. lia.
           ++ unfold past. destruct (va_last (qat m (v_axes s))) as [l0|]; [|exact I]. constructor; [exists k; auto|]. eapply Forall_impl; [|exact B2]. intros u (k2 & E2 & L2). exists k2. split; [exact E2|lia].
           ++ constructor; [exact B3|]. eapply Forall_impl; [|exact B2]. intros u (k2 & E2 & L2). exists k, k2. auto.
           ++ cbn [fold_left]. rewrite B4, X1. reflexivity.
        -- rewrite A1 in *. split; [|auto]. rewrite B1, Z.mul_0_r. reflexivity.
Qed.

Lemma vend_inv s : vend cfg g s = Ok tt -> v_found s = true /\
  (forall m, arrived (va_i (qat m (v_axes s))) (qat m (ppm cfg)) (qat m (gen_delta g)) = Ok tt) /\
  leb (pmax (pmax (pmax (va_max (qx (v_axes s))) (va_max (qy (v_axes s)))) (va_max (qz (v_axes s)))) (va_max (qe (v_axes s)))) (total_time_s g) = true.
Proof.
  unfold vend. intros H. destruct (check (v_found s)) as [u|] eqn:E0; cbn [rbind] in H; [|discriminate]. apply check_unit in E0.
  destruct (arrived (va_i (qx (v_axes s))) _ _) as [[]|] eqn:E1; cbn [rbind] in H; [|discriminate]. destruct (arrived (va_i (qy (v_axes s))) _ _) as [[]|] eqn:E2; cbn [rbind] in H; [|discriminate].
  destruct (arrived (va_i (qz (v_axes s))) _ _) as [[]|] eqn:E3; cbn [rbind] in H; [|discriminate]. destruct (arrived (va_i (qe (v_axes s))) _ _) as [[]|] eqn:E4; cbn [rbind] in H; [|discriminate].
  apply check_ok in H. split; [exact E0|]. split; [|exact H]. intros []; assumption.
Qed.

Lemma virtual_inv q l : virtual_move cfg g (Dir q :: l) = Ok tt ->
  (forall p, In (Pulse p) l -> exists k, forall m t, qat m p = Some t -> micros t = Ok k) /\
  (forall m, StronglySorted apart (motor_times m l)) /\
  (forall m, arrived (travel cfg m (Dir q :: l)) (qat m (ppm cfg)) (qat m (gen_delta g)) = Ok tt) /\
  leb (pmax (pmax (pmax (fold_left (fun a t => if ltb a t then t else a) (motor_times MX l) zero) (fold_left (fun a t => if ltb a t then t else a) (motor_times MY l) zero))
    (fold_left (fun a t => if ltb a t then t else a) (motor_times MZ l) zero)) (fold_left (fun a t => if ltb a t then t else a) (motor_times ME l) zero)) (total_time_s g) = true.
Proof.
  unfold virtual_move. cbn [vloop]. intros H. destruct (vdir cfg g vstart q) as [s1|] eqn:E1; cbn [rbind] in H; [|discriminate].
  destruct (vloop cfg g s1 l) as [s2|] eqn:E2; cbn [rbind] in H; [|discriminate]. destruct (vdir_inv _ _ _ E1) as (A1 & _ & D1). destruct (vloop_inv l s1 s2 E2) as [Q M].
  destruct (vend_inv s2 H) as (_ & Ar & Le). split; [exact Q|]. split; [|split].
  - intros m. destruct (M m _ (D1 m)) as (_ & _ & S & _). exact S.
  - intros m. destruct (M m _ (D1 m)) as (I1 & _). specialize (Ar m). rewrite I1, A1 in Ar. rewrite travel_walk. replace (va_i (qat m (v_axes (vstart (N:=N))))) with 0%Z in Ar by (destruct m; reflexivity). exact Ar.
  - assert (X: forall m, va_max (qat m (v_axes s2)) = fold_left (fun a t => if ltb a t then t else a) (motor_times m l) zero).
    { intros m. destruct (M m _ (D1 m)) as (_ & _ & _ & ->). rewrite A1. destruct m; reflexivity. }
    assert (XX := X MX). assert (XY := X MY). assert (XZ := X MZ). assert (XE := X ME). cbn [qat] in *. rewrite XX, XY, XZ, XE in Le. exact Le.
Qed.
End Sound.

Lemma completes_dir {N : PyNum} cfg (g : gen N) l : completes cfg g l -> exists q l', l = Dir q :: l'.
Proof.
  intros [fuel H]. unfold run_gen in H. destruct (iter_start cfg g) as [s|] eqn:Es; [|discriminate].
  assert (D: it_dir s = None). { unfold iter_start in Es. destruct (div _ _) as [c0|]; cbn [rbind] in Es; [|discriminate]. injection Es as <-. reflexivity. }
  destruct fuel; [discriminate|]. cbn [iterate] in H. destruct (next cfg g s) as [[[it s']|]|] eqn:En; try discriminate.
  - unfold next in En. rewrite D in En. destruct (gen_interp cfg g (it_i s)) as [[dir t]|]; cbn [rbind] in En; [|discriminate]. injection En as <- <-.
    destruct (iterate cfg fuel g _) as [l'| |]; try discriminate. injection H as <-. eauto.
  - exfalso. unfold next in En. rewrite D in En. destruct (gen_interp cfg g (it_i s)) as [[dir t]|]; cbn [rbind] in En; discriminate.
Qed.

Section Float.
Local Open Scope R_scope.
Variable acos : f64 -> f64.
Notation N := (F64 acos).

Lemma f_rnd_inv x k : f_rnd x = Ok k -> fin x /\ k = ZnearestE (val x).
Proof.
  intros H. assert (F: fin x) by (destruct x; try discriminate; reflexivity). split; [exact F|]. rewrite (f_rnd_val x F) in H. congruence.
Qed.
Lemma micros_inv (t : f64) k : micros (N:=N) t = Ok k -> fin t /\ k = ZnearestE (rd (val t * 1000000)).
Proof.
  unfold micros. cbn [rnd mul ofZ F64]. intros H. apply f_rnd_inv in H. destruct H as [F ->].
  destruct (f_ofZ_val 1000000) as [F1 V1]; [lia|].
  assert (Ft: fin t). { destruct t; [reflexivity| | |reflexivity]; exfalso; [destruct s; vm_compute in F; discriminate|vm_compute in F; discriminate]. }
  split; [exact Ft|]. rewrite (f_mul_fin _ _ F), V1. reflexivity.
Qed.
Lemma apart_lt (t u : f64) : apart (N:=N) t u -> fin t /\ fin u /\ val t < val u.
Proof.
  intros (j & k & A & B & L). apply micros_inv in A, B. destruct A as [Ft ->]. destruct B as [Fu ->]. split; [exact Ft|]. split; [exact Fu|].
  destruct (Rlt_or_le (val t) (val u)) as [H|H]; [exact H|]. exfalso.
  assert (ZnearestE (rd (val u * 1000000)) <= ZnearestE (rd (val t * 1000000)))%Z; [|lia].
  apply Zrnd_le; [apply valid_rnd_N|]. apply rd_le. lra.
Qed.

Lemma arrived_inv n p (x : f64) : (0 < p <= 1000)%Z -> (Z.abs n <= 65536 * p)%Z -> arrived (N:=N) n p x = Ok tt ->
  fin x /\ Rabs (val x - IZR n / IZR p) <= / 5000000000.
Proof.
  intros Pp An. unfold arrived. cbn [div ofZ F64 rnd10 eqb]. change (num N) with f64. intros H.
  destruct (f_ofZ_val n) as [Fj Vj]; [lia|]. destruct (f_ofZ_val p) as [Fp Vp]; [lia|].
  assert (p1: 1 <= IZR p) by (apply (IZR_le 1); lia).
  assert (Bj: Rabs (IZR n / IZR p) <= bpow radix2 16).
  { change (bpow radix2 16) with 65536. unfold Rdiv. rewrite Rabs_mult, (Rabs_pos_eq (/ IZR p)) by (left; apply Rinv_0_lt_compat; lra). apply (Rmult_le_reg_r (IZR p)); [lra|].
    rewrite Rmult_assoc, Rinv_l, Rmult_1_r by lra. rewrite <- abs_IZR, <- mult_IZR. apply IZR_le. lia. }
  destruct (f_div_val (f_ofZ n) (f_ofZ p) Fj Fp) as (w & Ew & Fw & Vw); [rewrite Vp; lra|rewrite Vj, Vp; apply (to_big 16); [lia|exact Bj]|].
  rewrite Ew in H. cbn [rbind] in H. apply check_ok in H. rewrite Vj, Vp in Vw.
  assert (Cw := rd_error _ 16 ltac:(lia) Bj). rewrite <- Vw in Cw. change (bpow radix2 (16 - 54)) with (/ 274877906944) in Cw.
  assert (Bw: Rabs (val w) <= 65537) by (change (bpow radix2 16) with 65536 in Bj; apply Rabs_le_inv in Cw, Bj; apply Rabs_le; lra).
  assert (Cr := near_rnd w (val w) 0 (near_val w Fw) ltac:(lra)). destruct Cr as [Fr Cr].
  assert (Fx: fin x). { destruct x; [reflexivity| | |reflexivity]; exfalso; revert H Fr; destruct (f_rnd10 w) as [b| |b|b ? ? ?]; try (now intros _ Fr; cbn in Fr; discriminate Fr); intros H _; try (destruct s); try (destruct b); cbn in H; discriminate H. }
  split; [exact Fx|]. apply (f_eq_true _ _ Fr Fx) in H. rewrite <- H. apply Rabs_le_inv in Cr, Cw. apply Rabs_le. lra.
Qed.

(** max of some times. *)
Lemma fold_max l : forall a : f64, fin a -> Forall fin l -> let r := fold_left (fun a t => if f_lt a t then t else a) l a in
  fin r /\ val a <= val r /\ Forall (fun t => val t <= val r) l.
Proof.
  induction l as [|t l IH]; intros a Fa Fl; cbn [fold_left]; [split; [exact Fa|split; [lra|constructor]]|].
  inversion_clear Fl as [|? ? Ft Fl']. destruct (f_lt a t) eqn:E.
  - apply (f_lt_true _ _ Fa Ft) in E. destruct (IH t Ft Fl') as (A & B & C). split; [exact A|]. split; [lra|]. constructor; [exact B|exact C].
  - apply (f_lt_false _ _ Fa Ft) in E. destruct (IH a Fa Fl') as (A & B & C). split; [exact A|]. split; [exact B|]. constructor; [lra|exact C].
Qed.
Lemma pmax_val (a b : f64) : fin a -> fin b -> fin (pmax (N:=N) a b) /\ val a <= val (pmax (N:=N) a b) /\ val b <= val (pmax (N:=N) a b).
Proof.
  intros Fa Fb. unfold pmax. cbn [ltb F64]. destruct (f_lt a b) eqn:E.
  - apply (f_lt_true _ _ Fa Fb) in E. split; [exact Fb|lra].
  - apply (f_lt_false _ _ Fa Fb) in E. split; [exact Fa|lra].
Qed.
Lemma f_le_trans (a b c : f64) : fin a -> fin b -> val a <= val b -> f_le b c = true -> f_le a c = true.
Proof.
  intros Fa Fb H E. destruct (is_finite c) eqn:Fc.
  - apply (f_le_true _ _ Fb Fc) in E. apply (f_le_true _ _ Fa Fc). lra.
  - destruct c; try discriminate Fc; [|destruct b; discriminate E]. destruct s; [|destruct a; try discriminate Fa; reflexivity].
    exfalso. destruct b; try discriminate Fb; discriminate E.
Qed.

Lemma motor_times_in {M : PyNum} m l (t : M) : In t (motor_times m l) -> exists q, In (Pulse q) l /\ qat m q = Some t.
Proof.
  induction l as [|[q|q] l IH]; [intros []| |].
  - intros H. destruct (IH H) as (q' & I & E). exists q'. split; [now right|exact E].
  - rewrite motor_times_cons. intros H. apply in_app_or in H. destruct H as [H|H].
    + exists q. split; [now left|]. destruct (qat m q) as [u|]; [|destruct H]. destruct H as [->|[]]. reflexivity.
    + destruct (IH H) as (q' & I & E). exists q'. split; [now right|exact E].
Qed.

Lemma virtual_sound cfg (g : gen N) l : completes cfg g l -> virtual_move cfg g l = Ok tt ->
  (forall m, (0 < qat m (ppm cfg) <= 1000)%Z -> (Z.abs (travel cfg m l) <= 65536 * qat m (ppm cfg))%Z ->
     let x : f64 := qat m (gen_delta g) in fin x /\ Rabs (val x - IZR (travel cfg m l) / IZR (qat m (ppm cfg))) <= / 5000000000) /\
  (forall m, StronglySorted (fun t u : f64 => val t < val u) (motor_times m l)) /\
  (forall m (t : f64), In t (motor_times m l) -> fin t /\ f_le t (total_time_s g) = true) /\
  (forall q, In (Pulse q) l -> exists k, forall m (t : f64), qat m q = Some t -> f_rnd (f_mul t (f_ofZ 1000000)) = Ok k).
Proof.
  intros Hc H. destruct (completes_dir cfg g l Hc) as (q0 & l' & ->). destruct (virtual_inv cfg g q0 l' H) as (Q & S & A & L).
  assert (Fin: forall m, Forall fin (motor_times (N:=N) m l')).
  { intros m. apply Forall_forall. intros t I. destruct (motor_times_in m l' t I) as (q & Iq & E). destruct (Q q Iq) as [k K]. exact (proj1 (micros_inv t k (K m t E))). }
  split; [|split; [|split]].
  - intros m Hp Ht x. exact (arrived_inv _ _ _ Hp Ht (A m)).
  - intros m. change (motor_times (N:=N) m (Dir q0 :: l')) with (motor_times (N:=N) m l'). specialize (S m). induction S as [|t ts S IH F]; constructor; [exact IH|].
    eapply Forall_impl; [|exact F]. intros u Hu. apply (apart_lt t u Hu).
  - intros m t. change (motor_times (N:=N) m (Dir q0 :: l')) with (motor_times (N:=N) m l'). intros I. assert (Ft: fin t) by (apply (proj1 (Forall_forall _ _) (Fin m)); exact I). split; [exact Ft|].
    assert (F0: fin (f_ofZ 0)) by reflexivity.
    pose (top1 := fun m => fold_left (fun a t : f64 => if f_lt a t then t else a) (motor_times (N:=N) m l') (f_ofZ 0)).
    change (f_le (pmax (N:=N) (pmax (N:=N) (pmax (N:=N) (top1 MX) (top1 MY)) (top1 MZ)) (top1 ME)) (total_time_s g) = true) in L.
    assert (G: forall m, fin (top1 m) /\ Forall (fun t => val t <= val (top1 m)) (motor_times (N:=N) m l')).
    { intros m'. destruct (fold_max (motor_times (N:=N) m' l') (f_ofZ 0) F0 (Fin m')) as (U1 & _ & U2). split; [exact U1|exact U2]. }
    destruct (G MX) as [FX GX]. destruct (G MY) as [FY GY]. destruct (G MZ) as [FZ GZ]. destruct (G ME) as [FE GE]. clear G.
    set (mx := top1 MX) in *. set (my := top1 MY) in *. set (mz := top1 MZ) in *. set (me := top1 ME) in *.
    clearbody mx my mz me. clear top1.
    destruct (pmax_val mx my FX FY) as (F1 & L1 & L2). destruct (pmax_val _ mz F1 FZ) as (F2 & L3 & L4). destruct (pmax_val _ me F2 FE) as (F3 & L5 & L6).
    set (top := pmax (N:=N) (pmax (N:=N) (pmax (N:=N) mx my) mz) me) in *. clearbody top. set (p2 := pmax (N:=N) (pmax (N:=N) mx my) mz) in *. clearbody p2. set (p1 := pmax (N:=N) mx my) in *. clearbody p1. change (num N) with f64 in *.
    apply (f_le_trans t top _ Ft F3); [|exact L].
    destruct m; [apply (proj1 (Forall_forall _ _) GX) in I|apply (proj1 (Forall_forall _ _) GY) in I|apply (proj1 (Forall_forall _ _) GZ) in I|apply (proj1 (Forall_forall _ _) GE) in I]; lra.
  - intros q [E|I]; [discriminate|]. destruct (Q q I) as [k K]. exists k. exact K.
Qed.
End Float.
