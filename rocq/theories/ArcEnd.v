(** binary64 arcs whose plane axes have equal steps: the generator runs to its end. *)
From Coq Require Import ZArith Bool Reals Lra Lia List Psatz.
From Flocq Require Import Core BinarySingleNaN.
From Verif Require Import PyBase PyNum PyFloatFacts Config Coordinates Pulses PulseSpec Decimal MachinePos MachineArc LinearGen ArcSpec ArcRun ArcMake ArcFloat ArcGrid ArcDone.
From Coq Require Import List.
From Flocq Require Import Core.
Import ListNotations.
Local Open Scope R_scope.

Section End_.
Variable acos : f64 -> f64.
Hypothesis Hacos : good_acos acos.
Notation N := (F64 acos).
Variable cfg : config.
Variables (delta radius : quad N) (pl : plane) (rot : rotation) (v : N).
Variable g : circular_gen N.
Variables (p s : Z).
Hypothesis Hp : (0 < p <= 1000)%Z.
Hypothesis Hs : (p * s = 10000000000)%Z.
Hypothesis Pa : axis_a pl (ppm cfg) = p.
Hypothesis Pb : axis_b pl (ppm cfg) = p.
Variables (ka kb ja jb : Z).
Hypothesis Dka : dec (ka * s) (axis_a pl radius).
Hypothesis Dkb : dec (kb * s) (axis_b pl radius).
Hypothesis Dja : dec (ja * s) (axis_a pl delta).
Hypothesis Djb : dec (jb * s) (axis_b pl delta).
Hypothesis Ska : (Z.abs ka <= 65536 * p)%Z.
Hypothesis Skb : (Z.abs kb <= 65536 * p)%Z.
Hypothesis Sja : (Z.abs ja <= 65536 * p)%Z.
Hypothesis Sjb : (Z.abs jb <= 65536 * p)%Z.
Hypothesis M : made cfg delta radius pl rot v g.
Let rm := k_rm _ _ _ _ _ _ _ M.
Let r : f64 := k_r _ _ _ _ _ _ _ M.
Hypothesis W : room_within 2 g.

Hypothesis Hmax : forall m, (0 <= qat m (max_velocity_min cfg) <= 2 ^ 53)%Z.
Hypothesis Hacc : (1 <= max_acceleration cfg <= 2 ^ 53)%Z.
Hypothesis Hv : nn 60 v.
Let dc : f64 := axis_c pl delta.
Let de : f64 := qe delta.
Hypothesis Mc : mid dc /\ bd 40 dc.
Hypothesis Me : mid de /\ bd 40 de.

Lemma F_rm : (Z.abs ka <= rm)%Z /\ (Z.abs kb <= rm)%Z /\ (0 <= rm <= 262144 * p)%Z.
Proof. eapply rm_facts; eassumption. Qed.
Lemma F_r : near p rm r /\ val r = rd (IZR rm / IZR p).
Proof. eapply r_near; eassumption. Qed.
Lemma F_oc : starts_inside g.
Proof. eapply (arc_starts_inside acos cfg delta radius pl rot v g); eassumption. Qed.
Lemma F_iter : (0 <= c_iterations_a g <= 4 * rm)%Z /\ (0 <= c_iterations_b g <= 4 * rm)%Z.
Proof. eapply iterations; eassumption. Qed.
Lemma F_R : (c_radius_a_pulses g <= rm)%Z /\ (c_radius_b_pulses g <= rm)%Z.
Proof. assert (X := start_inside acos cfg delta radius pl rot v g p s Hp Hs Pa Pb ka kb ja jb Dka Dkb Ska Skb Sja Sjb M). fold rm in X. lia. Qed.
Lemma F_whole : (c_radius_a_pulses g = rm \/ c_radius_a_pulses g + 1 <= rm)%Z /\ (c_radius_b_pulses g = rm \/ c_radius_b_pulses g + 1 <= rm)%Z.
Proof. destruct F_R. lia. Qed.
Lemma F_div k : exists a, f_div (f_ofZ k) (f_ofZ p) = Ok a.
Proof. unfold f_div. destruct (f_ofZ_val p) as [Fp Vp]; [lia|]. destruct (is_zero_f (f_ofZ p)) eqn:Z; [|eauto]. apply is_zero_f_val in Z; [|exact Fp]. assert (Pp := p_pos p Hp). lra. Qed.
Lemma F_rad : c_radius_a2 g = f_mul r r /\ c_radius_b2 g = f_mul r r.
Proof.
  assert (X: k_radius_a _ _ _ _ _ _ _ M = r /\ k_radius_b _ _ _ _ _ _ _ M = r) by (eapply radius_ab; eassumption).
  rewrite (k_ra2 _ _ _ _ _ _ _ M), (k_rb2 _ _ _ _ _ _ _ M). destruct X as [-> ->]. split; reflexivity.
Qed.
Lemma F_sa : near p (- ka) (Bopp (axis_a pl radius)).
Proof. eapply sa_near; eassumption. Qed.
Lemma F_sb : near p (- kb) (Bopp (axis_b pl radius)).
Proof. eapply sb_near; eassumption. Qed.
Lemma F_ea : near p (- ka + ja) (f_add (Bopp (axis_a pl radius)) (axis_a pl delta)).
Proof. eapply ea_near; eassumption. Qed.
Lemma F_eb : near p (- kb + jb) (f_add (Bopp (axis_b pl radius)) (axis_b pl delta)).
Proof. eapply eb_near; eassumption. Qed.

(* ---------- angles ---------- *)
Definition turn (x : f64) : Prop := fin x /\ 0 <= val x <= 2 * val f_pi.
Lemma pi_bounds : 3 <= val f_pi <= 32 / 10.
Proof. rewrite (proj2 pi_val). lra. Qed.

Lemma fin_zero (x : f64) : fin x -> val x = 0 -> exists b, x = B754_zero b.
Proof. intros F Z. apply is_zero_f_val in Z; [|exact F]. destruct x; try discriminate. eauto. Qed.
Lemma angle_zero (a b : f64) : fin a -> fin b -> val a = 0 -> val b = 0 -> angle_of (N:=N) a b = Raise ZeroDivisionError.
Proof.
  intros Fa Fb Za Zb. destruct (fin_zero a Fa Za) as [sa ->]. destruct (fin_zero b Fb Zb) as [sb ->].
  unfold angle_of. cbn [sqrtn add mul F64 div]. destruct sa, sb; reflexivity.
Qed.
Lemma angle_turn (a b an : f64) i j : near p i a -> near p j b -> angle_of (N:=N) a b = Ok an -> turn an /\ (i <> 0 \/ j <> 0)%Z.
Proof.
  intros Na Nb E.
  assert (NZ: (i <> 0 \/ j <> 0)%Z).
  { destruct (Z.eq_dec i 0) as [->|]; [|auto]. destruct (Z.eq_dec j 0) as [->|]; [|auto]. exfalso.
    rewrite angle_zero in E; [discriminate| | | |].
    - apply (n_fin _ _ _ Na).
    - apply (n_fin _ _ _ Nb).
    - apply (n_zero _ _ _ Na). reflexivity.
    - apply (n_zero _ _ _ Nb). reflexivity. }
  split; [|exact NZ].
  destruct (angle_ok acos Hacos a b (near_mid p Hp _ _ Na) (near_mid p Hp _ _ Nb)) as (an' & E' & T).
  { rewrite (near_nz p Hp _ _ Na), (near_nz p Hp _ _ Nb). exact NZ. }
  rewrite E' in E. injection E as ->. exact T.
Qed.
Lemma start_turn : turn (c_start_angle g) /\ (0 < rm)%Z.
Proof.
  destruct (angle_turn _ _ _ _ _ F_sa F_sb (k_start_eq _ _ _ _ _ _ _ M)) as [T NZ]. split; [exact T|]. destruct F_rm as (A & B & _). lia.
Qed.
Lemma end_turn : turn (k_end _ _ _ _ _ _ _ M).
Proof. exact (proj1 (angle_turn _ _ _ _ _ F_ea F_eb (k_end_eq _ _ _ _ _ _ _ M))). Qed.

Lemma twopi_N : fin (mul (p:=N) two pin) /\ val (mul (p:=N) two pin) = 2 * val f_pi.
Proof. exact twopi_val. Qed.
Lemma delta_angle_nn : nn 6 (c_delta_angle g).
Proof.
  rewrite (k_delta_angle _ _ _ _ _ _ _ M). apply nn_abs. rewrite (k_da_eq _ _ _ _ _ _ _ M).
  destruct (proj1 start_turn) as [Fs Hs']. destruct end_turn as [Fe He]. destruct twopi_N as [Ft Vt]. assert (PB := pi_bounds).
  assert (B3: bd 3 (f_sub (k_end _ _ _ _ _ _ _ M) (c_start_angle g))).
  { assert (B: Rabs (val (k_end _ _ _ _ _ _ _ M) - val (c_start_angle g)) <= bpow radix2 3) by (change (bpow radix2 3) with 8; apply Rabs_le; lra).
    destruct (f_sub_val _ _ Fe Fs) as [F V]; [eapply bd_big; [exact B|lia]|]. split; [exact F|]. rewrite V. apply rd_abs_le; [lia|exact B]. }
  assert (BT: bd 3 (mul (p:=N) two pin)) by (split; [exact Ft|rewrite Vt; change (bpow radix2 3) with 8; apply Rabs_le; lra]).
  cbv zeta. cbn [sub add F64]. set (d := f_sub (k_end _ _ _ _ _ _ _ M) (c_start_angle g)) in *.
  set (x := if (_ || _) then _ else _).
  assert (BX: bd 4 x) by (unfold x; destruct (_ || _); [apply (bd_add 3); auto; lia|eapply (bd_weak 3); auto; lia]). clearbody x.
  destruct rot; [eapply (bd_weak 4); auto; lia|]. eapply (bd_weak 5); [|lia]. apply (bd_sub 4); auto; try lia. eapply (bd_weak 3); auto; lia.
Qed.

(* ---------- lengths and velocities ---------- *)
Let arc : f64 := k_arc _ _ _ _ _ _ _ M.
Let len : f64 := k_length _ _ _ _ _ _ _ M.
Lemma r_nn : nn 29 r /\ bpow radix2 (-11) <= val r.
Proof.
  destruct F_r as [Nr Vr]. destruct start_turn as [_ R0]. assert (B := near_val p Hp _ _ Nr). assert (L := near_ge p Hp _ _ Nr ltac:(lia)).
  assert (Pp := p_pos p Hp).
  assert (0 <= val r). { rewrite Vr, <- rd_0. apply rd_le. apply Rmult_le_pos; [apply (IZR_le 0); lia|left; now apply Rinv_0_lt_compat]. }
  rewrite Rabs_pos_eq in B, L by assumption. split; [split; [apply Nr|lra]|exact L].
Qed.
Lemma arc_nn : nn 35 arc.
Proof. unfold arc. rewrite (k_arc_eq _ _ _ _ _ _ _ M). apply (nn_mul 6 29); [lia|apply delta_angle_nn|apply r_nn]. Qed.
Lemma sq_nn x : bd 40 x -> nn 80 (f_mul x x).
Proof.
  intros B. assert (X := bd_mul 40 40 x x ltac:(lia) B B). apply bd_nn; [exact X|].
  destruct B as [F B]. destruct (f_mul_val x x F F) as [_ V].
  { rewrite Rabs_mult. apply Rle_trans with (bpow radix2 (40 + 40)); [|apply bpow_le; lia]. rewrite bpow_plus. apply Rmult_le_compat; auto using Rabs_pos. }
  rewrite V, <- rd_0. apply rd_le. apply Rle_0_sqr.
Qed.
Lemma length_facts : nn 41 len /\ Rabs (val dc) <= val len /\ Rabs (val de) <= val len /\
  (bpow radix2 (-400) <= val arc -> val arc <= val len) /\ (val len <> 0 -> bpow radix2 (-537) <= val len).
Proof.
  assert (NA: nn 80 (f_mul arc arc)) by (eapply nn_weak; [apply (nn_mul 35 35); [lia|apply arc_nn|apply arc_nn]|lia]).
  assert (NC := sq_nn dc (proj2 Mc)). assert (NE := sq_nn de (proj2 Me)).
  destruct (nn_add 80 _ _ ltac:(lia) NA NC) as (N1 & L1 & L2).
  destruct (nn_add 81 _ _ ltac:(lia) N1 (nn_weak _ 81 _ NE ltac:(lia))) as (N2 & L3 & L4).
  assert (E := k_length_eq _ _ _ _ _ _ _ M). fold arc in E. fold len in E. fold dc in E. fold de in E.
  change (f_sqrt (f_add (f_add (f_mul arc arc) (f_mul dc dc)) (f_mul de de)) = Ok len) in E.
  destruct (nn_sqrt 41 _ ltac:(lia) N2) as (q & E' & Nq & Vq). rewrite E' in E. injection E as ->.
  set (S := f_add (f_add (f_mul arc arc) (f_mul dc dc)) (f_mul de de)) in *.
  assert (MO: forall x, 0 <= x <= val S -> rd (sqrt x) <= val len) by (intros x Hx; rewrite Vq; apply rd_le, sqrt_le_1_alt; lra).
  split; [exact Nq|]. destruct NA as [_ NA], NC as [_ NC], NE as [_ NE]. repeat split.
  - eapply Rle_trans; [apply (mid_sq dc (proj1 Mc))|]. apply MO. lra.
  - eapply Rle_trans; [apply (mid_sq de (proj1 Me))|]. apply MO. lra.
  - intros LA. rewrite <- (Rabs_pos_eq (val arc)) at 1 by apply arc_nn.
    apply Rle_trans with (rd (sqrt (rd (val arc * val arc)))).
    + apply rd_sqrt_sqr; [apply val_format|]. rewrite Rabs_pos_eq by apply arc_nn. split; [exact LA|]. destruct arc_nn as [_ [_ U]]. eapply Rle_trans; [exact U|]. apply bpow_le. lia.
    + replace (rd (val arc * val arc)) with (val (f_mul arc arc)); [apply MO; lra|].
      apply f_mul_val; try apply arc_nn. destruct arc_nn as [_ [L U]]. rewrite Rabs_mult, Rabs_pos_eq by exact L.
      apply Rle_trans with (bpow radix2 (35 + 35)); [|apply bpow_le; lia]. rewrite bpow_plus. apply Rmult_le_compat; lra.
  - intros NZ. rewrite Vq in *. assert (S0: val S <> 0). { intros Z. apply NZ. rewrite Z, sqrt_0. apply rd_0. }
    destruct N2 as [F2 N2]. fold S in F2, N2.
    assert (SL: bpow radix2 (-1074) <= val S).
    { assert (X := generic_format_ge_bpow radix2 (SpecFloat.fexp prec64 emax64) (-1074)). apply X; [|lra|apply val_format].
      intros e. unfold SpecFloat.fexp, SpecFloat.emin, prec64, emax64. lia. }
    rewrite <- (rd_bpow (-537)) by lia. apply rd_le. rewrite <- (sqrt_square (bpow radix2 (-537))) by apply bpow_ge_0.
    apply sqrt_le_1_alt. rewrite <- bpow_plus. exact SL.
Qed.

Lemma velocity_nn : nn 60 (k_velocity _ _ _ _ _ _ _ M).
Proof.
  assert (E := k_velocity_eq _ _ _ _ _ _ _ M). change (f_div v (f_ofZ 60) = Ok (k_velocity _ _ _ _ _ _ _ M)) in E.
  destruct (ofZ_nn 6 60 ltac:(lia) ltac:(lia)) as [N60 V60].
  destruct (nn_div 60 0 v (f_ofZ 60) ltac:(lia) Hv (proj1 N60)) as (q & Eq & Nq); [rewrite V60; simpl; lra|]. rewrite Eq in E. injection E as <-. exact Nq.
Qed.
(** A velocity along one of the components of the movement. *)
Lemma part_nn (x q : f64) : nn 40 x -> (bpow radix2 (-200) <= val x -> val x <= val len) ->
  (if f_eq len (f_ofZ 0) then Ok (k_velocity _ _ _ _ _ _ _ M) else do! q <- f_div x len; Ok (f_mul q (k_velocity _ _ _ _ _ _ _ M))) = Ok q ->
  nn 400 q.
Proof.
  intros Nx Lx. destruct length_facts as (Nl & _ & _ & _ & NZ). destruct (f_eq len (f_ofZ 0)) eqn:Ez.
  - intros E. injection E as <-. eapply nn_weak; [apply velocity_nn|lia].
  - assert (L0: val len <> 0). { intros Z. assert (f_eq len (f_ofZ 0) = true); [|congruence]. apply f_eq_zero; [apply Nl|exact Z]. }
    assert (Q: exists y, f_div x len = Ok y /\ nn 340 y).
    { destruct (Rle_lt_dec (bpow radix2 (-200)) (val x)) as [B|B].
      - specialize (Lx B). assert (P := bpow_gt_0 radix2 (-200)).
        assert (QB: Rabs (val x / val len) <= bpow radix2 0).
        { simpl. unfold Rdiv. rewrite Rabs_mult, !Rabs_pos_eq; [|left; apply Rinv_0_lt_compat; lra|lra]. apply Rmult_le_reg_r with (val len); [lra|]. rewrite Rmult_assoc, Rinv_l by lra. lra. }
        destruct (f_div_val x len (proj1 Nx) (proj1 Nl) L0) as (y & E & F & V); [eapply bd_big; [exact QB|lia]|].
        exists y. split; [exact E|]. apply (nn_weak 0); [|lia]. apply bd_nn; [split; [exact F|rewrite V; apply rd_abs_le; [lia|exact QB]]|].
        rewrite V, <- rd_0. apply rd_le. apply Rmult_le_pos; [lra|left; apply Rinv_0_lt_compat; lra].
      - assert (N2: nn (-200) x) by (destruct Nx as [F Nx]; split; [exact F|lra]).
        destruct (nn_div (-200) (-537) x len ltac:(lia) N2 (proj1 Nl) (NZ L0)) as (y & E & Ny). exists y. split; [exact E|]. eapply nn_weak; [exact Ny|lia]. }
    destruct Q as (y & -> & Ny). cbn [rbind]. intros E. injection E as <-. apply (nn_mul 340 60); [lia|exact Ny|apply velocity_nn].
Qed.
Lemma flz_eq : k_flz _ _ _ _ _ _ _ M = f_eq len (f_ofZ 0).
Proof. rewrite (k_flz_eq _ _ _ _ _ _ _ M). reflexivity. Qed.
Let vel : quad N := k_vel _ _ _ _ _ _ _ M.
Lemma vel_speeds : speeds acos vel.
Proof.
  destruct length_facts as (Nl & Lc & Le & La & _).
  assert (NA: nn 400 (k_cv _ _ _ _ _ _ _ M)).
  { eapply (part_nn arc); [eapply nn_weak; [apply arc_nn|lia]| |].
    - intros B. apply La. eapply Rle_trans; [|exact B]. apply bpow_le. lia.
    - rewrite <- flz_eq. exact (k_cv_eq _ _ _ _ _ _ _ M). }
  assert (NC: nn 400 (k_v3 _ _ _ _ _ _ _ M)).
  { eapply (part_nn (Babs dc)); [apply nn_abs, Mc|intros _; rewrite val_abs; exact Lc|]. rewrite <- flz_eq. exact (k_v3_eq _ _ _ _ _ _ _ M). }
  assert (NE: nn 400 (k_ev _ _ _ _ _ _ _ M)).
  { eapply (part_nn (Babs de)); [apply nn_abs, Me|intros _; rewrite val_abs; exact Le|]. rewrite <- flz_eq. exact (k_ev_eq _ _ _ _ _ _ _ M). }
  eapply (adjust_speeds acos cfg Hmax); [|exact (k_vel_eq _ _ _ _ _ _ _ M)].
  intros m. replace (qat m (qmap rnd10 (from_axes pl (k_cv _ _ _ _ _ _ _ M) (k_cv _ _ _ _ _ _ _ M) (k_v3 _ _ _ _ _ _ _ M) (k_ev _ _ _ _ _ _ _ M))))
    with (f_rnd10 (qat m (from_axes pl (k_cv _ _ _ _ _ _ _ M) (k_cv _ _ _ _ _ _ _ M) (k_v3 _ _ _ _ _ _ _ M) (k_ev _ _ _ _ _ _ _ M)))) by (destruct m; reflexivity).
  apply speed_rnd10. destruct (motor_cases pl m) as [->|[->|[->| ->]]]; rewrite ?from_axes_a, ?from_axes_b, ?from_axes_c, ?from_axes_e; assumption.
Qed.

Lemma accel_val : nn 53 (ofZ (p:=N) (max_acceleration cfg)) /\ 1 <= val (f_ofZ (max_acceleration cfg)).
Proof. destruct (ofZ_nn 53 (max_acceleration cfg) ltac:(lia) ltac:(lia)) as [Na Va]. split; [exact Na|]. rewrite Va. apply IZR_le. lia. Qed.
Lemma acc0_nn : nn 400 (k_acc0 _ _ _ _ _ _ _ M).
Proof.
  assert (E := k_acc0_eq _ _ _ _ _ _ _ M). destruct accel_val as [Na La].
  assert (S: speed (find_max (N:=N) vel)) by (apply find_max_speed, vel_speeds).
  destruct (nn_div 400 0 (find_max (N:=N) vel) (f_ofZ (max_acceleration cfg)) ltac:(lia) (proj1 S) (proj1 Na)) as (q & Eq & Nq); [simpl; lra|].
  change (f_div (find_max (N:=N) vel) (f_ofZ (max_acceleration cfg)) = Ok (k_acc0 _ _ _ _ _ _ _ M)) in E. rewrite Eq in E. injection E as <-. exact Nq.
Qed.
Lemma profile_facts : nn 400 (c_acc g) /\ forall m, nn 400 (qat m (c_vel g)).
Proof.
  assert (E := k_profile _ _ _ _ _ _ _ M). fold vel in E. fold len in E. rewrite flz_eq in E. destruct accel_val as [Na La].
  assert (N0 := acc0_nn). destruct length_facts as (Nl & _ & _ & _ & NZ).
  destruct (f_eq len (f_ofZ 0)) eqn:Ez.
  - injection E as <- _ <-. split; [exact N0|]. intros m.
    assert (X: qat m (@coords0 N) = f_ofZ 0) by (destruct m; reflexivity). rewrite X. apply speed_0.
  - assert (L0: val len <> 0). { intros Z. assert (f_eq len (f_ofZ 0) = true); [|congruence]. apply f_eq_zero; [apply Nl|exact Z]. }
    specialize (NZ L0).
    destruct (sqr (k_acc0 _ _ _ _ _ _ _ M)) as [acc2|]; cbn [rbind] in E; [|discriminate].
    destruct (ltb _ _).
    + cbn [div F64] in E. destruct (nn_div 41 0 len (f_ofZ (max_acceleration cfg)) ltac:(lia) Nl (proj1 Na)) as (q & Eq & Nq); [simpl; lra|].
      change (f_div len (accel (N:=N) cfg)) with (f_div len (f_ofZ (max_acceleration cfg))) in E. rewrite Eq in E. cbn [rbind sqrtn F64] in E.
      destruct (nn_sqrt 21 q ltac:(lia) (nn_weak _ 42 _ Nq ltac:(lia))) as (a & Ea & Naa & Va). rewrite Ea in E. cbn [rbind] in E.
      assert (QL: bpow radix2 (-590) <= val q).
      { destruct (f_div_val len (f_ofZ (max_acceleration cfg)) (proj1 Nl) (proj1 Na)) as (q' & Eq' & _ & Vq); [lra| |].
        - apply (bd_big 41); [|lia]. destruct Nl as [_ Nl]. unfold Rdiv. rewrite Rabs_mult, Rabs_inv, !Rabs_pos_eq by lra.
          apply Rle_trans with (val len * 1); [|lra]. apply Rmult_le_compat_l; [lra|]. rewrite <- Rinv_1. apply Rinv_le_contravar; lra.
        - rewrite Eq' in Eq. injection Eq as ->. rewrite Vq, <- (rd_bpow (-590)) by lia. apply rd_le. unfold Rdiv.
          change (-590)%Z with (-537 + - (53))%Z. rewrite bpow_plus. apply Rmult_le_compat; [apply bpow_ge_0|apply bpow_ge_0|exact NZ|].
          rewrite bpow_opp. apply Rinv_le_contravar; [lra|]. apply Na. }
      assert (AL: bpow radix2 (-295) <= val a).
      { rewrite Va, <- (rd_bpow (-295)) by lia. apply rd_le. rewrite <- (sqrt_square (bpow radix2 (-295))) by apply bpow_ge_0. apply sqrt_le_1_alt. rewrite <- bpow_plus. exact QL. }
      destruct (nn_div 41 (-295) len a ltac:(lia) Nl (proj1 Naa) AL) as (w & Ew & Nw). rewrite Ew in E. cbn [rbind] in E. injection E as <- _ <-.
      split; [eapply nn_weak; [exact Naa|lia]|]. intros m.
      assert (Y := vel_speeds m). destruct m; cbn [qat qmap qx qy qz qe] in *; match goal with |- context [if ?b then _ else _] => destruct b end; try (eapply nn_weak; [exact Nw|lia]); apply Y.
    + destruct (sqr _) as [cv2|]; cbn [rbind] in E; [|discriminate]. destruct (sqr _) as [tv2|]; cbn [rbind] in E; [|discriminate].
      destruct (sqr _) as [ev2|]; cbn [rbind] in E; [|discriminate]. destruct (sqrtn _) as [ss|]; cbn [rbind] in E; [|discriminate].
      destruct (div _ _) as [lin|]; cbn [rbind] in E; [|discriminate]. injection E as <- _ <-.
      split; [exact N0|]. intros m. apply vel_speeds.
Qed.
Lemma start_ok : exists st, iter_start cfg (GCircular g) = Ok st /\ moment (it_c st).
Proof.
  unfold iter_start. cbn [gen_vel]. destruct accel_val as [Na La]. destruct profile_facts as [_ Nv].
  assert (F: nn 400 (find_max (N:=N) (c_vel g))) by (apply find_max_speed; exact Nv).
  destruct (ofZ_nn 1 2 ltac:(lia) ltac:(lia)) as [N2 _].
  assert (N3 := nn_mul 1 400 _ _ ltac:(lia) N2 F).
  destruct (nn_div (1 + 400) 0 _ (f_ofZ (max_acceleration cfg)) ltac:(lia) N3 (proj1 Na)) as (q & Eq & Nq); [simpl; lra|].
  change (div (p:=N) (mul two (find_max (c_vel g))) (accel cfg)) with (f_div (f_mul (f_ofZ 2) (find_max (N:=N) (c_vel g))) (f_ofZ (max_acceleration cfg))).
  rewrite Eq. cbn [rbind]. eexists. split; [reflexivity|]. cbn [it_c]. destruct Nq as [F1 F2]. split; [exact F1|lra].
Qed.
Lemma r_div_v_nn : nn 64 (c_r_div_v g).
Proof.
  assert (E := k_rdv_eq _ _ _ _ _ _ _ M). fold vel in E. fold r in E.
  set (w := pmin (axis_a pl vel) (axis_b pl vel)) in *.
  assert (S: speed w). { unfold w. destruct (pmin_cases acos (axis_a pl vel) (axis_b pl vel)) as [-> | ->]; [rewrite qat_axis_a|rewrite qat_axis_b]; apply vel_speeds. }
  destruct S as [Nw [Z|L]].
  - exfalso. change (f_div r w = Ok (c_r_div_v g)) in E. apply f_div_inv in E. destruct E as [E _].
    assert (is_zero_f w = true); [|congruence]. apply is_zero_f_val; [apply Nw|exact Z].
  - destruct (nn_div 29 (-35) r w ltac:(lia) (proj1 r_nn) (proj1 Nw) L) as (q & Eq & Nq).
    change (f_div r w = Ok (c_r_div_v g)) in E. rewrite Eq in E. injection E as <-. exact Nq.
Qed.

(* ---------- pulse times ---------- *)
Lemma mid_opp x : mid x -> mid (Bopp x).
Proof. intros (F & L & U). split; [now apply fin_opp|]. rewrite val_opp, Rabs_Ropp. split; [destruct L as [->|L]; [left; ring|auto]|exact U]. Qed.
Lemma find_time_ok (a b : f64) : mid a -> mid b -> val a <> 0 \/ val b <> 0 ->
  exists t, circular_find_time (N:=N) g a b = Ok t /\ moment t.
Proof.
  intros Ma Mb NZ. unfold circular_find_time. destruct (angle_ok acos Hacos a b Ma Mb NZ) as (an & -> & Fa & Ha). cbn [rbind].
  eexists. split; [reflexivity|]. destruct (proj1 start_turn) as [Fs Hss]. destruct twopi_N as [Ft Vt]. assert (PB := pi_bounds).
  set (d := match c_rot g with CW => _ | CCW => _ end).
  assert (D: fin d /\ - (2 * val f_pi) <= val d <= 2 * val f_pi).
  { assert (K: forall x y : f64, fin x -> fin y -> 0 <= val x <= 2 * val f_pi -> 0 <= val y <= 2 * val f_pi -> fin (f_sub x y) /\ - (2 * val f_pi) <= val (f_sub x y) <= 2 * val f_pi).
    { intros x y Fx Fy Hx Hy. destruct (f_sub_val x y Fx Fy) as [F V].
      - apply (bd_big 3); [|lia]. change (bpow radix2 3) with 8. apply Rabs_le. lra.
      - split; [exact F|]. rewrite V, <- Vt, <- (rd_val (mul (p:=N) two pin)), <- rd_opp. split; apply rd_le; rewrite Vt; lra. }
    unfold d. destruct (c_rot g); apply K; assumption. }
  clearbody d. destruct D as [Fd Hd].
  assert (ND: nn 5 (if leb (p:=N) d zero then add (p:=N) d (mul two pin) else d)).
  { cbn [leb F64]. destruct (f_ofZ_val 0) as [F0 V0]; [lia|].
    destruct (f_le d (@zero N)) eqn:L.
    - cbn [add F64]. destruct (f_add_val d (mul (p:=N) two pin) Fd Ft) as [F V].
      { rewrite Vt. apply (bd_big 5); [|lia]. change (bpow radix2 5) with 32. apply Rabs_le. lra. }
      split; [exact F|]. rewrite V, Vt. split; [rewrite <- rd_0|rewrite <- (rd_bpow 5) by lia; change (bpow radix2 5) with 32]; apply rd_le; lra.
    - apply f_le_false in L; [|exact Fd|exact F0]. change (val (@zero N)) with (val (f_ofZ 0)) in L. rewrite V0 in L. split; [exact Fd|]. change (bpow radix2 5) with 32. lra. }
  destruct (nn_mul 64 5 _ _ ltac:(lia) r_div_v_nn ND) as [F [L _]]. split; [exact F|exact L].
Qed.
Lemma chord_ok k : (Z.abs k <= rm)%Z -> exists a b, f_div (f_ofZ k) (f_ofZ p) = Ok a /\ f_sqrt (f_sub (f_mul r r) (f_mul a a)) = Ok b /\
  mid a /\ mid b /\ (val a <> 0 \/ val b <> 0).
Proof.
  intros K. destruct F_rm as (_ & _ & Rm). destruct start_turn as [_ R0]. destruct F_r as [Nr Vr]. destruct r_nn as [[Fr [Lr Ur]] Gr].
  destruct (f_ofZ_val p) as [Fp Vp]; [lia|]. destruct (f_ofZ_val k) as [Fk Vk]; [lia|]. assert (Pp := p_pos p Hp).
  assert (E: exists a, f_div (f_ofZ k) (f_ofZ p) = Ok a).
  { unfold f_div. destruct (is_zero_f (f_ofZ p)) eqn:Z; [|eauto]. apply is_zero_f_val in Z; [|exact Fp]. lra. }
  destruct E as (a & E). destruct (near_div p Hp k a ltac:(lia) E) as [Na Va].
  assert (AR: Rabs (val a) <= val r).
  { rewrite Va, Vr, <- rd_abs. apply rd_le. unfold Rdiv. rewrite Rabs_mult, (Rabs_pos_eq (/ IZR p)) by (left; now apply Rinv_0_lt_compat).
    apply Rmult_le_compat_r; [left; now apply Rinv_0_lt_compat|]. rewrite <- abs_IZR. now apply IZR_le. }
  assert (Ba: bd 29 a) by (split; [apply Na|apply (near_val p Hp _ _ Na)]).
  destruct (mid_sq a (near_mid p Hp _ _ Na)) as (Fa2 & Va2 & La2 & _).
  destruct (mid_sq r (near_mid p Hp _ _ Nr)) as (Fr2 & Vr2 & Lr2 & _).
  assert (LE: val (f_mul a a) <= val (f_mul r r)).
  { rewrite Va2, Vr2. apply rd_le. replace (val a * val a) with (Rabs (val a) * Rabs (val a)) by (rewrite <- Rabs_mult; apply Rabs_pos_eq, Rle_0_sqr).
    apply Rmult_le_compat; auto using Rabs_pos. }
  assert (XL: bpow radix2 (-22) <= val (f_mul r r)).
  { rewrite Vr2, <- (rd_bpow (-22)) by lia. apply rd_le. change (-22)%Z with (-11 + -11)%Z. rewrite bpow_plus. assert (P := bpow_ge_0 radix2 (-11)). apply Rmult_le_compat; lra. }
  assert (XU: val (f_mul r r) <= bpow radix2 58).
  { rewrite Vr2, <- (rd_bpow 58) by lia. apply rd_le. change 58%Z with (29 + 29)%Z. rewrite bpow_plus. apply Rmult_le_compat; lra. }
  destruct (f_sub_val (f_mul r r) (f_mul a a) Fr2 Fa2) as [Fd Vd]; [apply (bd_big 58); [rewrite Rabs_pos_eq; lra|lia]|].
  set (D := f_sub (f_mul r r) (f_mul a a)) in *.
  assert (D0: 0 <= val D <= bpow radix2 58). { rewrite Vd. split; [rewrite <- rd_0|rewrite <- (rd_bpow 58) by lia]; apply rd_le; lra. }
  assert (DZ: val D = 0 \/ bpow radix2 (-74) <= val D).
  { destruct (Z.eq_dec k 0) as [K0|K0].
    - right. rewrite Vd. replace (val (f_mul a a)) with 0. 2: { rewrite Va2, (n_zero _ _ _ Na K0), Rmult_0_l. symmetry. apply rd_0. }
      rewrite Rminus_0_r, rd_val. eapply Rle_trans; [|exact XL]. apply bpow_le. lia.
    - assert (YL: bpow radix2 (-22) <= val (f_mul a a)).
      { rewrite Va2, <- (rd_bpow (-22)) by lia. apply rd_le. assert (G := near_ge p Hp _ _ Na K0).
        replace (val a * val a) with (Rabs (val a) * Rabs (val a)) by (rewrite <- Rabs_mult; apply Rabs_pos_eq, Rle_0_sqr).
        change (-22)%Z with (-11 + -11)%Z. rewrite bpow_plus. assert (P := bpow_ge_0 radix2 (-11)). apply Rmult_le_compat; lra. }
      destruct (format_multiple (val (f_mul r r)) (-22) (val_format _) ltac:(lia)) as [n1 E1]; [rewrite Rabs_pos_eq; lra|].
      destruct (format_multiple (val (f_mul a a)) (-22) (val_format _) ltac:(lia)) as [n2 E2]; [rewrite Rabs_pos_eq; lra|].
      change (-22 - 52)%Z with (-74)%Z in E1, E2. assert (P := bpow_gt_0 radix2 (-74)).
      assert (ED: val (f_mul r r) - val (f_mul a a) = IZR (n1 - n2) * bpow radix2 (-74)) by (rewrite E1, E2, minus_IZR; ring).
      assert (n2 <= n1)%Z. { apply le_IZR. apply Rmult_le_reg_r with (bpow radix2 (-74)); [exact P|]. rewrite <- E1, <- E2. exact LE. }
      rewrite Vd, ED. destruct (Z.eq_dec n1 n2) as [->|NE]; [left; rewrite Z.sub_diag, Rmult_0_l; apply rd_0|right].
      rewrite <- (rd_bpow (-74)) at 1 by lia. apply rd_le. assert (1 <= IZR (n1 - n2)) by (apply IZR_le; lia). nra. }
  destruct (nn_sqrt 29 D ltac:(lia) (conj Fd D0)) as (b & Eb & Nb & Vb).
  exists a, b. split; [exact E|]. split; [exact Eb|]. split; [exact (near_mid p Hp _ _ Na)|].
  assert (BL: val b = 0 \/ bpow radix2 (-37) <= val b).
  { rewrite Vb. destruct DZ as [->|L]; [left; rewrite sqrt_0; apply rd_0|right]. rewrite <- (rd_bpow (-37)) by lia. apply rd_le.
    rewrite <- (sqrt_square (bpow radix2 (-37))) by apply bpow_ge_0. apply sqrt_le_1_alt. rewrite <- bpow_plus. exact L. }
  destruct Nb as [Fb [Lb Ub]]. split.
  - split; [exact Fb|]. rewrite Rabs_pos_eq by exact Lb. split; [destruct BL as [Z|L]; [left; exact Z|right; eapply Rle_trans; [|exact L]; apply bpow_le; lia]|].
    eapply Rle_trans; [exact Ub|]. apply bpow_le. lia.
  - destruct (Z.eq_dec k 0) as [K0|K0]; [right|left; now apply (near_nz p Hp _ _ Na)].
    rewrite Vb, Vd. replace (val (f_mul a a)) with 0. 2: { rewrite Va2, (n_zero _ _ _ Na K0), Rmult_0_l. symmetry. apply rd_0. }
    rewrite Rminus_0_r, rd_val. intros Z. assert (X: bpow radix2 (-11) <= rd (sqrt (val (f_mul r r)))); [|rewrite Z in X; assert (P := bpow_gt_0 radix2 (-11)); lra].
    rewrite <- (rd_bpow (-11)) at 1 by lia. apply rd_le. rewrite <- (sqrt_square (bpow radix2 (-11))) by apply bpow_ge_0. apply sqrt_le_1_alt. rewrite <- bpow_plus. exact XL.
Qed.

Lemma last_moment : moment (f_mul (c_r_div_v g) (c_delta_angle g)).
Proof. destruct (nn_mul 64 6 _ _ ltac:(lia) r_div_v_nn delta_angle_nn) as [F [L _]]. split; assumption. Qed.
Lemma circular_a_ok i : (0 <= i <= c_iterations_a g)%Z -> exists d t, circular_a (N:=N) g i p = Ok (d, t) /\
  match t with None => True | Some x => (i < c_iterations_a g)%Z /\ moment x end.
Proof.
  intros Hi. unfold circular_a. destruct (Z.leb_spec (c_iterations_a g) i) as [L|L]; [eexists _, None; split; [reflexivity|exact I]|].
  pose proof (helper_side (c_start_a_pulses g) (i + 1) (c_radius_a_pulses g) (c_side_a g) (c_dir_a g)) as HS.
  destruct (circular_helper _ _ _ _ _) as [[ap dd] sd]. cbn [fst] in HS. injection HS as -> ->.
  destruct F_oc as [O1 O2 O3 O4]. destruct W as [O5 O6]. destruct F_whole as [Ra Rb]. destruct F_iter as [Ia Ib].
  cbn [div ofZ F64]. destruct (Z.eqb_spec (i + 1) (c_iterations_a g)) as [La|La].
  { destruct (F_div (h_pos (c_start_a_pulses g) (c_radius_a_pulses g) (c_dir_a g) (i + 1))) as [a ->]. cbn [rbind].
    eexists _, (Some _). split; [reflexivity|]. split; [exact L|]. apply last_moment. }
  destruct (chord_ok (h_pos (c_start_a_pulses g) (c_radius_a_pulses g) (c_dir_a g) (i + 1))) as (a & b & Ea & Eb & Ma & Mb & NZ).
  { destruct Ra as [Ra|Ra].
    - rewrite <- Ra. apply helper_bound; auto; [lia|]. destruct O3 as [O3|O3]; rewrite O3 in *; lia.
    - eapply Z.le_trans; [apply helper_bound1; auto; [lia|]; destruct O3 as [O3|O3]; rewrite O3 in *; lia|exact Ra]. }
  rewrite Ea. cbn [rbind].
  - destruct F_rad as [-> _]. cbn [sqrtn sub mul F64]. rewrite Eb. cbn [rbind].
    cbv zeta.
    destruct (find_time_ok a (if sd then Bopp b else b)) as (t & Et & Mt).
    + exact Ma.
    + destruct sd; [now apply mid_opp|exact Mb].
    + destruct NZ as [NZ|NZ]; [left; exact NZ|right]. destruct sd; [|exact NZ]. rewrite val_opp. lra.
    + match goal with |- context [circular_find_time ?gg ?x ?y] => replace (circular_find_time gg x y) with (Ok t : res N) by (symmetry; exact Et) end. cbn [rbind]. eexists _, (Some _). split; [reflexivity|]. split; [exact L|exact Mt].
Qed.
Lemma circular_b_ok i : (0 <= i <= c_iterations_b g)%Z -> exists d t, circular_b (N:=N) g i p = Ok (d, t) /\
  match t with None => True | Some x => (i < c_iterations_b g)%Z /\ moment x end.
Proof.
  intros Hi. unfold circular_b. destruct (Z.leb_spec (c_iterations_b g) i) as [L|L]; [eexists _, None; split; [reflexivity|exact I]|].
  pose proof (helper_side (c_start_b_pulses g) (i + 1) (c_radius_b_pulses g) (c_side_b g) (c_dir_b g)) as HS.
  destruct (circular_helper _ _ _ _ _) as [[ap dd] sd]. cbn [fst] in HS. injection HS as -> ->.
  destruct F_oc as [O1 O2 O3 O4]. destruct W as [O5 O6]. destruct F_whole as [Ra Rb]. destruct F_iter as [Ia Ib].
  cbn [div ofZ F64]. destruct (Z.eqb_spec (i + 1) (c_iterations_b g)) as [La|La].
  { destruct (F_div (h_pos (c_start_b_pulses g) (c_radius_b_pulses g) (c_dir_b g) (i + 1))) as [a ->]. cbn [rbind].
    eexists _, (Some _). split; [reflexivity|]. split; [exact L|]. apply last_moment. }
  destruct (chord_ok (h_pos (c_start_b_pulses g) (c_radius_b_pulses g) (c_dir_b g) (i + 1))) as (a & b & Ea & Eb & Ma & Mb & NZ).
  { destruct Rb as [Rb|Rb].
    - rewrite <- Rb. apply helper_bound; auto; [lia|]. destruct O4 as [O4|O4]; rewrite O4 in *; lia.
    - eapply Z.le_trans; [apply helper_bound1; auto; [lia|]; destruct O4 as [O4|O4]; rewrite O4 in *; lia|exact Rb]. }
  rewrite Ea. cbn [rbind].
  - destruct F_rad as [_ ->]. cbn [sqrtn sub mul F64]. rewrite Eb. cbn [rbind].
    cbv zeta.
    destruct (find_time_ok (if sd then Bopp b else b) a) as (t & Et & Mt).
    + destruct sd; [now apply mid_opp|exact Mb].
    + exact Ma.
    + destruct NZ as [NZ|NZ]; [right; exact NZ|left]. destruct sd; [|exact NZ]. rewrite val_opp. lra.
    + match goal with |- context [circular_find_time ?gg ?x ?y] => replace (circular_find_time gg x y) with (Ok t : res N) by (symmetry; exact Et) end. cbn [rbind]. eexists _, (Some _). split; [reflexivity|]. split; [exact L|exact Mt].
Qed.

(** The axes outside the plane. *)
Definition line_steps (total : f64) : Z := Z.max 0 (Zceil (val total)).
Lemma circular_linear_ok i (x w : f64) q : bd 40 x -> (0 < q <= 1000)%Z -> speed w -> (val x = 0 \/ val w <> 0) ->
  (0 <= i <= line_steps (f_mul (Babs x) (f_ofZ q)))%Z ->
  exists t, circular_linear (N:=N) i (f_mul (Babs x) (f_ofZ q)) q w = Ok t /\
  match t with None => True | Some y => (i < line_steps (f_mul (Babs x) (f_ofZ q)))%Z /\ moment y end.
Proof.
  intros Bx Hq [Nw Sw] NZ Hi. destruct (ofZ_nn 10 q ltac:(lia) ltac:(lia)) as [Nq Vq].
  assert (NT := nn_mul 40 10 _ _ ltac:(lia) (nn_abs 40 x Bx) Nq). set (tot := f_mul (Babs x) (f_ofZ q)) in *.
  assert (LS: (line_steps tot <= 2 ^ 50)%Z).
  { unfold line_steps. apply Z.max_lub; [lia|]. apply Zceil_glb. destruct NT as [_ [_ U]]. rewrite <- (IZR_Zpower radix2) in U by lia. exact U. }
  unfold circular_linear. cbn [leb ofZ F64 div]. destruct (ofZ_nn 50 i ltac:(lia) ltac:(lia)) as [Ni Vi].
  destruct (f_le tot (f_ofZ i)) eqn:L; [exists None; split; [reflexivity|exact I]|].
  apply f_le_false in L; [|apply NT|apply Ni]. rewrite Vi in L.
  assert (LT: (i < line_steps tot)%Z). { unfold line_steps. apply Z.lt_le_trans with (Zceil (val tot)); [|lia]. apply lt_IZR. eapply Rlt_le_trans; [exact L|]. apply Zceil_ub. }
  assert (W0: val w <> 0).
  { destruct NZ as [Z|NZ]; [|exact NZ]. exfalso. assert (T0: val tot = 0).
    { unfold tot. destruct (f_mul_val (Babs x) (f_ofZ q)) as [_ V]; [apply fin_abs, Bx|apply Nq| |].
      - rewrite val_abs, Z, Rabs_R0, Rmult_0_l, Rabs_R0. apply bpow_ge_0.
      - rewrite V, val_abs, Z, Rabs_R0, Rmult_0_l. apply rd_0. }
    rewrite T0 in L. assert (0 <= IZR i) by (apply (IZR_le 0); lia). lra. }
  destruct Sw as [Z|Sw]; [contradiction|].
  destruct (nn_div 50 0 (f_ofZ i) (f_ofZ q) ltac:(lia) Ni (proj1 Nq)) as (y & -> & Ny); [rewrite Vq; simpl; apply IZR_le; lia|]. cbn [rbind].
  destruct (nn_div (50 - 0) (-35) y w ltac:(lia) Ny (proj1 Nw) Sw) as (z & -> & Nz). cbn [rbind].
  eexists. split; [reflexivity|]. split; [exact LT|]. destruct Nz as [F [A _]]. split; assumption.
Qed.

Hypothesis H3 : val dc = 0 \/ val (c_velocity_3rd g) <> 0.
Hypothesis H4 : val de = 0 \/ val (c_e_velocity g) <> 0.
Hypothesis Pc : (0 < axis_c pl (ppm cfg) <= 1000)%Z.
Hypothesis Pe : (0 < qe (ppm cfg) <= 1000)%Z.

Theorem arc_completes : exists l, completes cfg (GCircular g) l.
Proof.
  destruct start_ok as (st & Est & Mst). destruct F_iter as [Ia Ib]. destruct profile_facts as [Nacc _].
  assert (KP := k_plane _ _ _ _ _ _ _ M).
  eapply (gen_completes cfg (GCircular g)
            (fun m => qat m (from_axes pl (c_iterations_a g) (c_iterations_b g) (line_steps (c_iterations_3rd g)) (line_steps (c_iterations_e g)))) moment (it_c st)).
  - intros x [F _]. cbn [ltb F64]. apply f_lt_false; auto. lra.
  - intros i Hi.
    assert (A := Hi (motor_a pl)). rewrite from_axes_a in A. assert (B := Hi (motor_b pl)). rewrite from_axes_b in B.
    assert (C := Hi (motor_c pl)). rewrite from_axes_c in C. assert (E := Hi ME). rewrite from_axes_e in E.
    destruct (circular_a_ok _ A) as (da & ta & Ea & Ta). destruct (circular_b_ok _ B) as (db & tb & Eb & Tb).
    assert (K3 := k_it3 _ _ _ _ _ _ _ M). fold dc in K3. assert (K4 := k_ite _ _ _ _ _ _ _ M). fold de in K4.
    cbn [mul absn ofZ F64] in K3, K4. rewrite K3 in C. rewrite K4 in E.
    assert (S3: speed (c_velocity_3rd g)) by (rewrite (k_vel3 _ _ _ _ _ _ _ M), qat_axis_c; apply vel_speeds).
    assert (S4: speed (c_e_velocity g)) by (rewrite (k_vele _ _ _ _ _ _ _ M); exact (vel_speeds ME)).
    destruct (circular_linear_ok _ dc _ _ (proj2 Mc) Pc S3 H3 C) as (tc & Ec & Tc).
    destruct (circular_linear_ok _ de _ _ (proj2 Me) Pe S4 H4 E) as (te & Ee & Te). cbn [qat] in Ee, Te.
    exists (from_axes pl da db (c_third_dir g) (c_e_dir g)), (from_axes pl ta tb tc te). split.
    + cbn [gen_interp]. unfold circular_interp. rewrite KP, !qat_axis_a, !qat_axis_b, <- (qat_axis_a pl (ppm cfg)), <- (qat_axis_b pl (ppm cfg)), Pa, Pb.
      rewrite Ea. cbn [rbind]. rewrite Eb. cbn [rbind]. rewrite K3, K4. rewrite (qat_axis_c pl i). rewrite Ec. cbn [rbind]. rewrite Ee. reflexivity.
    + intros m x Hx. destruct (motor_cases pl m) as [->|[->|[->| ->]]]; revert Hx; rewrite ?from_axes_a, ?from_axes_b, ?from_axes_c, ?from_axes_e; intros ->.
      * exact Ta.
      * exact Tb.
      * rewrite K3. exact Tc.
      * rewrite K4. exact Te.
  - intros x Mx. apply accel_ok; assumption.
  - exists st. split; [exact Est|reflexivity].
  - intros m. unfold line_steps. destruct (motor_cases pl m) as [->|[->|[->| ->]]]; rewrite ?from_axes_a, ?from_axes_b, ?from_axes_c, ?from_axes_e; lia.
Qed.
End End_.
