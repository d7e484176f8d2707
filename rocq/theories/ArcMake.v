(** What PulseGeneratorCircular.__init__ has computed when it returns: the values
    of its local variables and the equations between them. Over any numbers. *)
From Coq Require Import ZArith Bool List Lia.
From Verif Require Import PyBase PyNum Config Coordinates Pulses PulseSpec LinearGen ArcSpec ArcRun.
From Coq Require Import List.
Import ListNotations.

Section Make.
Context {N : PyNum}.
Local Open Scope num_scope.
Variable cfg : config.
Variables (delta radius : quad N) (pl : plane) (rot : rotation) (v : N).

Notation apm := (axis_a pl (ppm cfg)).
Notation bpm := (axis_b pl (ppm cfg)).
Notation mpm := (Z.min apm bpm).
Notation sa := (- axis_a pl radius).
Notation sb := (- axis_b pl radius).
Notation ea := (sa + axis_a pl delta).
Notation eb := (sb + axis_b pl delta).
Notation dc := (axis_c pl delta).
Notation de := (qe delta).

(** Iterations before the choice of the direction, pulses.py:440-474. *)
Definition base_iterations (qs qe' rra rrb : Z) : res (Z * Z) :=
  if (qs =? qe')%Z then
    do! ia <- rnd (absn (sa - ea) * ofZ apm);
    do! ib <- rnd (absn (sb - eb) * ofZ bpm);
    Ok (ia, ib)
  else
    do! rsa <- rnd (absn sa * ofZ apm);
    do! rsb <- rnd (absn sb * ofZ bpm);
    do! rea <- rnd (absn ea * ofZ apm);
    do! reb <- rnd (absn eb * ofZ bpm);
    Ok (quarter_iterations qs qe' rra rrb rsa rsb rea reb).

Record made (g : circular_gen N) : Type := {
  k_velocity : N; k_velocity_eq : div v sixty = Ok k_velocity;
  k_h : N; k_h_eq : sqrtn (sa * sa + sb * sb) = Ok k_h;
  k_rm : Z; k_rm_eq : rnd (k_h * ofZ mpm) = Ok k_rm;
  k_r : N; k_r_eq : div (ofZ k_rm) (ofZ mpm) = Ok k_r;
  k_ra : Z; k_ra_eq : rnd (k_h * ofZ apm) = Ok k_ra;
  k_radius_a : N; k_radius_a_eq : div (ofZ k_ra) (ofZ apm) = Ok k_radius_a;
  k_rb : Z; k_rb_eq : rnd (k_h * ofZ bpm) = Ok k_rb;
  k_radius_b : N; k_radius_b_eq : div (ofZ k_rb) (ofZ bpm) = Ok k_radius_b;
  k_Ra_eq : trunc (k_r * ofZ apm) = Ok (c_radius_a_pulses g);
  k_Rb_eq : trunc (k_r * ofZ bpm) = Ok (c_radius_b_pulses g);
  k_Sa_eq : trunc (sa * ofZ apm) = Ok (c_start_a_pulses g);
  k_Sb_eq : trunc (sb * ofZ bpm) = Ok (c_start_b_pulses g);
  k_he : N; k_he_eq : sqrtn (ea * ea + eb * eb) = Ok k_he;
  k_rme : Z; k_rme_eq : rnd (k_he * ofZ mpm) = Ok k_rme;
  k_re : N; k_re_eq : div (ofZ k_rme) (ofZ mpm) = Ok k_re;
  k_end_ok : (k_re =? k_r) = true;
  k_start_eq : angle_of sa sb = Ok (c_start_angle g);
  k_end : N; k_end_eq : angle_of ea eb = Ok k_end;
  k_da : N; k_da_eq : k_da =
    (let da := k_end - c_start_angle g in
     let da := if (da <? zero) || ((da =? zero) && match rot with CW => true | CCW => false end)
               then da + two * pin else da in
     match rot with CCW => da - two * pin | CW => da end);
  k_delta_angle : c_delta_angle g = absn k_da;
  k_half : N; k_half_eq : div pin two = Ok k_half;
  k_threehalf : N; k_threehalf_eq : div (ofZ 3 * pin) two = Ok k_threehalf;
  k_dirs : (c_dir_a g, c_dir_b g) = start_dirs rot (c_start_angle g) k_half k_threehalf;
  k_endm : N; k_endm_eq : k_endm = if k_end <=? c_start_angle g then k_end + two * pin else k_end;
  k_qs_ : N; k_qs_eq : div (c_start_angle g) k_half = Ok k_qs_;
  k_qs : Z; k_qs_tr : trunc k_qs_ = Ok k_qs;
  k_qe_ : N; k_qe_eq : div k_endm k_half = Ok k_qe_;
  k_qe : Z; k_qe_tr : trunc k_qe_ = Ok k_qe;
  k_rra : Z; k_rra_eq : rnd (k_r * ofZ apm) = Ok k_rra;
  k_rrb : Z; k_rrb_eq : rnd (k_r * ofZ bpm) = Ok k_rrb;
  k_iter : if (4 <=? k_qe - k_qs)%Z
           then c_iterations_a g = (4 * k_rra)%Z /\ c_iterations_b g = (4 * k_rrb)%Z
           else exists ia ib, base_iterations k_qs k_qe k_rra k_rrb = Ok (ia, ib) /\
                  match rot with
                  | CW => c_iterations_a g = ia /\ c_iterations_b g = ib
                  | CCW => c_iterations_a g = (4 * k_rra - ia)%Z /\ c_iterations_b g = (4 * k_rrb - ib)%Z
                  end;
  k_arc : N; k_arc_eq : k_arc = c_delta_angle g * k_r;
  k_length : N; k_length_eq : sqrtn (k_arc * k_arc + dc * dc + de * de) = Ok k_length;
  k_flz : bool; k_flz_eq : k_flz = (k_length =? zero);
  k_v3 : N; k_v3_eq : (if k_flz then Ok k_velocity else do! q <- div (absn dc) k_length; Ok (q * k_velocity)) = Ok k_v3;
  k_cv : N; k_cv_eq : (if k_flz then Ok k_velocity else do! q <- div k_arc k_length; Ok (q * k_velocity)) = Ok k_cv;
  k_ev : N; k_ev_eq : (if k_flz then Ok k_velocity else do! q <- div (absn de) k_length; Ok (q * k_velocity)) = Ok k_ev;
  k_vel : quad N;
  k_vel_eq : adjust_velocity cfg (qmap rnd10 (from_axes pl k_cv k_cv k_v3 k_ev)) = Ok k_vel;
  k_rdv_eq : div k_r (pmin (axis_a pl k_vel) (axis_b pl k_vel)) = Ok (c_r_div_v g);
  k_acc0 : N; k_acc0_eq : div (find_max k_vel) (accel cfg) = Ok k_acc0;
  k_profile :
    (if k_flz then Ok (k_acc0, zero, coords0)
     else
     do! acc2 <- sqr k_acc0;
     if k_length <? accel cfg * acc2 then
       do! q <- div k_length (accel cfg);
       do! acc <- sqrtn q;
       do! w <- div k_length acc;
       Ok (acc, zero, qmap (fun x => if zero <? x then w else x) k_vel)
     else
       do! cv2 <- sqr (pmin (axis_a pl k_vel) (axis_b pl k_vel));
       do! tv2 <- sqr (axis_c pl k_vel);
       do! ev2 <- sqr (qe k_vel);
       do! s <- sqrtn (cv2 + tv2 + ev2);
       do! lin <- div (k_length - acc2 * accel cfg) s;
       Ok (k_acc0, lin, k_vel)) = Ok (c_acc g, c_lin g, c_vel g);
  k_plane : c_plane g = pl;
  k_rot : c_rot g = rot;
  k_ra2 : c_radius_a2 g = k_radius_a * k_radius_a;
  k_rb2 : c_radius_b2 g = k_radius_b * k_radius_b;
  k_it3 : c_iterations_3rd g = absn dc * ofZ (axis_c pl (ppm cfg));
  k_ite : c_iterations_e g = absn de * ofZ (qe (ppm cfg));
  k_vel3 : c_velocity_3rd g = axis_c pl k_vel;
  k_vele : c_e_velocity g = qe k_vel;
  k_dir3 : c_third_dir g = copysign1 dc;
  k_dire : c_e_dir g = copysign1 de;
  k_delta : c_delta g = delta;
  k_side_a : c_side_a g = ((c_start_b_pulses g <? 0)%Z || ((c_start_b_pulses g =? 0)%Z && (c_dir_b g <? 0)%Z));
  k_side_b : c_side_b g = ((c_start_a_pulses g <? 0)%Z || ((c_start_a_pulses g =? 0)%Z && (c_dir_a g <? 0)%Z))
}.

Lemma rbind_ok {A B} (m : res A) (f : A -> res B) b : rbind m f = Ok b -> {a | m = Ok a /\ f a = Ok b}.
Proof. destruct m as [a|]; [|discriminate]. intros H. exists a. auto. Qed.
Lemma guard_ok b e u : guard b e = Ok u -> b = true.
Proof. unfold guard. now destruct b. Qed.

Lemma make_circular_made g : make_circular cfg delta radius pl rot v = Ok g -> made g.
Proof.
  unfold make_circular. intros H.
  repeat (apply rbind_ok in H; let x := fresh "x" in let E := fresh "E" in destruct H as (x & E & H);
          try (apply guard_ok in E)).
  destruct (start_dirs rot x15 x17 x18) as [dir_a dir_b] eqn:ED.
  repeat (apply rbind_ok in H; let x := fresh "y" in let E := fresh "F" in destruct H as (x & E & H)).
  destruct y5 as [iter_a iter_b].
  repeat (apply rbind_ok in H; let x := fresh "z" in let E := fresh "G" in destruct H as (x & E & H)).
  destruct z6 as [[acc lin] vel].
  injection H as H. subst g.
  assert (ITER: if (4 <=? y2 - y0)%Z
           then iter_a = (4 * y3)%Z /\ iter_b = (4 * y4)%Z
           else exists ia ib, base_iterations y0 y2 y3 y4 = Ok (ia, ib) /\
                  match rot with
                  | CW => iter_a = ia /\ iter_b = ib
                  | CCW => iter_a = (4 * y3 - ia)%Z /\ iter_b = (4 * y4 - ib)%Z
                  end).
  { destruct (4 <=? y2 - y0)%Z; [injection F5 as <- <-; auto|]. fold (base_iterations y0 y2 y3 y4) in F5.
    destruct (base_iterations y0 y2 y3 y4) as [[ia ib]|]; cbn [rbind] in F5; [|discriminate]. exists ia, ib. split; [reflexivity|].
    destruct rot; injection F5 as <- <-; auto. }
  match goal with |- made ?gg => exact (Build_made gg x E x0 E0 x1 E1 x2 E2 x3 E3 x4 E4 x5 E5 x6 E6 E7 E8 E9 E10 x11 E11 x12 E12 x13 E13 E14 E15 x16 E16
           _ eq_refl eq_refl x17 E17 x18 E18 (eq_sym ED) _ eq_refl y F y0 F0 y1 F1 y2 F2 y3 F3 y4 F4 ITER
           _ eq_refl z G _ eq_refl z0 G0 z1 G1 z2 G2 z3 G3 G4 z5 G5 G6
           eq_refl eq_refl eq_refl eq_refl eq_refl eq_refl eq_refl eq_refl eq_refl eq_refl eq_refl eq_refl eq_refl) end.
Qed.
End Make.
