(** Arcs performed by the machine: what is known about the circular generators
    handed to the motors. *)
From Coq Require Import String Ascii ZArith Bool Reals Lra Lia List.
From Flocq Require Import Core BinarySingleNaN.
From Verif Require Import PyBase PyNum PyFloatFacts Config Coordinates Pulses PulseSpec GCode GCodeSpec WordFacts GMachine GMachineProofs MachineFacts MachineRel MachineHist MachineFloat Decimal MachinePos MachineArc LinearGen ArcSpec ArcRun ArcMake ArcFloat ArcGrid ArcDone ArcEnd.
From Coq Require Import List.
From Flocq Require Import Core.
Import ListNotations.
Local Open Scope R_scope.

Section Any.
Context {N : PyNum}.
Variable cfg : config.

(** Only the arc commands hand circular generators to the motors. *)
Definition no_circular (m : machine N) (es : list (event N)) (m' : machine N) : Prop :=
  forall g, ~ In (EMove (GCircular g)) es.
Lemma nc_refl m : no_circular m [] m. Proof. intros g []. Qed.
Lemma nc_trans m1 e1 m2 e2 m3 : no_circular m1 e1 m2 -> no_circular m2 e2 m3 -> no_circular m1 (e1 ++ e2) m3.
Proof. intros H1 H2 g H. apply in_app_or in H. destruct H as [H|H]; [exact (H1 g H)|exact (H2 g H)]. Qed.
Ltac nc_side := let g := fresh in let H := fresh in intros g H; simpl in H; repeat destruct H as [H|H]; try discriminate; contradiction.
Lemma nc_linear hw d v : linear_steps cfg hw no_circular d v.
Proof. intros m d' g Hd Hz Hb Hg Hf. split; [|intros _]; nc_side. Qed.
Ltac exec_rel Hr Ht side :=
  unfold spindle, fan, heat;
  repeat first
    [ apply rel_lift; exact Hr | apply rel_ret; exact Hr | apply rel_throw; exact Hr
    | apply rel_gets; exact Hr | apply rel_fail_if; exact Hr
    | apply rel_move_linear; [exact Hr|]
    | apply rel_safe_zero; [exact Hr|exact Ht|]
    | apply rel_call; intros ? | apply rel_measure; intros ? | apply rel_measure_opt; intros ?
    | apply rel_modify; intros ?
    | apply rel_bind; [exact Ht| |intros ?]
    | match goal with |- rel _ (match ?x with _ => _ end) => destruct x end ];
  try side.
Lemma nc_exec hw g c d rr v : is_arc c = false -> rel no_circular (exec_cmd cfg hw g c d rr v).
Proof.
  intros Ha. destruct c; try discriminate Ha; simpl;
    exec_rel nc_refl nc_trans ltac:(nc_side); try apply nc_linear; try apply nc_refl; try exact nc_refl.
  all: intros; apply nc_linear.
Qed.

Lemma arc_of_exec hw rot delta radius v m l0 m1 l1 r g :
  move_circular (N:=N) cfg hw delta radius v rot m l0 = (m1, l1, r) -> In (EMove (GCircular g)) l1 -> ~ In (EMove (GCircular g)) l0 ->
  exists ce ld lg, circular_ok (N:=N) cfg delta radius v rot m ce ld g lg.
Proof.
  intros H Hin Hl. assert (K: forall g' lg, In (EMove (GCircular g)) (arc_events g' lg) -> g = g').
  { intros g' lg [E|E]; [now injection E|]. destruct lg; [destruct E as [E|[]]; discriminate E|destruct E]. }
  apply move_circular_inv in H. destruct H.
  - apply in_app_or in Hin. destruct Hin as [Hin|Hin]; [contradiction|]. apply K in Hin. subst g0. eauto.
  - apply in_app_or in Hin. destruct Hin as [Hin|Hin]; [contradiction|]. assert (Hin2: In (EMove (GCircular g)) (arc_events g0 lg)).
    { rewrite H0. apply in_app_or in Hin. apply in_or_app. destruct Hin as [Hin|[Hin|[]]]; [now left|right; now left]. }
    apply K in Hin2. subst g0. eauto.
  - contradiction.
Qed.
(** Every circular generator handed over by a command comes from a checked arc. *)
Lemma arc_of_command hw gc m m' es r g : run_command cfg hw (Some gc) m = (m', es, r) -> In (EMove (GCircular g)) es ->
  exists delta radius v rot ce ld lg, command_delta gc m = Ok delta /\ get (N:=N) gc "F" (m_velocity m) (ofZ 1) = Ok v /\
    get_radius gc coords0 (m_convert m) = Ok radius /\ ltb v (ofZ (min_velocity_min cfg)) = false /\
    circular_ok cfg delta radius v rot m ce ld g lg /\
    effective_command gc = Some (tx (match rot with CW => "G2" | CCW => "G3" end)).
Proof.
  intros H Hin. unfold run_command in H. apply do_command_inv in H. destruct H as [e|delta v radius Hd Hvel Hr Hmin He|delta v radius t' c m1 l1 r Hd Hvel Hr Hmin He Ha Hx]; try contradiction Hin.
  destruct (is_arc c) eqn:A.
  - exists delta, radius, v. destruct c; try discriminate A; cbn [exec_cmd] in Hx.
    + exists CW. destruct (arc_of_exec _ _ _ _ _ _ _ _ _ _ _ Hx Hin (fun x => x)) as (ce & ld & lg & K). exists ce, ld, lg. repeat (split; [assumption|]).
      rewrite He. f_equal. apply assoc_text_In in Ha. unfold command_table in Ha. cbn [map fst snd In] in Ha.
      repeat destruct Ha as [Ha|Ha]; try contradiction; try discriminate Ha. now injection Ha.
    + exists CCW. destruct (arc_of_exec _ _ _ _ _ _ _ _ _ _ _ Hx Hin (fun x => x)) as (ce & ld & lg & K). exists ce, ld, lg. repeat (split; [assumption|]).
      rewrite He. f_equal. apply assoc_text_In in Ha. unfold command_table in Ha. cbn [map fst snd In] in Ha.
      repeat destruct Ha as [Ha|Ha]; try contradiction; try discriminate Ha. now injection Ha.
  - apply (nc_exec _ _ _ _ _ _ A) in Hx. destruct Hx as (es & -> & K). exfalso. exact (K g Hin).
Qed.
End Any.

Section Float.
Variable acos : f64 -> f64.
Notation N := (F64 acos).
Variable cfg : config.
Hypothesis Hcfg : good_cfg cfg.
Notation p a := (ax a (ppm cfg)).
Notation acfg := (acfg cfg Hcfg).
Notation at_step := (at_step acos cfg).
Notation on_table := (on_table acos cfg).

Definition pc_ (pl : plane) : axis := match pl with PlaneXY => AZ | PlaneYZ => AX | PlaneZX => AY end.
Lemma axis_c_ax {A} pl (q : quad A) : axis_c pl q = ax (pc_ pl) q. Proof. now destruct pl. Qed.

(** Displacement and radius vector of an accepted arc, in steps. *)
Lemma arc_on_grid delta radius v rot m ce ld g lg :
  on_table m -> bdq acos 14 radius -> circular_ok cfg delta radius v rot m ce ld g lg ->
  exists rr, make_circular cfg ce rr (m_plane m) rot v = Ok g /\ round_to_grid cfg radius = Ok rr /\
    (forall a, exists i, dec (i * step (p a)) (ax a rr) /\ (Z.abs i <= 16384 * p a)%Z) /\
    (forall a, exists i, dec (i * step (p a)) (ax a ce) /\ (Z.abs i <= 65536 * p a)%Z) /\
    exists x, round_to_grid cfg x = Ok ce.
Proof.
  intros Hm Hrad [d rr ea eb Hd Hrr Hbox Had Hce Hg Hf Hld Hlg].
  assert (Hj: forall a n, at_step m a n -> exists j, dec (j * step (p a)) (ax a d) /\ (Z.abs j <= 4096 * p a)%Z).
  { intros a n Hn. destruct (linear_axis acos cfg Hcfg m delta d a n Hn Hd Hbox) as (j & Dj & _ & Hm').
    exists j. split; [exact Dj|].
    destruct Hn as [_ I1], Hm' as [_ I2]. unfold inside in I1, I2. destruct (acfg a) as (H1 & _ & H2). assert (table cfg a * p a <= 4096 * p a)%Z by (apply Z.mul_le_mono_nonneg_r; lia). lia. }
  assert (Hrr2: forall a, exists i, dec (i * step (p a)) (ax a rr) /\ (Z.abs i <= 16384 * p a)%Z).
  { intros a0. apply (round_small acos cfg Hcfg 14 radius); auto; lia. }
  exists rr. split; [exact Hg|]. split; [exact Hrr|]. split; [exact Hrr2|]. split; [|eexists; exact Hce].
  intros a. apply (round_small acos cfg Hcfg 16 _ ce a ltac:(lia) Hce).
  assert (Hd15: forall a, bd 12 (ax a d)).
  { intros a0. destruct (Hm a0) as (n0 & Hn0). destruct (Hj a0 n0 Hn0) as (j0 & Dj0 & Sj0).
    eapply (step_bd cfg Hcfg); eauto; lia. }
  assert (Hab: bd 16 ea /\ bd 16 eb).
  { rewrite !axis_a_ax, !axis_b_ax in Had.
    destruct (Hm (pa_ (m_plane m))) as (n0 & Hn0). destruct (Hj _ n0 Hn0) as (j0 & Dj0 & Sj0).
    destruct (Hrr2 (pa_ (m_plane m))) as (i0 & Di0 & Si0).
    assert (Hr14: forall a, bd 14 (ax a rr)).
    { intros a0. destruct (Hrr2 a0) as (i1 & Di1 & Si1). eapply (step_bd cfg Hcfg); eauto; lia. }
    eapply (adjust_bound acos _ _ _ _ _ _ _ _ _ _ _ (j0 * step (p (pa_ (m_plane m)))) (i0 * step (p (pa_ (m_plane m)))));
      try exact Had; auto.
    - apply (step_small (p (pa_ (m_plane m))) (proj1 (acfg _))); [exact (step_mul _ _ (acfg (pa_ (m_plane m))))|destruct (acfg (pa_ (m_plane m))); lia].
    - apply (step_small (p (pa_ (m_plane m))) (proj1 (acfg _))); [exact (step_mul _ _ (acfg (pa_ (m_plane m))))|destruct (acfg (pa_ (m_plane m))); lia].
    - eapply bd_weak; [apply Hd15|lia].
    - eapply bd_weak; [apply Hd15|lia]. }
  destruct Hab as [Ha Hb].
  assert (Hc: bd 16 (axis_c (m_plane m) d)) by (rewrite axis_c_ax; eapply bd_weak; [apply Hd15|lia]).
  destruct a, (m_plane m); cbn [from_axes ax qx qy qz]; assumption.
Qed.

(** Feed: words F up to a million. *)
Definition calm (gc : option gcode) : Prop :=
  small_radius gc /\ match gc with None => True | Some g => words_at_most ["F"%char] 1000000 g end.
Definition feeds_cfg : Prop :=
  (0 <= min_velocity_min cfg <= quad_min (max_velocity_min cfg))%Z /\ (quad_min (max_velocity_min cfg) <= 2 ^ 53)%Z.

Lemma feed_word g (m : machine N) (v : f64) : feeds_cfg -> words_at_most ["F"%char] 1000000 g -> nn 60 (m_velocity m) ->
  get (N:=N) g "F" (m_velocity m) (f_ofZ 1) = Ok v -> f_lt v (f_ofZ (min_velocity_min cfg)) = false -> nn 60 v.
Proof.
  intros [[C1 C2] C3] Hw Hm Hg Hf.
  assert (U: units_ok acos (set_convert m (f_ofZ 1))) by (left; reflexivity).
  apply (get_scaled acos ["F"%char] 1000000 g "F"%char _ _ (set_convert m (f_ofZ 1)) ltac:(lia) Hw ltac:(now left) U) in Hg.
  destruct Hg as [(_ & ->)|[F B]]; [exact Hm|]. split; [exact F|].
  destruct (f_ofZ_val (min_velocity_min cfg)) as [Fm Vm]; [lia|].
  assert (~ val v < val (f_ofZ (min_velocity_min cfg))). { intros K. assert (f_lt v (f_ofZ (min_velocity_min cfg)) = true) by (apply f_lt_true; auto). congruence. }
  assert (0 <= IZR (min_velocity_min cfg)) by (apply IZR_le; lia). apply Rabs_le_inv in B.
  assert (L: IZR (1000000 * 26) <= bpow radix2 60). { apply Rle_trans with (IZR (2 ^ 60)); [apply IZR_le; lia|]. rewrite <- (IZR_Zpower radix2) by lia. apply Rle_refl. }
  lra.
Qed.
Lemma history_feed (P : hw_oracle N -> option gcode -> Prop) m es : feeds_cfg -> (forall hw gc, P hw gc -> calm gc) ->
  history_where (N:=N) P cfg m es -> nn 60 (m_velocity m).
Proof.
  intros Hc HP H. induction H as [|m es hw gc m' es' r H IH Hgc Hr].
  - destruct Hc as [[C1 C2] C3]. unfold init_machine, reset. cbn [m_velocity F64 ofZ].
    destruct (f_ofZ_val (quad_min (max_velocity_min cfg))) as [F V]; [lia|]. split; [exact F|]. rewrite V. split; [apply IZR_le; lia|].
    apply Rle_trans with (IZR (2 ^ 60)); [apply IZR_le; lia|]. rewrite <- (IZR_Zpower radix2) by lia. apply Rle_refl.
  - apply HP in Hgc. destruct Hgc as [_ Hw]. destruct gc as [g|]; [|rewrite no_command_line in Hr; injection Hr as <- _ _; exact IH].
    destruct r as [[]|e].
    + apply feed_after_success in Hr. destruct Hr as (v & Hg & -> & Hlt). eapply feed_word; eauto.
    + apply feed_after_failure in Hr. now rewrite Hr.
Qed.

(** A rounded displacement of the extruder. *)
Lemma rnd10_fin y : fin (f_rnd10 y) -> fin y.
Proof. unfold fin. destruct y; intros H; try reflexivity; exact H. Qed.
Lemma rnd10_mid y : bd 40 (f_rnd10 y) -> mid (f_rnd10 y).
Proof.
  intros [F B]. assert (Fy := rnd10_fin y F). destruct (f_rnd10_val y Fy) as (_ & V & _).
  split; [exact F|]. split; [|eapply Rle_trans; [exact B|apply bpow_le; lia]].
  set (k := dec10 (val y)) in *. destruct (Z.eq_dec k 0) as [K|K].
  - left. rewrite V, K. unfold Rdiv. rewrite Rmult_0_l. apply rd_0.
  - right. rewrite V. apply Rle_trans with (bpow radix2 (-34)); [apply bpow_le; lia|].
    rewrite <- rd_abs, <- (rd_bpow (-34)) by lia. apply rd_le.
    unfold Rdiv. rewrite Rabs_mult, <- abs_IZR, (Rabs_pos_eq (/ e10)) by (unfold e10; lra).
    assert (1 <= IZR (Z.abs k)) by (apply IZR_le; lia).
    change (bpow radix2 (-34)) with (/ 17179869184). assert (/ 17179869184 <= / e10) by (unfold e10; lra). assert (0 < / e10) by (unfold e10; lra). apply Rle_trans with (1 * / e10); [lra|]. apply Rmult_le_compat_r; lra.
Qed.
Lemma round_e x ce : round_to_grid (N:=N) cfg x = Ok ce -> bd 40 (qe ce) -> mid (qe ce).
Proof.
  intros H. unfold round_to_grid in H. destruct (grid cfg) as [b|]; cbn [rbind] in H; [|discriminate].
  unfold Coordinates.round in H.
  repeat (apply rbind_ok in H; let y := fresh "y" in let E := fresh "E" in destruct H as (y & E & H)).
  injection H as <-. apply rnd10_mid.
Qed.

(** What the theorems below need to know about an arc handed to the motors. *)
Record arc_facts (g : circular_gen N) : Type := {
  af_radius : quad N; af_rot : rotation; af_v : N;
  af_made : made cfg (c_delta g) af_radius (c_plane g) af_rot af_v g;
  af_v_ok : nn 60 af_v;
  af_ka : Z; af_kb : Z; af_ja : Z; af_jb : Z; af_jc : Z;
  af_Dka : dec (af_ka * step (axis_a (c_plane g) (ppm cfg))) (axis_a (c_plane g) af_radius);
  af_Dkb : dec (af_kb * step (axis_b (c_plane g) (ppm cfg))) (axis_b (c_plane g) af_radius);
  af_Dja : dec (af_ja * step (axis_a (c_plane g) (ppm cfg))) (axis_a (c_plane g) (c_delta g));
  af_Djb : dec (af_jb * step (axis_b (c_plane g) (ppm cfg))) (axis_b (c_plane g) (c_delta g));
  af_Djc : dec (af_jc * step (axis_c (c_plane g) (ppm cfg))) (axis_c (c_plane g) (c_delta g));
  af_Ska : (Z.abs af_ka <= 16384 * axis_a (c_plane g) (ppm cfg))%Z;
  af_Skb : (Z.abs af_kb <= 16384 * axis_b (c_plane g) (ppm cfg))%Z;
  af_Sja : (Z.abs af_ja <= 65536 * axis_a (c_plane g) (ppm cfg))%Z;
  af_Sjb : (Z.abs af_jb <= 65536 * axis_b (c_plane g) (ppm cfg))%Z;
  af_Sjc : (Z.abs af_jc <= 65536 * axis_c (c_plane g) (ppm cfg))%Z;
  af_e : bd 40 (qe (c_delta g)) -> mid (qe (c_delta g));
  af_make : make_circular cfg (c_delta g) af_radius (c_plane g) af_rot af_v = Ok g
}.

(** Every arc of a history of calm commands has these facts. *)
Lemma arc_of_history (P : hw_oracle N -> option gcode -> Prop) m es hw gc m' es' r g :
  feeds_cfg -> (forall hw gc, P hw gc -> calm gc) -> history_where P cfg m es -> calm (Some gc) ->
  run_command cfg hw (Some gc) m = (m', es', r) -> In (EMove (GCircular g)) es' -> inhabited (arc_facts g).
Proof.
  intros Hc HP H Hgc Hr Hin. assert (U := history_units acos cfg _ _ _ H).
  assert (T := history_on_table acos cfg Hcfg P m es (fun hw gc K => proj1 (HP hw gc K)) H).
  assert (V := history_feed P m es Hc HP H).
  destruct (arc_of_command cfg _ _ _ _ _ _ _ Hr Hin) as (delta & radius & v & rot & ce & ld & lg & _ & Ev & Er & Ef & Hok & He).
  destruct Hgc as [Hrad Hf].
  assert (Hb: bdq acos 14 radius).
  { destruct Hrad as [Hn|Hw]; [|exact (radius_bound acos _ _ _ Hw U Er)]. exfalso. destruct Hn as [N2 N3]. destruct rot; tauto. }
  destruct (arc_on_grid delta radius v rot m ce ld g lg T Hb Hok) as (rr & Hg & _ & Hrr & Hce & x & Hx).
  assert (M := make_circular_made _ _ _ _ _ _ _ Hg). assert (Kd := k_delta _ _ _ _ _ _ _ M). assert (Kp := k_plane _ _ _ _ _ _ _ M).
  rewrite <- Kd in *. rewrite <- Kp in *.
  destruct (Hrr (pa_ (c_plane g))) as (ka & Dka & Ska). destruct (Hrr (pb_ (c_plane g))) as (kb & Dkb & Skb).
  destruct (Hce (pa_ (c_plane g))) as (ja & Dja & Sja). destruct (Hce (pb_ (c_plane g))) as (jb & Djb & Sjb).
  destruct (Hce (pc_ (c_plane g))) as (jc & Djc & Sjc).
  rewrite <- (axis_a_ax _ (ppm cfg)) in Dka, Ska, Dja, Sja. rewrite <- (axis_b_ax _ (ppm cfg)) in Dkb, Skb, Djb, Sjb. rewrite <- (axis_c_ax _ (ppm cfg)) in Djc, Sjc.
  rewrite <- (axis_a_ax (A:=N)) in Dka, Dja. rewrite <- (axis_b_ax (A:=N)) in Dkb, Djb. rewrite <- (axis_c_ax (A:=N)) in Djc.
  constructor. apply (Build_arc_facts g rr rot v M (feed_word gc m v Hc Hf V Ev Ef) ka kb ja jb jc); try assumption. exact (round_e x _ Hx).
Qed.

Lemma axis_a_cfg pl : exists t, axis_cfg (axis_a pl (ppm cfg)) t.
Proof. rewrite axis_a_ax. eexists. apply acfg. Qed.
Lemma axis_c_cfg pl : exists t, axis_cfg (axis_c pl (ppm cfg)) t.
Proof. rewrite axis_c_ax. eexists. apply acfg. Qed.

(** Arcs with the same number of steps per mm on both axes of the plane. *)
Lemma arc_facts_starts g : arc_facts g ->
  axis_a (c_plane g) (ppm cfg) = axis_b (c_plane g) (ppm cfg) -> starts_inside g.
Proof.
  intros [rr rot v M V ka kb ja jb jc Dka Dkb Dja Djb Djc Ska Skb Sja Sjb Sjc Me Mk] E.
  destruct (axis_a_cfg (c_plane g)) as (t & A). assert (Hs := step_mul _ _ A). destruct A as (A & _ & _).
  rewrite <- E in Dkb, Djb, Skb, Sjb.
  apply (arc_starts_inside acos cfg (c_delta g) rr (c_plane g) rot v g _ _ A Hs eq_refl (eq_sym E) ka kb ja jb); try assumption; lia.
Qed.
Lemma arc_facts_on_circle g : arc_facts g ->
  axis_a (c_plane g) (ppm cfg) = axis_b (c_plane g) (ppm cfg) -> room g -> on_circle g.
Proof.
  intros [rr rot v M V ka kb ja jb jc Dka Dkb Dja Djb Djc Ska Skb Sja Sjb Sjc Me Mk] E R.
  destruct (axis_a_cfg (c_plane g)) as (t & A). assert (Hs := step_mul _ _ A). destruct A as (A & _ & _).
  rewrite <- E in Dkb, Djb, Skb, Sjb.
  apply (arc_on_circle acos cfg (c_delta g) rr (c_plane g) rot v g _ _ A Hs eq_refl (eq_sym E) ka kb ja jb); try assumption; lia.
Qed.
Lemma arc_facts_room g n : arc_facts g ->
  axis_a (c_plane g) (ppm cfg) = axis_b (c_plane g) (ppm cfg) -> (0 <= n)%Z -> axis_a (c_plane g) (ppm cfg) = (2 ^ n)%Z -> room g.
Proof.
  intros [rr rot v M V ka kb ja jb jc Dka Dkb Dja Djb Djc Ska Skb Sja Sjb Sjc Me Mk] E Hn Ep.
  destruct (axis_a_cfg (c_plane g)) as (t & A). assert (Hs := step_mul _ _ A). destruct A as (A & _ & _).
  rewrite <- E in Dkb, Djb, Skb, Sjb.
  assert (W := pow2_whole acos cfg (c_delta g) rr (c_plane g) rot v g _ _ A Hs eq_refl (eq_sym E) ka kb ja jb Dka Dkb ltac:(lia) ltac:(lia) Sja Sjb M n Hn Ep).
  apply (whole_room acos cfg (c_delta g) rr (c_plane g) rot v g _ _ A Hs eq_refl (eq_sym E) ka kb ja jb) with M; try assumption; lia.
Qed.
Lemma arc_facts_completes g : good_acos acos ->
  (forall m, (0 <= qat m (max_velocity_min cfg) <= 2 ^ 53)%Z) -> (1 <= max_acceleration cfg <= 2 ^ 53)%Z -> arc_facts g ->
  axis_a (c_plane g) (ppm cfg) = axis_b (c_plane g) (ppm cfg) -> room_within 2 g ->
  bd 40 (qe (c_delta g)) ->
  (val (axis_c (c_plane g) (c_delta g)) = 0 \/ val (c_velocity_3rd g) <> 0) ->
  (val (qe (c_delta g)) = 0 \/ val (c_e_velocity g) <> 0) ->
  exists l, completes cfg (GCircular g) l.
Proof.
  intros Ha Hmax Hacc [rr rot v M V ka kb ja jb jc Dka Dkb Dja Djb Djc Ska Skb Sja Sjb Sjc Me Mk] E R Be H3 H4.
  destruct (axis_a_cfg (c_plane g)) as (t & A). assert (Hs := step_mul _ _ A). destruct A as (A & _ & _).
  destruct (axis_c_cfg (c_plane g)) as (tc & C). assert (Hsc := step_mul _ _ C). destruct C as (C & _ & _).
  assert (Nc := dec_near _ C _ Hsc _ _ Djc ltac:(lia)).
  rewrite <- E in Dkb, Djb, Skb, Sjb.
  apply (arc_completes acos Ha cfg (c_delta g) rr (c_plane g) rot v g _ _ A Hs eq_refl (eq_sym E) ka kb ja jb); try assumption; try lia.
  - split; [exact (near_mid _ C _ _ Nc)|]. split; [apply Nc|]. eapply Rle_trans; [apply (near_val _ C _ _ Nc)|apply bpow_le; lia].
  - split; [exact (Me Be)|exact Be].
  - destruct Hcfg; assumption.
Qed.
End Float.
