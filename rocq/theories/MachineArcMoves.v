(** Histories with arcs: the reported position and the steps that the generators make. *)
From Coq Require Import String Ascii ZArith Bool Reals Lra Lia List.
From Flocq Require Import Core BinarySingleNaN.
From Verif Require Import PyBase PyNum ArcExact PyFloatFacts Config Coordinates Pulses PulseSpec GCode GCodeSpec WordFacts GMachine GMachineProofs MachineFacts MachineRel MachineHist MachineFloat Decimal MachinePos MachineMoves MachineArc LinearGen ArcSpec LinearTravel ArcRun ArcMake ArcFloat ArcGrid ArcQuarters ArcNet ArcAngle ArcFloatNet ArcMachine ArcFloatEnd.
From Coq Require Import List.
From Flocq Require Import Core.
Import ListNotations.
Local Open Scope Z_scope.

Section Moves.
Variable acos : f64 -> f64.
Notation N := (F64 acos).
Variable cfg : config.
Hypothesis Hcfg : good_cfg cfg.
Notation p a := (ax a (ppm cfg)).
Notation acfg := (acfg cfg Hcfg).

(** The generator, run to its end, takes the motors by the displacement it was made
    for: an axis that is to go j steps goes j steps. *)
Definition arrives (g : circular_gen N) : Prop :=
  forall a j l, nearest_to (p a) j (ax a (c_delta g)) -> Z.abs j <= 65536 * p a -> completes cfg (GCircular g) l ->
    travel cfg (motor_of a) l = j.

(** An arc that survives the conversions between steps and millimetres and that is not
    inside one quarter going back (C35). *)
Definition faithful (g : circular_gen N) : Prop :=
  exists (radius : quad N) rot (v : N) p sa sb ea eb jc,
    make_circular cfg (c_delta g) radius (c_plane g) rot v = Ok g /\
    float_arc cfg (c_plane g) (c_delta g) radius p sa sb ea eb jc /\
    onward_arc sa sb ea eb /\ len_steps sa sb <= 1048576 /\
    (forall n, n = sa \/ n = sb \/ n = len_steps sa sb -> Ztrunc (back p n) = n) /\
    Zceil (back (axis_c (c_plane g) (ppm cfg)) (Z.abs jc)) = Z.abs jc.

Lemma nearest_fun a i j (x : f64) : nearest_to (p a) i x -> nearest_to (p a) j x -> Z.abs i <= 65536 * p a -> Z.abs j <= 65536 * p a -> i = j.
Proof.
  intros H1 H2 B1 B2. apply (nearest_dec _ _ _ _ (acfg a)) in H1, H2. assert (Hs := step_mul _ _ (acfg a)). assert (Hp := proj1 (acfg a)).
  assert (E := dec_fun _ _ _ H1 H2 ltac:(apply (step_small (p a) Hp _ Hs); lia) ltac:(apply (step_small (p a) Hp _ Hs); lia)). nia.
Qed.
Lemma travels_arrive (g : circular_gen N) (radius : quad N) q sa sb ea eb jc : float_arc cfg (c_plane g) (c_delta g) radius q sa sb ea eb jc ->
  (forall l, completes cfg (GCircular g) l -> travel cfg (motor_a (c_plane g)) l = ea - sa /\ travel cfg (motor_b (c_plane g)) l = eb - sb /\ travel cfg (motor_c (c_plane g)) l = jc) ->
  arrives g.
Proof.
  intros G T a j l Hj Bj Hl. destruct (T l Hl) as (Ta & Tb & Tc). destruct G as [E1 E2 _ _ J1 J2 J3 B].
  rewrite <- E1 in J1. rewrite <- E2 in J2. rewrite axis_a_ax in E1. rewrite axis_b_ax in E2. rewrite !axis_a_ax in J1. rewrite !axis_b_ax in J2. rewrite !axis_c_ax in J3.
  assert (C: a = pa_ (c_plane g) \/ a = pb_ (c_plane g) \/ a = pc_ (c_plane g)) by (destruct a, (c_plane g); cbn; auto).
  destruct C as [C|[C|C]].
  - replace (motor_of a) with (motor_a (c_plane g)) by (rewrite C; now destruct (c_plane g)). rewrite Ta. rewrite <- C in J1, E1.
    apply (nearest_fun a _ _ _ J1 Hj); lia.
  - replace (motor_of a) with (motor_b (c_plane g)) by (rewrite C; now destruct (c_plane g)). rewrite Tb. rewrite <- C in J2, E2.
    apply (nearest_fun a _ _ _ J2 Hj); lia.
  - replace (motor_of a) with (motor_c (c_plane g)) by (rewrite C; now destruct (c_plane g)). rewrite Tc. rewrite <- C in J3. rewrite axis_c_ax, <- C in B.
    apply (nearest_fun a _ _ _ J3 Hj); lia.
Qed.
Lemma faithful_arrives g : orderly_acos acos -> faithful g -> arrives g.
Proof.
  intros Ha (radius & rot & v & q & sa & sb & ea & eb & jc & Hg & G & O & Far & W & Wc). apply (travels_arrive g radius q sa sb ea eb jc G). intros l Hl.
  destruct (fe_travel acos cfg Hcfg (c_delta g) radius (c_plane g) rot v g Hg q sa sb ea eb jc G Ha Far (W _ (or_introl eq_refl)) (W _ (or_intror (or_introl eq_refl))) (W _ (or_intror (or_intror eq_refl))) l O Hl) as [Ta Tb].
  assert (Tc := fe_third acos cfg Hcfg (c_delta g) radius (c_plane g) rot v g Hg q sa sb ea eb jc G l Hl). rewrite Wc in Tc.
  split; [exact Ta|]. split; [exact Tb|]. rewrite Tc. lia.
Qed.

(** What is left of it with powers of two as steps per mm. *)
Definition onward_request (g : circular_gen N) : Prop :=
  exists (radius : quad N) rot (v : N) p sa sb ea eb jc,
    make_circular cfg (c_delta g) radius (c_plane g) rot v = Ok g /\
    float_arc cfg (c_plane g) (c_delta g) radius p sa sb ea eb jc /\
    onward_arc sa sb ea eb /\ len_steps sa sb <= 1048576.
Lemma onward_arrives g : orderly_acos acos -> (forall a, exists n, 0 <= n /\ p a = 2 ^ n) -> onward_request g -> arrives g.
Proof.
  intros Ha H2 (radius & rot & v & q & sa & sb & ea & eb & jc & Hg & G & O & Far). apply (travels_arrive g radius q sa sb ea eb jc G). intros l Hl.
  destruct (H2 (pa_ (c_plane g))) as (n & Hn & En). destruct (H2 (pc_ (c_plane g))) as (nc & Hnc & Ec). rewrite <- axis_c_ax in Ec.
  rewrite <- axis_a_ax, (fa_a _ _ _ _ _ _ _ _ _ _ G) in En. rewrite En in G.
  exact (float_pow2 acos cfg (c_delta g) radius (c_plane g) rot v g n nc sa sb ea eb jc l Ha Hcfg Hg Hn Hnc Ec G O Far Hl).
Qed.

(** The straight move that corrects the end of an arc can be longer than the moves of
    MachinePos.axis_pulses. *)
Lemma axis_pulses_far a j d : dec (j * step (p a)) d -> Z.abs j <= 131072 * p a ->
  pulses_of (N:=N) (f_rnd10 (Babs d)) (p a) = Ok (Z.abs j) /\ f_copysign1 d * Z.abs j = j.
Proof.
  intros D Hj. assert (Hp := proj1 (acfg a)). assert (Hs := step_mul _ _ (acfg a)). set (s := step (p a)) in *.
  assert (Hspos: 0 < s) by nia. split.
  - unfold pulses_of. cbn [F64 rnd mul ofZ]. apply (pulses_exact (p a) Hp s Hs).
    + apply dec_abs in D. rewrite Z.abs_mul, (Z.abs_eq s) in D by lia.
      apply dec_rnd10; [exact D|]. apply (step_small (p a) Hp s Hs). lia.
    + lia.
  - destruct (Z.eq_dec j 0) as [->|Hz]; [lia|].
    assert (Sd := step_small (p a) Hp s Hs j Hj).
    assert (Hsg: f_copysign1 d = Z.sgn j); [|rewrite Hsg; lia].
    assert (G := dec_ge_0 _ _ D Sd).
    assert (Hv0: val d <> 0%R). { intros E. apply (dec_val_0 _ _ D Sd) in E. nia. }
    unfold f_copysign1. destruct D as [F _].
    destruct d as [sd|sd| |sd md ed Bd]; try discriminate; [cbn in Hv0; lra|].
    assert (Gp: sd = false -> (0 <= val (B754_finite sd md ed Bd))%R) by (intros ->; apply F2R_ge_0; cbn; lia).
    assert (Gn: sd = true -> (val (B754_finite sd md ed Bd) < 0)%R) by (intros ->; apply F2R_lt_0; cbn; lia).
    destruct sd; cbn [copysign1 Bsign].
    + specialize (Gn eq_refl). destruct (Z_lt_le_dec j 0); [lia|]. exfalso. assert (0 <= j * s) by nia. apply G in H. lra.
    + specialize (Gp eq_refl). apply G in Gp. assert (0 <= j) by nia. lia.
Qed.

Lemma zero_ax (c : quad N) a : is_zero c = true -> f_eq (ax a c) (f_ofZ 0) = true.
Proof. unfold is_zero. rewrite !andb_true_iff. intros (((H1 & H2) & H3) & _). destruct a; assumption. Qed.

Lemma sends_arc delta radius v rot m ce ld g lg :
  on_table acos cfg m -> bdq acos 14 radius -> circular_ok cfg delta radius v rot m ce ld g lg -> arrives g ->
  sends acos cfg m (arc_events g lg) (set_position m (cadd (cadd (m_position m) ce) ld)).
Proof.
  intros Hm Hrad Hok Har a n s Hn X.
  destruct (circular_axes acos cfg Hcfg _ _ _ _ _ _ _ _ _ Hm Hrad Hok a n Hn) as (j & d & Hd & Dj & Sj & Hj).
  destruct (arc_on_grid acos cfg Hcfg _ _ _ _ _ _ _ _ _ Hm Hrad Hok) as (rr & Hg & _ & _ & Hce & _).
  destruct (Hce a) as (i & Di & Si). assert (Hp := proj1 (acfg a)). assert (Hs := step_mul _ _ (acfg a)).
  assert (Kd := k_delta _ _ _ _ _ _ _ (make_circular_made _ _ _ _ _ _ _ Hg)).
  assert (K: forall z, Z.abs z <= 131072 * p a -> small (z * step (p a))) by (intros; now apply (step_small (p a) Hp)).
  destruct Hok as [d0 rr0 ea eb Hd0 Hrr Hbox Had Hceq Hmk Hf Hld Hlg].
  rewrite Hd in Hd0. injection Hd0 as <-.
  assert (Dl: dec ((j - i) * step (p a)) (ax a ld)).
  { rewrite Hld, ax_csub, Z.mul_sub_distr_r. apply dec_sub; auto; apply K; lia. }
  replace (n + s) with (n + j); [exact Hj|]. f_equal.
  unfold arc_events in X. inversion X as [|ev' es' s' V' H' E1 E2|g' l es' s' C H' E1 E2]; subst; [exfalso; eapply V'; reflexivity|].
  assert (T: travel cfg (motor_of a) l = i).
  { apply (Har a i l); auto. apply (nearest_dec _ _ _ _ (acfg a)). exact Di. }
  rewrite T. clear T. enough (s' = j - i) by lia. destruct lg as [lg|].
  - destruct Hlg as (_ & Hlg & _). inversion H' as [|ev'' es'' s'' V'' H'' E1' E2'|g'' l'' es'' s'' C'' H'' E1' E2']; subst; [exfalso; eapply V''; reflexivity|].
    inversion H''; subst. rewrite Z.add_0_r.
    destruct (make_linear_axes acos cfg _ v lg a Hlg) as (Hpu & Hdir & _).
    destruct (axis_pulses_far a (j - i) _ Dl ltac:(lia)) as [Hp2 Hs2]. rewrite Hpu in Hp2. injection Hp2 as Hp2.
    assert (Tr := line_complete cfg lg l'' (motor_of a) C''). rewrite !qat_motor_of in Tr. rewrite Tr, Hdir, Hp2.
    replace (Z.max 0 (Z.abs (j - i))) with (Z.abs (j - i)) by lia. exact Hs2.
  - inversion H'; subst. apply (zero_ax _ a) in Hlg. destruct (f_ofZ_val 0) as [F0 V0]; [lia|].
    apply (f_eq_true _ _ (proj1 Dl) F0) in Hlg. rewrite V0 in Hlg. apply (dec_val_0 _ _ Dl) in Hlg; [|apply K; lia]. nia.
Qed.

Lemma command_sends hw gc m m' es r :
  never_fails_on (is_move acos) hw -> units_ok acos m -> on_table acos cfg m -> small_radius gc ->
  run_command cfg hw gc m = (m', es, r) -> (forall g, In (EMove (GCircular g)) es -> arrives g) -> sends acos cfg m es m'.
Proof.
  intros Hn U T Hsm H Har. unfold run_command in H. destruct gc as [g|].
  2: { apply ret_inv in H. destruct H as (-> & -> & _). apply sends_refl. }
  apply do_command_inv in H. destruct H as [e|delta v radius Hd Hvel Hr Hmin He|delta v radius t' c m1 l1 r Hd Hvel Hr Hmin He Ha Hx].
  - apply sends_refl.
  - now apply sends_still.
  - assert (S: sends acos cfg m l1 m1).
    { destruct (is_arc c) eqn:A.
      - assert (Hb: bdq acos 14 radius).
        { destruct Hsm as [Hno|Hw]; [|exact (radius_bound acos _ _ _ Hw U Hr)]. rewrite (no_arc_cmd _ _ _ Hno He Ha) in A. discriminate. }
        assert (C: exists rot, move_circular cfg hw delta radius v rot m [] = (m1, l1, r)) by (destruct c; try discriminate A; eexists; exact Hx).
        destruct C as [rot C]. apply move_circular_inv in C. destruct C as [ce ld g0 lg Hok|ce ld g0 lg pp ev s e Hok Ep Hr'|e].
        + cbn [app] in *. eapply sends_arc; eauto. apply Har. now left.
        + exfalso. apply (Hn _ _ _ ) in Hr'; [contradiction|]. assert (I: In ev (arc_events g0 lg)) by (rewrite Ep; apply in_or_app; right; now left).
          destruct I as [<-|I]; [eexists; reflexivity|]. destruct lg; [|contradiction]. destruct I as [<-|[]]. eexists; reflexivity.
        + apply sends_refl.
      - destruct (sends_exec acos cfg Hcfg hw g c delta radius v Hn A _ _ _ _ _ Hx) as (es & -> & S). exact S. }
    destruct r as [[]|]; [|exact S]. rewrite <- (app_nil_r l1). eapply sends_trans; [exact S|]. now apply sends_still.
Qed.

Lemma history_sends_arcs (P : hw_oracle N -> option gcode -> Prop) m es a s :
  (forall hw gc, P hw gc -> never_fails_on (is_move acos) hw /\ small_radius gc) ->
  history_where P cfg m es -> (forall g, In (EMove (GCircular g)) es -> arrives g) -> sent acos cfg a es s ->
  nearest_to (p a) s (ax a (m_position m)).
Proof.
  intros HP H Har X. apply (at_step_nearest acos cfg Hcfg m a).
  enough (S: sends acos cfg (init_machine cfg) es m).
  { specialize (S a 0 s (init_at acos cfg Hcfg a) X). now rewrite Z.add_0_l in S. }
  clear X a s. induction H as [|m es hw gc m' es' r H IH Hgc Hr]; [apply sends_refl|].
  apply (sends_trans acos cfg _ _ m).
  - apply IH. intros g I. apply Har. apply in_or_app. now left.
  - destruct (HP _ _ Hgc) as [Hn Hs]. apply (command_sends hw gc m m' es' r); auto.
    + exact (history_units acos cfg _ _ _ H).
    + exact (history_on_table acos cfg Hcfg P m es (fun hw gc K => proj2 (HP hw gc K)) H).
    + intros g I. apply Har. apply in_or_app. now right.
Qed.
End Moves.
