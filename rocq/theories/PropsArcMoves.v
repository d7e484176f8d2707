(** Theorems about the reported position and the steps of the motors in histories with
    arcs (C82). Every theorem is followed by its assumptions and by an Example of its
    hypotheses. *)
From Coq Require Import String Ascii ZArith Bool Reals Lra Lia List.
From Flocq Require Import Core BinarySingleNaN.
From Verif Require Import PyBase PyNum ArcExact PyFloatFacts Config Coordinates Pulses PulseSpec GCode GCodeSpec WordFacts GMachine GMachineProofs ExampleBase Decimal MachinePos MachineMoves MachineArc MachineWork PropsPosition PropsMoves LinearGen ArcSpec ArcRun ArcMake ArcFloat ArcGrid ArcDone ArcEnd ArcMachine ArcFail ArcTravel ArcQuarters ArcNet ArcAngle ArcFloatNet ArcFloatEnd MachineArcMoves PropsArc PropsArcEnd PropsArcFloat.
From Coq Require Import List.
From Flocq Require Import Core.
Import ListNotations.
Local Open Scope R_scope.

(* ---------- C82 ---------- *)
(** C82: in histories with arcs, on hardware whose motor calls do not fail, radius words
    up to 600: if every arc is [faithful] (C35: equal steps in its plane, not inside one
    quarter going back, start, radius and rise survive the conversions), then the
    position of an axis is the double nearest to the steps of its motor divided by the
    steps per mm. *)
Theorem C82_position_with_arcs_partial (acos : f64 -> f64) (cfg : config) (P : hw_oracle (F64 acos) -> option gcode -> Prop)
        (m : machine (F64 acos)) (es : list (event (F64 acos))) (a : axis) (s : Z) :
  orderly_acos acos -> good_cfg cfg ->
  (forall hw gc, P hw gc -> (forall l g e, hw l (EMove g) <> HRaise e) /\ MachineArc.small_radius gc) ->
  history_where P cfg m es -> (forall g, In (EMove (GCircular g)) es -> faithful acos cfg g) -> sent acos cfg a es s ->
  nearest_to (ax a (ppm cfg)) s (ax a (m_position m)).
Proof.
  intros Ha Hc HP Hh Hf Hs. refine (history_sends_arcs acos cfg Hc P m es a s _ Hh (fun g I => faithful_arrives acos cfg Hc g Ha (Hf g I)) Hs).
  intros hw gc H. destruct (HP hw gc H) as [H1 H2]. split; [|exact H2]. intros l ev e (g & ->). apply H1.
Qed.
Print Assumptions C82_position_with_arcs_partial.

(** With powers of two as steps per mm the conversions lose nothing: what remains is
    that the arcs do not go back inside one quarter, and radii up to 2^20 steps. *)
Theorem C82_power_of_two_partial (acos : f64 -> f64) (cfg : config) (P : hw_oracle (F64 acos) -> option gcode -> Prop)
        (m : machine (F64 acos)) (es : list (event (F64 acos))) (a : axis) (s : Z) :
  orderly_acos acos -> good_cfg cfg -> (forall a, exists n, (0 <= n)%Z /\ ax a (ppm cfg) = (2 ^ n)%Z) ->
  (forall hw gc, P hw gc -> (forall l g e, hw l (EMove g) <> HRaise e) /\ MachineArc.small_radius gc) ->
  history_where P cfg m es -> (forall g, In (EMove (GCircular g)) es -> onward_request acos cfg g) -> sent acos cfg a es s ->
  nearest_to (ax a (ppm cfg)) s (ax a (m_position m)).
Proof.
  intros Ha Hc H2 HP Hh Hf Hs. refine (history_sends_arcs acos cfg Hc P m es a s _ Hh _ Hs).
  - intros hw gc H. destruct (HP hw gc H) as [H1 H3]. split; [|exact H3]. intros l ev e (g & ->). apply H1.
  - intros g I. apply (onward_arrives acos cfg Hc g Ha H2). exact (Hf g I).
Qed.
Print Assumptions C82_power_of_two_partial.
(** From (2, 1) around (1, 1) to (1, 2), rising by 1 mm; then a straight move. *)
Definition prog82 : list string := ["G1X2Y1"; "G2X1Y2Z1I-1"; "G1X1.5Z0.75"]%string.
Definition asked82 (g : circular_gen LX) : bool :=
  match c_plane g with PlaneXY => true | _ => false end && sf_same (B2SF (qx (c_delta g) : f64)) (B2SF (f_ofZ (-1))) &&
  sf_same (B2SF (qy (c_delta g) : f64)) (B2SF (f_ofZ 1)) && sf_same (B2SF (qz (c_delta g) : f64)) (B2SF (f_ofZ 1)).
Definition radius_of (cfg : config) (s : string) (m : machine LX) : res (quad LX) := rbind (get_radius (gl s) coords0 (m_convert m)) (round_to_grid cfg).
Definition radius82 (r : res (quad LX)) : bool :=
  match r with Ok rr => sf_same (B2SF (qx rr : f64)) (B2SF (f_ofZ (-1))) && sf_same (B2SF (qy rr : f64)) (B2SF (f_ofZ 0)) | _ => false end.
(** All arcs of some events satisfy a test. *)
Definition arcs_all {N : PyNum} (test : circular_gen N -> bool) (es : list (event N)) : bool :=
  forallb (fun ev => match ev with EMove (GCircular g) => test g | _ => true end) es.
Lemma arcs_all_spec {N : PyNum} test (es : list (event N)) g : arcs_all test es = true -> In (EMove (GCircular g)) es -> test g = true.
Proof. intros H I. unfold arcs_all in H. rewrite forallb_forall in H. exact (H _ I). Qed.
Lemma nearest_eq p n (x y : f64) : x = y -> nearest_to p n y -> nearest_to p n x.
Proof. now intros ->. Qed.
Lemma request82 cfg (m m' : machine LX) es es' r g : arc_cfg cfg -> (forall pl, pl = PlaneXY -> axis_a pl (ppm cfg) = axis_b pl (ppm cfg)) ->
  history_where Calm cfg m es -> run_command cfg hw_ok (Some (gl "G2X1Y2Z1I-1")) m = (m', es', r) -> In (EMove (GCircular g)) es' ->
  asked82 g = true -> radius82 (radius_of cfg "G2X1Y2Z1I-1" m) = true ->
  exists (rr : quad LX) rot (v : LX), make_circular cfg (c_delta g) rr (c_plane g) rot v = Ok g /\
    float_arc cfg (c_plane g) (c_delta g) rr (qx (ppm cfg)) (1 * qx (ppm cfg)) 0 0 (1 * qx (ppm cfg)) (1 * qz (ppm cfg)).
Proof.
  intros (Hc & Hf & _) He H Hr I T R. assert (U := history_units line_acos cfg _ _ _ H).
  assert (OT := history_on_table line_acos cfg Hc Calm m es (fun hw gc (K : calm gc) => proj1 K) H).
  destruct (arc_of_command cfg _ _ _ _ _ _ _ Hr I) as (delta & radius & v & rot & ce & ld & lg & _ & Ev & Er & Ef & Hok & Hec).
  assert (Hw: calm (Some (gl "G2X1Y2Z1I-1"))) by (apply calm_b_spec; vm_compute; reflexivity).
  assert (Hb: bdq line_acos 14 radius).
  { destruct Hw as [[Hn|Hw] _]; [exfalso; destruct Hn as [N2 N3]; destruct rot; tauto|exact (radius_bound line_acos _ _ _ Hw U Er)]. }
  destruct (ArcMachine.arc_on_grid line_acos cfg Hc delta radius v rot m ce ld g lg OT Hb Hok) as (rr & Hg & Hrr & _ & _ & _).
  assert (M := make_circular_made _ _ _ _ _ _ _ Hg). assert (Kd := k_delta _ _ _ _ _ _ _ M). assert (Kp := k_plane _ _ _ _ _ _ _ M). rewrite <- Kd, <- Kp in Hg.
  unfold radius82, radius_of in R. rewrite Er in R. cbn [rbind] in R. rewrite Hrr in R. apply andb_prop in R. destruct R as [R1 R2].
  apply sf_same_eq, B2SF_inj in R1, R2. unfold asked82 in T. rewrite !andb_true_iff in T. destruct T as (((T0 & T1) & T2) & T3).
  apply sf_same_eq, B2SF_inj in T1, T2, T3. assert (Pl: c_plane g = PlaneXY) by (destruct (c_plane g); try discriminate T0; reflexivity).
  exists rr, rot, v. split; [exact Hg|]. rewrite Pl. assert (Ex := proj1 (MachinePos.acfg cfg Hc AX)). assert (Ez := proj1 (MachinePos.acfg cfg Hc AZ)). cbn [ax] in Ex, Ez.
  assert (Ey := He PlaneXY eq_refl). cbn [axis_a axis_b] in Ey. set (p := qx (ppm cfg)) in *.
  split; cbn [axis_a axis_b axis_c]; try (symmetry; exact Ey); try reflexivity.
  - refine (nearest_eq _ _ _ _ R1 _). replace (- (1 * p))%Z with (-1 * p)%Z by lia. apply whole_mm; lia.
  - refine (nearest_eq _ _ _ _ R2 _). change (- 0)%Z with (0 * p)%Z. apply whole_mm; lia.
  - refine (nearest_eq _ _ _ _ T1 _). replace (0 - 1 * p)%Z with (-1 * p)%Z by lia. apply whole_mm; lia.
  - refine (nearest_eq _ _ _ _ T2 _). replace (1 * p - 0)%Z with (1 * p)%Z by lia. apply whole_mm; lia.
  - refine (nearest_eq _ _ _ _ T3 _). apply whole_mm; lia.
  - lia.
Qed.
Lemma len82 k : (0 <= k)%Z -> len_steps (1 * k) 0 = (1 * k)%Z.
Proof.
  intros Hk. unfold len_steps. replace (1 * k * (1 * k) + 0 * 0)%Z with (1 * k * (1 * k))%Z by ring. rewrite mult_IZR, sqrt_square by (apply (IZR_le 0); lia). apply Zrnd_IZR. apply valid_rnd_N.
Qed.
Lemma onward82 k : (0 < k)%Z -> onward_arc (1 * k) 0 0 (1 * k).
Proof. intros Hk. left. unfold quadrant. destruct (Z.leb_spec 0 (1 * k)), (Z.ltb_spec 0 (1 * k)); cbn; lia. Qed.
Definition Sound {N : PyNum} : hw_oracle N -> option gcode -> Prop := fun hw gc => (forall l g e, hw l (EMove g) <> HRaise e) /\ MachineArc.small_radius gc.
Lemma sound_history {N : PyNum} cfg ls : forallb calm_b ls = true ->
  history_where (N:=N) Sound cfg (fst (after cfg hw_ok ls (init_machine cfg) [])) (snd (after cfg hw_ok ls (init_machine cfg) [])).
Proof.
  intros H. apply after_history; [|constructor]. apply Forall_forall. intros s Hs. rewrite forallb_forall in H. split; [discriminate|]. apply calm_b_spec. auto.
Qed.
(** Arcs of a run. *)
Lemma after_cons {N : PyNum} cfg hw s ls (m : machine N) es : after cfg hw (s :: ls) m es =
  after cfg hw ls (state_of (run_command cfg hw (Some (gl s)) m)) (es ++ events_of (run_command cfg hw (Some (gl s)) m)).
Proof. cbn [after]. destruct (run_command cfg hw (Some (gl s)) m) as [[m' es'] r]. reflexivity. Qed.
Definition check82 (cfg : config) : bool :=
  (let r1 := run_command (N:=LX) cfg hw_ok (Some (gl "G1X2Y1")) (init_machine cfg) in let r2 := run_command cfg hw_ok (Some (gl "G2X1Y2Z1I-1")) (state_of r1) in
   let r3 := run_command cfg hw_ok (Some (gl "G1X1.5Z0.75")) (state_of r2) in
   arcs_all (fun _ => false) (events_of r1) && arcs_all (fun _ => false) (events_of r3) && arcs_all asked82 (events_of r2) && radius82 (radius_of cfg "G2X1Y2Z1I-1" (state_of r1))).
Lemma run82 cfg : arc_cfg cfg -> (forall pl, pl = PlaneXY -> axis_a pl (ppm cfg) = axis_b pl (ppm cfg)) ->
  check82 cfg = true ->
  forall g, In (EMove (GCircular g)) (snd (after cfg hw_ok prog82 (init_machine (N:=LX) cfg) [])) ->
  exists (rr : quad LX) rot (v : LX), make_circular cfg (c_delta g) rr (c_plane g) rot v = Ok g /\
    float_arc cfg (c_plane g) (c_delta g) rr (qx (ppm cfg)) (1 * qx (ppm cfg)) 0 0 (1 * qx (ppm cfg)) (1 * qz (ppm cfg)).
Proof.
  intros Hc He T g I. unfold prog82 in I. rewrite !after_cons in I. cbn [after snd app] in I. unfold check82 in T. cbv zeta in T. rewrite !andb_true_iff in T. destruct T as (((T1 & T3) & T2) & T4).
  assert (HH: history_where Calm cfg (state_of (run_command (N:=LX) cfg hw_ok (Some (gl "G1X2Y1")) (init_machine cfg))) (events_of (run_command (N:=LX) cfg hw_ok (Some (gl "G1X2Y1")) (init_machine cfg)))).
  { assert (X := after_history (N:=LX) Calm cfg hw_ok ["G1X2Y1"]%string (init_machine cfg) []). rewrite after_cons in X. cbn [after fst snd app] in X. apply X; [|constructor].
    constructor; [|constructor]. apply calm_b_spec. vm_compute. reflexivity. }
  apply in_app_or in I. destruct I as [I|I]; [|exfalso; apply (arcs_all_spec _ _ _ T3) in I; discriminate I].
  apply in_app_or in I. destruct I as [I|I]; [exfalso; apply (arcs_all_spec _ _ _ T1) in I; discriminate I|].
  set (r1 := run_command (N:=LX) cfg hw_ok (Some (gl "G1X2Y1")) (init_machine cfg)) in *. set (r2 := run_command cfg hw_ok (Some (gl "G2X1Y2Z1I-1")) (state_of r1)) in *.
  apply (request82 cfg (state_of r1) (state_of r2) (events_of r1) (events_of r2) (result_of r2) g Hc He HH).
  - unfold state_of at 2, events_of, result_of. fold r2. clear. now destruct r2 as [[? ?] ?].
  - exact I.
  - exact (arcs_all_spec _ _ _ T2 I).
  - exact T4.
Qed.
Lemma check82_default : check82 default_config = true. Proof. vm_compute. reflexivity. Qed.
Lemma check82_512 : check82 cfg512 = true. Proof. vm_compute. reflexivity. Qed.
Lemma even_default pl : pl = PlaneXY -> axis_a pl (ppm default_config) = axis_b pl (ppm default_config). Proof. now intros ->. Qed.
Lemma even_512 pl : pl = PlaneXY -> axis_a pl (ppm cfg512) = axis_b pl (ppm cfg512). Proof. now intros ->. Qed.
Example C82_position_with_arcs_ex : exists m es, history_where Sound default_config m es /\ orderly_acos line_acos /\ (exists g, In (EMove (GCircular g)) es) /\
  (forall g, In (EMove (GCircular g)) es -> faithful line_acos default_config g) /\
  sent line_acos default_config AZ es 300 /\ nearest_to 400 300 (qz (m_position m)).
Proof.
  assert (H := sound_history (N:=LX) default_config prog82 ltac:(vm_compute; reflexivity)). exists (fst (after default_config hw_ok prog82 (init_machine (N:=LX) default_config) [])), (snd (after default_config hw_ok prog82 (init_machine (N:=LX) default_config) [])). split; [exact H|]. split; [exact line_acos_orderly|].
  assert (F: forall g, In (EMove (GCircular g)) (snd (after default_config hw_ok prog82 (init_machine (N:=LX) default_config) [])) -> faithful line_acos default_config g).
  { intros g I. destruct (run82 default_config default_arc_cfg even_default check82_default g I) as (rr & rot & v & Hg & G).
    exists rr, rot, v, 100%Z, (1 * 100)%Z, 0%Z, 0%Z, (1 * 100)%Z, (1 * 400)%Z. split; [exact Hg|]. split; [exact G|].
    split; [apply onward82; lia|]. rewrite len82 by lia. split; [lia|]. split.
    - intros n [->|[->| ->]]; [|change 0%Z with (0 * 100)%Z|]; rewrite whole_back by lia; apply Ztrunc_IZR.
    - assert (Pl: c_plane g = PlaneXY). { assert (T: arcs_all asked82 (snd (after default_config hw_ok prog82 (init_machine (N:=LX) default_config) [])) = true) by (vm_compute; reflexivity).
        apply (arcs_all_spec _ _ _ T) in I. unfold asked82 in I. destruct (c_plane g); try discriminate I. reflexivity. }
      rewrite Pl. change (axis_c PlaneXY (ppm default_config)) with 400%Z. rewrite (Z.abs_eq (1 * 400)) by lia. rewrite whole_back by lia. apply Zceil_IZR. }
  assert (S: sent line_acos default_config AZ (snd (after default_config hw_ok prog82 (init_machine (N:=LX) default_config) [])) 300) by (apply (sent_b_spec line_acos _ 4000); vm_compute; reflexivity).
  split; [|split; [exact F|split; [exact S|]]].
  - assert (T: arc_with (fun _ : circular_gen LX => true) (snd (after default_config hw_ok prog82 (init_machine default_config) [])) = true) by (vm_compute; reflexivity).
    apply arc_with_spec in T. destruct T as (g & I & _). exists g. exact I.
  - exact (C82_position_with_arcs_partial line_acos default_config Sound _ _ AZ 300 line_acos_orderly default_good (fun _ _ h => h) H F S).
Qed.
(** 64 steps per mm on X and Y, 512 on Z. *)
Lemma cfg512_arc : arc_cfg cfg512.
Proof.
  split; [exact cfg512_good|]. destruct default_arc_cfg as (_ & Hf & Hm & Hac). split; [exact Hf|]. split; [exact Hm|exact Hac].
Qed.
Example C82_power_of_two_ex : (forall a, exists n, (0 <= n)%Z /\ ax a (ppm cfg512) = (2 ^ n)%Z) /\
  exists m es, history_where Sound cfg512 m es /\ (exists g, In (EMove (GCircular g)) es) /\
    (forall g, In (EMove (GCircular g)) es -> onward_request line_acos cfg512 g).
Proof.
  split; [intros []; [exists 6%Z|exists 6%Z|exists 9%Z]; split; (lia || reflexivity)|].
  assert (H := sound_history (N:=LX) cfg512 prog82 ltac:(vm_compute; reflexivity)). exists (fst (after cfg512 hw_ok prog82 (init_machine (N:=LX) cfg512) [])), (snd (after cfg512 hw_ok prog82 (init_machine (N:=LX) cfg512) [])). split; [exact H|]. split.
  - assert (T: arc_with (fun _ : circular_gen LX => true) (snd (after cfg512 hw_ok prog82 (init_machine cfg512) [])) = true) by (vm_compute; reflexivity).
    apply arc_with_spec in T. destruct T as (g & I & _). exists g. exact I.
  - intros g I. destruct (run82 cfg512 cfg512_arc even_512 check82_512 g I) as (rr & rot & v & Hg & G).
    exists rr, rot, v, 64%Z, (1 * 64)%Z, 0%Z, 0%Z, (1 * 64)%Z, (1 * 512)%Z. split; [exact Hg|]. split; [exact G|].
    split; [apply onward82; lia|]. rewrite len82; lia.
Qed.

(** C82 is false, and the difference can grow without end: a circle rising by 0.07 mm,
    then back down by a straight move, leaves the machine exactly as it was, but the
    motor of Z is one step higher. After k rounds the reported position of Z is 0 and the
    motor is k steps above it. *)
Definition quad_same (x y : quad f64) : bool :=
  sf_same (B2SF (qx x)) (B2SF (qx y)) && sf_same (B2SF (qy x)) (B2SF (qy y)) && sf_same (B2SF (qz x)) (B2SF (qz y)) && sf_same (B2SF (qe x)) (B2SF (qe y)).
Definition opt_none {A} (x y : option A) : bool := match x, y with None, None => true | _, _ => false end.
Definition plane_same (x y : plane) : bool := match x, y with PlaneXY, PlaneXY | PlaneYZ, PlaneYZ | PlaneZX, PlaneZX => true | _, _ => false end.
Definition machine_same {acos} (m m' : machine (F64 acos)) : bool :=
  quad_same (m_position m) (m_position m') && sf_same (B2SF (m_velocity m : f64)) (B2SF (m_velocity m' : f64)) && sf_same (B2SF (m_spindle_rpm m : f64)) (B2SF (m_spindle_rpm m' : f64)) &&
  quad_same (m_local m) (m_local m') && sf_same (B2SF (m_convert m : f64)) (B2SF (m_convert m' : f64)) && Bool.eqb (m_absolute m) (m_absolute m') && plane_same (m_plane m) (m_plane m') &&
  Bool.eqb (m_fan m) (m_fan m') && opt_none (m_ext m) (m_ext m') && opt_none (m_bed m) (m_bed m').
Lemma quad_same_eq x y : quad_same x y = true -> x = y.
Proof.
  destruct x, y. unfold quad_same. cbn. rewrite !andb_true_iff. intros (((H1 & H2) & H3) & H4).
  apply sf_same_eq, B2SF_inj in H1, H2, H3, H4. congruence.
Qed.
Lemma machine_same_eq acos (m m' : machine (F64 acos)) : machine_same m m' = true -> m = m'.
Proof.
  destruct m as [a1 a2 a3 a4 a5 a6 a7 a8 a9 a10], m' as [b1 b2 b3 b4 b5 b6 b7 b8 b9 b10]. unfold machine_same. cbn [m_position m_velocity m_spindle_rpm m_local m_convert m_absolute m_plane m_fan m_ext m_bed]. rewrite !andb_true_iff.
  intros (((((((((H1 & H2) & H3) & H4) & H5) & H6) & H7) & H8) & H9) & H10).
  apply quad_same_eq in H1, H4. apply sf_same_eq, B2SF_inj in H2, H3, H5. apply Bool.eqb_prop in H6, H8.
  destruct a7, b7; try discriminate H7; destruct a9, b9; try discriminate H9; destruct a10, b10; try discriminate H10; congruence.
Qed.
Definition one_arc {N : PyNum} (test : circular_gen N -> bool) (es : list (event N)) : bool := match es with [EMove (GCircular g)] => test g | _ => false end.
Lemma one_arc_spec {N : PyNum} test (es : list (event N)) : one_arc test es = true -> exists g, es = [EMove (GCircular g)] /\ test g = true.
Proof.
  unfold one_arc. intros H. repeat match type of H with match ?x with _ => _ end = true => destruct x; try discriminate H end.
  eexists. split; [reflexivity|exact H].
Qed.
Definition turn (acos : f64 -> f64) (m : machine (F64 acos)) : bool :=
  let r1 := run_command default_config hw_ok (Some (gl "G2Z0.07I1")) m in
  let r2 := run_command default_config hw_ok (Some (gl "G1Z0")) (state_of r1) in
  machine_same (state_of r2) m && one_arc rising_b (events_of r1) &&
  match sent_b acos AZ 1000 (events_of r2) with Some s => (s =? -28)%Z | None => false end.
Definition start82 (acos : f64 -> f64) : bool :=
  turn acos (after0 (N:=F64 acos) ["G1X1Y1"]%string) &&
  match sent_b acos AZ 1000 (events0 (N:=F64 acos) ["G1X1Y1"]%string) with Some s => (s =? 0)%Z | None => false end &&
  sf_same (B2SF (qz (m_position (after0 (N:=F64 acos) ["G1X1Y1"]%string)) : f64)) (B2SF (f_ofZ 0)).
Lemma start82_at (acos : f64 -> f64) : start82 (acos_at [(pz, half_pi); (nz, half_pi)] acos) = true.
Proof. vm_compute. reflexivity. Qed.
Lemma sent_joined acos cfg a e1 e2 s1 s2 : sent acos cfg a e1 s1 -> sent acos cfg a e2 s2 -> sent acos cfg a (e1 ++ e2) (s1 + s2).
Proof.
  intros H1 H2. induction H1 as [|ev es s V H IH|g l es s C H IH]; cbn [app].
  - exact H2.
  - now apply sent_other.
  - replace (travel cfg (motor_of a) l + s + s2)%Z with (travel cfg (motor_of a) l + (s + s2))%Z by lia. now apply sent_move.
Qed.
(** One round more. *)
Lemma ran {N : PyNum} cfg hw gc (m : machine N) : run_command cfg hw gc m = (state_of (run_command cfg hw gc m), events_of (run_command cfg hw gc m), result_of (run_command cfg hw gc m)).
Proof. unfold state_of, events_of, result_of. now destruct (run_command cfg hw gc m) as [[? ?] ?]. Qed.
Lemma calm_g2 : calm (Some (gl "G2Z0.07I1")). Proof. apply calm_b_spec; vm_compute; reflexivity. Qed.
Lemma calm_g1 : calm (Some (gl "G1Z0")). Proof. apply calm_b_spec; vm_compute; reflexivity. Qed.
Lemma round_more (acos : f64 -> f64) m es s : good_acos acos -> turn acos m = true ->
  history_where Calm default_config m es -> sent acos default_config AZ es s ->
  exists es', history_where Calm default_config m es' /\ sent acos default_config AZ es' (s + 1).
Proof.
  intros Hg T H S. unfold turn in T. cbv zeta in T.
  assert (Q1 := ran default_config hw_ok (Some (gl "G2Z0.07I1")) m). assert (Q2 := ran default_config hw_ok (Some (gl "G1Z0")) (state_of (run_command default_config hw_ok (Some (gl "G2Z0.07I1")) m))).
  set (r1 := run_command default_config hw_ok (Some (gl "G2Z0.07I1")) m) in *. set (r2 := run_command default_config hw_ok (Some (gl "G1Z0")) (state_of r1)) in *.
  apply andb_prop in T. destruct T as [T T5]. apply andb_prop in T. destruct T as [T1 T2].
  apply machine_same_eq in T1. apply one_arc_spec in T2. destruct T2 as (g & E1 & Tg).
  destruct (sent_b acos AZ 1000 (events_of r2)) as [s2|] eqn:S2; [|discriminate T5]. apply Z.eqb_eq in T5. subst s2. apply sent_b_spec in S2.
  assert (C1 := calm_g2). assert (C2 := calm_g1).
  destruct (rising_travel acos "G2Z0.07I1" m (events_of r1) (result_of r1) g Hg) as (_ & l & Hl & Tl); [|exact Tg|].
  { exists (state_of r1), es. split; [exact H|]. split; [exact C1|]. split; [exact Q1|]. rewrite E1. now left. }
  assert (H1 := h_step Calm default_config m es hw_ok (Some (gl "G2Z0.07I1")) _ _ _ H C1 Q1).
  assert (H2 := h_step Calm default_config _ _ hw_ok (Some (gl "G1Z0")) _ _ _ H1 C2 Q2). rewrite T1 in H2.
  exists ((es ++ events_of r1) ++ events_of r2). split; [exact H2|].
  assert (S1: sent acos default_config AZ (events_of r1) 29).
  { rewrite E1. replace 29%Z with (travel default_config (motor_of AZ) l + 0)%Z by (cbn [motor_of]; rewrite Tl; reflexivity). apply sent_move; [exact Hl|constructor]. }
  replace (s + 1)%Z with ((s + 29) + -28)%Z by lia. apply sent_joined; [apply sent_joined; assumption|exact S2].
Qed.
Theorem C82_drift_refuted (acos : f64 -> f64) (k : nat) : good_acos acos -> acos pz = half_pi -> acos nz = half_pi ->
  exists (m : machine (F64 acos)) es, history_where Calm default_config m es /\ qz (m_position m) = f_ofZ 0 /\ sent acos default_config AZ es (Z.of_nat k).
Proof.
  intros Hg H1 H2. assert (E : acos_at [(pz, half_pi); (nz, half_pi)] acos = acos) by (apply acos_at_eq; repeat constructor; assumption).
  assert (T := start82_at acos). rewrite E in T. clear E H1 H2. exists (after0 (N:=F64 acos) ["G1X1Y1"]%string).
  unfold start82 in T. apply andb_prop in T. destruct T as [T Tz]. apply sf_same_eq, B2SF_inj in Tz. apply andb_prop in T. destruct T as [T Ts].
  destruct (sent_b acos AZ 1000 (events0 (N:=F64 acos) ["G1X1Y1"]%string)) as [s0|] eqn:S0; [|discriminate Ts]. apply Z.eqb_eq in Ts. subst s0. apply sent_b_spec in S0.
  induction k as [|k (es & H & _ & S)].
  - exists (events0 (N:=F64 acos) ["G1X1Y1"]%string). split; [apply calm_history; vm_compute; reflexivity|]. split; [exact Tz|exact S0].
  - destruct (round_more acos _ es _ Hg T H S) as (es' & H' & S'). exists es'. split; [exact H'|]. split; [exact Tz|].
    replace (Z.of_nat (Datatypes.S k)) with (Z.of_nat k + 1)%Z by lia. exact S'.
Qed.
Print Assumptions C82_drift_refuted.
Example C82_drift_ex : good_acos line_acos /\ line_acos pz = half_pi /\ line_acos nz = half_pi.
Proof. exact C35_helix_ex. Qed.
