(** Theorems about arcs: excursion (C36), completion (C38). Every theorem is
    followed by its assumptions and by an Example of its hypotheses. *)
From Coq Require Import String Ascii ZArith Bool Reals Lra Lia List.
From Flocq Require Import Core BinarySingleNaN.
From Verif Require Import PyBase PyNum PyFloatFacts Config Coordinates Pulses PulseSpec GCode GCodeSpec WordFacts GMachine ExampleBase Decimal MachinePos MachineArc MachineWork PropsPosition LinearGen ArcSpec ArcRun ArcMake ArcFloat ArcGrid ArcDone ArcEnd ArcMachine ArcFail.
From Coq Require Import List.
From Flocq Require Import Core.
Import ListNotations.
Local Open Scope R_scope.

(* ---------- for the Examples ---------- *)
(** A rough acos. *)
Definition ex_acos (x : f64) : f64 :=
  if f_eq x (f_ofZ 1) then f_ofZ 0
  else if f_eq x (f_ofZ 0) then f_ratio false 884279719003555 562949953421312
  else if f_eq x (f_ofZ (-1)) then f_pi
  else if f_lt x (f_ofZ 0) then f_ratio false 9 4 else f_ratio false 3 4.
Definition in_range (x : f64) : bool := is_finite x && f_le (f_ofZ 0) x && f_le x f_pi.
Lemma in_range_spec x : in_range x = true -> fin x /\ 0 <= val x <= val f_pi.
Proof.
  intros H. apply andb_prop in H. destruct H as [H H3]. apply andb_prop in H. destruct H as [F H2].
  destruct (f_ofZ_val 0) as [F0 V0]; [lia|]. split; [exact F|]. apply (f_le_true _ _ F0 F) in H2. apply (f_le_true _ _ F (proj1 pi_val)) in H3. lra.
Qed.
Lemma ex_acos_good : good_acos ex_acos.
Proof.
  intros x _ _. apply in_range_spec. unfold ex_acos.
  repeat match goal with |- context [if ?b then _ else _] => destruct b end; vm_compute; reflexivity.
Qed.
Notation EX := (F64 ex_acos).
Definition word_f (s : string) : bool := word_ok 1000000 (gl s) "F"%char.
Definition calm_b (s : string) : bool := moderate_b s && word_f s.
Lemma calm_b_spec s : calm_b s = true -> calm (Some (gl s)).
Proof.
  intros H. apply andb_prop in H. destruct H as [H1 H2]. split; [apply moderate_radius, moderate_b_spec, H1|].
  apply word_ok_spec. cbn [forallb]. unfold word_f in H2. now rewrite H2.
Qed.
Definition Calm {N : PyNum} : hw_oracle N -> option gcode -> Prop := fun _ gc => calm gc.
Lemma calm_history {N : PyNum} ls : forallb calm_b ls = true -> history_where Calm default_config (after0 (N:=N) ls) (events0 ls).
Proof.
  intros H. apply history0_where. apply Forall_forall. intros s Hs. rewrite forallb_forall in H. apply calm_b_spec. auto.
Qed.

(* ---------- C36 ---------- *)
(** C36, the walk on one axis: __circular_helper started at most one radius from
    the centre stays within one radius of it for a whole turn, moves by exactly
    one step in the direction it reports, and is back at the start after a turn. *)
Theorem C36_circle_walk (start radius dir : Z) (side : bool) (i : Z) :
  (Z.abs start <= radius)%Z -> dir = 1%Z \/ dir = (-1)%Z -> (0 <= i <= 4 * radius)%Z ->
  let position k := fst (fst (circular_helper start k radius side dir)) in
  let direction k := snd (fst (circular_helper start k radius side dir)) in
  (Z.abs (position i) <= radius)%Z /\
  (0 < i -> position i - position (i - 1) = direction i /\ Z.abs (direction i) = 1)%Z /\
  position 0%Z = start /\ position (4 * radius)%Z = start.
Proof. exact (circle_walk start radius dir side i). Qed.
Print Assumptions C36_circle_walk.
Example C36_circle_walk_ex :
  map (fun k => fst (fst (circular_helper 2 k 3 false (-1)))) [0; 1; 5; 6; 7; 11; 12]%Z = [2; 1; -3; -2; -1; 3; 2]%Z.
Proof. reflexivity. Qed.

(** C36, the pulses: over any numbers, after any number of items of an arc
    generator, both plane axes are within one radius (in pulses) of the centre,
    and from one item to the next an axis moves by exactly the step made. *)
Theorem C36_pulses (N : PyNum) (cfg : config) (g : circular_gen N) (n : nat) :
  (Z.abs (c_start_a_pulses g) <= c_radius_a_pulses g)%Z -> (Z.abs (c_start_b_pulses g) <= c_radius_b_pulses g)%Z ->
  (c_dir_a g = 1 \/ c_dir_a g = -1)%Z -> (c_dir_b g = 1 \/ c_dir_b g = -1)%Z -> room g ->
  let ma := motor_a (c_plane g) in let mb := motor_b (c_plane g) in
  let l := items cfg (GCircular g) n in let l' := items cfg (GCircular g) (S n) in
  (Z.abs (c_start_a_pulses g + travel cfg ma l) <= c_radius_a_pulses g)%Z /\
  (Z.abs (c_start_b_pulses g + travel cfg mb l) <= c_radius_b_pulses g)%Z /\
  forall m, m = ma \/ m = mb ->
    (Z.abs (travel cfg m l' - travel cfg m l) = steps m l' - steps m l /\ steps m l <= steps m l' <= steps m l + 1)%Z.
Proof. exact (arc_pulses cfg g n). Qed.
Print Assumptions C36_pulses.
Example C36_pulses_ex :
  arc_with (fun g => (Z.abs (c_start_a_pulses g) <=? c_radius_a_pulses g)%Z && (Z.abs (c_start_b_pulses g) <=? c_radius_b_pulses g)%Z &&
                     (Z.abs (c_dir_a g) =? 1)%Z && (Z.abs (c_dir_b g) =? 1)%Z && room_b 0 g &&
                     (travel default_config MX (items default_config (GCircular g) 7) =? 2)%Z)
    (events0 (N:=EX) ["G1X10Y10"; "G2X10.04Y10I0.02J-0.01"]%string) = true.
Proof. vm_compute. reflexivity. Qed.

(** What the theorems about floating point assume of the configuration. *)
Definition arc_cfg (cfg : config) : Prop :=
  good_cfg cfg /\ feeds_cfg cfg /\ (forall m, 0 <= qat m (max_velocity_min cfg) <= 2 ^ 53)%Z /\ (1 <= max_acceleration cfg <= 2 ^ 53)%Z.
Lemma default_arc_cfg : arc_cfg default_config.
Proof.
  split; [exact default_good|]. split; [vm_compute; intuition discriminate|]. split; [|vm_compute; intuition discriminate].
  intros []; vm_compute; intuition discriminate.
Qed.
(** Same number of pulses per mm on both axes of the arc's plane. *)
Definition even_plane {N : PyNum} (cfg : config) (g : circular_gen N) : Prop :=
  axis_a (c_plane g) (ppm cfg) = axis_b (c_plane g) (ppm cfg).

(** C36 in double precision, for every arc of every history with radius words up
    to 600 and feeds up to a million. Missing: planes whose axes have different
    pulses per mm, and arcs without [room], i.e. where the radius in pulses,
    int(radius * pulses per mm), came out one too small and the arc starts within
    four steps of its outermost point, going outwards. *)
Theorem C36_arcs_float_partial (acos : f64 -> f64) (cfg : config) (P : hw_oracle (F64 acos) -> option gcode -> Prop)
        (m m' : machine (F64 acos)) (es es' : list (event (F64 acos))) (hw : hw_oracle (F64 acos)) (gc : gcode) (r : res unit)
        (g : circular_gen (F64 acos)) (n : nat) :
  arc_cfg cfg -> (forall hw gc, P hw gc -> calm gc) -> history_where P cfg m es -> calm (Some gc) ->
  run_command cfg hw (Some gc) m = (m', es', r) -> In (EMove (GCircular g)) es' ->
  even_plane cfg g -> room g ->
  let l := items cfg (GCircular g) n in
  (Z.abs (c_start_a_pulses g + travel cfg (motor_a (c_plane g)) l) <= c_radius_a_pulses g)%Z /\
  (Z.abs (c_start_b_pulses g + travel cfg (motor_b (c_plane g)) l) <= c_radius_b_pulses g)%Z.
Proof.
  intros (Hc & Hf & _) HP H Hgc Hr Hin He R l. destruct (arc_of_history acos cfg Hc P m es hw gc m' es' r g Hf HP H Hgc Hr Hin) as [A].
  exact (arc_within cfg g n (arc_facts_on_circle acos cfg Hc g A He R)).
Qed.
Print Assumptions C36_arcs_float_partial.

Definition even_plane_b {N : PyNum} (cfg : config) (g : circular_gen N) : bool :=
  (axis_a (c_plane g) (ppm cfg) =? axis_b (c_plane g) (ppm cfg))%Z.
Definition flat_b {N : PyNum} (g : circular_gen N) : bool := eqb (qe (c_delta g)) zero && eqb (axis_c (c_plane g) (c_delta g)) zero.
Lemma eq_zero (x : f64) : f_eq x (f_ofZ 0) = true -> fin x /\ val x = 0.
Proof. destruct x as [b|b| |b m e H]; intros E; [split; reflexivity| | |]; vm_compute in E; try destruct b; discriminate E. Qed.
Lemma flat_b_spec acos (g : circular_gen (F64 acos)) : flat_b g = true ->
  fin (qe (c_delta g)) /\ val (qe (c_delta g)) = 0 /\ fin (axis_c (c_plane g) (c_delta g)) /\ val (axis_c (c_plane g) (c_delta g)) = 0.
Proof. intros H. apply andb_prop in H. destruct H as [H1 H2]. apply eq_zero in H1, H2. tauto. Qed.
Definition walk_is {N : PyNum} (w : Z * Z * Z * Z) (g : circular_gen N) : bool :=
  let '(it, st, ra, d) := w in (c_iterations_a g =? it)%Z && (c_start_a_pulses g =? st)%Z && (c_radius_a_pulses g =? ra)%Z && (c_dir_a g =? d)%Z.
Lemma walk_is_spec {N : PyNum} it st ra d (g : circular_gen N) : walk_is (it, st, ra, d) g = true ->
  c_iterations_a g = it /\ c_start_a_pulses g = st /\ c_radius_a_pulses g = ra /\ c_dir_a g = d.
Proof. unfold walk_is. rewrite !andb_true_iff, !Z.eqb_eq. tauto. Qed.
Lemma acos_at_good tbl acos : Forall (fun q => in_range (snd q) = true) tbl -> good_acos acos -> good_acos (acos_at tbl acos).
Proof.
  intros H Hg x F V. induction H as [|[a b] r H _ IH]; cbn [acos_at]; [now apply Hg|]. destruct (sf_same _ _); [now apply in_range_spec|exact IH].
Qed.
(** Facts of the Examples below: one arc after some lines, all calm. *)
Definition shows_arc (N : PyNum) cfg (s : string) (test : circular_gen N -> bool) : Prop :=
  exists m m' es es' r g, history_where Calm cfg m es /\ calm (Some (gl s)) /\
    run_command cfg hw_ok (Some (gl s)) m = (m', es', r) /\ In (EMove (GCircular g)) es' /\ test g = true.
Lemma ex_arc (N : PyNum) cfg ls s test : forallb calm_b ls = true -> calm_b s = true ->
  arc_with test (events_of (run_command cfg hw_ok (Some (gl s)) (fst (after cfg hw_ok ls (init_machine cfg) [])))) = true ->
  shows_arc N cfg s test.
Proof.
  intros Hl Hs Ht. apply arc_with_spec in Ht. destruct Ht as (g & Hin & Ht). set (H := after cfg hw_ok ls (init_machine cfg) []) in *.
  set (r := run_command _ _ _ _) in *. exists (fst H), (state_of r), (snd H), (events_of r), (result_of r), g.
  split; [|split; [now apply calm_b_spec|split; [|split; assumption]]].
  - apply after_history; [|constructor]. apply Forall_forall. intros l Hin'. rewrite forallb_forall in Hl. apply calm_b_spec. auto.
  - unfold r, state_of, events_of, result_of. now destruct (run_command _ _ _ _) as [[? ?] ?].
Qed.
Example C36_arcs_float_ex :
  shows_arc EX default_config "G2X11Y10I0.5J0.25" (fun g => even_plane_b default_config g && room_b 0 g).
Proof. apply (ex_arc EX _ ["G1X10Y10"]%string); vm_compute; reflexivity. Qed.

(** C36 is false where there is no room: this circle, of radius 28 steps, ends 29
    steps from its centre. [acos]: the value of the C library at the cosine of the
    start angle, numbers between 0 and pi elsewhere. *)
Theorem C36_refuted (acos : f64 -> f64) : good_acos acos -> acos (dbl 0x1f45471091c5a8 54) = dbl 0x10f70586ca3773 52 ->
  exists m m' es es' r g n, history_where Calm default_config m es /\
    run_command default_config hw_ok (Some (gl "G3I0.25J-0.14")) m = (m', es', r) /\ In (EMove (GCircular (N:=F64 acos) g)) es' /\
    (c_radius_a_pulses g < Z.abs (c_start_a_pulses g + travel default_config (motor_a (c_plane g)) (items default_config (GCircular g) n)))%Z.
Proof.
  intros Hg H. assert (E : acos_at [(dbl 0x1f45471091c5a8 54, dbl 0x10f70586ca3773 52)] acos = acos) by (apply acos_at_eq; constructor; [exact H|constructor]).
  assert (T : shows_arc (F64 (acos_at [(dbl 0x1f45471091c5a8 54, dbl 0x10f70586ca3773 52)] acos)) default_config "G3I0.25J-0.14"
    (fun g => even_plane_b default_config g && room_b 2 g && flat_b g && walk_is (116, -25, 28, -1)%Z g))
    by (apply (ex_arc _ _ ["G1X100Y100"]%string); vm_compute; reflexivity).
  rewrite E in T. clear H E. destruct T as (m & m' & es & es' & r & g & HH & HC & Hr & Hin & T).
  apply andb_prop in T. destruct T as [T T4]. apply andb_prop in T. destruct T as [T T3]. apply andb_prop in T. destruct T as [T1 T2].
  destruct default_arc_cfg as (Hc & Hf & Hm & Hac).
  destruct (arc_of_history acos default_config Hc Calm m es hw_ok _ m' es' r g Hf (fun _ _ h => h) HH HC Hr Hin) as [A].
  apply Z.eqb_eq in T1. apply room_b_spec in T2. apply flat_b_spec in T3. destruct T3 as (F1 & V1 & F2 & V2).
  assert (OC := arc_facts_starts acos default_config Hc g A T1).
  destruct (arc_facts_completes acos default_config Hc g Hg Hm Hac A T1 T2) as [l Hl]; auto; [split; [exact F1|]; rewrite V1, Rabs_R0; apply bpow_ge_0|].
  destruct (completes_items _ _ _ Hl) as [n En]. exists m, m', es, es', r, g, n. split; [exact HH|]. split; [exact Hr|]. split; [exact Hin|].
  destruct (arc_complete default_config g OC l Hl) as [S1 _]. destruct (arc_travel_a default_config g OC n) as [P _]. rewrite En in *. rewrite P, S1.
  apply walk_is_spec in T4. destruct T4 as (W1 & W2 & W3 & W4). unfold pos_a. rewrite W1, W2, W3, W4. reflexivity.
Qed.
Print Assumptions C36_refuted.
Example C36_refuted_ex : exists acos, good_acos acos /\ acos (dbl 0x1f45471091c5a8 54) = dbl 0x10f70586ca3773 52.
Proof.
  exists (acos_at [(dbl 0x1f45471091c5a8 54, dbl 0x10f70586ca3773 52)] ex_acos). split; [|apply B2SF_inj; vm_compute; reflexivity].
  apply acos_at_good; [|exact ex_acos_good]. constructor; [vm_compute; reflexivity|constructor].
Qed.

(* ---------- C38 ---------- *)
(** C38 in double precision: the generator of every such arc runs to its end.
    [good_acos]: math.acos returns numbers between 0 and math.pi. Missing: as for
    C36; also arcs where the velocity of an axis outside the plane that has to
    move is rounded to 0.0, and extruder displacements above 2^40 mm. *)
Theorem C38_arcs_complete_partial (acos : f64 -> f64) (cfg : config) (P : hw_oracle (F64 acos) -> option gcode -> Prop)
        (m m' : machine (F64 acos)) (es es' : list (event (F64 acos))) (hw : hw_oracle (F64 acos)) (gc : gcode) (r : res unit)
        (g : circular_gen (F64 acos)) :
  good_acos acos -> arc_cfg cfg -> (forall hw gc, P hw gc -> calm gc) -> history_where P cfg m es -> calm (Some gc) ->
  run_command cfg hw (Some gc) m = (m', es', r) -> In (EMove (GCircular g)) es' ->
  even_plane cfg g -> room_within 2 g ->
  fin (qe (c_delta g)) -> Rabs (val (qe (c_delta g))) <= 2 ^ 40 ->
  (val (axis_c (c_plane g) (c_delta g)) = 0 \/ val (c_velocity_3rd g) <> 0) ->
  (val (qe (c_delta g)) = 0 \/ val (c_e_velocity g) <> 0) ->
  exists l, completes cfg (GCircular g) l.
Proof.
  intros Ha (Hc & Hf & Hm & Hac) HP H Hgc Hr Hin He R F B H3 H4. destruct (arc_of_history acos cfg Hc P m es hw gc m' es' r g Hf HP H Hgc Hr Hin) as [A].
  apply (arc_facts_completes acos cfg Hc g Ha Hm Hac A He R); auto. split; [exact F|]. eapply Rle_trans; [exact B|]. right. symmetry. exact (bpow_powerRZ radix2 40).
Qed.
Print Assumptions C38_arcs_complete_partial.
Example C38_arcs_complete_ex :
  shows_arc EX default_config "G3X11Y10I0.5J0.25F300" (fun g => even_plane_b default_config g && room_b 2 g && flat_b g).
Proof. apply (ex_arc EX _ ["G1X10Y10"]%string); vm_compute; reflexivity. Qed.

(** With the same power of two pulses per mm on both axes every arc has room. *)
Theorem C38_power_of_two_room (acos : f64 -> f64) (cfg : config) (P : hw_oracle (F64 acos) -> option gcode -> Prop)
        (m m' : machine (F64 acos)) (es es' : list (event (F64 acos))) (hw : hw_oracle (F64 acos)) (gc : gcode) (r : res unit)
        (g : circular_gen (F64 acos)) (n : Z) :
  arc_cfg cfg -> (forall hw gc, P hw gc -> calm gc) -> history_where P cfg m es -> calm (Some gc) ->
  run_command cfg hw (Some gc) m = (m', es', r) -> In (EMove (GCircular g)) es' ->
  even_plane cfg g -> (0 <= n)%Z -> axis_a (c_plane g) (ppm cfg) = (2 ^ n)%Z -> room g.
Proof.
  intros (Hc & Hf & _) HP H Hgc Hr Hin He Hn E. destruct (arc_of_history acos cfg Hc P m es hw gc m' es' r g Hf HP H Hgc Hr Hin) as [A].
  exact (arc_facts_room acos cfg Hc g n A He Hn E).
Qed.
Print Assumptions C38_power_of_two_room.

(** The default configuration with 64 pulses per mm on X and Y. *)
Definition cfg64 : config :=
  {| max_velocity_min := max_velocity_min default_config; min_velocity_min := min_velocity_min default_config;
     ppm := Quad 64 64 400 150; inverted := inverted default_config;
     table_x := table_x default_config; table_y := table_y default_config; table_z := table_z default_config;
     max_acceleration := max_acceleration default_config; spindle_max_rpm := spindle_max_rpm default_config;
     extruder_max_t := extruder_max_t default_config; bed_max_t := bed_max_t default_config; min_t := min_t default_config;
     auto_velocity := auto_velocity default_config; auto_fan := auto_fan default_config |}%Z.
Lemma cfg64_arc_cfg : arc_cfg cfg64.
Proof.
  split; [split; [|simpl; lia]; intros []; simpl; (split; [lia|split; [|lia]])|].
  - exists 156250000%Z; reflexivity.
  - exists 156250000%Z; reflexivity.
  - exists 25000000%Z; reflexivity.
  - split; [vm_compute; intuition discriminate|]. split; [|vm_compute; intuition discriminate]. intros []; vm_compute; intuition discriminate.
Qed.
Example C38_power_of_two_ex :
  shows_arc EX cfg64 "G3I0.28J-0.06" (fun g => even_plane_b cfg64 g && (axis_a (c_plane g) (ppm cfg64) =? 2 ^ 6)%Z).
Proof. apply (ex_arc EX _ ["G1X100Y100"]%string); vm_compute; reflexivity. Qed.

(** C38 is false of the shipped configuration, in the XY and in the YZ plane: the
    generator of the arc never comes to an end, it raises at some item. All that
    is used of acos is its value (that of the C library) at one point, the
    cosine of the start angle. *)
Theorem C38_refuted_xy (acos : f64 -> f64) : acos (dbl 0x1ad1d963d473ca 55) = dbl 0x15c157ed1aa6a3 52 ->
  exists g, In (EMove (GCircular g)) (events0 (N:=F64 acos) ["G1X100Y100"; "G3I0.28J-0.06"]%string) /\
    forall l, ~ completes default_config (GCircular g) l.
Proof.
  intros H. assert (E : acos_at [(dbl 0x1ad1d963d473ca 55, dbl 0x15c157ed1aa6a3 52)] acos = acos)
    by (apply acos_at_eq; constructor; [exact H|constructor]).
  rewrite <- E. clear H E.
  assert (T : arc_with (breaks_a default_config 113)
    (events0 (N:=F64 (acos_at [(dbl 0x1ad1d963d473ca 55, dbl 0x15c157ed1aa6a3 52)] acos)) ["G1X100Y100"; "G3I0.28J-0.06"]%string) = true)
    by (vm_compute; reflexivity).
  apply arc_with_spec in T. destruct T as (g & Hin & T). exists g. split; [exact Hin|]. intros l. exact (breaks_a_never _ _ _ l T).
Qed.
Print Assumptions C38_refuted_xy.

Theorem C38_refuted_yz (acos : f64 -> f64) : acos (dbl (-0x16108f07acbd9c) 55) = dbl 0x1be79893bd8ff0 52 ->
  exists g, In (EMove (GCircular g)) (events0 (N:=F64 acos) ["G1Y100Z100"; "G19"; "G3J1K0.175"]%string) /\
    forall l, ~ completes default_config (GCircular g) l.
Proof.
  intros H. assert (E : acos_at [(dbl (-0x16108f07acbd9c) 55, dbl 0x1be79893bd8ff0 52)] acos = acos)
    by (apply acos_at_eq; constructor; [exact H|constructor]).
  rewrite <- E. clear H E.
  assert (T : arc_with (breaks_b default_config 336)
    (events0 (N:=F64 (acos_at [(dbl (-0x16108f07acbd9c) 55, dbl 0x1be79893bd8ff0 52)] acos)) ["G1Y100Z100"; "G19"; "G3J1K0.175"]%string) = true)
    by (vm_compute; reflexivity).
  apply arc_with_spec in T. destruct T as (g & Hin & T). exists g. split; [exact Hin|]. intros l. exact (breaks_b_never _ _ _ l T).
Qed.
Print Assumptions C38_refuted_yz.
(** Both assumptions are met by an acos that also is [good_acos]. *)
Example C38_refuted_ex : exists acos, good_acos acos /\ acos (dbl 0x1ad1d963d473ca 55) = dbl 0x15c157ed1aa6a3 52 /\
  acos (dbl (-0x16108f07acbd9c) 55) = dbl 0x1be79893bd8ff0 52.
Proof.
  exists (acos_at [(dbl 0x1ad1d963d473ca 55, dbl 0x15c157ed1aa6a3 52); (dbl (-0x16108f07acbd9c) 55, dbl 0x1be79893bd8ff0 52)] ex_acos).
  split; [|split; apply B2SF_inj; vm_compute; reflexivity].
  apply acos_at_good; [|exact ex_acos_good]. repeat constructor.
Qed.
