(** Theorems about arcs: end point (C35, C37), work area (C10), velocity (C23).
    Every theorem is followed by its assumptions and by an Example of its
    hypotheses. *)
From Coq Require Import String Ascii ZArith Bool Reals Lra Lia List.
From Flocq Require Import Core BinarySingleNaN.
From Verif Require Import PyBase PyNum PyFloatFacts Config Coordinates Pulses PulseSpec GCode GCodeSpec WordFacts GMachine ExampleBase Decimal MachinePos MachineArc MachineWork PropsPosition LinearGen ArcSpec ArcRun ArcMake ArcFloat ArcGrid ArcDone ArcEnd ArcMachine ArcFail ArcTravel PropsArc.
From Coq Require Import List.
From Flocq Require Import Core.
Import ListNotations.
Local Open Scope R_scope.

(* ---------- for the witnesses ---------- *)
(** math.pi / 2. *)
Notation half_pi := (dbl 0x1921fb54442d18 52).
Notation pz := (B754_zero false : f64).
Notation nz := (B754_zero true : f64).
(** An arc commanded after some lines, with a look at the state before and at the result. *)
Definition commands_arc (N : PyNum) cfg (s : string) (m : machine N) (es' : list (event N)) (r : res unit) (g : circular_gen N) : Prop :=
  exists m' es, history_where Calm cfg m es /\ calm (Some (gl s)) /\
    run_command cfg hw_ok (Some (gl s)) m = (m', es', r) /\ In (EMove (GCircular g)) es'.
Lemma ex_command (N : PyNum) cfg ls s (tm : machine N -> bool) (tr : list (event N) * res unit -> bool) test : forallb calm_b ls = true -> calm_b s = true ->
  (let m := fst (after cfg hw_ok ls (init_machine cfg) []) in let r := run_command cfg hw_ok (Some (gl s)) m in
   tm m && tr (events_of r, result_of r) && arc_with test (events_of r)) = true ->
  exists m es r g, commands_arc N cfg s m es r g /\ tm m = true /\ tr (es, r) = true /\ test g = true.
Proof.
  intros Hl Hs Ht. cbv zeta in Ht. apply andb_prop in Ht. destruct Ht as [Ht T3]. apply andb_prop in Ht. destruct Ht as [T1 T2].
  apply arc_with_spec in T3. destruct T3 as (g & Hin & T3). set (H := after cfg hw_ok ls (init_machine cfg) []) in *.
  set (r := run_command _ _ _ _) in *. exists (fst H), (events_of r), (result_of r), g. split; [|split; [exact T1|split; assumption]].
  exists (state_of r), (snd H). split; [|split; [now apply calm_b_spec|split; [|assumption]]].
  - apply after_history; [|constructor]. apply Forall_forall. intros l Hin'. rewrite forallb_forall in Hl. apply calm_b_spec. auto.
  - unfold r, state_of, events_of, result_of. now destruct (run_command _ _ _ _) as [[? ?] ?].
Qed.
Definition ok_b (r : res unit) : bool := match r with Ok _ => true | Raise _ => false end.
Lemma ok_b_spec r : ok_b r = true -> r = Ok tt.
Proof. destruct r as [[]|]; [reflexivity|discriminate]. Qed.
(** Position in whole millimetres. *)
Definition at_xy {N : PyNum} (x y : Z) (m : machine N) : bool := eqb (qx (m_position m)) (ofZ x) && eqb (qy (m_position m)) (ofZ y).
Definition both_walks {N : PyNum} (w w' : Z * Z * Z * Z) (g : circular_gen N) : bool :=
  walk_is w g &&
  let '(it, st, ra, d) := w' in (c_iterations_b g =? it)%Z && (c_start_b_pulses g =? st)%Z && (c_radius_b_pulses g =? ra)%Z && (c_dir_b g =? d)%Z.
Lemma both_walks_spec {N : PyNum} it st ra d it' st' ra' d' (g : circular_gen N) : both_walks (it, st, ra, d) (it', st', ra', d') g = true ->
  (c_iterations_a g = it /\ c_start_a_pulses g = st /\ c_radius_a_pulses g = ra /\ c_dir_a g = d) /\
  (c_iterations_b g = it' /\ c_start_b_pulses g = st' /\ c_radius_b_pulses g = ra' /\ c_dir_b g = d').
Proof. intros H. apply andb_prop in H. destruct H as [H1 H2]. split; [now apply walk_is_spec|]. revert H2. rewrite !andb_true_iff, !Z.eqb_eq. tauto. Qed.
(** An arc in the XY plane, without other axes, that has room. *)
Definition plain_b {N : PyNum} (g : circular_gen N) : bool :=
  match c_plane g with PlaneXY => true | _ => false end && room_b 2 g && flat_b g.
Lemma plain_arc acos (s : string) m es r g : good_acos acos -> commands_arc (F64 acos) default_config s m es r g -> plain_b g = true ->
  c_plane g = PlaneXY /\ starts_inside g /\ exists l, completes default_config (GCircular g) l.
Proof.
  intros Hg (m' & es0 & HH & HC & Hr & Hin) T. apply andb_prop in T. destruct T as [T T3]. apply andb_prop in T. destruct T as [T1 T2].
  assert (Pl : c_plane g = PlaneXY) by (destruct (c_plane g); try discriminate T1; reflexivity). split; [exact Pl|].
  destruct default_arc_cfg as (Hc & Hf & Hm & Hac).
  destruct (arc_of_history acos default_config Hc Calm m es0 hw_ok _ m' es r g Hf (fun _ _ h => h) HH HC Hr Hin) as [A].
  assert (Ev : axis_a (c_plane g) (ppm default_config) = axis_b (c_plane g) (ppm default_config)) by (rewrite Pl; reflexivity).
  split; [exact (arc_facts_starts acos default_config Hc g A Ev)|].
  apply room_b_spec in T2. apply flat_b_spec in T3. destruct T3 as (F1 & V1 & F2 & V2).
  apply (arc_facts_completes acos default_config Hc g Hg Hm Hac A Ev T2); auto. split; [exact F1|]. rewrite V1, Rabs_R0. apply bpow_ge_0.
Qed.

(* ---------- C10 ---------- *)
(** C10 is false: from (100, 195) half a circle with centre (90, 195) to (80, 195)
    is accepted and takes Y to 205 mm; the table ends at 200. *)
Theorem C10_refuted (acos : f64 -> f64) : good_acos acos -> acos pz = half_pi -> acos nz = half_pi ->
  exists m es g n, commands_arc (F64 acos) default_config "G3X80Y195I-10" m es (Ok tt) g /\ at_xy 100 195 m = true /\
    (195 * 100 + travel default_config MY (items default_config (GCircular g) n) = 205 * 100)%Z.
Proof.
  intros Hg H1 H2. assert (E : acos_at [(pz, half_pi); (nz, half_pi)] acos = acos) by (apply acos_at_eq; repeat constructor; assumption).
  assert (T : exists m es r g, commands_arc (F64 (acos_at [(pz, half_pi); (nz, half_pi)] acos)) default_config "G3X80Y195I-10" m es r g /\
    at_xy 100 195 m = true /\ ok_b (snd (es, r)) = true /\ plain_b g && both_walks (2000, 1000, 1000, -1)%Z (2000, 0, 1000, 1)%Z g = true)
    by (apply (ex_command _ _ ["G1X100Y195"]%string _ _ (fun q => ok_b (snd q))); vm_compute; reflexivity).
  rewrite E in T. clear H1 H2 E. destruct T as (m & es & r & g & HC & Tm & Tr & T). apply ok_b_spec in Tr. cbn [snd] in Tr. subst r.
  apply andb_prop in T. destruct T as [T1 T2]. apply both_walks_spec in T2. destruct T2 as [_ (W1 & W2 & W3 & W4)].
  destruct (plain_arc acos _ m es _ g Hg HC T1) as (Pl & OC & l & Hl).
  destruct (everywhere_b default_config g OC l 1000 Hl) as [n P]; [lia|]. rewrite Pl in P. cbn [motor_b] in P.
  unfold pos_b in P. rewrite W2, W3, W4 in P. change (h_pos 0 1000 1 1000) with 1000%Z in P.
  exists m, es, g, n. split; [exact HC|]. split; [exact Tm|]. lia.
Qed.
Print Assumptions C10_refuted.

(* ---------- C23 ---------- *)
(** C23 is false: with automatic velocity adjustment this arc, rising by 0.1 mm, is
    rejected as too fast. *)
Theorem C23_refuted (acos : f64 -> f64) : acos pz = half_pi -> acos nz = half_pi ->
  exists m es, history_where (N:=F64 acos) Calm default_config m es /\ auto_velocity default_config = true /\
    result_of (run_command default_config hw_ok (Some (gl "G2X108Y100Z0.1I4F24000")) m) = Raise (GMachineException "out of maximum speed").
Proof.
  intros H1 H2. assert (E : acos_at [(pz, half_pi); (nz, half_pi)] acos = acos) by (apply acos_at_eq; repeat constructor; assumption).
  rewrite <- E. exists (after0 ["G1X100Y100"]%string), (events0 ["G1X100Y100"]%string).
  split; [apply calm_history; vm_compute; reflexivity|]. split; [reflexivity|]. vm_compute. reflexivity.
Qed.
Print Assumptions C23_refuted.

(* ---------- C35 ---------- *)
(** C35 is false for full circles: of 0.29 mm radius in the XY plane, ends 4 steps
    to the right of its start. *)
Theorem C35_circle_refuted (acos : f64 -> f64) : good_acos acos -> acos pz = half_pi -> acos nz = half_pi ->
  exists m es g l, commands_arc (F64 acos) default_config "G2I0.29" m es (Ok tt) g /\
    completes default_config (GCircular g) l /\ travel default_config MX l = 4%Z.
Proof.
  intros Hg H1 H2. assert (E : acos_at [(pz, half_pi); (nz, half_pi)] acos = acos) by (apply acos_at_eq; repeat constructor; assumption).
  assert (T : exists m es r g, commands_arc (F64 (acos_at [(pz, half_pi); (nz, half_pi)] acos)) default_config "G2I0.29" m es r g /\
    at_xy 100 100 m = true /\ ok_b (snd (es, r)) = true /\ plain_b g && both_walks (116, -28, 28, 1)%Z (116, 0, 28, 1)%Z g = true)
    by (apply (ex_command _ _ ["G1X100Y100"]%string _ _ (fun q => ok_b (snd q))); vm_compute; reflexivity).
  rewrite E in T. clear H1 H2 E. destruct T as (m & es & r & g & HC & Tm & Tr & T). apply ok_b_spec in Tr. cbn [snd] in Tr. subst r.
  apply andb_prop in T. destruct T as [T1 T2]. apply both_walks_spec in T2. destruct T2 as [(V1 & V2 & V3 & V4) (W1 & W2 & W3 & W4)].
  destruct (plain_arc acos _ m es _ g Hg HC T1) as (Pl & OC & l & Hl).
  destruct (arc_net default_config g OC l Hl) as [P _]; [lia|lia|]. rewrite Pl in P. cbn [motor_a] in P.
  unfold pos_a in P. rewrite V1, V2, V3, V4 in P. change (h_pos (-28) 28 1 116) with (-24)%Z in P.
  exists m, es, g, l. split; [exact HC|]. split; [exact Hl|]. lia.
Qed.
Print Assumptions C35_circle_refuted.
(** C35 is false for arcs against the clock that stay within one quarter: this one,
    from (28, 4) to (20, 20) seen from the centre, makes a whole turn and ends where
    it started instead of at X-8 Y+16. *)
Definition asks {N : PyNum} (x y : Z) (g : circular_gen N) : bool := eqb (qx (c_delta g)) (ofZ x) && eqb (qy (c_delta g)) (ofZ y).
Theorem C35_quarter_refuted (acos : f64 -> f64) : good_acos acos ->
  acos (dbl 0x121a1851ff630a 55) = dbl 0x16dcc57bb565fd 52 -> acos (dbl 0x16a09e667f3bcc 53) = dbl 0x1921fb54442d19 53 ->
  exists m es g l, commands_arc (F64 acos) default_config "G3X92Y116I-28J-4" m es (Ok tt) g /\ asks (-8) 16 g = true /\
    completes default_config (GCircular g) l /\ travel default_config MX l = 0%Z /\ travel default_config MY l = 0%Z.
Proof.
  intros Hg H1 H2.
  assert (E : acos_at [(dbl 0x121a1851ff630a 55, dbl 0x16dcc57bb565fd 52); (dbl 0x16a09e667f3bcc 53, dbl 0x1921fb54442d19 53)] acos = acos) by (apply acos_at_eq; repeat constructor; assumption).
  assert (T : exists m es r g, commands_arc (F64 (acos_at [(dbl 0x121a1851ff630a 55, dbl 0x16dcc57bb565fd 52); (dbl 0x16a09e667f3bcc 53, dbl 0x1921fb54442d19 53)] acos)) default_config "G3X92Y116I-28J-4" m es r g /\
    at_xy 100 100 m = true /\ ok_b (snd (es, r)) = true /\ plain_b g && asks (-8) 16 g && both_walks (11312, 2800, 2828, -1)%Z (11312, 400, 2828, 1)%Z g = true)
    by (apply (ex_command _ _ ["G1X100Y100"]%string _ _ (fun q => ok_b (snd q))); vm_compute; reflexivity).
  rewrite E in T. clear H1 H2 E. destruct T as (m & es & r & g & HC & Tm & Tr & T). apply ok_b_spec in Tr. cbn [snd] in Tr. subst r.
  apply andb_prop in T. destruct T as [T T2]. apply andb_prop in T. destruct T as [T1 T3].
  apply both_walks_spec in T2. destruct T2 as [(V1 & V2 & V3 & V4) (W1 & W2 & W3 & W4)].
  destruct (plain_arc acos _ m es _ g Hg HC T1) as (Pl & OC & l & Hl).
  destruct (arc_net default_config g OC l Hl) as [P Q]; [lia|lia|]. rewrite Pl in P, Q. cbn [motor_a motor_b] in P, Q.
  unfold pos_a in P. unfold pos_b in Q. rewrite V1, V2, V3, V4 in P. rewrite W1, W2, W3, W4 in Q.
  change (h_pos 2800 2828 (-1) 11312) with 2800%Z in P. change (h_pos 400 2828 1 11312) with 400%Z in Q.
  exists m, es, g, l. split; [exact HC|]. split; [exact T3|]. split; [exact Hl|]. lia.
Qed.
Print Assumptions C35_quarter_refuted.

(* ---------- C37 ---------- *)
(** C37 is false: seen from the centre the arc goes from (-3, -4) to (4, 3), both
    on the circle of radius 5, but a different arc and a straight move are made. *)
Definition line_b {N : PyNum} (es : list (event N)) : bool := existsb (fun ev => match ev with EMove (GLinear _) => true | _ => false end) es.
Theorem C37_refuted (acos : f64 -> f64) :
  acos (dbl (-0x1999999999999a) 53) = dbl 0x13fc176b7a8560 51 -> acos (dbl 0x14ef92a6a3dca6 53) = dbl 0x1b719063272bb9 53 ->
  exists m es g, commands_arc (F64 acos) default_config "G2X107Y107I3J4" m es (Ok tt) g /\ at_xy 100 100 m = true /\
    asks 7 7 g = false /\ exists lg, In (EMove (GLinear lg)) es.
Proof.
  intros H1 H2.
  assert (E : acos_at [(dbl (-0x1999999999999a) 53, dbl 0x13fc176b7a8560 51); (dbl 0x14ef92a6a3dca6 53, dbl 0x1b719063272bb9 53)] acos = acos) by (apply acos_at_eq; repeat constructor; assumption).
  rewrite <- E.
  assert (T : exists m es r g, commands_arc (F64 (acos_at [(dbl (-0x1999999999999a) 53, dbl 0x13fc176b7a8560 51); (dbl 0x14ef92a6a3dca6 53, dbl 0x1b719063272bb9 53)] acos)) default_config "G2X107Y107I3J4" m es r g /\
    at_xy 100 100 m = true /\ ok_b (snd (es, r)) && line_b (fst (es, r)) = true /\ negb (asks 7 7 g) = true)
    by (apply (ex_command _ _ ["G1X100Y100"]%string _ _ (fun q => ok_b (snd q) && line_b (fst q))); vm_compute; reflexivity).
  destruct T as (m & es & r & g & HC & Tm & Tr & T). apply andb_prop in Tr. destruct Tr as [T1 T2]. apply ok_b_spec in T1. cbn [snd fst] in T1, T2. subst r.
  exists m, es, g. split; [exact HC|]. split; [exact Tm|]. split; [now apply negb_true_iff|].
  apply existsb_exists in T2. destruct T2 as (ev & Hin & T2). destruct ev; try discriminate T2. destruct g0 as [lg|]; try discriminate T2. eauto.
Qed.
Print Assumptions C37_refuted.

(** An acos meeting the assumptions about its values in this file. *)
Definition tbl_acos : list (f64 * f64) := [(pz, half_pi); (nz, half_pi);
  (dbl 0x121a1851ff630a 55, dbl 0x16dcc57bb565fd 52); (dbl 0x16a09e667f3bcc 53, dbl 0x1921fb54442d19 53);
  (dbl (-0x1999999999999a) 53, dbl 0x13fc176b7a8560 51); (dbl 0x14ef92a6a3dca6 53, dbl 0x1b719063272bb9 53)].
Definition ex_acos2 : f64 -> f64 := acos_at tbl_acos ex_acos.
Example ex_acos2_ok : good_acos ex_acos2 /\ Forall (fun q => ex_acos2 (fst q) = snd q) tbl_acos.
Proof.
  split; [apply acos_at_good; [|exact ex_acos_good]; repeat constructor|].
  repeat constructor; apply B2SF_inj; vm_compute; reflexivity.
Qed.
