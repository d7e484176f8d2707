(** Circles of the shipped configuration that leave the table (C10, C81). Every theorem is
    followed by its assumptions and by an Example in which its hypotheses hold. *)
From Coq Require Import String Ascii ZArith Bool Reals Lra Lia List.
From Flocq Require Import Core BinarySingleNaN.
From Verif Require Import PyBase PyNum PyFloatFacts Config Coordinates Pulses PulseSpec GCode GMachine GMachineProofs MachineRel MachineHist MachinePos MachineArc MachineWork ExampleBase PropsPosition LinearGen ArcSpec ArcRun ArcMake ArcGrid ArcDone ArcEnd ArcMachine ArcFail ArcTravel MachineMoves PropsArc PropsArcEnd PropsMoves PropsArcFloat PropsArcMoves TableDrive PropsTableArcs.
From Verif Require Import GMachine MainLoop MainSpec.
From Coq Require Import List.
From Flocq Require Import Core.
Import ListNotations.
Local Open Scope Z_scope.

(* ---------- C10 ---------- *)
(** C10 is false for full circles too: the circle around (1.16, 99.76) through (0.03, 100),
    of 116 steps, is accepted. Both the radius and the X of the start come out one step too
    small in the conversion to steps, so the walk of X is one step to the left of the
    circle, and the last step does not turn round at the edge of the circle (C36_refuted):
    the motor of X ends one step below 0. *)
Theorem C10_circle_refuted (acos : f64 -> f64) : good_acos acos -> acos (dbl 0x1a97b9220d3555 55) = dbl 0x15c8c5d0b5e039 52 ->
  exists (m : machine (F64 acos)) es g n, commands_arc (F64 acos) default_config "G3I1.13J-0.24" m es (Ok tt) g /\
    nearest_to 100 3 (qx (m_position m)) /\
    3 + travel default_config MX (items default_config (GCircular g) n) = -1.
Proof.
  intros Hg H. assert (E : acos_at [(dbl 0x1a97b9220d3555 55, dbl 0x15c8c5d0b5e039 52)] acos = acos) by (apply acos_at_eq; repeat constructor; assumption).
  assert (T : exists m es r g, commands_arc (F64 (acos_at [(dbl 0x1a97b9220d3555 55, dbl 0x15c8c5d0b5e039 52)] acos)) default_config "G3I1.13J-0.24" m es r g /\
    near_b 100 3 (qx (m_position m)) = true /\ ok_b (snd (es, r)) = true /\ plain_b g && walk_is (464, -112, 115, -1)%Z g = true)
    by (apply (ex_command (F64 (acos_at [(dbl 0x1a97b9220d3555 55, dbl 0x15c8c5d0b5e039 52)] acos)) _ ["G1X0.03Y100"]%string _ (fun m => near_b 100 3 (qx (m_position m))) (fun q => ok_b (snd q))); vm_compute; reflexivity).
  rewrite E in T. clear H E. destruct T as (m & es & r & g & HC & Tm & Tr & T). apply ok_b_spec in Tr. cbn [snd] in Tr. subst r.
  apply near_b_spec in Tm; [|lia|lia]. apply andb_prop in T. destruct T as [T1 T2]. apply walk_is_spec in T2. destruct T2 as (W1 & W2 & W3 & W4).
  destruct (plain_arc acos _ m es _ g Hg HC T1) as (Pl & OC & l & Hl).
  destruct (everywhere_a default_config g OC l 464 Hl) as [n P]; [lia|]. rewrite Pl in P. cbn [motor_a] in P.
  unfold pos_a in P. rewrite W2, W3, W4 in P. change (h_pos (-112) 115 (-1) 464) with (-116)%Z in P.
  exists m, es, g, n. split; [exact HC|]. split; [exact Tm|]. lia.
Qed.
Print Assumptions C10_circle_refuted.
Example C10_circle_refuted_ex : exists acos, good_acos acos /\ acos (dbl 0x1a97b9220d3555 55) = dbl 0x15c8c5d0b5e039 52.
Proof.
  exists (acos_at [(dbl 0x1a97b9220d3555 55, dbl 0x15c8c5d0b5e039 52)] ex_acos). split; [|apply B2SF_inj; vm_compute; reflexivity].
  apply acos_at_good; [|exact ex_acos_good]. constructor; [vm_compute; reflexivity|constructor].
Qed.

(* ---------- C81 ---------- *)
(** C81 is false with circles, and without end: every circle of radius 0.29 mm leaves the
    motor of X four steps further to the right (C35_circle_refuted), while the machine is
    exactly as before. The program G1X1Y1, then G2I0.29 on k lines, all answered with ok:
    the reported position is (1, 1), the motor of X is at 100 + 4 k steps; the table ends
    at 20000. *)
Definition drift_circle {acos} (m : machine (F64 acos)) : bool :=
  let r := run_command default_config hw_ok (Some (gl "G2I0.29")) m in
  machine_same (state_of r) m && ok_b (result_of r) &&
  one_arc (fun g => plain_b g && both_walks (116, -28, 28, 1)%Z (116, 0, 28, 1)%Z g) (events_of r).
Definition start81 (acos : f64 -> f64) : bool :=
  let r := run_command (N:=F64 acos) default_config hw_ok (Some (gl "G1X1Y1")) (init_machine default_config) in
  drift_circle (state_of r) && ok_b (result_of r) && at_xy 1 1 (state_of r) &&
  match sent_b acos AX 1000 (events_of r) with Some s => (s =? 100)%Z | None => false end.
Lemma start81_at (acos : f64 -> f64) : start81 (acos_at [(pz, half_pi); (nz, half_pi)] acos) = true.
Proof. vm_compute. reflexivity. Qed.
Lemma calm_one s : calm_b s = true -> calm (Some (gl s)).
Proof. apply calm_b_spec. Qed.
Lemma ran_line {N : PyNum} cfg hw line gc (s : session N) :
  parse_line line = Ok gc -> result_of (run_command cfg hw gc (s_machine s)) = Ok tt ->
  hw_now hw s = hw ->
  exists s', do_line cfg hw line s = (s', Ok true) /\ s_machine s' = state_of (run_command cfg hw gc (s_machine s)) /\ s_log s' = s_log s ++ events_of (run_command cfg hw gc (s_machine s)).
Proof.
  intros Ep Er Eh. unfold do_line. rewrite Ep, Eh. unfold result_of, state_of, events_of in *.
  destruct (run_command cfg hw gc (s_machine s)) as [[m' es] r]. cbn [fst snd] in *. subst r. cbn [answer]. eexists. split; [reflexivity|]. split; reflexivity.
Qed.
Lemma circle_more (acos : f64 -> f64) (m : machine (F64 acos)) es s : good_acos acos -> drift_circle m = true ->
  history_where Calm default_config m es -> sent acos default_config AX es s ->
  let r := run_command default_config hw_ok (Some (gl "G2I0.29")) m in
  state_of r = m /\ result_of r = Ok tt /\ history_where Calm default_config m (es ++ events_of r) /\ sent acos default_config AX (es ++ events_of r) (s + 4).
Proof.
  intros Hg T H S r. unfold drift_circle in T. cbv zeta in T. fold r in T. assert (Q := ran default_config hw_ok (Some (gl "G2I0.29")) m). fold r in Q.
  apply andb_prop in T. destruct T as [T T3]. apply andb_prop in T. destruct T as [T1 T2].
  apply machine_same_eq in T1. apply ok_b_spec in T2. apply one_arc_spec in T3. destruct T3 as (g & E1 & Tg).
  split; [exact T1|]. split; [exact T2|].
  assert (C1 := calm_one "G2I0.29" eq_refl).
  assert (H1 := h_step Calm default_config m es hw_ok (Some (gl "G2I0.29")) _ _ _ H C1 Q). rewrite T1 in H1. split; [exact H1|].
  apply andb_prop in Tg. destruct Tg as [Tg1 Tg2]. apply both_walks_spec in Tg2. destruct Tg2 as [(V1 & V2 & V3 & V4) (W1 & W2 & W3 & W4)].
  assert (HC: commands_arc (F64 acos) default_config "G2I0.29" m (events_of r) (result_of r) g).
  { exists (state_of r), es. split; [exact H|]. split; [exact C1|]. split; [exact Q|]. rewrite E1. now left. }
  destruct (plain_arc acos _ m _ _ g Hg HC Tg1) as (Pl & OC & l & Hl).
  destruct (arc_net default_config g OC l Hl) as [P _]; [lia|lia|]. rewrite Pl in P. cbn [motor_a] in P.
  unfold pos_a in P. rewrite V1, V2, V3, V4 in P. change (h_pos (-28) 28 1 116) with (-24)%Z in P.
  apply sent_joined; [exact S|]. rewrite E1. replace 4%Z with (travel default_config (motor_of AX) l + 0)%Z by (cbn [motor_of]; lia). apply sent_move; [exact Hl|constructor].
Qed.
Theorem C81_circles_refuted (acos : f64 -> f64) (k : nat) : good_acos acos -> acos pz = half_pi -> acos nz = half_pi ->
  exists s, answered default_config (N:=F64 acos) hw_ok (fun l => l) (map Line (tx "G1X1Y1" :: repeat (tx "G2I0.29") k)) (session0 default_config) (repeat true (S k)) s /\
    at_xy 1 1 (s_machine s) = true /\ sent acos default_config AX (s_log s) (100 + 4 * Z.of_nat k).
Proof.
  intros Hg H1 H2. assert (E : acos_at [(pz, half_pi); (nz, half_pi)] acos = acos) by (apply acos_at_eq; repeat constructor; assumption).
  assert (T := start81_at acos). rewrite E in T. clear E H1 H2. unfold start81 in T. cbv zeta in T.
  assert (Q := ran default_config hw_ok (Some (gl "G1X1Y1")) (init_machine (N:=F64 acos) default_config)).
  set (r := run_command default_config hw_ok (Some (gl "G1X1Y1")) _) in *.
  apply andb_prop in T. destruct T as [T T4]. apply andb_prop in T. destruct T as [T T3]. apply andb_prop in T. destruct T as [T1 T2]. apply ok_b_spec in T2.
  destruct (sent_b acos AX 1000 (events_of r)) as [s0|] eqn:S0; [|discriminate T4]. apply Z.eqb_eq in T4. subst s0. apply sent_b_spec in S0.
  assert (H := h_step Calm default_config (init_machine default_config) [] hw_ok (Some (gl "G1X1Y1")) _ _ _ (h_init _ _) (calm_one "G1X1Y1" eq_refl) Q). cbn [app] in H.
  set (m := state_of r) in *.
  assert (L: forall k (x : session (F64 acos)) t, s_machine x = m -> history_where Calm default_config m (s_log x) -> sent acos default_config AX (s_log x) t ->
    exists s, answered default_config (N:=F64 acos) hw_ok (fun l => l) (map Line (repeat (tx "G2I0.29") k)) x (repeat true k) s /\
      s_machine s = m /\ sent acos default_config AX (s_log s) (t + 4 * Z.of_nat k)).
  { clear - Hg T1. induction k as [|k IH]; intros x t Em Hx Sx.
    - exists x. split; [constructor|]. split; [exact Em|]. replace (t + 4 * Z.of_nat 0) with t by lia. exact Sx.
    - destruct (circle_more acos m (s_log x) t Hg T1 Hx Sx) as (A1 & A2 & A3 & A4).
      destruct (ran_line (N:=F64 acos) default_config hw_ok (tx "G2I0.29") (Some (gl "G2I0.29")) x ltac:(vm_compute; reflexivity)) as (x' & D & M' & L'); [rewrite Em; exact A2|reflexivity|].
      rewrite Em in M', L'. rewrite A1 in M'.
      destruct (IH x' (t + 4)) as (s & An & Ms & Ss); [exact M'|rewrite L'; exact A3|rewrite L'; exact A4|].
      exists s. split; [|split; [exact Ms|]].
      + cbn [repeat map]. econstructor; [exact D|exact An].
      + replace (t + 4 * Z.of_nat (Datatypes.S k)) with (t + 4 + 4 * Z.of_nat k) by lia. exact Ss. }
  destruct (ran_line (N:=F64 acos) default_config hw_ok (tx "G1X1Y1") (Some (gl "G1X1Y1")) (session0 default_config) ltac:(vm_compute; reflexivity)) as (x & D & M' & L'); [exact T2|reflexivity|].
  destruct (L k x 100) as (s & An & Ms & Ss); [exact M'|rewrite L'; exact H|rewrite L'; exact S0|].
  exists s. split; [|split; [rewrite Ms; exact T3|exact Ss]].
  cbn [repeat map]. econstructor; [exact D|exact An].
Qed.
Print Assumptions C81_circles_refuted.
Example C81_circles_refuted_ex : exists acos, good_acos acos /\ acos pz = half_pi /\ acos nz = half_pi /\
  exists s t, answered default_config (N:=F64 acos) hw_ok (fun l => l) (map Line (tx "G1X1Y1" :: repeat (tx "G2I0.29") (Z.to_nat 4976))) (session0 default_config) (repeat true (S (Z.to_nat 4976))) s /\
    sent acos default_config AX (s_log s) t /\ table default_config AX * ax AX (ppm default_config) < t.
Proof.
  destruct C82_drift_ex as (H1 & H2 & H3). exists line_acos. split; [exact H1|]. split; [exact H2|]. split; [exact H3|].
  destruct (C81_circles_refuted line_acos (Z.to_nat 4976) H1 H2 H3) as (s & A & _ & S). exists s. eexists. split; [exact A|]. split; [exact S|].
  rewrite Z2Nat.id by lia. reflexivity.
Qed.
