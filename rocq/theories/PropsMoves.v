(** Theorems about the straight moves of whole commands, item by item: working area
    (C09), reported position and emitted pulses (C16), net travel (C30). Every theorem
    is followed by its assumptions and by an Example of its hypotheses. *)
From Coq Require Import String ZArith Bool Reals Lra Lia List.
From Flocq Require Import Core BinarySingleNaN.
From Verif Require Import PyBase PyNum PyFloatFacts Config Coordinates GCode Pulses PulseSpec GMachine GMachineProofs ExampleBase LinearLaw ArcSpec ArcRun LinearTravel MachineFacts MachinePos MachineArc MachineWork MachineMoves PropsPulses PropsPosition.
From Coq Require Import List.
From Flocq Require Import Core.
Import ListNotations.
Local Open Scope R_scope.

(* ---------- C09 ---------- *)
(** C09. A command other than an arc, on any hardware, after any history whose arcs
    have radius words of at most 600: every straight move starts at the reported
    position, which is the nearest double to a whole number of steps, and from there
    every axis is between 0 and the size of the table after every single item of the
    generator ([keeps_on_table], [moves_from]). Missing: histories with larger radius
    words, which can leave the position outside (C08_position_on_table_refuted). *)
Theorem C09_moves_on_table_partial (acos : f64 -> f64) (cfg : config) (P : hw_oracle (F64 acos) -> option gcode -> Prop)
        (m m' : machine (F64 acos)) (es0 es : list (event (F64 acos))) (hw : hw_oracle (F64 acos)) (gc : option gcode) (r : res unit) :
  good_cfg cfg -> (forall hw gc, P hw gc -> small_radius gc) -> history_where P cfg m es0 ->
  no_arc gc -> run_command cfg hw gc m = (m', es, r) ->
  moves_from acos cfg (m_position m) es (m_position m').
Proof.
  intros Hc HP Hh Ha Hr. destruct (moves_command acos cfg Hc hw gc Ha _ _ _ _ _ Hr) as (es' & E & H). cbn [app] in E. subst es'.
  apply H. exact (history_on_table acos cfg Hc P m es0 HP Hh).
Qed.
Print Assumptions C09_moves_on_table_partial.
(** G28 after two moves and an arc: one move of X and Y, then one of Z. *)
Definition prog09 : list string := ["G1X150.12Y50"; "G2X150.12Y50I-3J-4"; "G0Z-300"; "G1Z3"]%string.
Example C09_moves_on_table_ex :
  good_cfg default_config /\ Forall (fun s => small_radius (Some (gl s))) prog09 /\ no_arc (Some (gl "G28")) /\
  match events_of (run_command default_config hw_ok (Some (gl "G28")) (after0 (N:=F64 (fun x => x)) prog09)) with
  | [EMove (GLinear g1); EMove (GLinear g2); _; _] => l_total g1 = Quad 15012 5000 0 0 /\ l_total g2 = Quad 0 0 1200 0
  | _ => False end%Z.
Proof.
  split; [exact default_good|]. split.
  - apply Forall_forall. intros s Hs. apply moderate_radius, moderate_b_spec.
    assert (K: forallb moderate_b prog09 = true) by (vm_compute; reflexivity). rewrite forallb_forall in K. auto.
  - split; [split; vm_compute; discriminate|]. vm_compute. auto.
Qed.

(* ---------- C16 ---------- *)
(** C16, about what is emitted: after any history without arcs, on hardware whose
    motor calls do not fail, let [s] be the sum of the net travel of an axis over the
    items of all generators, each run to its end ([sent]). Then the position of the
    axis is the double nearest to s / (pulses per mm). *)
Theorem C16_position_is_pulses_emitted (acos : f64 -> f64) (cfg : config) (P : hw_oracle (F64 acos) -> option gcode -> Prop)
        (m : machine (F64 acos)) (es : list (event (F64 acos))) (a : axis) (s : Z) :
  good_cfg cfg ->
  (forall hw gc, P hw gc -> (forall l g e, hw l (EMove g) <> HRaise e) /\ no_arc gc) ->
  history_where P cfg m es -> sent acos cfg a es s ->
  nearest_to (ax a (ppm cfg)) s (ax a (m_position m)).
Proof.
  intros Hc HP Hh Hs. refine (history_sends acos cfg Hc P m es a s _ Hh Hs). intros hw gc H. destruct (HP hw gc H) as [H1 H2].
  split; [|exact H2]. intros l ev e (g & ->). apply H1.
Qed.
Print Assumptions C16_position_is_pulses_emitted.
(** What the generators of some events emit, run to the end. *)
Definition sent_b (acos : f64 -> f64) (a : axis) (fuel : nat) (es : list (event (F64 acos))) : option Z :=
  fold_right (fun ev r => match ev, r with
    | EMove g, Some s => match run_gen default_config fuel g with Finished l => Some (travel default_config (motor_of a) l + s)%Z | _ => None end
    | _, _ => r end) (Some 0%Z) es.
Lemma sent_b_spec acos a fuel es s : sent_b acos a fuel es = Some s -> sent acos default_config a es s.
Proof.
  revert s. induction es as [|ev es IH]; intros s H.
  - injection H as <-. constructor.
  - cbn [sent_b fold_right] in H. fold (sent_b acos a fuel es) in H.
    destruct ev; try (apply sent_other; [discriminate|apply IH; exact H]).
    destruct (sent_b acos a fuel es) as [s'|]; [|discriminate].
    match type of H with context [run_gen ?c ?f ?g] => destruct (run_gen c f g) as [l| |] eqn:E end; try discriminate.
    injection H as <-. apply sent_move; [exists fuel; exact E|apply IH; reflexivity].
Qed.
Definition prog16s : list string := ["G1X1.5Y1"; "G91"; "G1X-0.333Y0.01"; "G20"; "G0Z0.01X-.03"; "G28Y0"]%string.
Example C16_position_is_pulses_emitted_ex (acos : f64 -> f64) :
  Forall (fun s => no_arc (Some (gl s))) prog16s /\
  sent acos default_config AX (events0 prog16s) 41 /\ sent acos default_config AZ (events0 prog16s) 102.
Proof.
  split; [repeat constructor; vm_compute; discriminate|].
  split; apply (sent_b_spec acos _ 1000); vm_compute; reflexivity.
Qed.

(* ---------- C30 ---------- *)
(** C30, in steps of the motors: a straight move that is run to its end takes every
    motor, whether its direction is inverted or not, by round(|delta| * pulses per mm)
    steps in the direction of the displacement. Exact arithmetic. *)
Theorem C30_travel_exact : forall cfg delta v g l m,
  sane_cfg cfg -> (exists m, qat m delta <> 0) -> 0 < v -> emits (N:=RN) cfg delta v g l ->
  travel cfg m l = ((if Rlt_dec (qat m delta) 0 then -1 else 1) * ZnearestE (Rabs (qat m delta) * IZR (qat m (ppm cfg))))%Z.
Proof. exact travel_exact. Qed.
Print Assumptions C30_travel_exact.
Example C30_travel_exact_ex : sane_cfg default_config /\ (exists m, qat m ex_delta <> 0) /\ 0 < 1800 /\
  exists g l, emits (N:=RN) default_config ex_delta 1800 g l.
Proof. exact C31_times_exact_ex. Qed.

(** The same in binary64, with the rounding of the code. *)
Theorem C30_travel_float : forall acos cfg (delta : quad f64) (v : f64) g l m,
  (forall m, 0 <= qat m (ppm cfg))%Z -> emits (N:=F64 acos) cfg delta v g l ->
  exists n, f_rnd (f_mul (f_rnd10 (Babs (qat m delta))) (f_ofZ (qat m (ppm cfg)))) = Ok n /\ (0 <= n)%Z /\
    travel cfg m l = ((if Rlt_dec (val (qat m delta)) 0 then -1 else 1) * n)%Z.
Proof. exact travel_float. Qed.
Print Assumptions C30_travel_float.
Example C30_travel_float_ex :
  match make_linear (N:=F64 (fun x => x)) default_config (Quad (f_ofZ 1) (f_ofZ 0) (Bopp (f_ofZ 1)) (Bopp (f_ofZ 2))) (f_ofZ 600) with
  | Ok g => match run_gen (N:=F64 (fun x => x)) default_config 2000 (GLinear g) with
            | Finished l => (travel default_config MX l =? 100)%Z && (travel default_config MZ l =? -400)%Z && (travel default_config ME l =? -300)%Z | _ => false end
  | Raise _ => false end = true.
Proof. vm_compute. reflexivity. Qed.
