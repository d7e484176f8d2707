(** Property C72: what the motor drivers make of the signals of hal.move. Every theorem is
    followed by its assumptions and by an Example in which its hypotheses hold. *)
From Coq Require Import String ZArith Bool Reals Lia List.
From Flocq Require Import Core BinarySingleNaN.
From Verif Require Import PyBase PyNum PyFloatFacts Config Coordinates GCode Pulses PulseSpec GMachine ExampleBase ArcSpec LinearTravel MachineFacts MachineHist MachinePos MachineMoves
  Dma DmaGpio DmaSpec DmaGpioProofs Hal HalSpec MoveNew HalDrive PropsMoves PropsHal.
From Coq Require Import List.
Import ListNotations.
Local Open Scope Z_scope.

(** C72. A generator of either class, over doubles, is run to its end by hal.move, and move
    returns. Then the signals of the pins (what the engine has done and what is left for it
    to do) make the driver of every motor take the net steps of the items, whatever was in
    the buffer before. *)
Theorem C72_drivers (acos : f64 -> f64) cfg h base size extra (g : gen (F64 acos)) l d e x :
  made cfg g -> completes cfg g l ->
  pins_ok h -> NoDup (used_pins h) -> buffer_ok base size -> 0 <= pulse_us h < 2 ^ 26 ->
  (forall rs, plan h 0 0 l = Ok rs -> short_pauses rs) ->
  reach_in_time h base size extra (begin_move h l None d e) x -> m_pc (x_move x) = MDone ->
  exists rest, remains extra (d_mem (x_dma x)) (x_eng x) rest /\
    forall m, driven (qat m (step_pin h)) (qat m (dir_pin h)) (seen 0 (x_done x ++ rest)) = signed_steps m l.
Proof.
  intros M C P D B U S R PC. apply (drivers (N:=F64 acos) h P D base size extra l d e x B U); try assumption.
  eapply completes_dirs; [|exact M|exact C]. intros y. cbn. unfold f_copysign1. destruct (Bsign y); auto.
Qed.
Print Assumptions C72_drivers.

(** For a straight move: round(|displacement| * pulses per mm) steps in the direction of the
    displacement, or against it if the motor is inverted in config.py. *)
Theorem C72_line (acos : f64 -> f64) cfg h base size extra (delta : quad f64) (v : f64) g l d e x :
  (forall m, 0 <= qat m (ppm cfg)) -> emits (N:=F64 acos) cfg delta v g l ->
  pins_ok h -> NoDup (used_pins h) -> buffer_ok base size -> 0 <= pulse_us h < 2 ^ 26 ->
  (forall rs, plan h 0 0 l = Ok rs -> short_pauses rs) ->
  reach_in_time h base size extra (begin_move h l None d e) x -> m_pc (x_move x) = MDone ->
  exists rest, remains extra (d_mem (x_dma x)) (x_eng x) rest /\
    forall m, exists n, f_rnd (f_mul (f_rnd10 (Babs (qat m delta))) (f_ofZ (qat m (ppm cfg)))) = Ok n /\
      driven (qat m (step_pin h)) (qat m (dir_pin h)) (seen 0 (x_done x ++ rest)) =
        invert (qat m (inverted cfg)) ((if Rlt_dec (val (qat m delta)) 0 then -1 else 1) * n).
Proof.
  intros Hp E P D B U S R PC. destruct E as [E1 E2].
  destruct (C72_drivers acos cfg h base size extra (GLinear g) l d e x) as (rest & RM & Q); try assumption; [cbn [made]; eauto|].
  exists rest. split; [exact RM|]. intros m. destruct (C30_travel_float acos cfg delta v g l m Hp (conj E1 E2)) as (n & F & _ & T).
  exists n. split; [exact F|]. rewrite Q, <- T. unfold invert, travel. destruct (qat m (inverted cfg)); lia.
Qed.
Print Assumptions C72_line.

Lemma default_distinct : NoDup (used_pins default_hal).
Proof. unfold used_pins. vm_compute. repeat constructor; cbn; intuition discriminate. Qed.
Definition short_b (l : list req) : bool := forallb (fun r => match r with Delay us => us <? 2 ^ 26 | _ => true end) l.
Lemma short_b_spec l : short_b l = true -> short_pauses l.
Proof. intros H. apply Forall_forall. intros r I. apply (proj1 (forallb_forall _ _) H) in I. destruct r; try exact Logic.I. now apply Z.ltb_lt. Qed.
Definition plan_b (l : list (item FX)) : bool := match plan default_hal 0 0 l with Ok rs => short_b rs | Raise _ => false end.
Lemma plan_b_spec l : plan_b l = true -> forall rs, plan default_hal 0 0 l = Ok rs -> short_pauses rs.
Proof. unfold plan_b. intros H rs E. rewrite E in H. now apply short_b_spec. Qed.
(** The thread alone runs the move to its end. *)
Definition moved (l : list (item FX)) : Hal.machine FX := follow default_hal 8192 65536 (thread 1500) (begin_move default_hal l None dma0 stopped).
Definition move_b (l : list (item FX)) : bool := plan_b l && is_done (moved l).
Lemma move_b_spec l : move_b l = true -> (forall rs, plan default_hal 0 0 l = Ok rs -> short_pauses rs) /\
  reach_in_time default_hal 8192 65536 false (begin_move default_hal l None dma0 stopped) (moved l) /\ m_pc (x_move (moved l)) = MDone.
Proof. unfold move_b. intros H. apply andb_prop in H. destruct H as [H1 H2]. split; [now apply plan_b_spec|]. split; [apply follow_in_time|now apply is_done_pc]. Qed.

(** 0.12 mm along X and -0.1 mm along Y in the default configuration: 12 steps of X, which
    is inverted, and 10 of Y, both down. *)
Definition line72 : option (list (item FX) * bool) :=
  match make_linear (N:=FX) default_config (Quad (f_ofdec false 12 2) (f_ofdec true 1 1) (f_ofZ 0) (f_ofZ 0)) (f_ofZ 600) with
  | Ok g => match run_gen default_config 100 (GLinear g) with
            | Finished l => Some (l, move_b l && (signed_steps MX l =? -12) && (signed_steps MY l =? -10)) | _ => None end
  | Raise _ => None end.
Example C72_line_ex : exists g l, emits (N:=FX) default_config (Quad (f_ofdec false 12 2) (f_ofdec true 1 1) (f_ofZ 0) (f_ofZ 0)) (f_ofZ 600) g l /\
  pins_ok default_hal /\ NoDup (used_pins default_hal) /\ buffer_ok 8192 65536 /\ 0 <= pulse_us default_hal < 2 ^ 26 /\
  (forall rs, plan default_hal 0 0 l = Ok rs -> short_pauses rs) /\
  reach_in_time default_hal 8192 65536 false (begin_move default_hal l None dma0 stopped) (moved l) /\ m_pc (x_move (moved l)) = MDone /\
  signed_steps MX l = -12 /\ signed_steps MY l = -10.
Proof.
  assert (H: match line72 with Some (_, b) => b | None => false end = true) by (vm_compute; reflexivity).
  unfold line72 in H. match type of H with context [make_linear ?c ?d ?v] => destruct (make_linear (N:=FX) c d v) as [g|] eqn:G end; [|discriminate].
  match type of H with context [run_gen ?c ?f ?g] => destruct (run_gen c f g) as [l| |] eqn:E end; [|discriminate H|discriminate H].
  apply andb_prop in H. destruct H as [H H3]. apply andb_prop in H. destruct H as [H1 H2]. apply Z.eqb_eq in H2, H3. apply move_b_spec in H1. destruct H1 as (S & R & D).
  exists g, l. split; [split; [exact G|exists 100%nat; exact E]|]. split; [exact default_pins|]. split; [exact default_distinct|].
  split; [repeat split; lia|]. split; [cbn; lia|]. split; [exact S|]. split; [exact R|]. split; [exact D|]. split; [exact H2|exact H3].
Qed.
(** A generator of an arc, quarter of a circle of 0.1 mm. *)
Definition arc72 : option (list (item FX) * bool) :=
  match make_circular (N:=FX) default_config (Quad (f_ofdec false 1 1) (f_ofdec false 1 1) (f_ofZ 0) (f_ofZ 0)) (Quad (f_ofdec false 1 1) (f_ofZ 0) (f_ofZ 0) (f_ofZ 0)) PlaneXY CW (f_ofZ 600) with
  | Ok g => match run_gen default_config 100 (GCircular g) with
            | Finished l => Some (l, move_b l) | _ => None end
  | Raise _ => None end.
Example C72_drivers_ex : exists (g : gen FX) l, (exists c, g = GCircular c) /\ made default_config g /\ completes default_config g l /\
  pins_ok default_hal /\ NoDup (used_pins default_hal) /\ buffer_ok 8192 65536 /\ 0 <= pulse_us default_hal < 2 ^ 26 /\
  (forall rs, plan default_hal 0 0 l = Ok rs -> short_pauses rs) /\
  reach_in_time default_hal 8192 65536 false (begin_move default_hal l None dma0 stopped) (moved l) /\ m_pc (x_move (moved l)) = MDone.
Proof.
  assert (H: match arc72 with Some (_, b) => b | None => false end = true) by (vm_compute; reflexivity).
  unfold arc72 in H. match type of H with context [make_circular ?c ?d ?r ?p ?w ?v] => destruct (make_circular (N:=FX) c d r p w v) as [g|] eqn:G end; [|discriminate].
  match type of H with context [run_gen ?c ?f ?g] => destruct (run_gen c f g) as [l| |] eqn:E end; [|discriminate H|discriminate H].
  apply move_b_spec in H. destruct H as (S & R & D).
  exists (GCircular g), l. split; [eauto|]. split; [cbn [made]; eauto 10|]. split; [exists 100%nat; exact E|]. split; [exact default_pins|]. split; [exact default_distinct|].
  split; [repeat split; lia|]. split; [cbn; lia|]. split; [exact S|]. split; [exact R|exact D].
Qed.

(** Histories of commands: the steps the driver of an axis has made over all moves, arcs
    included ([played]), are the steps the generators have sent ([sent]). *)
Theorem C72_history (acos : f64 -> f64) cfg h base size extra (P : hw_oracle (F64 acos) -> option gcode -> Prop) m es a s :
  pins_ok h -> NoDup (used_pins h) -> buffer_ok base size -> 0 <= pulse_us h < 2 ^ 26 ->
  history_where P cfg m es -> played acos cfg h base size extra a es s -> sent acos cfg a es s.
Proof. exact (fun Hp Hd Hb Hu => history_played acos cfg h base size extra Hp Hd Hb Hu P m es a s). Qed.
Print Assumptions C72_history.

(** From the text to the motors. After any commands without arcs, with moves that do not
    raise: the reported position of each axis is the double nearest to the number of steps
    its driver has made (up minus down) divided by the pulses per mm. *)
Theorem C72_position_partial (acos : f64 -> f64) cfg h base size extra (P : hw_oracle (F64 acos) -> option gcode -> Prop) m es a s :
  good_cfg cfg -> pins_ok h -> NoDup (used_pins h) -> buffer_ok base size -> 0 <= pulse_us h < 2 ^ 26 ->
  (forall hw gc, P hw gc -> (forall l g e, hw l (EMove g) <> HRaise e) /\ no_arc gc) ->
  history_where P cfg m es -> played acos cfg h base size extra a es s ->
  nearest_to (ax a (ppm cfg)) s (ax a (m_position m)).
Proof.
  intros Hc Hp Hd Hb Hu HP Hh Hs. apply (C16_position_is_pulses_emitted acos cfg P m es a s Hc HP Hh).
  exact (C72_history acos cfg h base size extra P m es a s Hp Hd Hb Hu Hh Hs).
Qed.
Print Assumptions C72_position_partial.

Definition played_b (a : axis) (es : list (GMachine.event FX)) : option Z :=
  fold_right (fun ev r => match ev, r with
    | EMove g, Some s => match run_gen default_config 200 g with Finished l => if move_b l then Some (travel default_config (motor_of a) l + s) else None | _ => None end
    | _, _ => r end) (Some 0) es.
Lemma played_b_spec a es s : all_made default_config (init_machine default_config) es (init_machine default_config) ->
  played_b a es = Some s -> played (fun x => x) default_config default_hal 8192 65536 false a es s.
Proof.
  intros M. revert s. induction M as [|ev es M _ IH]; intros s H.
  - injection H as <-. constructor.
  - cbn [played_b fold_right] in H. fold (played_b a es) in H. destruct ev; try (apply played_other; [discriminate|apply IH; exact H]).
    destruct (played_b a es) as [s'|]; [|discriminate]. destruct (run_gen default_config 200 g) as [l| |] eqn:E; [|discriminate H|discriminate H].
    destruct (move_b l) eqn:B; [|discriminate]. injection H as <-. apply move_b_spec in B. destruct B as (S & R & D).
    destruct (C72_drivers (fun x => x) default_config default_hal 8192 65536 false g l dma0 stopped (moved l)) as (rest & RM & Q); try assumption;
      [exists 200%nat; exact E|exact default_pins|exact default_distinct|repeat split; lia|cbn; lia|].
    replace (travel (N:=FX) default_config (motor_of a) l) with
      (invert (ax a (inverted default_config)) (driven (ax a (step_pin default_hal)) (ax a (dir_pin default_hal)) (seen 0 (x_done (moved l) ++ rest)))).
    2: { rewrite <- !qat_motor_of. change (num FX) with f64 in *. rewrite Q. unfold travel, invert. reflexivity. }
    eapply played_move; [exists 200%nat; exact E|exact S|exact R|exact D|exact RM|apply IH; reflexivity].
Qed.
Definition prog72 : list string := ["G1X0.12Y.1"; "G91"; "M3"; "G1X-0.033Y0.01"; "G20"; "G0Z0.01X.002"; "G2X0.002Y0.002I0.002F1"]%string.
(** With an arc for C72_history, without for C72_position_partial. *)
Example C72_history_ex :
  let es := events0 (N:=FX) prog72 in
  history_where (fun hw _ => True) default_config (after0 (N:=FX) prog72) es /\
  exists s, played (fun x => x) default_config default_hal 8192 65536 false AX es s.
Proof.
  intros es. assert (H: history_where (fun (hw : hw_oracle FX) (_ : option gcode) => True) default_config (after0 (N:=FX) prog72) es).
  { apply after_history; [repeat constructor|constructor]. }
  split; [exact H|]. assert (B: match played_b AX es with Some _ => true | None => false end = true) by (vm_compute; reflexivity).
  destruct (played_b AX es) as [s|] eqn:E; [|discriminate]. exists s. apply played_b_spec; [|exact E]. exact (history_made default_config _ _ _ H).
Qed.
Example C72_position_ex :
  let es := events0 (N:=FX) (removelast prog72) in
  history_where (fun hw gc => (forall l g e, hw l (EMove g) <> HRaise e) /\ no_arc gc) default_config (after0 (N:=FX) (removelast prog72)) es /\
  played (fun x => x) default_config default_hal 8192 65536 false AX es 14 /\
  played (fun x => x) default_config default_hal 8192 65536 false AY es 11 /\
  played (fun x => x) default_config default_hal 8192 65536 false AZ es 102.
Proof.
  intros es. assert (H: history_where (fun (hw : hw_oracle FX) gc => (forall l g e, hw l (EMove g) <> HRaise e) /\ no_arc gc) default_config (after0 (N:=FX) (removelast prog72)) es).
  { apply after_history; [|constructor]. repeat constructor; try discriminate; vm_compute; discriminate. }
  split; [exact H|]. split; [|split]; (apply played_b_spec; [exact (history_made default_config _ _ _ H)|vm_compute; reflexivity]).
Qed.
