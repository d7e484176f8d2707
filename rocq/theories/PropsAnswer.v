(** Property C89: the answers to M114 and M105. Every theorem is followed by its assumptions
    and by an Example in which its hypotheses hold. *)
From Coq Require Import String Ascii ZArith Bool Reals Lia List.
From Verif Require Import PyBase PyNum PyFloatFacts Config Coordinates GCode Pulses PulseSpec GMachine GMachineProofs ExampleBase LinearLaw ArcSpec ArcRun LinearTravel
  MachineFacts MachineRel MachineHist MachinePos MachineArc MachineWork MachineMoves PropsPulses PropsPosition PropsMoves MachineQuery MainLoop Answer AnswerSpec.
From Verif Require Import GMachine MachineRel MainLoop.
From Coq Require Import List.
Import ListNotations.

Definition no_blank (t : text) : Prop := ~ In " "%char t.
Lemma words_app w r : no_blank w -> words (w ++ " "%char :: r) = w :: words r.
Proof.
  induction w as [|c w IH]; intros B; [reflexivity|]. cbn [app words]. destruct (Ascii.eqb_spec c " "%char) as [->|_]; [destruct B; now left|].
  rewrite IH; [reflexivity|]. intros K. apply B. now right.
Qed.
Lemma words_one w : no_blank w -> words w = [w].
Proof.
  induction w as [|c w IH]; intros B; [reflexivity|]. cbn [words]. destruct (Ascii.eqb_spec c " "%char) as [->|_]; [destruct B; now left|].
  rewrite IH; [reflexivity|]. intros K. apply B. now right.
Qed.
Lemma cons_blank c w : c <> " "%char -> no_blank w -> no_blank (c :: w).
Proof. intros A B [K|K]; auto. Qed.

Section Answers.
Context {N : PyNum}.
Variable show : N -> text.
Hypothesis Show : forall x, no_blank (show x).
Variable temp : heater_id -> N.
Variable cfg : config.

Lemma words_M114 p : words (tx "OK " ++ answer_M114 show p) =
  [tx "OK"; tx "X:" ++ show (qx p); tx "Y:" ++ show (qy p); tx "Z:" ++ show (qz p); tx "E:" ++ show (qe p)].
Proof.
  unfold answer_M114. change (tx "OK " ++ ?t) with (tx "OK" ++ " "%char :: t).
  assert (A : forall c w, c <> " "%char -> no_blank w -> no_blank (c :: ":"%char :: w)) by (intros; repeat apply cons_blank; auto; discriminate).
  rewrite words_app by (repeat apply cons_blank; try discriminate; intros []). f_equal.
  change (tx "X:" ++ show (qx p) ++ tx " Y:" ++ ?t) with ((tx "X:" ++ show (qx p)) ++ " "%char :: tx "Y:" ++ t).
  rewrite words_app by (apply A; [discriminate|apply Show]). f_equal.
  change (tx "Y:" ++ show (qy p) ++ tx " Z:" ++ ?t) with ((tx "Y:" ++ show (qy p)) ++ " "%char :: tx "Z:" ++ t).
  rewrite words_app by (apply A; [discriminate|apply Show]). f_equal.
  change (tx "Z:" ++ show (qz p) ++ tx " E:" ++ ?t) with ((tx "Z:" ++ show (qz p)) ++ " "%char :: tx "E:" ++ t).
  rewrite words_app by (apply A; [discriminate|apply Show]). f_equal.
  apply words_one, A; [discriminate|apply Show].
Qed.
Lemma words_M105 hw : words (tx "OK " ++ answer_M105 show temp hw) =
  [tx "OK"; tx "E:" ++ reading show temp hw [] HeaterExtruder; tx "B:" ++ reading show temp hw [EMeasure HeaterExtruder] HeaterBed].
Proof.
  assert (A : forall c l h, c <> " "%char -> no_blank (c :: ":"%char :: reading show temp hw l h)).
  { intros c l h K. apply cons_blank; [exact K|]. apply cons_blank; [discriminate|]. unfold reading.
    destruct (hw l (EMeasure h)); [apply Show|]. repeat apply cons_blank; try discriminate. intros []. }
  unfold answer_M105. change (tx "OK " ++ ?t) with (tx "OK" ++ " "%char :: t).
  rewrite words_app by (repeat apply cons_blank; try discriminate; intros []). f_equal.
  match goal with |- context [tx "E:" ++ ?r ++ tx " B:" ++ ?t] => change (tx "E:" ++ r ++ tx " B:" ++ t) with ((tx "E:" ++ r) ++ " "%char :: tx "B:" ++ t) end.
  rewrite words_app by (apply A; discriminate). f_equal. apply words_one, A; discriminate.
Qed.
Lemma ok_eq {A} (a b : A) : Some a = Some b -> b = a.
Proof. congruence. Qed.

(** C89. If an M114 line is answered with OK, the machine has waited for the end of the
    movements, and the fields X, Y, Z and E of the answer are the coordinates of the machine. *)
Theorem C89_position_query hw line g (s s' : session N) r out :
  parse_line line = Ok (Some g) -> effective_command g = Some (tx "M114") ->
  do_line cfg hw line s = (s', r) -> printed show temp cfg hw line s = Some out -> says_ok out = true ->
  s_log s' = s_log s ++ [EJoin; EJoin] /\ m_position (s_machine s') = m_position (s_machine s) /\
  forall a, field (letter4 a) out = Some (show (ax4 a (m_position (s_machine s)))).
Proof.
  intros Hp He. unfold do_line, printed. rewrite Hp. destruct (run_command cfg (hw_now hw s) (Some g) (s_machine s)) as [[m' es] r0] eqn:E.
  intros D O K. destruct r0 as [[]|e].
  2: { destruct (caught e); [|discriminate O]. apply ok_eq in O. subst out. discriminate K. }
  destruct (exec_inv cfg _ _ _ _ _ _ _ M114 He eq_refl E) as [(_ & _ & e & X)|(d & v & rr & m1 & _ & X & ->)]; [discriminate|].
  cbn [exec_cmd] in X. unfold call, bind, ret in X. destruct (hw_now hw s [] EJoin); [|discriminate]. cbn [app] in X.
  destruct (hw_now hw s [EJoin] EJoin); [|discriminate]. cbn [app] in X. injection X as <- <-.
  cbn [answer] in D. injection D as <- _. apply ok_eq in O. subst out. cbn [s_log s_machine]. split; [reflexivity|]. split; [reflexivity|].
  intros a. unfold answer_text. rewrite He. change (assoc_text (tx "M114") command_table) with (Some M114). cbv beta iota.
  unfold field. rewrite words_M114. destruct a as [[]|]; reflexivity.
Qed.
Print Assumptions C89_position_query.

(** If an M105 line is answered with OK, the fields E and B are the temperatures that the
    sensors gave, or None for a sensor that could not be read. *)
Theorem C89_temperature_query hw line g (s s' : session N) r out :
  parse_line line = Ok (Some g) -> effective_command g = Some (tx "M105") ->
  do_line cfg hw line s = (s', r) -> printed show temp cfg hw line s = Some out -> says_ok out = true ->
  let ms := [EMeasure HeaterExtruder; EMeasure HeaterBed] in
  s_log s' = s_log s ++ ms /\
  forall k h l, In (k, h, l) [("E"%char, HeaterExtruder, s_log s); ("B"%char, HeaterBed, s_log s ++ [EMeasure HeaterExtruder])] ->
    field k out = Some (if match hw l (EMeasure h) with HReturn _ => true | _ => false end then show (temp h) else tx "None").
Proof.
  intros Hp He. unfold do_line, printed. rewrite Hp. destruct (run_command cfg (hw_now hw s) (Some g) (s_machine s)) as [[m' es] r0] eqn:E.
  intros D O K. destruct r0 as [[]|e].
  2: { destruct (caught e); [|discriminate O]. apply ok_eq in O. subst out. discriminate K. }
  destruct (exec_inv cfg _ _ _ _ _ _ _ M105 He eq_refl E) as [(_ & _ & e & X)|(d & v & rr & m1 & _ & X & ->)]; [discriminate|].
  assert (L : es = [EMeasure HeaterExtruder; EMeasure HeaterBed]).
  { cbn [exec_cmd] in X. unfold measure_opt, call, bind, fail_if, throw, ret in X.
    destruct (hw_now hw s [] (EMeasure HeaterExtruder)) as [b1|x1]; cbn [app] in X; [|destruct x1; try discriminate X];
    (destruct (hw_now hw s [EMeasure HeaterExtruder] (EMeasure HeaterBed)) as [b2|x2]; cbn [app negb andb] in X; [|destruct x2; try discriminate X]);
    cbn [app negb andb] in X; try discriminate X; now injection X as _ <-. }
  subst es. cbn [answer] in D. injection D as <- _. apply ok_eq in O. subst out. cbn [s_log s_machine]. split; [reflexivity|].
  unfold answer_text, field. rewrite He. change (assoc_text (tx "M105") command_table) with (Some M105). cbv beta iota. rewrite words_M105.
  intros k h l [Q|[Q|[]]]; injection Q as <- <- <-; cbn [first_field app]; unfold reading, hw_now; rewrite ?app_nil_r; cbn [tx list_ascii_of_string app first_field Ascii.eqb Bool.eqb andb];
    match goal with |- context [hw ?l ?e] => destruct (hw l e) end; reflexivity.
Qed.
Print Assumptions C89_temperature_query.
End Answers.

(** Together with C16: after any history without arcs, on hardware whose moves do not fail,
    the fields X, Y and Z of the answer to M114 are the texts of the doubles nearest to the
    steps sent to the motors divided by the steps per mm. *)
Theorem C89_motors (acos : f64 -> f64) (show : f64 -> text) temp (cfg : config) (P : hw_oracle (F64 acos) -> option gcode -> Prop)
    hw line g (s s' : session (F64 acos)) r out a n :
  (forall x, no_blank (show x)) -> good_cfg cfg ->
  (forall hw gc, P hw gc -> (forall l g e, hw l (EMove g) <> HRaise e) /\ no_arc gc) ->
  history_where P cfg (s_machine s) (s_log s) -> sent acos cfg a (s_log s) n ->
  parse_line line = Ok (Some g) -> effective_command g = Some (tx "M114") ->
  do_line cfg hw line s = (s', r) -> printed (N:=F64 acos) show temp cfg hw line s = Some out -> says_ok out = true ->
  exists x, field (axis_letter a) out = Some (show x) /\ nearest_to (ax a (ppm cfg)) n x.
Proof.
  intros Sh Hc HP Hh Hn Hp He Hd Ho Hk. exists (ax a (m_position (s_machine s))). split; [|exact (C16_position_is_pulses_emitted acos cfg P _ _ a n Hc HP Hh Hn)].
  exact (proj2 (proj2 (C89_position_query (N:=F64 acos) show Sh temp cfg hw line g s s' r out Hp He Hd Ho Hk)) (XYZ a)).
Qed.
Print Assumptions C89_motors.

Section Ex.
Variable acos : f64 -> f64.
Notation N := (F64 acos).
(** A text for some of the doubles. *)
Definition show1 (x : f64) : text :=
  if eqb (p:=N) x (ofZ (p:=N) 0) then tx "0.0" else if eqb (p:=N) x (ofdec (p:=N) false 41 2) then tx "0.41" else if eqb (p:=N) x (ofdec (p:=N) false 255 3) then tx "0.255"
  else if eqb (p:=N) x (ofdec (p:=N) false 215 1) then tx "21.5" else tx "?".
Lemma show1_blank x : no_blank (show1 x).
Proof. unfold show1. repeat destruct (eqb _ _); repeat apply cons_blank; try discriminate; intros []. Qed.
Definition s1 (ls : list string) : session N := {| s_machine := after0 ls; s_log := events0 ls; s_out := [] |}.
Definition temp1 (h : heater_id) : f64 := ofdec (p:=N) false 215 1.
(** The session of C16_position_is_pulses_emitted_ex. *)
Example C89_position_query_ex : (forall x, no_blank (show1 x)) /\ parse_line (tx "M114") = Ok (Some (gl "M114")) /\
  effective_command (gl "M114") = Some (tx "M114") /\ snd (do_line default_config (N:=N) hw_ok (tx "M114") (s1 prog16s)) = Ok true /\
  printed (N:=N) show1 temp1 default_config hw_ok (tx "M114") (s1 prog16s) = Some (tx "OK X:0.41 Y:0.0 Z:0.255 E:0.0").
Proof. split; [exact show1_blank|]. repeat split; vm_compute; reflexivity. Qed.
Definition hw_no_bed : hw_oracle N := fun _ ev => match ev with EMeasure HeaterBed => HRaise IOErr | _ => HReturn true end.
Example C89_temperature_query_ex : parse_line (tx "M105") = Ok (Some (gl "M105")) /\ effective_command (gl "M105") = Some (tx "M105") /\
  snd (do_line default_config hw_no_bed (tx "M105") (s1 [])) = Ok true /\
  printed (N:=N) show1 temp1 default_config hw_no_bed (tx "M105") (s1 []) = Some (tx "OK E:21.5 B:None") /\ says_ok (tx "OK E:21.5 B:None") = true.
Proof. repeat split; vm_compute; reflexivity. Qed.
Example C89_motors_ex :
  history_where (fun hw gc => hw = hw_ok /\ no_arc gc) default_config (s_machine (s1 prog16s)) (s_log (s1 prog16s)) /\
  sent acos default_config AX (s_log (s1 prog16s)) 41 /\ sent acos default_config AZ (s_log (s1 prog16s)) 102 /\
  field (axis_letter AX) (tx "OK X:0.41 Y:0.0 Z:0.255 E:0.0") = Some (tx "0.41").
Proof.
  pose proof (C16_position_is_pulses_emitted_ex acos) as (A & B & C). split; [|split; [exact B|split; [exact C|reflexivity]]].
  apply history0_where. eapply Forall_impl; [|exact A]. auto.
Qed.
(** The answer is in coordinates of the machine, also after G92: the program is at X10. *)
Example C89_not_the_coordinates_of_the_program :
  snd (run_command default_config (N:=N) hw_ok (Some (gl "G1X10")) (after0 ["G92X10"%string])) = Ok tt /\
  printed (N:=N) show1 temp1 default_config hw_ok (tx "M114") (s1 ["G92X10"; "G1X10"]%string) = Some (tx "OK X:0.0 Y:0.0 Z:0.0 E:0.0").
Proof. split; vm_compute; reflexivity. Qed.
End Ex.
