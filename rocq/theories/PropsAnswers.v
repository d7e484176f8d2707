(** Property C28 for lines of numbers, over binary64 (cnc/main.py with
    cnc/gcode.py, cnc/gmachine.py and cnc/pulses.py). *)
From Coq Require Import String Ascii ZArith Bool Reals Lra Lia List.
From Flocq Require Import Core BinarySingleNaN.
From Verif Require Import PyBase PyNum PyFloatFacts Config Coordinates Pulses PulseSpec GCode GCodeSpec WordFacts GMachine MachineFacts MachineHist MachineFloat Decimal MachinePos MachineArc MachineWork LinearFloat LinearFloatRun LinearFloatLimit StraightRun MainLoop MainSpec MainProofs LineAnswers ExampleBase PropsPosition PropsLinFloat PropsStraight.
From Coq Require Import List.
From Flocq Require Import Core.
Import ListNotations.
Local Open Scope R_scope.

(** C28. After any history of moderate commands, a line whose words are numbers
    (coordinates of at most 1000, the others of at most 2^60) and which is not an
    arc is answered with OK or ERROR, if the hardware raises nothing and the
    extruder is sent less than four metres away from where it is, within 32 m of
    its zero. Missing: arcs, longer ways of the extruder, words that are not
    numbers (for which the claim is false) and larger coordinates. *)
Theorem C28_line_answered_partial (acos : f64 -> f64) (cfg : config) (hw : hw_oracle (F64 acos)) (m : machine (F64 acos))
        (es0 : list (event (F64 acos))) (g : gcode) (u : R) :
  good_cfg cfg -> lin_cfg cfg -> sec_limits cfg -> auto_velocity cfg = true ->
  (1 <= min_velocity_min cfg <= quad_min (max_velocity_min cfg))%Z -> (0 < spindle_max_rpm cfg <= 2 ^ 53)%Z ->
  history_where Moderate cfg m es0 -> calm hw -> moderate (Some g) -> numbers g -> no_arc (Some g) ->
  unit_factor acos m u -> bounded acos m AE ->
  (forall lit x, lookup g "E" = Some lit -> LiteralValue lit x -> Rabs (origin acos m AE + x * u - val (qe (m_position m))) <= 3999) ->
  fin (m_velocity m) -> val (m_velocity m) <= bpow radix2 60 ->
  exists m' es r, run_command cfg hw (Some g) m = (m', es, r) /\ (r = Ok tt \/ exists s, r = Raise (GMachineException s) \/ r = Raise (GCodeException s)).
Proof.
  intros H1 H2 H3 H4 H5 H6 Hh Hc Hg R Na U Be Xe Fv Bv.
  destruct (line_answered_ok acos cfg H1 H2 H3 H4 H5 H6 Moderate hw m es0 g u (fun _ _ H => H) Hh Hc Hg R Na U Be Xe Fv Bv) as (m' & es & r & E & F).
  exists m', es, r. split; [exact E|]. destruct r as [[]|e]; [now left|right]. destruct e; try discriminate F; eauto.
Qed.
Print Assumptions C28_line_answered_partial.

(** C28 for whole sessions. Every line of a session whose lines are no arcs, name no
    extruder, and have words that are numbers (coordinates of at most 1000, the others
    of at most 2^60) is answered, if the hardware raises nothing. Lines that are not
    accepted at all and comments are included. Missing: as above. *)
Theorem C28_session_answered_partial (acos : f64 -> f64) (cfg : config) (hw : hw_oracle (F64 acos)) (ls : list text) :
  good_cfg cfg -> lin_cfg cfg -> sec_limits cfg -> auto_velocity cfg = true ->
  (1 <= min_velocity_min cfg <= quad_min (max_velocity_min cfg))%Z -> (0 < spindle_max_rpm cfg <= 2 ^ 53)%Z ->
  calm hw -> Forall ordinary_line ls ->
  exists bs s', answered cfg hw (fun l => l) (map Line ls) (session0 cfg) bs s' /\ s_out s' = bs.
Proof.
  intros H1 H2 H3 H4 H5 H6 Hc Ho.
  destruct (good_program acos cfg H1 H2 H3 H4 H5 H6 hw Hc (fun l => l) ls (session0 cfg) Ho (good0 acos cfg H1 H3 H5)) as (bs & s' & A & E & _). eauto.
Qed.
Print Assumptions C28_session_answered_partial.

(** C28 for files. The program run on a file of such lines ends without an exception,
    with spindle, heaters and fan off. *)
Theorem C28_file_ends_partial (acos : f64 -> f64) (cfg : config) (hw : hw_oracle (F64 acos)) (ls : list text) :
  good_cfg cfg -> lin_cfg cfg -> sec_limits cfg -> auto_velocity cfg = true ->
  (1 <= min_velocity_min cfg <= quad_min (max_velocity_min cfg))%Z -> (0 < spindle_max_rpm cfg <= 2 ^ 53)%Z ->
  calm hw -> Forall (fun l => ordinary_line (strip l)) ls ->
  exists s', main cfg hw (File (map Line ls)) (session0 cfg) = (s', Some (Ok tt)) /\ all_off (s_log s').
Proof. intros H1 H2 H3 H4 H5 H6 Hc Ho. exact (good_main acos cfg H1 H2 H3 H4 H5 H6 hw Hc ls Ho). Qed.
Print Assumptions C28_file_ends_partial.

(* ---------- Examples ---------- *)
Definition number_b (w : ascii * text) : bool :=
  match decimal_of (snd w) with Some (s, n, d) => (n <=? 1000000000 * 10 ^ Z.of_nat d)%Z | None => false end.
Lemma number_b_spec g : forallb number_b g = true -> numbers g.
Proof.
  intros H k lit L. assert (Hin: In (k, lit) g).
  { clear H. induction g as [|[k' w] r IH]; [discriminate|]. cbn [lookup] in L. destruct (Ascii.eqb k' k) eqn:E; [apply Ascii.eqb_eq in E; subst k'; injection L as <-; now left|right; auto]. }
  rewrite forallb_forall in H. specialize (H _ Hin). unfold number_b in H. cbn [snd] in H. destruct (decimal_of lit) as [[[s n] d]|] eqn:E; [|discriminate].
  destruct (decimal_LiteralValue _ _ _ _ E) as [Hn V]. eexists. split; [exact V|]. apply Z.leb_le, IZR_le in H. rewrite mult_IZR, <- pow_IZR in H.
  assert (P10: 0 < 10 ^ d) by (apply pow_lt; lra). rewrite Rabs_mult. replace (Rabs (sgn s)) with 1.
  2: { destruct s; unfold sgn; [rewrite Rabs_left by lra; ring|now rewrite Rabs_R1]. }
  rewrite Rmult_1_l, Rabs_pos_eq. 2: { apply Rmult_le_pos; [now apply IZR_le|]. left. now apply Rinv_0_lt_compat. }
  apply Rle_trans with (bpow radix2 30); [|apply bpow_le; lia]. change (bpow radix2 30) with 1073741824.
  apply Rmult_le_reg_r with (10 ^ d); [exact P10|]. unfold Rdiv. rewrite Rmult_assoc, Rinv_l, Rmult_1_r by lra. nra.
Qed.
Definition ordinary_b (line : text) : bool :=
  match parse_line line with
  | Ok (Some g) => forallb (word_ok 1000 g) coord_letters && forallb number_b g &&
      match effective_command g with Some c => negb (text_eqb c (tx "G2")) && negb (text_eqb c (tx "G3")) | None => true end &&
      match lookup g "E" with None => true | Some _ => false end
  | _ => true
  end.
Lemma ordinary_b_spec line : ordinary_b line = true -> ordinary_line line.
Proof.
  unfold ordinary_b, ordinary_line. destruct (parse_line line) as [[g|]|]; auto. intros H. apply andb_prop in H. destruct H as [H H4]. apply andb_prop in H. destruct H as [H H3]. apply andb_prop in H. destruct H as [H1 H2].
  split; [now apply word_ok_spec|]. split; [now apply number_b_spec|]. split.
  - cbn [no_arc]. destruct (effective_command g) as [c|]; [|split; discriminate]. apply andb_prop in H3. destruct H3 as [A B]. unfold text_eqb in A, B.
    split; intros E; injection E as ->; [destruct (list_eq_dec ascii_dec (tx "G2") (tx "G2"))|destruct (list_eq_dec ascii_dec (tx "G3") (tx "G3"))]; try discriminate; congruence.
  - unfold no_extruder. destruct (lookup g "E"); [discriminate|reflexivity].
Qed.
Lemma ordinary_all (f : text -> text) ls : forallb (fun l => ordinary_b (f l)) ls = true -> Forall (fun l => ordinary_line (f l)) ls.
Proof. intros H. apply Forall_forall. intros l Hl. rewrite forallb_forall in H. apply ordinary_b_spec, H, Hl. Qed.
Lemma default_spin : (1 <= min_velocity_min default_config <= quad_min (max_velocity_min default_config))%Z /\ (0 < spindle_max_rpm default_config <= 2 ^ 53)%Z.
Proof. vm_compute. repeat split; discriminate. Qed.
Lemma ok_calm {N : PyNum} : calm (N:=N) hw_ok.
Proof. intros l ev e H. discriminate H. Qed.

(** Accepted and refused lines; the third moves off the table. *)
Definition session28 : list text := map tx ["g20 (inches)"; " G1 X1.5 Y3 F1200 ; cut"; "X999"; "G28Z0"; "no gcode"; "G92X-7.25"; "G91"; "G0Z.5"; "M3S500"; "M3S99999"; "G4P-1"; "M104S200"; "G5"]%string.
Example C28_session_answered_ex (acos : f64 -> f64) :
  (good_cfg default_config /\ lin_cfg default_config /\ sec_limits default_config /\ auto_velocity default_config = true) /\
  ((1 <= min_velocity_min default_config <= quad_min (max_velocity_min default_config))%Z /\ (0 < spindle_max_rpm default_config <= 2 ^ 53)%Z) /\
  calm (N:=F64 acos) hw_ok /\ Forall ordinary_line session28 /\ Forall (fun l => ordinary_line (strip l)) session28 /\
  s_out (fst (interactive default_config (N:=F64 acos) hw_ok (map Line session28) (session0 default_config)))
  = [true; true; false; true; false; true; true; true; true; false; false; true; false].
Proof.
  split; [exact (conj default_good (conj default_lin (conj default_sec eq_refl)))|]. split; [exact default_spin|]. split; [exact ok_calm|].
  split; [apply (ordinary_all (fun l => l)); vm_compute; reflexivity|]. split; [apply ordinary_all; vm_compute; reflexivity|]. vm_compute. reflexivity.
Qed.
Example C28_file_ends_ex (acos : f64 -> f64) : Forall (fun l => ordinary_line (strip l)) session28 /\ calm (N:=F64 acos) hw_ok.
Proof. split; [apply ordinary_all; vm_compute; reflexivity|exact ok_calm]. Qed.

(** A line with the extruder, after others. *)
Example C28_line_answered_ex (acos : f64 -> f64) :
  (good_cfg default_config /\ lin_cfg default_config /\ sec_limits default_config /\ auto_velocity default_config = true) /\
  ((1 <= min_velocity_min default_config <= quad_min (max_velocity_min default_config))%Z /\ (0 < spindle_max_rpm default_config <= 2 ^ 53)%Z) /\
  history_where (N:=F64 acos) Moderate default_config (after0 prog69) (events0 prog69) /\ calm (N:=F64 acos) hw_ok /\
  moderate (Some (gl line69)) /\ numbers (gl line69) /\ no_arc (Some (gl line69)) /\ unit_factor acos (after0 prog69) 1 /\ bounded acos (after0 prog69) AE /\
  (forall lit x, lookup (gl line69) "E" = Some lit -> LiteralValue lit x -> Rabs (origin acos (after0 prog69) AE + x * 1 - val (qe (m_position (after0 (N:=F64 acos) prog69)))) <= 3999) /\
  fin (m_velocity (after0 (N:=F64 acos) prog69)) /\ val (m_velocity (after0 (N:=F64 acos) prog69)) <= bpow radix2 60.
Proof.
  destruct (C69_straight_executed_ex acos) as (E1 & E2 & E3 & E4 & _ & Hh & Hm & _ & U & _ & B & Rb & Fu & _).
  split; [exact (conj E1 (conj E2 (conj E3 E4)))|]. split; [exact default_spin|]. split; [exact Hh|]. split; [exact ok_calm|]. split; [exact Hm|].
  split; [apply number_b_spec; vm_compute; reflexivity|]. split; [split; vm_compute; discriminate|]. split; [exact U|]. split; [exact B|].
  split; [exact (rb_extruder acos default_config _ _ _ Rb)|]. destruct Fu as [_ Fs]. exact Fs.
Qed.

Lemma snd_is {A B} (p : A * B) b : snd p = b -> p = (fst p, b).
Proof. destruct p. cbn. now intros ->. Qed.
(** Arcs have to be left out: from (100, 100) the arc around (101, 105) to (100, 110),
    which is exactly as far from the centre as the start, ends the program with
    AssertionError (cnc/pulses.py:387-388), because the end computed by
    cnc/gmachine.py:154-156 is another one (C37) and is rounded to the grid, away from
    the circle whose radius is rounded to steps. The other hypotheses of
    [C28_session_answered_partial] hold. *)
Theorem C28_arc_refuted (acos : f64 -> f64) :
  exists (line : text) (g : gcode) (s s' : session (F64 acos)) (hw : hw_oracle (F64 acos)),
    calm hw /\ answered default_config hw (fun l => l) [Line (tx "G1X100Y100")] (session0 default_config) [true] s /\
    parse_line line = Ok (Some g) /\ words_at_most coord_letters 1000 g /\ numbers g /\ no_extruder g /\
    do_line default_config hw line s = (s', Raise AssertionError).
Proof.
  set (s := fst (do_line default_config (N:=F64 acos) hw_ok (tx "G1X100Y100") (session0 default_config))).
  set (r := do_line default_config (N:=F64 acos) hw_ok (tx "G2X100Y110I1J5") s).
  exists (tx "G2X100Y110I1J5"), (gl "G2X100Y110I1J5"), s, (fst r), hw_ok.
  split; [exact ok_calm|]. split.
  { eapply an_cons; [|apply an_nil]. unfold s. apply snd_is. vm_compute. reflexivity. }
  split; [vm_compute; reflexivity|]. split; [apply word_ok_spec; vm_compute; reflexivity|].
  split; [apply number_b_spec; vm_compute; reflexivity|]. split; [vm_compute; reflexivity|].
  unfold r. apply snd_is. vm_compute. reflexivity.
Qed.
Print Assumptions C28_arc_refuted.
