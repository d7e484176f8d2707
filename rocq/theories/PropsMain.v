(** Properties C28, C29, C58: the main loop (cnc/main.py). Every theorem is
    followed by its assumptions and by an Example in which its hypotheses hold. *)
From Coq Require Import String Ascii ZArith Bool Reals List Lia.
From Flocq Require Import Core BinarySingleNaN.
From Verif Require Import PyBase PyNum PyFloatFacts Config Coordinates Pulses GCode GMachine ExampleBase MachineHist MainLoop MainSpec MainProofs.
From Coq Require Import List.
Import ListNotations.

(* ---------- for the Examples ---------- *)
Definition lines (ls : list string) : list input := map (fun s => Line (tx s)) ls.
Definition outcome {N : PyNum} (r : session N * option (res unit)) : list bool * option (res unit) :=
  (s_out (fst r), snd r).
(** Ctrl-C while a heater is being started. *)
Definition hw_ctrl_c {N : PyNum} : hw_oracle N :=
  fun _ ev => match ev with EHeaterOn _ _ => HRaise KeyboardInterrupt | _ => HReturn true end.
(** Ctrl-C during any movement. *)
Definition hw_ctrl_c_move {N : PyNum} : hw_oracle N :=
  fun _ ev => match ev with EMove _ => HRaise KeyboardInterrupt | _ => HReturn true end.
(** The sensor works when it is read before starting a heater and not in the
    call that is made by the constructor of Heater. *)
Definition hw_sensor_lost {N : PyNum} : hw_oracle N :=
  fun _ ev => match ev with EHeaterOn _ _ => HRaise IOErr | _ => HReturn true end.

Lemma pair_eq {A B} (x : A * B) (b : B) : snd x = b -> x = (fst x, b).
Proof. destruct x; cbn. now intros ->. Qed.
Lemma some_default {A} (o : option A) d : (if o then true else false) = true -> o = Some (match o with Some p => p | None => d end).
Proof. destruct o; [reflexivity|discriminate]. Qed.
Lemma shows_is x n : is_finite x && f_eq x (f_ofZ n) = true -> (Z.abs n <= 2 ^ 53)%Z -> B2R x = IZR n.
Proof.
  intros H Hn. apply andb_prop in H. destruct H as [F E]. destruct (f_ofZ_val n Hn) as [Fn Vn].
  apply f_eq_true in E; [|exact F|exact Fn]. now rewrite E.
Qed.
Lemma heater_on_found {N : PyNum} h (es : list (event N)) :
  existsb (fun ev => match ev with EHeaterOn h' _ => heater_eqb h h' | _ => false end) es = true ->
  exists t, In (EHeaterOn h t) es.
Proof.
  intros H. apply existsb_exists in H. destruct H as (ev & Hi & He). destruct ev; try discriminate He.
  exists t. destruct h, h0; try discriminate He; exact Hi.
Qed.
Lemma heater_off_not_found {N : PyNum} h (es : list (event N)) :
  existsb (fun ev => match ev with EHeaterOff h' => heater_eqb h h' | _ => false end) es = false -> ~ In (EHeaterOff h) es.
Proof.
  intros H Hi. rewrite <- not_true_iff_false, existsb_exists in H. apply H. exists (EHeaterOff h). split; [exact Hi|].
  destruct h; reflexivity.
Qed.

(* ---------- C28 ---------- *)
(** C28. A line is answered with OK or ERROR, or one of four exceptions of float
    arithmetic (and of the assert in pulses.py) is raised, or an exception that a
    hardware call has raised. Missing: that these are not raised (false, see
    below). *)
Theorem C28_every_line_answered_partial (acos : f64 -> f64) (cfg : config) (hw : hw_oracle (F64 acos))
        (line : text) (s s' : session (F64 acos)) (r : res bool) :
  do_line cfg hw line s = (s', r) ->
  (exists b, r = Ok b /\ s_out s' = s_out s ++ [b]) \/
  (exists e, r = Raise e /\ s_out s' = s_out s /\
     (In e [ValueError; OverflowError; ZeroDivisionError; AssertionError] \/ exists l ev, hw l ev = HRaise e)).
Proof. exact (line_answered acos cfg hw line s s' r). Qed.
Print Assumptions C28_every_line_answered_partial.
Example C28_every_line_answered_ex (acos : f64 -> f64) :
  map (fun l => snd (do_line default_config (N:=F64 acos) hw_ok (tx l) (session0 default_config)))
      ["G1X10"; "G1X999"; "(comment)"; "no gcode"; "X1X2"; "M104S9999"]%string
  = [Ok true; Ok false; Ok true; Ok false; Ok false; Ok false].
Proof. vm_compute. reflexivity. Qed.

(** The line [X1.2.3] ends the program with ValueError. *)
Theorem C28_every_line_answered_refuted (acos : f64 -> f64) :
  exists (line : text) (s s' : session (F64 acos)) (hw : hw_oracle (F64 acos)),
    (forall l ev, hw l ev = HReturn true) /\ s = session0 default_config /\
    do_line default_config hw line s = (s', Raise ValueError).
Proof.
  set (r := do_line default_config (N:=F64 acos) hw_ok (tx "X1.2.3") (session0 default_config)).
  exists (tx "X1.2.3"), (session0 default_config), (fst r), hw_ok.
  split; [reflexivity|]. split; [reflexivity|].
  apply pair_eq. vm_compute. reflexivity.
Qed.
Print Assumptions C28_every_line_answered_refuted.

(** A sensor that fails in the constructor of Heater (cnc/heater.py:33-34), after
    it was read once (cnc/gmachine.py:77-80), ends the program with IOError. *)
Theorem C28_sensor_failure_refuted (acos : f64 -> f64) :
  exists (s' : session (F64 acos)),
    do_line default_config hw_sensor_lost (tx "M104S200") (session0 default_config) = (s', Raise IOErr).
Proof.
  exists (fst (do_line default_config hw_sensor_lost (tx "M104S200") (session0 default_config))).
  apply pair_eq. vm_compute. reflexivity.
Qed.
Print Assumptions C28_sensor_failure_refuted.

(* ---------- C29 ---------- *)
(** C29. Running a file: either all lines were answered with OK; or the lines up
    to and including the first one answered with ERROR were executed, in order,
    and nothing after; or reading or executing a line raised something else and
    nothing after was executed. *)
Theorem C29_file (N : PyNum) (cfg : config) (hw : hw_oracle N) (ls : list input) (s s' : session N) (r : res unit) :
  file_loop cfg hw ls s = (s', r) ->
  (r = Ok tt /\ answered cfg hw strip ls s (repeat true (length ls)) s') \/
  (exists before l after, ls = before ++ Line l :: after /\ r = Ok tt /\
     answered cfg hw strip (before ++ [Line l]) s (repeat true (length before) ++ [false]) s') \/
  (exists before i after s1 e, ls = before ++ i :: after /\ r = Raise e /\
     answered cfg hw strip before s (repeat true (length before)) s1 /\ raises cfg hw strip i s1 e s').
Proof. exact (file_loop_spec cfg hw ls s s' r). Qed.
Print Assumptions C29_file.
Example C29_file_ex (acos : f64 -> f64) :
  outcome (main default_config (N:=F64 acos) hw_ok (File (lines ["G1X10"; "M3S500"; "G1X999"; "G1X20"]%string)) (session0 default_config))
    = ([true; true; false], Some (Ok tt))
  /\ outcome (main default_config (N:=F64 acos) hw_ok (File (lines ["G1X10"; "  M3 S500  "]%string)) (session0 default_config))
    = ([true; true], Some (Ok tt))
  /\ outcome (main default_config (N:=F64 acos) hw_ok (File (lines ["G1X10"; "X1.2.3"; "G1X20"]%string)) (session0 default_config))
    = ([true], Some (Raise ValueError)).
Proof. repeat split; vm_compute; reflexivity. Qed.

(** The interactive session: every line before the first quit or exit is executed
    in order, whatever the answers were, unless reading or executing a line
    raises something that is not answered. *)
Theorem C29_interactive (N : PyNum) (cfg : config) (hw : hw_oracle N) (ls : list input) (s s' : session N)
        (r : option (res unit)) :
  interactive cfg hw ls s = (s', r) ->
  exists before rest bs s1, ls = before ++ rest /\ Forall (fun i => ~ quits i) before /\
    answered cfg hw (fun l => l) before s bs s1 /\
    match r with
    | None => rest = [] /\ s' = s1
    | Some (Ok _) => exists i rest', rest = i :: rest' /\ quits i /\ s' = s1
    | Some (Raise e) => exists i rest', rest = i :: rest' /\ ~ quits i /\ raises cfg hw (fun l => l) i s1 e s'
    end.
Proof. exact (interactive_spec cfg hw ls s s' r). Qed.
Print Assumptions C29_interactive.
Example C29_interactive_ex (acos : f64 -> f64) :
  outcome (main default_config (N:=F64 acos) hw_ok (NoFile (lines ["G1X10"; "bad"; "G1X999"; "G1X20"; "exit"; "G1X30"]%string)) (session0 default_config))
    = ([true; false; false; true], Some (Ok tt))
  /\ outcome (main default_config (N:=F64 acos) hw_ok (NoFile (lines ["G1X10"; "bad"]%string)) (session0 default_config))
    = ([true; false], None).
Proof. repeat split; vm_compute; reflexivity. Qed.

(** One answer is printed for each line executed. *)
Theorem C29_answers_in_order (N : PyNum) (cfg : config) (hw : hw_oracle N) (f : text -> text) (ls : list input)
        (s s' : session N) (bs : list bool) :
  answered cfg hw f ls s bs s' -> length bs = length ls /\ s_out s' = s_out s ++ bs.
Proof. exact (answered_length cfg hw f ls s bs s'). Qed.
Print Assumptions C29_answers_in_order.
Example C29_answers_in_order_ex (acos : f64 -> f64) :
  exists s', answered (N:=F64 acos) default_config hw_ok strip (lines ["G1X10"; "G1X999"]%string) (session0 default_config) [true; false] s'.
Proof.
  eexists. eapply an_cons; [apply pair_eq; vm_compute; reflexivity|].
  eapply an_cons; [apply pair_eq; vm_compute; reflexivity|]. apply an_nil.
Qed.

(** At the normal end, after quit or exit, after a failing line of a file, and
    after a keyboard interrupt, everything is off: the spindle was last told 0 %,
    no heater is on, the fan was last told to be off. Missing: exceptions raised by
    the calls that switch the outputs (false, see below); any other end of the
    program (C58). *)
Theorem C29_released_partial (acos : f64 -> f64) (cfg : config) (hw : hw_oracle (F64 acos)) (a : start)
        (sb : session (F64 acos)) (r : res unit) :
  (forall l ev e, hw l ev = HRaise e -> (exists h, ev = EMeasure h) \/ (exists g, ev = EMove g) \/
    (exists h, ev = EHeaterWait h) \/ (exists t, ev = ESleep t) \/ (exists x y z, ev = ECalibrate x y z)) ->
  (0 < spindle_max_rpm cfg <= 2 ^ 53)%Z ->
  body cfg hw a (session0 cfg) = (sb, Some r) -> r = Ok tt \/ r = Raise KeyboardInterrupt ->
  exists s', main cfg hw a (session0 cfg) = (s', Some (Ok tt)) /\ all_off (s_log s').
Proof. exact (main_all_off acos cfg hw a sb r). Qed.
Print Assumptions C29_released_partial.
Example C29_released_ex (acos : f64 -> f64) :
  let a := File (lines ["M3S1000"; "M104S200"; "M106"; "G1X50"; "M5"]%string) in
  snd (body default_config (N:=F64 acos) hw_ctrl_c_move a (session0 default_config)) = Some (Raise KeyboardInterrupt)
  /\ (forall l ev e, hw_ctrl_c_move (N:=F64 acos) l ev = HRaise e -> exists g, ev = EMove g).
Proof.
  split; [vm_compute; reflexivity|]. intros l ev e H. destruct ev; try discriminate H. eauto.
Qed.

(** A keyboard interrupt between the start of the heating thread and the end of
    the constructor of Heater (cnc/heater.py:32-34): the program ends normally and
    the heater was never told to stop. *)
Theorem C29_released_refuted (acos : f64 -> f64) :
  exists (hw : hw_oracle (F64 acos)) a (s' : session (F64 acos)),
    (forall l ev e, hw l ev = HRaise e -> e = KeyboardInterrupt) /\
    main default_config hw a (session0 default_config) = (s', Some (Ok tt)) /\
    (exists t, In (EHeaterOn HeaterExtruder t) (s_log s')) /\ ~ In (EHeaterOff HeaterExtruder) (s_log s').
Proof.
  set (a := File (lines ["M104S200"]%string)).
  exists hw_ctrl_c, a, (fst (main default_config (N:=F64 acos) hw_ctrl_c a (session0 default_config))).
  split; [intros l ev e H; destruct ev; try discriminate H; now injection H|].
  split; [apply pair_eq; vm_compute; reflexivity|]. split.
  - apply heater_on_found. vm_compute. reflexivity.
  - apply heater_off_not_found. vm_compute. reflexivity.
Qed.
Print Assumptions C29_released_refuted.

(* ---------- C58 ---------- *)
(** C58. If the program ends without an exception everything was switched off by
    the same calls as in C29; and release is not called exactly when an exception
    other than KeyboardInterrupt ends it. Missing: switching off in that case
    (false, see below). *)
Theorem C58_ends_released_partial (acos : f64 -> f64) (cfg : config) (hw : hw_oracle (F64 acos)) (a : start)
        (s' : session (F64 acos)) (r : res unit) :
  (forall l ev e, hw l ev = HRaise e -> (exists h, ev = EMeasure h) \/ (exists g, ev = EMove g) \/
    (exists h, ev = EHeaterWait h) \/ (exists t, ev = ESleep t) \/ (exists x y z, ev = ECalibrate x y z)) ->
  (0 < spindle_max_rpm cfg <= 2 ^ 53)%Z ->
  main cfg hw a (session0 cfg) = (s', Some r) ->
  (r = Ok tt /\ all_off (s_log s')) \/
  (exists e, r = Raise e /\ e <> KeyboardInterrupt /\ body cfg hw a (session0 cfg) = (s', Some (Raise e))).
Proof. exact (main_ends acos cfg hw a s' r). Qed.
Print Assumptions C58_ends_released_partial.
Example C58_ends_released_ex (acos : f64 -> f64) :
  snd (main default_config (N:=F64 acos) hw_ok (NoFile (lines ["M3S1000"; "exit"]%string)) (session0 default_config)) = Some (Ok tt)
  /\ snd (main default_config (N:=F64 acos) hw_ok (CannotOpen IOErr) (session0 default_config)) = Some (Raise IOErr).
Proof. split; vm_compute; reflexivity. Qed.

(** End of input (Ctrl-D) at the prompt with the spindle on: the program ends with
    the last spindle command 100 %. *)
Theorem C58_ends_released_refuted (acos : f64 -> f64) :
  exists (a : start) (s' : session (F64 acos)) (p : f64),
    main default_config hw_ok a (session0 default_config) = (s', Some (Raise EOFError)) /\
    last_spindle (s_log s') = Some p /\ B2R p = 100%R.
Proof.
  set (a := NoFile (lines ["M3S10000"]%string ++ [Err EOFError])).
  set (r := main default_config (N:=F64 acos) hw_ok a (session0 default_config)).
  exists a, (fst r), (match last_spindle (s_log (fst r)) with Some p => p | None => f_ofZ 0 end).
  split; [apply pair_eq; vm_compute; reflexivity|]. split.
  - apply some_default. vm_compute. reflexivity.
  - apply (shows_is _ 100); [vm_compute; reflexivity|lia].
Qed.
Print Assumptions C58_ends_released_refuted.
