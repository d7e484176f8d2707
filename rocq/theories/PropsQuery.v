(** Properties C59-C62: dwell (G4), sensor test before heating, temperature query
    (M105) and the velocity of rapid moves. Every theorem is followed by its
    assumptions and by an Example in which its hypotheses hold. *)
From Coq Require Import String Ascii ZArith Bool Lia List Reals Lra.
From Verif Require Import PyBase PyNum PyFloatFacts Config Coordinates Pulses GCode GMachine ExampleBase PulseSpec MachineQuery RapidLaw.
From Coq Require Import List.
Import ListNotations.

(** C59. G4 without P or with a negative P is rejected without effect; otherwise
    the machine waits for the pulses to end and sleeps P seconds, nothing else. *)
Theorem C59_dwell (N : PyNum) (cfg : config) (hw : hw_oracle N) (g : gcode) (m m' : machine N) (es : list (event N)) (r : res unit) :
  effective_command g = Some (tx "G4") -> run_command cfg hw (Some g) m = (m', es, r) ->
  (es = [] /\ m' = m /\ exists e, r = Raise e) \/
  (has g "P" = true /\ exists p, get (N:=N) g "P" zero (ofZ 1) = Ok p /\ ltb p zero = false /\
     (es = [EJoin; ESleep p] \/ (es = [EJoin] /\ exists e, r = Raise e /\ hw [] EJoin = HRaise e)) /\
     (r = Ok tt -> es = [EJoin; ESleep p] /\ exists v, m' = set_velocity m v)).
Proof. exact (dwell cfg hw g m m' es r). Qed.
Print Assumptions C59_dwell.
Example C59_dwell_ex (acos : f64 -> f64) :
  effective_command (gl "G4P1.5") = Some (tx "G4") /\
  result_of (run_command default_config (N:=F64 acos) hw_ok (Some (gl "G4P1.5")) (after0 [])) = Ok tt /\
  result_of (run_command default_config (N:=F64 acos) hw_ok (Some (gl "G4P-1.5")) (after0 [])) = Raise (GMachineException "bad delay").
Proof. split; [|split]; vm_compute; reflexivity. Qed.

(** C60. No heater is started by a command unless the same command has first read
    the sensor of that heater successfully ... *)
Theorem C60_start_after_test (N : PyNum) (cfg : config) (hw : hw_oracle N) (g : gcode) (m m' : machine N) (es : list (event N)) (r : res unit)
        (h : heater_id) (t : N) :
  run_command cfg hw (Some g) m = (m', es, r) -> In (EHeaterOn h t) es ->
  exists b es', hw [] (EMeasure h) = HReturn b /\ es = EMeasure h :: es'.
Proof. exact (start_after_test cfg hw g m m' es r h t). Qed.
Print Assumptions C60_start_after_test.
Example C60_start_after_test_ex (acos : f64 -> f64) :
  match run_command default_config (N:=F64 acos) hw_ok (Some (gl "M140S60")) (after0 []) with
  | (_, es, _) => existsb (fun ev => match ev with EHeaterOn HeaterBed _ => true | _ => false end) es end = true.
Proof. vm_compute. reflexivity. Qed.

(** ... and if the sensor cannot be read the command fails and changes nothing,
    not even a heater that is already on. *)
Theorem C60_dead_sensor (N : PyNum) (cfg : config) (hw : hw_oracle N) (g : gcode) (m m' : machine N) (es : list (event N)) (r : res unit)
        (w : string) (x : exn) :
  effective_command g = Some (tx w) -> In w ["M104"; "M109"; "M140"; "M190"]%string ->
  run_command cfg hw (Some g) m = (m', es, r) ->
  hw [] (EMeasure (if (w =? "M104")%string || (w =? "M109")%string then HeaterExtruder else HeaterBed)) = HRaise x ->
  m' = m /\ (exists e, r = Raise e) /\
  (es = [] \/ es = [EMeasure (if (w =? "M104")%string || (w =? "M109")%string then HeaterExtruder else HeaterBed)]).
Proof. exact (sensor_test cfg hw g m m' es r w x). Qed.
Print Assumptions C60_dead_sensor.
Example C60_dead_sensor_ex (acos : f64 -> f64) :
  effective_command (gl "M190S60") = Some (tx "M190") /\
  hw_no_sensor (N:=F64 acos) [] (EMeasure HeaterBed) = HRaise IOErr /\
  result_of (run_command default_config (N:=F64 acos) hw_no_sensor (Some (gl "M190S60")) (after0 [])) =
    Raise (GMachineException "can not measure temperature").
Proof. split; [|split]; vm_compute; reflexivity. Qed.

(** C61. M105 reads both sensors and succeeds exactly when at least one of them
    could be read. *)
Theorem C61_temperature_query (N : PyNum) (cfg : config) (hw : hw_oracle N) (g : gcode) (m m' : machine N) (es : list (event N)) (r : res unit) :
  effective_command g = Some (tx "M105") -> run_command cfg hw (Some g) m = (m', es, r) -> es <> [] ->
  (forall l ev x, hw l ev = HRaise x -> x = IOErr) ->
  es = [EMeasure HeaterExtruder; EMeasure HeaterBed] /\
  (r = Ok tt <-> (exists b, hw [] (EMeasure HeaterExtruder) = HReturn b) \/ (exists b, hw [EMeasure HeaterExtruder] (EMeasure HeaterBed) = HReturn b)) /\
  (m' = m \/ exists v, m' = set_velocity m v).
Proof. exact (temperature_query cfg hw g m m' es r). Qed.
Print Assumptions C61_temperature_query.
Definition hw_bed_only {N : PyNum} : hw_oracle N :=
  fun _ ev => match ev with EMeasure HeaterExtruder => HRaise IOErr | _ => HReturn true end.
Example C61_temperature_query_ex (acos : f64 -> f64) :
  effective_command (gl "M105") = Some (tx "M105") /\
  (forall l ev x, hw_bed_only (N:=F64 acos) l ev = HRaise x -> x = IOErr) /\
  result_of (run_command default_config (N:=F64 acos) hw_bed_only (Some (gl "M105")) (after0 [])) = Ok tt /\
  result_of (run_command default_config (N:=F64 acos) hw_no_sensor (Some (gl "M105")) (after0 [])) =
    Raise (GMachineException "can not measure temperature").
Proof.
  split; [vm_compute; reflexivity|]. split; [|split; vm_compute; reflexivity].
  intros l ev y H. destruct ev; try discriminate H. destruct h; [injection H as <-; reflexivity|discriminate H].
Qed.

(** C62. The velocity of a rapid move, in exact arithmetic: along no axis does it
    exceed the configured limit, and it is the largest whole number of mm per
    minute of that kind, or at least the largest limit of all axes. *)
Theorem C62_rapid_exact : forall cfg (delta : quad R), sane_cfg cfg -> (exists m, qat m delta <> 0%R) ->
  exists v, rapid_velocity (N:=RN) cfg delta = Ok v /\
    (forall m, (IZR v * (Rabs (qat m delta) / len delta) <= IZR (qat m (max_velocity_min cfg)))%R) /\
    ((exists m, (IZR (qat m (max_velocity_min cfg)) < (IZR v + 1) * (Rabs (qat m delta) / len delta))%R) \/
     (forall m, (qat m (max_velocity_min cfg) <= v)%Z)).
Proof. exact rapid_exact. Qed.
Print Assumptions C62_rapid_exact.
Example C62_rapid_exact_ex : sane_cfg default_config /\ exists m, qat m (Quad 3 0 (-4) 0)%R <> 0%R.
Proof. split; [apply default_sane|]. exists MZ. cbn. lra. Qed.
