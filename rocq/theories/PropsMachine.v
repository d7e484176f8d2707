(** Properties C11-C13, C19, C21, C24-C27 of the machine (cnc/gmachine.py).
    Unless binary64 is mentioned, they hold for every structure of numbers and
    every configuration. *)
From Coq Require Import String Ascii ZArith Bool Reals Lra Lia List.
From Flocq Require Import Core BinarySingleNaN.
From Verif Require Import PyBase PyNum PyFloatFacts Config Coordinates Pulses GCode GMachine GMachineProofs
  MachineFacts MachineRel MachineHist MachineFloat ExampleBase.
From Coq Require Import List.
Import ListNotations.

(** C11. On hardware where only temperature sensors can fail, a failing command
    other than G28 leaves the machine as it was and has at most waited for the
    motors and read temperatures. *)
Theorem C11_rejected_no_effect (N : PyNum) (cfg : config) (hw : hw_oracle N) (g : gcode)
        (m m' : machine N) (es : list (event N)) (e : exn) :
  (forall l ev x, hw l ev = HRaise x -> exists h, ev = EMeasure h) ->
  effective_command g <> Some (tx "G28") ->
  run_command cfg hw (Some g) m = (m', es, Raise e) ->
  m' = m /\ Forall (fun ev => ev = EJoin \/ exists h, ev = EMeasure h) es.
Proof. exact (rejected_no_effect cfg hw g m m' es e). Qed.
Print Assumptions C11_rejected_no_effect.
Example C11_rejected_no_effect_ex (acos : f64 -> f64) :
  (* a move off the table *)
  result_of (run_command default_config (N:=F64 acos) hw_ok (Some (gl "G1X201")) (init_machine default_config))
    = Raise (GMachineException "out of effective area")
  (* heating with a broken sensor *)
  /\ result_of (run_command default_config (N:=F64 acos) hw_no_sensor (Some (gl "M104S200")) (init_machine default_config))
    = Raise (GMachineException "can not measure temperature")
  /\ events_of (run_command default_config (N:=F64 acos) hw_no_sensor (Some (gl "M104S200")) (init_machine default_config))
    = [EMeasure HeaterExtruder].
Proof. repeat split; vm_compute; reflexivity. Qed.

(** C12. Attributes change only by the commands documented for them. [words]
    lists the spellings. *)
Theorem C12_frame (N : PyNum) (cfg : config) (hw : hw_oracle N) (g : gcode)
        (m m' : machine N) (es : list (event N)) (r : res unit) :
  run_command cfg hw (Some g) m = (m', es, r) ->
  let untouched_by (l : list string) := forall t, effective_command g = Some t -> ~ In t (words l) in
  (untouched_by ["G0"; "G1"; "G2"; "G3"; "G28"]%string -> m_position m' = m_position m) /\
  (untouched_by ["G17"; "G18"; "G19"; "M2"; "M30"]%string -> m_plane m' = m_plane m) /\
  (untouched_by ["G20"; "G21"; "M2"; "M30"]%string -> m_convert m' = m_convert m) /\
  (untouched_by ["G90"; "G91"; "M2"; "M30"]%string -> m_absolute m' = m_absolute m) /\
  (untouched_by ["G92"; "G53"; "M2"; "M30"]%string -> m_local m' = m_local m) /\
  (untouched_by ["M3"; "M2"; "M30"]%string -> m_spindle_rpm m' = m_spindle_rpm m) /\
  (untouched_by ["M106"; "M107"; "M104"; "M109"]%string -> m_fan m' = m_fan m) /\
  (untouched_by ["M104"; "M109"]%string -> m_ext m' = m_ext m) /\
  (untouched_by ["M140"; "M190"]%string -> m_bed m' = m_bed m).
Proof.
  exact (fun H => conj (c12_position cfg hw g m m' es r H) (conj (c12_plane cfg hw g m m' es r H)
    (conj (c12_units cfg hw g m m' es r H) (conj (c12_mode cfg hw g m m' es r H)
    (conj (c12_local cfg hw g m m' es r H) (conj (c12_rpm cfg hw g m m' es r H)
    (conj (c12_fan cfg hw g m m' es r H) (conj (c12_ext cfg hw g m m' es r H)
    (c12_bed cfg hw g m m' es r H))))))))).
Qed.
Print Assumptions C12_frame.
Example C12_frame_ex (acos : f64 -> f64) :
  (* a G1 that moves: everything but the position is kept *)
  effective_command (gl "G1X1Y2") = Some (tx "G1") /\ ~ In (tx "G1") (words ["G17"; "G18"; "G19"; "M2"; "M30"]%string)
  /\ result_of (run_command default_config (N:=F64 acos) hw_ok (Some (gl "G1X1Y2")) (init_machine default_config)) = Ok tt
  /\ B2SF (qy (m_position (after0 (N:=F64 acos) ["G1X1Y2"%string]))) = B2SF (f_ofZ 2).
Proof. repeat split; try (vm_compute; reflexivity). intros H. simpl in H. repeat destruct H as [H|H]; try discriminate; exact H. Qed.

(** The mode commands set what they name. *)
Theorem C12_mode_commands (N : PyNum) (cfg : config) (hw : hw_oracle N) (g : gcode)
        (m m' : machine N) (es : list (event N)) (w : string) :
  run_command cfg hw (Some g) m = (m', es, Ok tt) -> effective_command g = Some (tx w) ->
  (w = "G17"%string -> m_plane m' = PlaneXY) /\ (w = "G18"%string -> m_plane m' = PlaneZX) /\
  (w = "G19"%string -> m_plane m' = PlaneYZ) /\
  (w = "G20"%string -> m_convert m' = ofdec false 254 1) /\ (w = "G21"%string -> m_convert m' = ofZ 1) /\
  (w = "G90"%string -> m_absolute m' = true) /\ (w = "G91"%string -> m_absolute m' = false) /\
  (w = "G53"%string -> m_local m' = coords0).
Proof. exact (mode_commands cfg hw g m m' es w). Qed.
Print Assumptions C12_mode_commands.
Example C12_mode_commands_ex (acos : f64 -> f64) :
  result_of (run_command default_config (N:=F64 acos) hw_ok (Some (gl "g91")) (init_machine default_config)) = Ok tt
  /\ effective_command (gl "g91") = Some (tx "G91")
  /\ m_absolute (init_machine (N:=F64 acos) default_config) = true.
Proof. repeat split; vm_compute; reflexivity. Qed.

(** C13. Feed rate: a success stores F, or keeps the old value without F. *)
Theorem C13_feed_modal (N : PyNum) (cfg : config) (hw : hw_oracle N) (g : gcode)
        (m m' : machine N) (es : list (event N)) :
  run_command cfg hw (Some g) m = (m', es, Ok tt) ->
  exists v, get (N:=N) g "F" (m_velocity m) (ofZ 1) = Ok v /\ m_velocity m' = v
            /\ ltb v (ofZ (min_velocity_min cfg)) = false.
Proof. exact (feed_after_success cfg hw g m m' es). Qed.
Print Assumptions C13_feed_modal.
Example C13_feed_modal_ex (acos : f64 -> f64) :
  result_of (run_command default_config (N:=F64 acos) hw_ok (Some (gl "G1X1F480")) (init_machine default_config)) = Ok tt
  /\ B2SF (m_velocity (after0 (N:=F64 acos) ["G1X1F480"; "G1X2"]%string)) = B2SF (f_ofZ 480).
Proof. repeat split; vm_compute; reflexivity. Qed.

Theorem C13_failure_keeps_feed (N : PyNum) (cfg : config) (hw : hw_oracle N) (g : gcode)
        (m m' : machine N) (es : list (event N)) (e : exn) :
  run_command cfg hw (Some g) m = (m', es, Raise e) -> m_velocity m' = m_velocity m.
Proof. exact (feed_after_failure cfg hw g m m' es e). Qed.
Print Assumptions C13_failure_keeps_feed.
Example C13_failure_keeps_feed_ex (acos : f64 -> f64) :
  result_of (run_command default_config (N:=F64 acos) hw_ok (Some (gl "G1X201F480")) (init_machine default_config))
    = Raise (GMachineException "out of effective area").
Proof. vm_compute; reflexivity. Qed.

Theorem C13_too_low_fails (N : PyNum) (cfg : config) (hw : hw_oracle N) (g : gcode)
        (m m' : machine N) (es : list (event N)) (r : res unit) (v : N) :
  get (N:=N) g "F" (m_velocity m) (ofZ 1) = Ok v -> ltb v (ofZ (min_velocity_min cfg)) = true ->
  run_command cfg hw (Some g) m = (m', es, r) ->
  m' = m /\ es = [] /\ exists e, r = Raise e.
Proof. exact (feed_too_low cfg hw g m m' es r v). Qed.
Print Assumptions C13_too_low_fails.
Example C13_too_low_fails_ex (acos : f64 -> f64) :
  match get (N:=F64 acos) (gl "G1X1F0.5") "F" zero (ofZ 1) with
  | Ok v => f_lt v (f_ofZ (min_velocity_min default_config)) = true | Raise _ => False end.
Proof. vm_compute; reflexivity. Qed.

(** Over binary64: the stored feed is never below the minimum (nor NaN), after
    any history. *)
Theorem C13_feed_floor (acos : f64 -> f64) (cfg : config) (m : machine (F64 acos)) (es : list (event (F64 acos))) :
  (Z.abs (min_velocity_min cfg) <= 2 ^ 53)%Z -> (Z.abs (quad_min (max_velocity_min cfg)) <= 2 ^ 53)%Z ->
  (min_velocity_min cfg <= quad_min (max_velocity_min cfg))%Z ->
  history cfg m es -> f_le (f_ofZ (min_velocity_min cfg)) (m_velocity m) = true.
Proof. exact (feed_floor acos cfg _ m es). Qed.
Print Assumptions C13_feed_floor.
Example C13_feed_floor_ex (acos : f64 -> f64) :
  (min_velocity_min default_config <= quad_min (max_velocity_min default_config))%Z
  /\ history default_config (after0 (N:=F64 acos) ["G1X5F0.5"; "G1X1F20"]%string) (events0 ["G1X5F0.5"; "G1X1F20"]%string).
Proof. split; [vm_compute; discriminate|]. apply history0. exact I. Qed.

(** C19. M2/M30: all modal settings but the feed rate are reset. *)
Theorem C19_program_end_partial (N : PyNum) (cfg : config) (hw : hw_oracle N) (g : gcode)
        (m m' : machine N) (es : list (event N)) (t : text) :
  run_command cfg hw (Some g) m = (m', es, Ok tt) ->
  effective_command g = Some t -> In t (words ["M2"; "M30"]%string) ->
  m_spindle_rpm m' = m_spindle_rpm (init_machine cfg) /\
  m_local m' = m_local (init_machine (N:=N) cfg) /\
  m_convert m' = m_convert (init_machine (N:=N) cfg) /\
  m_absolute m' = m_absolute (init_machine (N:=N) cfg) /\
  m_plane m' = m_plane (init_machine (N:=N) cfg) /\
  es = [] /\ m_position m' = m_position m /\ m_fan m' = m_fan m /\ m_ext m' = m_ext m /\ m_bed m' = m_bed m.
Proof. exact (program_end cfg hw g m m' es t). Qed.
Print Assumptions C19_program_end_partial.
Example C19_program_end_partial_ex (acos : f64 -> f64) :
  result_of (run_command default_config (N:=F64 acos) hw_ok (Some (gl "M30"))
               (after0 ["G91"; "G18"; "G20"; "G92X1"]%string)) = Ok tt
  /\ m_absolute (after0 (N:=F64 acos) ["G91"; "G18"; "G20"; "G92X1"]%string) = false
  /\ m_plane (after0 (N:=F64 acos) ["G91"; "G18"; "G20"; "G92X1"]%string) = PlaneZX.
Proof. repeat split; vm_compute; reflexivity. Qed.

(** The feed rate is not reset: do_command stores the feed of the command
    itself after reset(). Full statement: m_velocity m' = power-on value. *)
Theorem C19_feed_refuted (acos : f64 -> f64) :
  exists (g : gcode) (m : machine (F64 acos)) es, history default_config m es /\
    effective_command g = Some (tx "M2") /\
    result_of (run_command default_config hw_ok (Some g) m) = Ok tt /\
    B2SF (m_velocity (state_of (run_command default_config hw_ok (Some g) m)))
      <> B2SF (m_velocity (init_machine (N:=F64 acos) default_config)).
Proof.
  exists (gl "M2"), (after0 ["G1X1F480"]%string), (events0 ["G1X1F480"]%string).
  split; [now apply history0|]. repeat split; vm_compute; try reflexivity. discriminate.
Qed.
Print Assumptions C19_feed_refuted.

(** C21. Every movement handed to the motors declares velocities within the limits
    (no axis compares greater than its limit). *)
Theorem C21_no_move_too_fast (N : PyNum) (cfg : config) (m : machine N) (es : list (event N)) (g : gen N) :
  history cfg m es -> In (EMove g) es ->
  let v := cmul (gen_vel g) (ofZ 60) in
  ltb (ofZ (qx (max_velocity_min cfg))) (qx v) = false /\ ltb (ofZ (qy (max_velocity_min cfg))) (qy v) = false /\
  ltb (ofZ (qz (max_velocity_min cfg))) (qz v) = false /\ ltb (ofZ (qe (max_velocity_min cfg))) (qe v) = false.
Proof.
  exact (fun H Hg => let K := history_slow cfg _ m es g H Hg in
    match proj1 (orb_false_iff _ _) K with conj K3 Ke =>
    match proj1 (orb_false_iff _ _) K3 with conj K2 Kz =>
    match proj1 (orb_false_iff _ _) K2 with conj Kx Ky => conj Kx (conj Ky (conj Kz Ke)) end end end).
Qed.
Print Assumptions C21_no_move_too_fast.
Example C21_no_move_too_fast_ex (acos : f64 -> f64) :
  existsb (fun ev : event (F64 acos) => match ev with
                     | EMove g => f_lt (f_ofZ 11999) (qy (cmul (N:=F64 acos) (gen_vel g) (f_ofZ 60)))
                     | _ => false end) (events0 (N:=F64 acos) ["G1X10Y10F999999999"%string]) = true.
Proof. vm_compute. reflexivity. Qed.

(** C24. Spindle power, binary64: every value sent is within 0..100. *)
Theorem C24_spindle_range (acos : f64 -> f64) (cfg : config) (m : machine (F64 acos))
        (es : list (event (F64 acos))) (p : f64) :
  (0 < spindle_max_rpm cfg <= 2 ^ 40)%Z ->
  history cfg m es -> In (ESpindle (N:=F64 acos) p) es ->
  is_finite p = true /\ (0 <= B2R p <= 100)%R.
Proof. exact (history_percent acos cfg _ m es p). Qed.
Print Assumptions C24_spindle_range.
Example C24_spindle_range_ex (acos : f64 -> f64) :
  existsb (fun ev : event (F64 acos) => match ev with
                     | ESpindle p => f_eq p (f_ratio false 3333 100)
                     | _ => false end) (events0 (N:=F64 acos) ["M3S3333"; "M3S99999"; "M5"]%string) = true.
Proof. vm_compute. reflexivity. Qed.

(** M3 with S out of range is rejected without any action. *)
Theorem C24_bad_speed_rejected (N : PyNum) (cfg : config) (hw : hw_oracle N) (g : gcode)
        (m m' : machine N) (es : list (event N)) (r : res unit) (s : N) :
  effective_command g = Some (tx "M3") ->
  get (N:=N) g "S" (m_spindle_rpm m) (ofZ 1) = Ok s ->
  ltb s (ofZ 0) = true \/ ltb (ofZ (spindle_max_rpm cfg)) s = true ->
  run_command cfg hw (Some g) m = (m', es, r) ->
  m' = m /\ es = [] /\ exists e, r = Raise e.
Proof. exact (bad_speed_rejected cfg hw g m m' es r s). Qed.
Print Assumptions C24_bad_speed_rejected.
Example C24_bad_speed_rejected_ex (acos : f64 -> f64) :
  effective_command (gl "M3 S10001") = Some (tx "M3") /\
  match get (N:=F64 acos) (gl "M3 S10001") "S" zero (ofZ 1) with
  | Ok s => f_lt (f_ofZ (spindle_max_rpm default_config)) s = true | Raise _ => False end.
Proof. split; vm_compute; reflexivity. Qed.

(** M3 and M5 send exactly the percentage asked for, after waiting. *)
Theorem C24_spindle_commands (N : PyNum) (cfg : config) (hw : hw_oracle N) (g : gcode)
        (m m' : machine N) (es : list (event N)) :
  run_command cfg hw (Some g) m = (m', es, Ok tt) ->
  (effective_command g = Some (tx "M5") ->
     exists p, div (mul (ofZ 100) (ofZ 0)) (ofZ (spindle_max_rpm cfg)) = Ok p /\ es = [EJoin; ESpindle p]) /\
  (effective_command g = Some (tx "M3") ->
     exists s p, get (N:=N) g "S" (m_spindle_rpm m) (ofZ 1) = Ok s /\
       div (mul (ofZ 100) s) (ofZ (spindle_max_rpm cfg)) = Ok p /\
       es = [EJoin; ESpindle p] /\ m_spindle_rpm m' = s).
Proof. exact (spindle_commands cfg hw g m m' es). Qed.
Print Assumptions C24_spindle_commands.
Example C24_spindle_commands_ex (acos : f64 -> f64) :
  result_of (run_command default_config (N:=F64 acos) hw_ok (Some (gl "M3S5000")) (init_machine default_config)) = Ok tt
  /\ result_of (run_command default_config (N:=F64 acos) hw_ok (Some (gl "M5")) (after0 ["M3S5000"%string])) = Ok tt.
Proof. split; vm_compute; reflexivity. Qed.

(** The spindle is only switched, end stops only calibrated and pauses only
    begun directly after hal.join(), i.e. when all motion has finished. *)
Theorem C24_after_motion (N : PyNum) (cfg : config) (m : machine N) (es1 es2 : list (event N)) (ev : event N) :
  history cfg m (es1 ++ ev :: es2) ->
  (exists p, ev = ESpindle p) \/ (exists x y z, ev = ECalibrate x y z) \/ (exists s, ev = ESleep s) ->
  exists es0, es1 = es0 ++ [EJoin].
Proof. exact (history_rests cfg _ m es1 ev es2). Qed.
Print Assumptions C24_after_motion.
Example C24_after_motion_ex (acos : f64 -> f64) :
  match events0 (N:=F64 acos) ["G1X1"; "M3S100"; "G28"]%string with
  | [EMove _; EJoin; ESpindle _; EMove _; EJoin; ECalibrate true true true] => True | _ => False end.
Proof. vm_compute. exact I. Qed.

(** Shutdown: spindle 0, every heater off, fan off, in this order, whenever the
    hardware does not raise. *)
Theorem C24_release (N : PyNum) (cfg : config) (hw : hw_oracle N) (m m' : machine N) (es : list (event N)) :
  release cfg hw m [] = (m', es, Ok tt) ->
  exists p, div (mul (ofZ 100) (ofZ 0)) (ofZ (spindle_max_rpm cfg)) = Ok p /\
    es = [EJoin; ESpindle p]
         ++ (match m_ext m with Some _ => [EHeaterOff HeaterExtruder] | None => [] end)
         ++ (match m_bed m with Some _ => [EHeaterOff HeaterBed] | None => [] end)
         ++ [EFan false; EDeinit].
Proof. exact (release_events cfg hw m m' es). Qed.
Print Assumptions C24_release.
Example C24_release_ex (acos : f64 -> f64) :
  result_of (release default_config (N:=F64 acos) hw_ok (after0 ["M104S200"; "M3S500"]%string) []) = Ok tt
  /\ (if m_ext (after0 (N:=F64 acos) ["M104S200"; "M3S500"]%string) then true else false) = true.
Proof. split; vm_compute; reflexivity. Qed.

(** C25. Heater targets, binary64: every target ever given to a heater, and
    every target in force, is within the limits. *)
Theorem C25_targets_in_range (acos : f64 -> f64) (cfg : config) (m : machine (F64 acos))
        (es : list (event (F64 acos))) (h : heater_id) (t : f64) :
  (Z.abs (min_t cfg) <= 2 ^ 53)%Z -> (Z.abs (heater_max cfg h) <= 2 ^ 53)%Z ->
  history cfg m es -> In (EHeaterOn (N:=F64 acos) h t) es \/ heater_target m h = Some t ->
  is_finite t = true /\ (IZR (min_t cfg) <= B2R t <= IZR (heater_max cfg h))%R.
Proof.
  exact (fun S1 S2 H Ht => checked_target_range acos cfg h t S1 S2
    (match Ht with or_introl K => proj1 (history_targets cfg _ m es H) h t K
                 | or_intror K => proj2 (history_targets cfg _ m es H) h t K end)).
Qed.
Print Assumptions C25_targets_in_range.
Example C25_targets_in_range_ex (acos : f64 -> f64) :
  let m := after0 (N:=F64 acos) ["M104S250"; "M140S101"; "M104S251"]%string in
  match heater_target m HeaterExtruder with Some t => eqb (p:=F64 acos) t (f_ofZ 250) = true | None => False end
  /\ heater_target m HeaterBed = None
  /\ heater_max default_config HeaterExtruder = 250%Z /\ heater_max default_config HeaterBed = 100%Z.
Proof. refine (conj _ (conj _ (conj _ _))); vm_compute; reflexivity. Qed.

(** A missing S word or a target out of range is rejected without effect. *)
Theorem C25_bad_target_rejected (N : PyNum) (cfg : config) (hw : hw_oracle N) (g : gcode)
        (m m' : machine N) (es : list (event N)) (r : res unit) (w : string) :
  effective_command g = Some (tx w) -> In w ["M104"; "M109"; "M140"; "M190"]%string ->
  has g "S" = false \/
  (exists t, get (N:=N) g "S" zero (ofZ 1) = Ok t /\
     (ltb t (ofZ (min_t cfg)) = true \/
      ltb (ofZ (if (w =? "M104")%string || (w =? "M109")%string then extruder_max_t cfg else bed_max_t cfg)) t = true) /\
     eqb t zero = false) ->
  run_command cfg hw (Some g) m = (m', es, r) ->
  m' = m /\ es = [] /\ exists e, r = Raise e.
Proof. exact (bad_target_rejected cfg hw g m m' es r w). Qed.
Print Assumptions C25_bad_target_rejected.
Example C25_bad_target_rejected_ex (acos : f64 -> f64) :
  has (gl "M109") "S" = false /\
  match get (N:=F64 acos) (gl "M190S39.9") "S" zero (ofZ 1) with
  | Ok t => f_lt t (f_ofZ (min_t default_config)) = true /\ f_eq t (f_ofZ 0) = false | Raise _ => False end.
Proof. split; vm_compute; [reflexivity|split; reflexivity]. Qed.

(** Target 0 switches the heater off. *)
Theorem C25_zero_is_off (N : PyNum) (cfg : config) (hw : hw_oracle N) (g : gcode)
        (m m' : machine N) (es : list (event N)) (w : string) (t : N) :
  effective_command g = Some (tx w) -> In w ["M104"; "M109"; "M140"; "M190"]%string ->
  get (N:=N) g "S" zero (ofZ 1) = Ok t -> eqb t zero = true ->
  run_command cfg hw (Some g) m = (m', es, Ok tt) ->
  let h := if (w =? "M104")%string || (w =? "M109")%string then HeaterExtruder else HeaterBed in
  heater_target m' h = None /\ (heater_target m h <> None -> In (EHeaterOff h) es) /\
  (forall t', ~ In (EHeaterOn h t') es).
Proof. exact (zero_is_off cfg hw g m m' es w t). Qed.
Print Assumptions C25_zero_is_off.
Example C25_zero_is_off_ex (acos : f64 -> f64) :
  (if heater_target (after0 (N:=F64 acos) ["M140S60"%string]) HeaterBed then true else false) = true /\
  result_of (run_command default_config (N:=F64 acos) hw_ok (Some (gl "M140S0")) (after0 ["M140S60"%string])) = Ok tt.
Proof. split; vm_compute; reflexivity. Qed.

(** The targets recorded are what the heaters were last told, provided starting
    and stopping a heater does not raise. *)
Theorem C25_state_follows_heaters (N : PyNum) (cfg : config) (m : machine N) (es : list (event N)) (h : heater_id) :
  history_hw (fun hw => forall l ev e, (exists h, ev = EHeaterOff h \/ exists t, ev = EHeaterOn h t) -> hw l ev <> HRaise e)
             cfg m es ->
  heater_target m h =
    fold_left (fun s ev => match ev with
                           | EHeaterOn h' t => if heater_eqb h h' then Some t else s
                           | EHeaterOff h' => if heater_eqb h h' then None else s
                           | _ => s end) es None.
Proof. exact (history_heater cfg h m es). Qed.
Print Assumptions C25_state_follows_heaters.
Example C25_state_follows_heaters_ex (acos : f64 -> f64) :
  match events0 (N:=F64 acos) ["M104S200"; "M140S60"; "M104S0"; "M140S70"]%string with
  | [EMeasure _; EFan true; EHeaterOn HeaterExtruder _; EMeasure _; EHeaterOn HeaterBed _;
     EMeasure _; EHeaterOff HeaterExtruder; EMeasure _; EHeaterOff HeaterBed; EHeaterOn HeaterBed _] => True
  | _ => False end.
Proof. vm_compute. exact I. Qed.

(** C26. The fan state is the last value sent, provided the fan call itself does
    not raise. *)
Theorem C26_state_is_last_command (N : PyNum) (cfg : config) (m : machine N) (es : list (event N)) :
  history_hw (fun hw => forall l ev e, (exists b, ev = EFan b) -> hw l ev <> HRaise e) cfg m es ->
  m_fan m = fold_left (fun s ev => match ev with EFan b => b | _ => s end) es false.
Proof. exact (history_fan cfg m es). Qed.
Print Assumptions C26_state_is_last_command.
Example C26_state_is_last_command_ex (acos : f64 -> f64) :
  m_fan (after0 (N:=F64 acos) ["M106"; "M107"; "M106S5"; "M106S0"; "M104S100"]%string) = true
  /\ m_fan (after0 (N:=F64 acos) ["M106"; "M107"; "M106S5"; "M106S0"]%string) = false.
Proof. split; vm_compute; reflexivity. Qed.

(** What the fan commands do. *)
Theorem C26_fan_commands (N : PyNum) (cfg : config) (hw : hw_oracle N) (g : gcode)
        (m m' : machine N) (es : list (event N)) (w : string) :
  run_command cfg hw (Some g) m = (m', es, Ok tt) -> effective_command g = Some (tx w) ->
  (w = "M106"%string -> exists s, get (N:=N) g "S" (ofZ 1) (ofZ 1) = Ok s /\
     es = [EFan (negb (eqb s zero))] /\ m_fan m' = negb (eqb s zero)) /\
  (w = "M107"%string -> es = [EFan false] /\ m_fan m' = false) /\
  (In w ["M104"; "M109"]%string -> auto_fan cfg = true ->
     forall t, get (N:=N) g "S" zero (ofZ 1) = Ok t -> eqb t zero = false ->
     In (EFan true) es /\ m_fan m' = true).
Proof. exact (fan_commands cfg hw g m m' es w). Qed.
Print Assumptions C26_fan_commands.
Example C26_fan_commands_ex (acos : f64 -> f64) :
  result_of (run_command default_config (N:=F64 acos) hw_ok (Some (gl "M109S200")) (init_machine default_config)) = Ok tt
  /\ result_of (run_command default_config (N:=F64 acos) hw_ok (Some (gl "M106")) (init_machine default_config)) = Ok tt
  /\ auto_fan default_config = true.
Proof. repeat split; vm_compute; reflexivity. Qed.

(** C27. Unknown command words. *)
Theorem C27_unknown_command (N : PyNum) (cfg : config) (hw : hw_oracle N) (g : gcode)
        (m m' : machine N) (es : list (event N)) (r : res unit) (t : text) :
  effective_command g = Some t ->
  ~ In t (words ["G0"; "G1"; "G2"; "G3"; "G4"; "G17"; "G18"; "G19"; "G20"; "G21"; "G28"; "G53"; "G90"; "G91";
                 "G92"; "M2"; "M3"; "M5"; "M30"; "M82"; "M83"; "M84"; "M104"; "M105"; "M106"; "M107"; "M109"; "M111";
                 "M114"; "M140"; "M190"]%string) ->
  run_command cfg hw (Some g) m = (m', es, r) ->
  m' = m /\ es = [] /\ exists e, r = Raise e /\
  (forall delta v radius, command_delta g m = Ok delta -> get (N:=N) g "F" (m_velocity m) (ofZ 1) = Ok v ->
     get_radius g coords0 (m_convert m) = Ok radius -> ltb v (ofZ (min_velocity_min cfg)) = false ->
     e = GMachineException "unknown command").
Proof. exact (unknown_command_words cfg hw g m m' es r t). Qed.
Print Assumptions C27_unknown_command.
Example C27_unknown_command_ex (acos : f64 -> f64) :
  effective_command (gl "G01X1") = Some (tx "G01") /\
  result_of (run_command default_config (N:=F64 acos) hw_ok (Some (gl "G01X1")) (init_machine default_config))
    = Raise (GMachineException "unknown command") /\
  result_of (run_command default_config (N:=F64 acos) hw_ok (Some (gl "G1.0X1")) (init_machine default_config))
    = Raise (GMachineException "unknown command").
Proof. repeat split; vm_compute; reflexivity. Qed.

(** Every listed command word is indeed known. *)
Theorem C27_known_commands (t : text) :
  In t (words ["G0"; "G1"; "G2"; "G3"; "G4"; "G17"; "G18"; "G19"; "G20"; "G21"; "G28"; "G53"; "G90"; "G91";
               "G92"; "M2"; "M3"; "M5"; "M30"; "M82"; "M83"; "M84"; "M104"; "M105"; "M106"; "M107"; "M109"; "M111";
               "M114"; "M140"; "M190"]%string) <->
  exists c, assoc_text t command_table = Some c.
Proof. exact (known_commands t). Qed.
Print Assumptions C27_known_commands.
Example C27_known_commands_ex : exists c, assoc_text (tx "M109") command_table = Some c.
Proof. eexists. vm_compute. reflexivity. Qed.

(** Lines without a command. *)
Theorem C27_empty_line (N : PyNum) (cfg : config) (hw : hw_oracle N) (m : machine N) :
  run_command cfg hw None m = (m, [], Ok tt).
Proof. exact (no_command_line cfg hw m). Qed.
Print Assumptions C27_empty_line.
Example C27_empty_line_ex : parse_line (tx "  ( nothing ) ; at all") = Ok None.
Proof. vm_compute. reflexivity. Qed.

Theorem C27_implicit_G1 (N : PyNum) (cfg : config) (hw : hw_oracle N) (g : gcode) (m : machine N) :
  lookup g "G" = None -> lookup g "M" = None -> has_coordinates g = true ->
  run_command cfg hw (Some g) m = run_command cfg hw (Some (("G"%char, tx "1") :: g)) m.
Proof. exact (implicit_G1 cfg hw g m). Qed.
Print Assumptions C27_implicit_G1.
Example C27_implicit_G1_ex : lookup (gl "X1Y2F300") "G" = None /\ lookup (gl "X1Y2F300") "M" = None
  /\ has_coordinates (gl "X1Y2F300") = true.
Proof. repeat split; vm_compute; reflexivity. Qed.
