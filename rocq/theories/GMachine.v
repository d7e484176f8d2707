(** Model of cnc/gmachine.py.

    The machine's attributes are a record. Calls into the hardware layer, the
    heaters and time.sleep are recorded as a list of events; what such a call
    does is given by an arbitrary oracle [hw], which sees all earlier calls of
    the same command and may answer, or raise any exception. The state
    survives exceptions as in Python: a computation always returns a state and
    an event list, and in addition a result or an exception.

    Simplifications: answers (strings) and log output are not modelled; the
    heaters dictionary is two optional targets; stop() of several heaters at
    release happens in a fixed order. *)
From Coq Require Import String Ascii ZArith Bool List.
From Verif Require Import PyBase PyNum Config Coordinates Pulses GCode.
Import ListNotations.

Section Get.
Context {N : PyNum}.

(** GCode.get with a default value, cnc/gcode.py:35-44. *)
Definition get (g : gcode) (k : ascii) (default multiply : N) : res N :=
  match lookup g k with
  | None => Ok default
  | Some lit =>
    match decimal_of lit with
    | None => Raise ValueError
    | Some (s, n, dec) => Ok (mul (ofdec s n dec) multiply)
    end
  end.

(** GCode.coordinates, cnc/gcode.py:46-56. *)
Definition get_coordinates (g : gcode) (default : quad N) (multiply : N) : res (quad N) :=
  do! x <- get g "X" (qx default) multiply;
  do! y <- get g "Y" (qy default) multiply;
  do! z <- get g "Z" (qz default) multiply;
  do! e <- get g "E" (qe default) multiply;
  Ok (coords x y z e).

(** GCode.radius, cnc/gcode.py:65-74. *)
Definition get_radius (g : gcode) (default : quad N) (multiply : N) : res (quad N) :=
  do! i <- get g "I" (qx default) multiply;
  do! j <- get g "J" (qy default) multiply;
  do! k <- get g "K" (qz default) multiply;
  Ok (coords i j k zero).

(** Attributes of GMachine, cnc/gmachine.py:24-39. [m_ext], [m_bed]: target of
    the heater object in _heaters, if there is one. *)
Record machine : Type := {
  m_position : quad N;
  m_velocity : N;
  m_spindle_rpm : N;
  m_local : quad N;
  m_convert : N;
  m_absolute : bool;
  m_plane : plane;
  m_fan : bool;
  m_ext : option N;
  m_bed : option N
}.

(** Calls out of gmachine.py into the hardware layer. *)
Inductive event : Type :=
| EJoin                                   (* hal.join() *)
| EMove (g : gen N)                       (* hal.move(gen) *)
| ESpindle (percent : N)                  (* hal.spindle_control *)
| EFan (on : bool)                        (* hal.fan_control *)
| EMeasure (h : heater_id)                (* hal.get_*_temperature *)
| EHeaterOn (h : heater_id) (t : N)       (* Heater(...) *)
| EHeaterOff (h : heater_id)              (* Heater.stop() *)
| EHeaterWait (h : heater_id)             (* Heater.wait() *)
| ECalibrate (x y z : bool)               (* hal.calibrate *)
| EDisable                                (* hal.disable_steppers *)
| ESleep (s : N)                          (* time.sleep *)
| EDebug                                  (* logging_config.debug_enable *)
| EDeinit.                                (* hal.deinit *)

(** Answer of a hardware call: a (boolean) return value or an exception. *)
Inductive hw_answer : Type := HReturn (b : bool) | HRaise (e : exn).
Definition hw_oracle : Type := list event -> event -> hw_answer.

Definition set_position (m : machine) p := {| m_position := p; m_velocity := m_velocity m; m_spindle_rpm := m_spindle_rpm m; m_local := m_local m; m_convert := m_convert m; m_absolute := m_absolute m; m_plane := m_plane m; m_fan := m_fan m; m_ext := m_ext m; m_bed := m_bed m |}.
Definition set_velocity (m : machine) v := {| m_position := m_position m; m_velocity := v; m_spindle_rpm := m_spindle_rpm m; m_local := m_local m; m_convert := m_convert m; m_absolute := m_absolute m; m_plane := m_plane m; m_fan := m_fan m; m_ext := m_ext m; m_bed := m_bed m |}.
Definition set_rpm (m : machine) v := {| m_position := m_position m; m_velocity := m_velocity m; m_spindle_rpm := v; m_local := m_local m; m_convert := m_convert m; m_absolute := m_absolute m; m_plane := m_plane m; m_fan := m_fan m; m_ext := m_ext m; m_bed := m_bed m |}.
Definition set_local (m : machine) v := {| m_position := m_position m; m_velocity := m_velocity m; m_spindle_rpm := m_spindle_rpm m; m_local := v; m_convert := m_convert m; m_absolute := m_absolute m; m_plane := m_plane m; m_fan := m_fan m; m_ext := m_ext m; m_bed := m_bed m |}.
Definition set_convert (m : machine) v := {| m_position := m_position m; m_velocity := m_velocity m; m_spindle_rpm := m_spindle_rpm m; m_local := m_local m; m_convert := v; m_absolute := m_absolute m; m_plane := m_plane m; m_fan := m_fan m; m_ext := m_ext m; m_bed := m_bed m |}.
Definition set_absolute (m : machine) v := {| m_position := m_position m; m_velocity := m_velocity m; m_spindle_rpm := m_spindle_rpm m; m_local := m_local m; m_convert := m_convert m; m_absolute := v; m_plane := m_plane m; m_fan := m_fan m; m_ext := m_ext m; m_bed := m_bed m |}.
Definition set_plane (m : machine) v := {| m_position := m_position m; m_velocity := m_velocity m; m_spindle_rpm := m_spindle_rpm m; m_local := m_local m; m_convert := m_convert m; m_absolute := m_absolute m; m_plane := v; m_fan := m_fan m; m_ext := m_ext m; m_bed := m_bed m |}.
Definition set_fan (m : machine) v := {| m_position := m_position m; m_velocity := m_velocity m; m_spindle_rpm := m_spindle_rpm m; m_local := m_local m; m_convert := m_convert m; m_absolute := m_absolute m; m_plane := m_plane m; m_fan := v; m_ext := m_ext m; m_bed := m_bed m |}.
Definition set_heater (m : machine) (h : heater_id) v := {| m_position := m_position m; m_velocity := m_velocity m; m_spindle_rpm := m_spindle_rpm m; m_local := m_local m; m_convert := m_convert m; m_absolute := m_absolute m; m_plane := m_plane m; m_fan := m_fan m;
  m_ext := match h with HeaterExtruder => v | HeaterBed => m_ext m end;
  m_bed := match h with HeaterBed => v | HeaterExtruder => m_bed m end |}.
Definition heater_target (m : machine) (h : heater_id) : option N :=
  match h with HeaterExtruder => m_ext m | HeaterBed => m_bed m end.

(** Computations: machine and event list in, machine, event list and result out. *)
Definition M (A : Type) : Type := machine -> list event -> machine * list event * res A.

Definition ret {A} (a : A) : M A := fun m l => (m, l, Ok a).
Definition throw {A} (e : exn) : M A := fun m l => (m, l, Raise e).
Definition bind {A B} (c : M A) (f : A -> M B) : M B :=
  fun m l => match c m l with
             | (m', l', Ok a) => f a m' l'
             | (m', l', Raise e) => (m', l', Raise e)
             end.
Definition lift {A} (r : res A) : M A := fun m l => (m, l, r).
Definition gets : M machine := fun m l => (m, l, Ok m).
Definition modify (f : machine -> machine) : M unit := fun m l => (f m, l, Ok tt).
Definition fail_if (b : bool) (msg : string) : M unit :=
  if b then throw (GMachineException msg) else ret tt.

End Get.
Arguments machine : clear implicits.
Arguments M : clear implicits.
Arguments event : clear implicits.
Arguments hw_oracle : clear implicits.

Notation "'let!' x <- m ; k" := (bind m (fun x => k))
  (at level 200, x pattern, m at level 100, k at level 200, right associativity).
Notation "m ;; k" := (bind m (fun _ => k)) (at level 199, right associativity).

Section GMachine.
Context {N : PyNum}.
Variable cfg : config.
Variable hw : hw_oracle N.
Local Open Scope num_scope.

(** A call to the hardware layer. *)
Definition call (ev : event N) : M N bool :=
  fun m l => match hw l ev with
             | HReturn b => (m, l ++ [ev], Ok b)
             | HRaise e => (m, l ++ [ev], Raise e)
             end.

(** Minimum/maximum of the four axis limits, cnc/gmachine.py:53-56, 338-341. *)
Definition quad_min (q : quad Z) : Z := Z.min (Z.min (Z.min (qx q) (qy q)) (qz q)) (qe q).
Definition quad_max (q : quad Z) : Z := Z.max (Z.max (Z.max (qx q) (qy q)) (qz q)) (qe q).

(** reset, cnc/gmachine.py:50-61. *)
Definition reset (m : machine N) : machine N :=
  {| m_position := m_position m;
     m_velocity := ofZ (quad_min (max_velocity_min cfg));
     m_spindle_rpm := ofZ 1000;
     m_local := coords0;
     m_convert := ofZ 1;
     m_absolute := true;
     m_plane := PlaneXY;
     m_fan := m_fan m; m_ext := m_ext m; m_bed := m_bed m |}.

(** State after __init__, cnc/gmachine.py:24-39. *)
Definition init_machine : machine N :=
  reset {| m_position := coords0; m_velocity := zero; m_spindle_rpm := zero;
           m_local := coords0; m_convert := zero; m_absolute := false;
           m_plane := PlaneXY; m_fan := false; m_ext := None; m_bed := None |}.

(** _spindle, cnc/gmachine.py:64-66. *)
Definition spindle (s : N) : M N unit :=
  call EJoin ;;
  let! p <- lift (div (ofZ 100 * s) (ofZ (spindle_max_rpm cfg)));
  call (ESpindle p) ;;
  ret tt.

(** _fan, cnc/gmachine.py:68-70. *)
Definition fan (on : bool) : M N unit :=
  call (EFan on) ;;
  modify (fun m => set_fan m on).

(** try: measure() except (IOError, OSError): raise GMachineException(...),
    cnc/gmachine.py:84-87. *)
Definition measure_or_fail (h : heater_id) : M N unit :=
  fun m l => match call (EMeasure h) m l with
             | (m', l', Raise IOErr) =>
                 (m', l', Raise (GMachineException "can not measure temperature"))
             | (m', l', Raise e) => (m', l', Raise e)
             | (m', l', Ok _) => (m', l', Ok tt)
             end.

(** _heat, cnc/gmachine.py:72-97. *)
Definition heat (h : heater_id) (t : N) (wait : bool) : M N unit :=
  measure_or_fail h ;;
  let! m <- gets;
  (match heater_target m h with
   | Some _ => call (EHeaterOff h) ;; modify (fun m => set_heater m h None)
   | None => ret tt
   end) ;;
  if t =? zero then ret tt
  else
    (match h with
     | HeaterExtruder => if auto_fan cfg then fan true else ret tt
     | HeaterBed => ret tt
     end) ;;
    call (EHeaterOn h t) ;;
    modify (fun m => set_heater m h (Some t)) ;;
    if wait then call (EHeaterWait h) ;; ret tt else ret tt.

(** Coordinates(TABLE_SIZE_X_MM, ...), cnc/gmachine.py:102-103. *)
Definition table_corner : quad N :=
  coords (ofZ (table_x cfg)) (ofZ (table_y cfg)) (ofZ (table_z cfg)) zero.

(** __check_delta, cnc/gmachine.py:99-104. *)
Definition check_delta (delta : quad N) : M N unit :=
  let! m <- gets;
  let pos := cadd (m_position m) delta in
  fail_if (negb (is_in_aabb pos coords0 table_corner)) "out of effective area".

(** __check_velocity, cnc/gmachine.py:107-112. *)
Definition too_fast (v : quad N) : bool :=
  (maxv cfg qx <? qx v) || (maxv cfg qy <? qy v)
  || (maxv cfg qz <? qz v) || (maxv cfg qe <? qe v).
Definition check_velocity (v : quad N) : M N unit :=
  fail_if (too_fast v) "out of maximum speed".

(** 1.0 / STEPPER_PULSES_PER_MM_*, cnc/gmachine.py:115-118. *)
Definition grid : res (quad N) :=
  do! x <- div (ofZ 1) (ofZ (qx (ppm cfg)));
  do! y <- div (ofZ 1) (ofZ (qy (ppm cfg)));
  do! z <- div (ofZ 1) (ofZ (qz (ppm cfg)));
  do! e <- div (ofZ 1) (ofZ (qe (ppm cfg)));
  Ok (Quad x y z e).

(** delta.round(1.0 / ppm...), cnc/gmachine.py:115-118. *)
Definition round_to_grid (d : quad N) : res (quad N) :=
  do! b <- grid; Coordinates.round d b.

(** _move_linear, cnc/gmachine.py:114-128. *)
Definition move_linear (delta : quad N) (velocity : N) : M N unit :=
  let! delta <- lift (round_to_grid delta);
  if is_zero delta then ret tt
  else
    check_delta delta ;;
    let! g <- lift (make_linear cfg delta velocity);
    check_velocity (gen_max_velocity (GLinear g)) ;;
    call (EMove (GLinear g)) ;;
    modify (fun m => set_position m (cadd (m_position m) delta)).

(** __quarter, cnc/gmachine.py:130-139 (for NaN Python returns None, written 0). *)
Definition quarter (pa pb : N) : Z :=
  if (zero <=? pa) && (zero <=? pb) then 1%Z
  else if (pa <? zero) && (zero <=? pb) then 2%Z
  else if (pa <? zero) && (pb <? zero) then 3%Z
  else if (zero <=? pa) && (pb <? zero) then 4%Z
  else 0%Z.

(** End point on the circle, relative to the start, and its quarter,
    cnc/gmachine.py:146-159; quarter 5 marks a full circle. *)
Definition circle_end_point (r da db ra rb : N) : res (N * N * Z) :=
  if (da =? zero) && (db =? zero) then Ok (da, db, 5%Z)
  else
    do! ea <-
      (if da - ra =? zero then Ok zero
       else
         do! b <- div (db - rb) (da - ra);
         do! q <- div (r * r) (ofZ 1 + absn b);
         do! s <- sqrtn q;
         Ok (copysign s (da - ra)));
    do! s <- sqrtn (r * r - ea * ea);
    let eb := copysign s (db - rb) in
    let eq := quarter ea eb in
    Ok (ea + ra, eb + rb, eq).

(** One step of the loop over quarters: the next quarter, cnc/gmachine.py:164-171. *)
Definition next_quarter (rot : rotation) (q : Z) : Z :=
  let q := match rot with CW => (q - 1)%Z | CCW => (q + 1)%Z end in
  if (q <=? 0)%Z then 4%Z else if (5 <=? q)%Z then 1%Z else q.

(** Is the table left when the arc crosses from quarter pq to q?
    cnc/gmachine.py:174-182. *)
Definition crossing_out (pq q : Z) (r ra rb pa pb ma mb : N) : bool :=
  if ((pq =? 1)%Z && (q =? 4)%Z) || ((pq =? 4)%Z && (q =? 1)%Z) then
    ma <? pa + ra + r
  else if ((pq =? 1)%Z && (q =? 2)%Z) || ((pq =? 2)%Z && (q =? 1)%Z) then
    mb <? pb + rb + r
  else if ((pq =? 2)%Z && (q =? 3)%Z) || ((pq =? 3)%Z && (q =? 2)%Z) then
    pa + ra - r <? zero
  else if ((pq =? 3)%Z && (q =? 4)%Z) || ((pq =? 4)%Z && (q =? 3)%Z) then
    pb + rb - r <? zero
  else false.

(** The loop, cnc/gmachine.py:161-185; [true]: nothing raised. *)
Fixpoint quarters_ok (n : nat) (rot : rotation) (pq eq : Z)
         (r ra rb pa pb ma mb : N) : bool :=
  match n with
  | O => true
  | S n' =>
    let q := next_quarter rot pq in
    if (q =? eq)%Z then true
    else if crossing_out pq q r ra rb pa pb ma mb then false
    else quarters_ok n' rot q eq r ra rb pa pb ma mb
  end.

(** __adjust_circle, cnc/gmachine.py:141-186. *)
Definition adjust_circle (da db ra rb : N) (rot : rotation) (pa pb ma mb : N)
  : res (N * N) :=
  do! r <- sqrtn (ra * ra + rb * rb);
  if r =? zero then Raise (GMachineException "circle radius is zero")
  else
    let sq := quarter (- ra) (- rb) in
    do! (ea, eb, eq) <- circle_end_point r da db ra rb;
    if quarters_ok 4 rot sq eq r ra rb pa pb ma mb then Ok (ea, eb)
    else Raise (GMachineException "out of effective area").

(** Table size along the plane axes, cnc/gmachine.py:204-219. *)
Definition table_quad : quad Z := Quad (table_x cfg) (table_y cfg) (table_z cfg) 0%Z.

(** _move_circular, cnc/gmachine.py:188-245. *)
Definition move_circular (delta radius : quad N) (velocity : N) (rot : rotation) : M N unit :=
  let! delta <- lift (round_to_grid delta);
  let! radius <- lift (round_to_grid radius);
  check_delta delta ;;
  let! m <- gets;
  let pl := m_plane m in
  let! (ea, eb) <- lift (adjust_circle (axis_a pl delta) (axis_b pl delta)
                           (axis_a pl radius) (axis_b pl radius) rot
                           (axis_a pl (m_position m)) (axis_b pl (m_position m))
                           (ofZ (axis_a pl table_quad)) (ofZ (axis_b pl table_quad)));
  let! circle_end <- lift (round_to_grid (from_axes pl ea eb (axis_c pl delta) (qe delta)));
  let! g <- lift (make_circular cfg circle_end radius pl rot velocity);
  check_velocity (gen_max_velocity (GCircular g)) ;;
  let linear_delta := csub delta circle_end in
  let! lg <-
    (if is_zero linear_delta then ret None
     else
       let! lg <- lift (make_linear cfg linear_delta velocity);
       check_velocity (gen_max_velocity (GLinear lg)) ;;
       ret (Some lg));
  call (EMove (GCircular g)) ;;
  (match lg with
   | Some lg => call (EMove (GLinear lg)) ;; ret tt
   | None => ret tt
   end) ;;
  modify (fun m => set_position m (cadd (cadd (m_position m) circle_end) linear_delta)).

(** safe_zero, cnc/gmachine.py:247-265. *)
Definition safe_zero (x y z : bool) : M N unit :=
  let! m <- gets;
  let p := m_position m in
  (if x && negb y then
     move_linear (coords (- qx p) zero zero zero) (maxv cfg qx)
   else if y && negb x then
     move_linear (coords zero (- qy p) zero zero) (maxv cfg qx)
   else if x && y then
     move_linear (coords (- qx p) (- qy p) zero zero)
       (ofZ (Z.min (qx (max_velocity_min cfg)) (qy (max_velocity_min cfg))))
   else ret tt) ;;
  if z then
    let! m <- gets;
    move_linear (coords zero zero (- qz (m_position m)) zero) (maxv cfg qz)
  else ret tt.

(** One axis of the rapid velocity computation, cnc/gmachine.py:345-348. *)
Definition rapid1 (vl vmax : Z) (proportion : N) : res Z :=
  if zero <? proportion then
    do! q <- div (ofZ vmax) proportion;
    do! v <- trunc q;
    Ok (if (v <? vl)%Z then v else vl)
  else Ok vl.

(** Velocity of a rapid move, cnc/gmachine.py:338-360. *)
Definition rapid_velocity (delta : quad N) : res Z :=
  let mv := max_velocity_min cfg in
  let vl := quad_max mv in
  do! l <- Coordinates.length delta;
  if zero <? l then
    do! p <- cdiv (cabs delta) l;
    do! vl <- rapid1 vl (qx mv) (qx p);
    do! vl <- rapid1 vl (qy mv) (qy p);
    do! vl <- rapid1 vl (qz mv) (qz p);
    rapid1 vl (qe mv) (qe p)
  else Ok vl.

Definition text_eqb (a b : text) : bool :=
  if list_eq_dec ascii_dec a b then true else false.

(** Supported commands, cnc/gmachine.py:337-472. *)
Inductive cmd : Type :=
| G0 | G1 | G2 | G3 | G4 | G17 | G18 | G19 | G20 | G21 | G28 | G53 | G90 | G91 | G92
| M3 | M5 | M2 | M84 | MHeat (h : heater_id) (wait : bool)
| M105 | M106 | M107 | M111 | M114 | M82 | M83.

(** Spelling of the commands, in the order of the if-chain
    cnc/gmachine.py:337-470. *)
Definition command_table : list (text * cmd) := map (fun p => (tx (fst p), snd p)) [
  ("G0", G0); ("G1", G1); ("G2", G2); ("G3", G3); ("G4", G4);
  ("G17", G17); ("G18", G18); ("G19", G19); ("G20", G20); ("G21", G21);
  ("G28", G28); ("G53", G53); ("G90", G90); ("G91", G91); ("G92", G92);
  ("M3", M3); ("M5", M5); ("M2", M2); ("M30", M2); ("M84", M84);
  ("M104", MHeat HeaterExtruder false); ("M109", MHeat HeaterExtruder true);
  ("M140", MHeat HeaterBed false); ("M190", MHeat HeaterBed true);
  ("M105", M105); ("M106", M106); ("M107", M107); ("M111", M111); ("M114", M114);
  ("M82", M82); ("M83", M83)]%string.

Fixpoint assoc_text {A} (t : text) (l : list (text * A)) : option A :=
  match l with
  | [] => None
  | (k, v) :: r => if text_eqb t k then Some v else assoc_text t r
  end.

(** c, with G1 as default if there are coordinates, cnc/gmachine.py:317-319. *)
Definition effective_command (g : gcode) : option text :=
  match command g with
  | Some c => Some c
  | None => if has_coordinates g then Some (tx "G1") else None
  end.

(** Parameters computed before the command is selected, cnc/gmachine.py:320-332. *)
Definition command_delta (g : gcode) (m : machine N) : res (quad N) :=
  if m_absolute m then
    do! c <- get_coordinates g (csub (m_position m) (m_local m)) (m_convert m);
    Ok (csub (cadd c (m_local m)) (m_position m))
  else get_coordinates g coords0 (m_convert m).

(** M105: try/except around both measurements, cnc/gmachine.py:439-450. *)
Definition measure_opt (h : heater_id) : M N bool :=
  fun m l => match call (EMeasure h) m l with
             | (m', l', Raise IOErr) => (m', l', Ok false)
             | (m', l', Raise e) => (m', l', Raise e)
             | (m', l', Ok _) => (m', l', Ok true)
             end.

(** Limits on heater targets, cnc/gmachine.py:433-437. *)
Definition bad_temperature (h : heater_id) (t : N) : bool :=
  (match h with
   | HeaterExtruder => ofZ (extruder_max_t cfg) <? t
   | HeaterBed => ofZ (bed_max_t cfg) <? t
   end || (t <? ofZ (min_t cfg))) && negb (t =? zero).

(** Body of the if-chain, cnc/gmachine.py:337-474. *)
Definition exec_cmd (g : gcode) (c : cmd) (delta radius : quad N) (velocity : N) : M N unit :=
  match c with
  | G0 =>
    let! vl <- lift (rapid_velocity delta);
    move_linear delta (ofZ vl)
  | G1 => move_linear delta velocity
  | G2 => move_circular delta radius velocity CW
  | G3 => move_circular delta radius velocity CCW
  | G4 =>
    fail_if (negb (has g "P")) "P is not specified" ;;
    let! p <- lift (get (N:=N) g "P" zero (ofZ 1));
    fail_if (p <? zero) "bad delay" ;;
    call EJoin ;; call (ESleep p) ;; ret tt
  | G17 => modify (fun m => set_plane m PlaneXY)
  | G18 => modify (fun m => set_plane m PlaneZX)
  | G19 => modify (fun m => set_plane m PlaneYZ)
  | G20 => modify (fun m => set_convert m (ofdec false 254 1))
  | G21 => modify (fun m => set_convert m (ofZ 1))
  | G28 =>
    let '(x, y, z) := (has g "X", has g "Y", has g "Z") in
    let '(x, y, z) := if negb (x || y || z) then (true, true, true) else (x, y, z) in
    safe_zero x y z ;;
    call EJoin ;;
    let! ok <- call (ECalibrate x y z);
    fail_if (negb ok) "failed to calibrate"
  | G53 => modify (fun m => set_local m coords0)
  | G90 => modify (fun m => set_absolute m true)
  | G91 => modify (fun m => set_absolute m false)
  | G92 =>
    let! m <- gets;
    if has_coordinates g then
      let! c <- lift (get_coordinates g (csub (m_position m) (m_local m)) (m_convert m));
      modify (fun m => set_local m (csub (m_position m) c))
    else modify (fun m => set_local m (m_position m))
  | M3 =>
    let! m <- gets;
    let! s <- lift (get (N:=N) g "S" (m_spindle_rpm m) (ofZ 1));
    fail_if ((s <? zero) || (ofZ (spindle_max_rpm cfg) <? s)) "bad spindle speed" ;;
    spindle s ;;
    modify (fun m => set_rpm m s)
  | M5 => spindle zero
  | M2 => modify reset
  | M84 => call EDisable ;; ret tt
  | MHeat h wait =>
    fail_if (negb (has g "S")) "temperature is not specified" ;;
    let! t <- lift (get (N:=N) g "S" zero (ofZ 1));
    fail_if (bad_temperature h t) "bad temperature" ;;
    heat h t wait
  | M105 =>
    let! et <- measure_opt HeaterExtruder;
    let! bt <- measure_opt HeaterBed;
    fail_if (negb et && negb bt) "can not measure temperature"
  | M106 =>
    let! s <- lift (get (N:=N) g "S" (ofZ 1) (ofZ 1));
    fan (negb (s =? zero))
  | M107 => fan false
  | M111 => call EDebug ;; ret tt
  | M114 => call EJoin ;; call EJoin ;; ret tt
  | M82 =>
    let! m <- gets;
    fail_if (negb (m_absolute m)) "Not supported, use G90/G91"
  | M83 =>
    let! m <- gets;
    fail_if (m_absolute m) "Not supported, use G90/G91"
  end.

(** do_command, cnc/gmachine.py:307-478. *)
Definition do_command (gc : option gcode) : M N unit :=
  match gc with
  | None => ret tt
  | Some g =>
    let! m <- gets;
    let! delta <- lift (command_delta g m);
    let! velocity <- lift (get (N:=N) g "F" (m_velocity m) (ofZ 1));
    let! radius <- lift (get_radius g coords0 (m_convert m));
    fail_if (velocity <? ofZ (min_velocity_min cfg)) "feed speed too low" ;;
    (match effective_command g with
     | None => ret tt
     | Some c =>
       match assoc_text c command_table with
       | Some c => exec_cmd g c delta radius velocity
       | None => throw (GMachineException "unknown command")
       end
     end) ;;
    modify (fun m => set_velocity m velocity)
  end.

(** release, cnc/gmachine.py:41-48. *)
Definition release : M N unit :=
  spindle zero ;;
  let! m <- gets;
  (match m_ext m with Some _ => call (EHeaterOff HeaterExtruder) ;; ret tt | None => ret tt end) ;;
  (match m_bed m with Some _ => call (EHeaterOff HeaterBed) ;; ret tt | None => ret tt end) ;;
  fan false ;;
  call EDeinit ;; ret tt.

(** One command from an empty event list. *)
Definition run_command (gc : option gcode) (m : machine N) : machine N * list (event N) * res unit :=
  do_command gc m [].

End GMachine.

(** A history: machine states reachable from the initial state by any
    sequence of commands, each with its own hardware behaviour (commands and
    behaviours restricted to those described by [P]), together with all events
    so far. *)
Inductive history_where {N : PyNum} (P : hw_oracle N -> option gcode -> Prop) (cfg : config)
  : machine N -> list (event N) -> Prop :=
| h_init : history_where P cfg (init_machine cfg) []
| h_step m es hw gc m' es' r :
    history_where P cfg m es -> P hw gc ->
    run_command cfg hw gc m = (m', es', r) ->
    history_where P cfg m' (es ++ es').

(** All commands, hardware behaviour restricted by [P]. *)
Definition history_hw {N : PyNum} (P : hw_oracle N -> Prop) (cfg : config) :=
  history_where (fun hw _ => P hw) cfg.

(** All commands and any hardware behaviour at all. *)
Definition history {N : PyNum} (cfg : config) : machine N -> list (event N) -> Prop :=
  history_hw (fun _ => True) cfg.
