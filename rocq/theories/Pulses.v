(** Model of cnc/pulses.py, over an arbitrary number structure and
    configuration. Logging is not modelled. Directions (math.copysign(1, x) or
    +-1) are integers. *)
From Coq Require Import ZArith Bool List.
From Verif Require Import PyBase PyNum Config Coordinates.
Import ListNotations.

Section Pulses.
Context {N : PyNum}.
Variable cfg : config.
Local Open Scope num_scope.

(** SECONDS_IN_MINUTE, cnc/pulses.py:8. *)
Definition sixty : N := ofZ 60.
Definition one : N := ofZ 1.
Definition two : N := ofZ 2.

Definition maxv (sel : quad Z -> Z) : N := ofZ (sel (max_velocity_min cfg)).
Definition accel : N := ofZ (max_acceleration cfg).

(** One "if" of _adjust_velocity, cnc/pulses.py:60-62. *)
Definition adjust1 (k v vmax : N) : res N :=
  if vmax <? v * sixty then
    do! a <- div vmax v;
    do! b <- div a sixty;
    Ok (pmin k b)
  else Ok k.

(** PulseGenerator._adjust_velocity, cnc/pulses.py:51-74. *)
Definition adjust_velocity (v : quad N) : res (quad N) :=
  if negb (auto_velocity cfg) then Ok v
  else
    do! k <- adjust1 one (qx v) (maxv qx);
    do! k <- adjust1 k (qy v) (maxv qy);
    do! k <- adjust1 k (qz v) (maxv qz);
    do! k <- adjust1 k (qe v) (maxv qe);
    Ok (cmul v k).

(** Fields of a PulseGeneratorLinear, cnc/pulses.py:250-291. *)
Record linear_gen : Type := {
  l_acc : N;                 (* acceleration_time_s *)
  l_lin : N;                 (* linear_time_s *)
  l_vel : quad N;            (* max_velocity_mm_per_sec *)
  l_total : quad Z;          (* _total_pulses_* *)
  l_dir : quad Z;            (* _direction *)
  l_delta : quad N           (* _delta *)
}.

(** round(distance * STEPPER_PULSES_PER_MM), cnc/pulses.py:284-287. *)
Definition pulses_of (d : N) (p : Z) : res Z := rnd (d * ofZ p).

(** Directions of a displacement, cnc/pulses.py:288-291. *)
Definition dirs_of (d : quad N) : quad Z := qmap copysign1 d.

(** PulseGeneratorLinear.__init__, cnc/pulses.py:251-291. *)
Definition make_linear (delta : quad N) (velocity_per_min : N) : res linear_gen :=
  let distance := cabs delta in
  do! total <- Coordinates.length distance;
  do! v60 <- div velocity_per_min sixty;
  do! k <- div v60 total;
  do! vel <- adjust_velocity (cmul distance k);
  do! acc <- div (find_max vel) accel;
  do! (acc, lin, vel) <-
    (do! acc2 <- sqr acc;
     if total <? accel * acc2 then
       do! q <- div total accel;
       do! acc <- sqrtn q;
       do! vel <- cdiv distance acc;
       Ok (acc, zero, vel)
     else
       do! vl <- Coordinates.length vel;
       do! lin <- div (total - acc2 * accel) vl;
       Ok (acc, lin, vel));
  do! px <- pulses_of (qx distance) (qx (ppm cfg));
  do! py <- pulses_of (qy distance) (qy (ppm cfg));
  do! pz <- pulses_of (qz distance) (qz (ppm cfg));
  do! pe <- pulses_of (qe distance) (qe (ppm cfg));
  Ok {| l_acc := acc; l_lin := lin; l_vel := vel;
        l_total := Quad px py pz pe; l_dir := dirs_of delta; l_delta := delta |}.

(** PulseGeneratorLinear.__linear, cnc/pulses.py:300-308. *)
Definition linear_time (i p total : Z) (v : N) : res (option N) :=
  if (total =? 0)%Z || (total <=? i)%Z then Ok None
  else
    do! q <- div (ofZ i) (ofZ p);
    do! t <- div q v;
    Ok (Some t).

(** PulseGeneratorLinear._interpolation_function, cnc/pulses.py:310-322. *)
Definition linear_interp (g : linear_gen) (i : quad Z)
  : res (quad Z * quad (option N)) :=
  do! tx <- linear_time (qx i) (qx (ppm cfg)) (qx (l_total g)) (qx (l_vel g));
  do! ty <- linear_time (qy i) (qy (ppm cfg)) (qy (l_total g)) (qy (l_vel g));
  do! tz <- linear_time (qz i) (qz (ppm cfg)) (qz (l_total g)) (qz (l_vel g));
  do! te <- linear_time (qe i) (qe (ppm cfg)) (qe (l_total g)) (qe (l_vel g));
  Ok (l_dir g, Quad tx ty tz te).

(** Fields of a PulseGeneratorCircular, cnc/pulses.py:325-565. *)
Record circular_gen : Type := {
  c_plane : plane; c_rot : rotation;
  c_radius_a2 : N; c_radius_b2 : N;
  c_radius_a_pulses : Z; c_radius_b_pulses : Z;
  c_start_a_pulses : Z; c_start_b_pulses : Z;
  c_dir_a : Z; c_dir_b : Z;
  c_side_a : bool; c_side_b : bool;
  c_start_angle : N; c_delta_angle : N;
  c_iterations_a : Z; c_iterations_b : Z;
  c_iterations_3rd : N; c_velocity_3rd : N; c_third_dir : Z;
  c_iterations_e : N; c_e_velocity : N; c_e_dir : Z;
  c_r_div_v : N;
  c_acc : N; c_lin : N; c_vel : quad N;
  c_delta : quad N
}.

(** PulseGeneratorCircular.__angle, cnc/pulses.py:567-573. *)
Definition angle_of (a b : N) : res N :=
  do! h <- sqrtn (a * a + b * b);
  do! q <- div b h;
  do! an <- acosn q;
  Ok (if a <? zero then two * pin - an else an).

(** Components of a vector along the plane's first and second axis and along
    the third axis, cnc/pulses.py:353-375, 483-506. *)
Definition axis_a {A} (p : plane) (q : quad A) : A :=
  match p with PlaneXY => qx q | PlaneYZ => qy q | PlaneZX => qz q end.
Definition axis_b {A} (p : plane) (q : quad A) : A :=
  match p with PlaneXY => qy q | PlaneYZ => qz q | PlaneZX => qx q end.
Definition axis_c {A} (p : plane) (q : quad A) : A :=
  match p with PlaneXY => qz q | PlaneYZ => qx q | PlaneZX => qy q end.
(** The inverse: vector with the given plane, third and E components,
    cnc/pulses.py:519-533. *)
Definition from_axes {A} (p : plane) (a b c e : A) : quad A :=
  match p with
  | PlaneXY => Quad a b c e
  | PlaneYZ => Quad c a b e
  | PlaneZX => Quad b c a e
  end.

(** Directions at the start of an arc, cnc/pulses.py:398-415. *)
Definition start_dirs (rot : rotation) (start_angle half threehalf : N) : Z * Z :=
  match rot with
  | CW =>
      ((if (half <=? start_angle) && (start_angle <? threehalf) then (-1)%Z else 1%Z),
       (if pin <=? start_angle then 1%Z else (-1)%Z))
  | CCW =>
      ((if (start_angle <=? half) || (threehalf <? start_angle) then (-1)%Z else 1%Z),
       (if (zero <? start_angle) && (start_angle <=? pin) then 1%Z else (-1)%Z))
  end.

(** range(a, b) of Python ints. *)
Definition zrange (a b : Z) : list Z :=
  map (fun k => (a + Z.of_nat k)%Z) (seq 0 (Z.to_nat (b - a))).

(** Number of pulses of the two axes over the quarters of an arc,
    cnc/pulses.py:446-474; rra, rrb are round(radius*apm), round(radius*bpm). *)
Definition quarter_iterations (qs qe rra rrb rsa rsb rea reb : Z) : Z * Z :=
  fold_left
    (fun '(ia, ib) r =>
       let i := if (4 <=? r)%Z then (r - 4)%Z else r in
       if (r =? qs)%Z then
         (if (i =? 0)%Z || (i =? 2)%Z then (ia + (rra - rsa))%Z else (ia + rsa)%Z,
          if (i =? 1)%Z || (i =? 3)%Z then (ib + (rrb - rsb))%Z else (ib + rsb)%Z)
       else if (r =? qe)%Z then
         (if (i =? 0)%Z || (i =? 2)%Z then (ia + rea)%Z else (ia + (rra - rea))%Z,
          if (i =? 1)%Z || (i =? 3)%Z then (ib + reb)%Z else (ib + (rrb - reb))%Z)
       else (ia + rra, ib + rrb)%Z)
    (zrange qs (qe + 1)) (0, 0)%Z.

(** PulseGeneratorCircular.__init__, cnc/pulses.py:326-565. *)
Definition make_circular (delta radius : quad N) (pl : plane) (rot : rotation)
           (velocity_per_min : N) : res circular_gen :=
  do! velocity <- div velocity_per_min sixty;
  let sa := - axis_a pl radius in
  let sb := - axis_b pl radius in
  let ea := sa + axis_a pl delta in
  let eb := sb + axis_b pl delta in
  let apm := axis_a pl (ppm cfg) in
  let bpm := axis_b pl (ppm cfg) in
  let mpm := Z.min apm bpm in
  (* radius rounded to the axis grids, pulses.py:377-380 *)
  do! h <- sqrtn (sa * sa + sb * sb);
  do! rm <- rnd (h * ofZ mpm);
  do! r <- div (ofZ rm) (ofZ mpm);
  do! ra_ <- rnd (h * ofZ apm);
  do! radius_a <- div (ofZ ra_) (ofZ apm);
  do! rb_ <- rnd (h * ofZ bpm);
  do! radius_b <- div (ofZ rb_) (ofZ bpm);
  (* pulses.py:383-386 *)
  do! radius_a_pulses <- trunc (r * ofZ apm);
  do! radius_b_pulses <- trunc (r * ofZ bpm);
  do! start_a_pulses <- trunc (sa * ofZ apm);
  do! start_b_pulses <- trunc (sb * ofZ bpm);
  (* pulses.py:387-388 *)
  do! he <- sqrtn (ea * ea + eb * eb);
  do! rme <- rnd (he * ofZ mpm);
  do! re <- div (ofZ rme) (ofZ mpm);
  do! _ <- guard (re =? r) AssertionError;
  (* pulses.py:391-397 *)
  do! start_angle <- angle_of sa sb;
  do! end_angle <- angle_of ea eb;
  let twopi := two * pin in
  let da := end_angle - start_angle in
  let da := if (da <? zero) || ((da =? zero) && match rot with CW => true | CCW => false end)
            then da + twopi else da in
  let da := match rot with CCW => da - twopi | CW => da end in
  do! half <- div pin two;
  do! threehalf <- div (ofZ 3 * pin) two;
  let '(dir_a, dir_b) := start_dirs rot start_angle half threehalf in
  let side_a := (start_b_pulses <? 0)%Z || ((start_b_pulses =? 0)%Z && (dir_b <? 0)%Z) in
  let side_b := (start_a_pulses <? 0)%Z || ((start_a_pulses =? 0)%Z && (dir_a <? 0)%Z) in
  let delta_angle := absn da in
  (* pulses.py:431-479 *)
  let end_angle_m := if end_angle <=? start_angle then end_angle + twopi else end_angle in
  do! qs_ <- div start_angle half;
  do! quarter_start <- trunc qs_;
  do! qe_ <- div end_angle_m half;
  do! quarter_end <- trunc qe_;
  do! rra <- rnd (r * ofZ apm);
  do! rrb <- rnd (r * ofZ bpm);
  do! (iter_a, iter_b) <-
    (if (4 <=? quarter_end - quarter_start)%Z then Ok (4 * rra, 4 * rrb)%Z
     else
       do! (ia, ib) <-
         (if (quarter_start =? quarter_end)%Z then
            do! ia <- rnd (absn (sa - ea) * ofZ apm);
            do! ib <- rnd (absn (sb - eb) * ofZ bpm);
            Ok (ia, ib)
          else
            do! rsa <- rnd (absn sa * ofZ apm);
            do! rsb <- rnd (absn sb * ofZ bpm);
            do! rea <- rnd (absn ea * ofZ apm);
            do! reb <- rnd (absn eb * ofZ bpm);
            Ok (quarter_iterations quarter_start quarter_end rra rrb rsa rsb rea reb));
       match rot with
       | CCW => Ok (4 * rra - ia, 4 * rrb - ib)%Z
       | CW => Ok (ia, ib)
       end);
  (* pulses.py:481-516 *)
  let arc := delta_angle * r in
  let de := qe delta in
  let e2 := de * de in
  let dc := axis_c pl delta in
  let iterations_3rd := absn dc * ofZ (axis_c pl (ppm cfg)) in
  do! full_length <- sqrtn (arc * arc + dc * dc + e2);
  let flz := full_length =? zero in
  do! velocity_3rd <-
    (if flz then Ok velocity
     else do! q <- div (absn dc) full_length; Ok (q * velocity));
  let third_dir := copysign1 dc in
  let iterations_e := absn de * ofZ (qe (ppm cfg)) in
  do! circular_velocity <-
    (if flz then Ok velocity
     else do! q <- div arc full_length; Ok (q * velocity));
  do! e_velocity <-
    (if flz then Ok velocity
     else do! q <- div (absn de) full_length; Ok (q * velocity));
  (* pulses.py:517-538 *)
  do! vel <- adjust_velocity
    (let v := from_axes pl circular_velocity circular_velocity velocity_3rd e_velocity in
     coords (qx v) (qy v) (qz v) (qe v));
  let circular_velocity := pmin (axis_a pl vel) (axis_b pl vel) in
  let velocity_3rd := axis_c pl vel in
  let e_velocity := qe vel in
  (* pulses.py:539-565 *)
  do! r_div_v <- div r circular_velocity;
  let e_dir := copysign1 de in
  do! acc <- div (find_max vel) accel;
  do! (acc, lin, vel) <-
    (if flz then Ok (acc, zero, coords0)
     else
     do! acc2 <- sqr acc;
     if full_length <? accel * acc2 then
       do! q <- div full_length accel;
       do! acc <- sqrtn q;
       do! v <- div full_length acc;
       let up w := if zero <? w then v else w in
       Ok (acc, zero, qmap up vel)
     else
       do! cv2 <- sqr circular_velocity;
       do! tv2 <- sqr velocity_3rd;
       do! ev2 <- sqr e_velocity;
       do! s <- sqrtn (cv2 + tv2 + ev2);
       do! lin <- div (full_length - acc2 * accel) s;
       Ok (acc, lin, vel));
  Ok {| c_plane := pl; c_rot := rot;
        c_radius_a2 := radius_a * radius_a; c_radius_b2 := radius_b * radius_b;
        c_radius_a_pulses := radius_a_pulses; c_radius_b_pulses := radius_b_pulses;
        c_start_a_pulses := start_a_pulses; c_start_b_pulses := start_b_pulses;
        c_dir_a := dir_a; c_dir_b := dir_b; c_side_a := side_a; c_side_b := side_b;
        c_start_angle := start_angle; c_delta_angle := delta_angle;
        c_iterations_a := iter_a; c_iterations_b := iter_b;
        c_iterations_3rd := iterations_3rd; c_velocity_3rd := velocity_3rd;
        c_third_dir := third_dir;
        c_iterations_e := iterations_e; c_e_velocity := e_velocity; c_e_dir := e_dir;
        c_r_div_v := r_div_v;
        c_acc := acc; c_lin := lin; c_vel := vel; c_delta := delta |}.

(** PulseGeneratorCircular.__circular_helper, cnc/pulses.py:582-597. *)
Definition circular_helper (start i radius : Z) (side : bool) (direction : Z)
  : Z * Z * bool :=
  let np := (start + direction * i)%Z in
  let '(np, direction, side) :=
    if (radius <? np)%Z then (np - 2 * (np - radius), - direction, negb side)%Z
    else (np, direction, side) in
  let '(np, direction, side) :=
    if (np <? - radius)%Z then (np - 2 * (np + radius), - direction, negb side)%Z
    else (np, direction, side) in
  if (radius <? np)%Z then (np - 2 * (np - radius), - direction, negb side)%Z
  else (np, direction, side).

(** __circular_find_time, cnc/pulses.py:599-607. *)
Definition circular_find_time (g : circular_gen) (a b : N) : res N :=
  do! an <- angle_of a b;
  let d := match c_rot g with
           | CW => an - c_start_angle g
           | CCW => c_start_angle g - an end in
  let d := if d <=? zero then d + two * pin else d in
  Ok (c_r_div_v g * d).

(** __circular_a, cnc/pulses.py:609-623. *)
Definition circular_a (g : circular_gen) (i p : Z) : res (Z * option N) :=
  if (c_iterations_a g <=? i)%Z then Ok (c_dir_a g, None)
  else
    let '(ap, direction, side) :=
      circular_helper (c_start_a_pulses g) (i + 1) (c_radius_a_pulses g)
                      (c_side_a g) (c_dir_a g) in
    do! a <- div (ofZ ap) (ofZ p);
    if (i + 1 =? c_iterations_a g)%Z
    then Ok (direction, Some (c_r_div_v g * c_delta_angle g))
    else
      do! b <- sqrtn (c_radius_a2 g - a * a);
      let b := if side then - b else b in
      do! t <- circular_find_time g a b;
      Ok (direction, Some t).

(** __circular_b, cnc/pulses.py:625-639. *)
Definition circular_b (g : circular_gen) (i p : Z) : res (Z * option N) :=
  if (c_iterations_b g <=? i)%Z then Ok (c_dir_b g, None)
  else
    let '(bp, direction, side) :=
      circular_helper (c_start_b_pulses g) (i + 1) (c_radius_b_pulses g)
                      (c_side_b g) (c_dir_b g) in
    do! b <- div (ofZ bp) (ofZ p);
    if (i + 1 =? c_iterations_b g)%Z
    then Ok (direction, Some (c_r_div_v g * c_delta_angle g))
    else
      do! a <- sqrtn (c_radius_b2 g - b * b);
      let a := if side then - a else a in
      do! t <- circular_find_time g a b;
      Ok (direction, Some t).

(** PulseGeneratorCircular.__linear, cnc/pulses.py:641-645. *)
Definition circular_linear (i : Z) (total : N) (p : Z) (v : N) : res (option N) :=
  if total <=? ofZ i then Ok None
  else
    do! q <- div (ofZ i) (ofZ p);
    do! t <- div q v;
    Ok (Some t).

(** PulseGeneratorCircular._interpolation_function, cnc/pulses.py:647-671. *)
Definition circular_interp (g : circular_gen) (i : quad Z)
  : res (quad Z * quad (option N)) :=
  let pl := c_plane g in
  do! (da, ta) <- circular_a g (axis_a pl i) (axis_a pl (ppm cfg));
  do! (db, tb) <- circular_b g (axis_b pl i) (axis_b pl (ppm cfg));
  do! tc <- circular_linear (axis_c pl i) (c_iterations_3rd g)
                            (axis_c pl (ppm cfg)) (c_velocity_3rd g);
  do! te <- circular_linear (qe i) (c_iterations_e g) (qe (ppm cfg)) (c_e_velocity g);
  Ok (from_axes pl da db (c_third_dir g) (c_e_dir g), from_axes pl ta tb tc te).

(** A pulse generator object of either class. *)
Inductive gen : Type :=
| GLinear (g : linear_gen)
| GCircular (g : circular_gen).

(** _get_movement_parameters, cnc/pulses.py:293-298 and 575-580. *)
Definition gen_acc (g : gen) : N := match g with GLinear l => l_acc l | GCircular c => c_acc c end.
Definition gen_lin (g : gen) : N := match g with GLinear l => l_lin l | GCircular c => c_lin c end.
Definition gen_vel (g : gen) : quad N := match g with GLinear l => l_vel l | GCircular c => c_vel c end.
(** delta(), cnc/pulses.py:236-240. *)
Definition gen_delta (g : gen) : quad N := match g with GLinear l => l_delta l | GCircular c => c_delta c end.
Definition gen_interp (g : gen) : quad Z -> res (quad Z * quad (option N)) :=
  match g with GLinear l => linear_interp l | GCircular c => circular_interp c end.

(** total_time_s, cnc/pulses.py:229-234. *)
Definition total_time_s (g : gen) : N := gen_acc g * two + gen_lin g.
(** max_velocity, cnc/pulses.py:242-247. *)
Definition gen_max_velocity (g : gen) : quad N := cmul (gen_vel g) sixty.

(** Iterator state: _iteration_*, _iteration_direction and _2Vmax_per_a,
    cnc/pulses.py:41-48. *)
Record iter_state : Type := {
  it_i : quad Z;
  it_dir : option (quad Z);
  it_c : N
}.

(** __iter__, cnc/pulses.py:108-123. *)
Definition iter_start (g : gen) : res iter_state :=
  do! c <- div (two * find_max (gen_vel g)) accel;
  Ok {| it_i := Quad 0 0 0 0 ; it_dir := None; it_c := c |}%Z.

(** _to_accelerated_time, cnc/pulses.py:125-155. *)
Definition to_accelerated_time (acc lin c pt : N) : res N :=
  do! t <- sqrtn (pt * c);
  if t <=? acc then Ok t
  else
    do! acc2 <- sqr acc;
    do! q <- div acc2 c;
    let t := acc + pt - q in
    let bt := t - acc - lin in
    if bt <=? zero then Ok t
    else
      let d := acc2 - c * bt in
      do! d <- (if zero <? d then sqrtn d else Ok zero);
      Ok (two * acc + lin - d).

(** What next() returns: a direction message or a pulse message,
    cnc/pulses.py:161-174. *)
Inductive item : Type :=
| Dir (d : quad Z)
| Pulse (t : quad (option N)).

Definition quadZ_eqb (a b : quad Z) : bool :=
  (qx a =? qx b)%Z && (qy a =? qy b)%Z && (qz a =? qz b)%Z && (qe a =? qe b)%Z.

(** Minimum of the pending times, cnc/pulses.py:196-199. *)
Definition min_step (m i : option N) : option N :=
  match i with
  | None => m
  | Some t => match m with
              | None => Some t
              | Some m' => if t <? m' then Some t else m
              end
  end.
Definition min_time (t : quad (option N)) : option N :=
  min_step (min_step (min_step (min_step None (qx t)) (qy t)) (qz t)) (qe t).

(** One axis of cnc/pulses.py:202-225: pulse now or later. *)
Definition fire (m am : N) (t : option N) (i : Z) : option N * Z :=
  match t with
  | None => (None, i)
  | Some t => if m <? t then (None, i) else (Some am, i + 1)%Z
  end.

(** Sign change for inverted axes, cnc/pulses.py:182-189. *)
Definition invert (b : bool) (d : Z) : Z := if b then (- d)%Z else d.
Definition invert_dirs (d : quad Z) : quad Z :=
  Quad (invert (qx (inverted cfg)) (qx d)) (invert (qy (inverted cfg)) (qy d))
       (invert (qz (inverted cfg)) (qz d)) (invert (qe (inverted cfg)) (qe d)).

(** next, cnc/pulses.py:161-227. [Ok None] is StopIteration. *)
Definition next (g : gen) (s : iter_state) : res (option (item * iter_state)) :=
  do! (direction, t) <- gen_interp g (it_i s);
  if match it_dir s with None => true | Some d => negb (quadZ_eqb direction d) end
  then Ok (Some (Dir (invert_dirs direction),
                 {| it_i := it_i s; it_dir := Some direction; it_c := it_c s |}))
  else
    match min_time t with
    | None => Ok None
    | Some m =>
      do! am <- to_accelerated_time (gen_acc g) (gen_lin g) (it_c s) m;
      let '(tx, ix) := fire m am (qx t) (qx (it_i s)) in
      let '(ty, iy) := fire m am (qy t) (qy (it_i s)) in
      let '(tz, iz) := fire m am (qz t) (qz (it_i s)) in
      let '(te, ie) := fire m am (qe t) (qe (it_i s)) in
      Ok (Some (Pulse (Quad tx ty tz te),
                {| it_i := Quad ix iy iz ie; it_dir := it_dir s; it_c := it_c s |}))
    end.

(** Outcome of "for item in generator" (with a bound on the number of next()
    calls, so that the function is total; reaching the bound is reported). *)
Inductive outcome : Type :=
| Finished (items : list item)
| Failed (items : list item) (e : exn)
| OutOfFuel.

Fixpoint iterate (fuel : nat) (g : gen) (s : iter_state) : outcome :=
  match fuel with
  | O => OutOfFuel
  | S f =>
    match next g s with
    | Raise e => Failed [] e
    | Ok None => Finished []
    | Ok (Some (it, s')) =>
      match iterate f g s' with
      | Finished l => Finished (it :: l)
      | Failed l e => Failed (it :: l) e
      | OutOfFuel => OutOfFuel
      end
    end
  end.

Definition run_gen (fuel : nat) (g : gen) : outcome :=
  match iter_start g with
  | Ok s => iterate fuel g s
  | Raise e => Failed [] e
  end.

End Pulses.
Arguments linear_gen : clear implicits.
Arguments circular_gen : clear implicits.
Arguments gen : clear implicits.
Arguments item : clear implicits.
Arguments iter_state : clear implicits.
Arguments outcome : clear implicits.
