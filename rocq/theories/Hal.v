(** Model of cnc/hal_raspberry/hal.py. Log messages are left out. *)
From Coq Require Import ZArith Bool List.
From Verif Require Import PyBase PyNum Config Coordinates Pulses Dma Gpio DmaGpio Pwm.
From Coq Require Import List.
Import ListNotations.
Local Open Scope Z_scope.

(** Pins and other settings of the hardware layer, cnc/config.py:11,29-31,39,56-85. *)
Record hal_config : Type := {
  enable_pin : Z;             (* config.py:56 *)
  step_pin : quad Z;          (* config.py:57-60 *)
  dir_pin : quad Z;           (* config.py:62-65 *)
  spindle_pin : Z;            (* config.py:67 *)
  fan_pin : Z;                (* config.py:68 *)
  extruder_pin : Z;           (* config.py:69 *)
  bed_pin : Z;                (* config.py:70 *)
  stop_pin_x : Z; stop_pin_y : Z; stop_pin_z : Z;                   (* config.py:74-76 *)
  stop_inv_x : bool; stop_inv_y : bool; stop_inv_z : bool;          (* config.py:29-31 *)
  pulse_us : Z;               (* config.py:39 *)
  instant_run : bool;         (* config.py:85 *)
  calibration_velocity : Z    (* config.py:11 *)
}.
(** As shipped. *)
Definition default_hal : hal_config := {|
  enable_pin := 26;
  step_pin := Quad 21 16 12 8;
  dir_pin := Quad 20 19 13 7;
  spindle_pin := 4; fan_pin := 27; extruder_pin := 18; bed_pin := 22;
  stop_pin_x := 23; stop_pin_y := 10; stop_pin_z := 25;
  stop_inv_x := true; stop_inv_y := true; stop_inv_z := false;
  pulse_us := 2; instant_run := true; calibration_velocity := 300 |}.

Section Hal.
Variable h : hal_config.

(** init, cnc/hal_raspberry/hal.py:21-44. watchdog.start() (line 45) is in Watchdog.v. *)
Definition init_pins : list (Z * pin_mode) :=
  [(qx (step_pin h), ModeOutput); (qy (step_pin h), ModeOutput); (qz (step_pin h), ModeOutput); (qe (step_pin h), ModeOutput);
   (qx (dir_pin h), ModeOutput); (qy (dir_pin h), ModeOutput); (qz (dir_pin h), ModeOutput); (qe (dir_pin h), ModeOutput);
   (stop_pin_x h, ModeInputPullUp); (stop_pin_y h, ModeInputPullUp); (stop_pin_z h, ModeInputPullUp);
   (spindle_pin h, ModeOutput); (fan_pin h, ModeOutput); (extruder_pin h, ModeOutput); (bed_pin h, ModeOutput);
   (enable_pin h, ModeOutput)].
Definition hal_init (lev : Z -> Z) (g : gpio) : gpio :=
  let g := fold_left (fun g '(p, m) => gpio_init lev g p m) init_pins g in
  fold_left gpio_clear [spindle_pin h; fan_pin h; extruder_pin h; bed_pin h; enable_pin h] g.

(** fan_control, cnc/hal_raspberry/hal.py:59-69. *)
Definition fan_control (g : gpio) (on : bool) : gpio := if on then gpio_set g (fan_pin h) else gpio_clear g (fan_pin h).
(** disable_steppers, cnc/hal_raspberry/hal.py:106-110. *)
Definition disable_steppers (g : gpio) : gpio := gpio_set g (enable_pin h).

(* ------------------------------------------------------------------ *)
(** ** move, cnc/hal_raspberry/hal.py:212-311 *)

(** 1 << pin. *)
Definition bit (p : Z) : Z := Z.shiftl 1 p.

(** "if tx > 0 ... elif tx < 0", lines 247-262: what one axis adds to pins_to_set and
    pins_to_clear. *)
Definition dir_bits (sc : Z * Z) (t pin : Z) : Z * Z :=
  if t >? 0 then (fst sc, Z.lor (snd sc) (bit pin))
  else if t <? 0 then (Z.lor (fst sc) (bit pin), snd sc) else sc.
(** Lines 244-263. *)
Definition dir_req (d : quad Z) : req :=
  let sc := dir_bits (0, 0) (qx d) (qx (dir_pin h)) in
  let sc := dir_bits sc (qy d) (qy (dir_pin h)) in
  let sc := dir_bits sc (qz d) (qz (dir_pin h)) in
  let sc := dir_bits sc (qe d) (qe (dir_pin h)) in
  SetClear (fst sc) (snd sc).

Section Arith.
Context {N : PyNum}.

(** "if tx is not None: pins |= ...", lines 271-278. *)
Definition step_bits (v : Z) (t : option N) (pin : Z) : Z :=
  match t with Some _ => Z.lor v (bit pin) | None => v end.
Definition step_mask (t : quad (option N)) : Z :=
  step_bits (step_bits (step_bits (step_bits 0 (qx t) (qx (step_pin h))) (qy t) (qy (step_pin h)))
                       (qz t) (qz (step_pin h))) (qe t) (qe (step_pin h)).

(** Body of the loop without waiting and instant run, lines 244-285: calls of dma and new
    values of (k, prev). The minimum is the one of cnc/pulses.py; None * int raises
    TypeError. *)
Definition plan_item (k prev : Z) (it : item N) : res (list req * (Z * Z)) :=
  match it with
  | Pulses.Dir d => Ok ([dir_req d], (k, prev))
  | Pulses.Pulse t =>
    match min_time t with
    | None => Raise TypeError
    | Some m =>
      do! k <- rnd (mul m (ofZ 1000000));
      Ok ((if k - prev >? 0 then [Delay (k - prev)] else []) ++ [DmaGpio.Pulse (step_mask t) (pulse_us h)],
          (k, k + pulse_us h))
    end
  end.

(** Where move is. *)
Inductive mpc : Type :=
| MNext                              (* line 235 *)
| MTest (it : item N)                (* 236-237 *)
| MPoll (it : item N)                (* 238-243 *)
| MAdd (l : list req) (pulse : bool) (* 263, 280-281: calls of dma that are left *)
| MInst                              (* 287-298 *)
| MWait                              (* 300-304 *)
| MFinal                             (* 305 or 308 *)
| MDone
| MFail (e : exn).

(** Variables of move; the generator is the list of items it will yield and the exception
    it raises then, if any. *)
Record mover : Type := {
  m_pc : mpc;
  m_items : list (item N);
  m_end : option exn;
  m_cur : option Z;       (* current_cb *)
  m_k : Z; m_prev : Z; m_k0 : Z;
  m_ran : bool;           (* is_ran *)
  m_instant : bool        (* instant *)
}.
Definition goto (m : mover) (p : mpc) : mover :=
  {| m_pc := p; m_items := m_items m; m_end := m_end m; m_cur := m_cur m; m_k := m_k m; m_prev := m_prev m;
     m_k0 := m_k0 m; m_ran := m_ran m; m_instant := m_instant m |}.

(** The thread in move, the DMA buffer and channel 5, and (for the statements) what the
    engine did since it was started by this move, or since the beginning of the move. *)
Record machine : Type := {
  x_move : mover;
  x_dma : dma;
  x_eng : engine;
  x_done : list action
}.

(** Start of move, lines 222-234; gpio.clear of the enable pin is left out (see C56). *)
Definition move_start (l : list (item N)) (e : option exn) : mover :=
  {| m_pc := MNext; m_items := l; m_end := e; m_cur := Some 0; m_k := 0; m_prev := 0; m_k0 := 0;
     m_ran := false; m_instant := instant_run h |}.

Variable base size : Z.

(** dma.current_control_block, cnc/hal_raspberry/rpgpio_private.py:245-253. *)
Definition current_cb (e : engine) : option Z := if e_cb e =? 0 then None else Some (e_cb e - base).

(** Lines 244-285 once the loop of lines 236-243 is left. *)
Definition enter (m : mover) (it : item N) : mover :=
  match plan_item (m_k m) (m_prev m) it with
  | Raise e => goto m (MFail e)
  | Ok (l, (k, prev)) =>
    {| m_pc := MAdd l (match it with Pulses.Pulse _ => true | _ => false end);
       m_items := m_items m; m_end := m_end m; m_cur := m_cur m; m_k := k; m_prev := prev;
       m_k0 := m_k0 m; m_ran := m_ran m; m_instant := m_instant m |}
  end.

(** One step of the thread. [slow]: "nt > ng", the time check of lines 289-291; st and
    time.time() only matter there. *)
Definition mstep (slow : bool) (x : machine) : machine :=
  let m := x_move x in
  let to p := {| x_move := goto m p; x_dma := x_dma x; x_eng := x_eng x; x_done := x_done x |} in
  let set m := {| x_move := m; x_dma := x_dma x; x_eng := x_eng x; x_done := x_done x |} in
  match m_pc m with
  | MNext =>
    match m_items m with
    | it :: r => set {| m_pc := MTest it; m_items := r; m_end := m_end m; m_cur := m_cur m; m_k := m_k m;
                        m_prev := m_prev m; m_k0 := m_k0 m; m_ran := m_ran m; m_instant := m_instant m |}
    | [] => match m_end m with
            | Some e => to (MFail e)
            | None => to (if m_ran m then MFinal else MWait)
            end
    end
  | MTest it =>
    match m_cur m with
    | Some c => if d_addr (x_dma x) + 4 * 32 >=? c then to (MPoll it) else set (enter m it)
    | None => set (enter m it)
    end
  | MPoll it =>
    let c := current_cb (x_eng x) in
    let m' := {| m_pc := MTest it; m_items := m_items m; m_end := m_end m; m_cur := c; m_k := m_k m; m_prev := m_prev m;
                 m_k0 := match c with None => m_k m | Some _ => m_k0 m end;
                 m_ran := m_ran m; m_instant := m_instant m |} in
    set (match c with Some _ => m' | None => enter m' it end)
  | MAdd (r :: l) p =>
    match add base size (x_dma x) r with
    | (d, Ok _) => {| x_move := goto m (MAdd l p); x_dma := d; x_eng := x_eng x; x_done := x_done x |}
    | (d, Raise e) => {| x_move := goto m (MFail e); x_dma := d; x_eng := x_eng x; x_done := x_done x |}
    end
  | MAdd [] p => to (if p then MInst else MNext)
  | MInst =>
    match m_cur m with
    | None =>
      if negb (m_ran m) && m_instant m && (m_k m - m_k0 m >? 100000) then
        if slow then
          set {| m_pc := MNext; m_items := m_items m; m_end := m_end m; m_cur := m_cur m; m_k := m_k m;
                 m_prev := m_prev m; m_k0 := m_k0 m; m_ran := m_ran m; m_instant := false |}
        else
          {| x_move := {| m_pc := MNext; m_items := m_items m; m_end := m_end m; m_cur := m_cur m; m_k := m_k m;
                          m_prev := m_prev m; m_k0 := m_k0 m; m_ran := true; m_instant := m_instant m |};
             x_dma := x_dma x; x_eng := run_dma (d_mem (x_dma x)) base; x_done := [] |}
      else to MNext
    | Some _ => to MNext
    end
  | MWait => if e_active (x_eng x) then x else to MFinal
  | MFinal =>
    if m_ran m then
      match finalize_stream base size (x_dma x) with
      | (d, Ok _) => {| x_move := goto m MDone; x_dma := d; x_eng := x_eng x; x_done := x_done x |}
      | (d, Raise e) => {| x_move := goto m (MFail e); x_dma := d; x_eng := x_eng x; x_done := x_done x |}
      end
    else
      match run base size (x_dma x) false with
      | (d, Ok _) => {| x_move := goto m MDone; x_dma := d; x_eng := run_dma (d_mem d) base; x_done := [] |}
      | (d, Raise e) => {| x_move := goto m (MFail e); x_dma := d; x_eng := x_eng x; x_done := x_done x |}
      end
  | MDone => x
  | MFail _ => x
  end.

(** The DMA engine completes a control block. *)
Definition dstep (extra : bool) (x : machine) : machine :=
  {| x_move := x_move x; x_dma := x_dma x;
     x_eng := advance (d_mem (x_dma x)) (x_eng x);
     x_done := x_done x ++ performed extra (d_mem (x_dma x)) (x_eng x) |}.

End Arith.
(* ------------------------------------------------------------------ *)
(** ** calibrate, cnc/hal_raspberry/hal.py:113-209 *)

(** What the program learns in one round of the loop of lines 157-192: the comparison of
    the clock (line 157), up to three readings of each end stop (line 163; a reading that
    is skipped does not matter) and dma.is_active() (line 191). *)
Record look : Type := {
  k_go : bool;
  k_x : Z * Z * Z; k_y : Z * Z * Z; k_z : Z * Z * Z;
  k_active : bool
}.
(** What happens: direction pins, a round begins, dma.stop(), a program of pulses on these
    step pins is prepared, dma.run(). *)
Inductive cal_event : Type :=
| CDir (pin : Z) (high : bool)
| CLook (k : look)
| CStop
| CProgram (pins : Z) (l : list req)
| CRun.

(** Lines 128-139. *)
Definition cal_dir (inv : bool) (pin : Z) : cal_event := CDir pin (negb inv).

(** Lines 159-169 for one axis: three readings, "and" skips the rest. *)
Definition cal_check (pins mask : Z) (r : Z * Z * Z) (inv : bool) : bool :=
  let '(a, b, c) := r in
  let e := negb (Z.land mask pins =? 0) in
  let e := e && Bool.eqb (a =? 1) inv in
  let e := e && Bool.eqb (b =? 1) inv in
  e && Bool.eqb (c =? 1) inv.
(** Lines 170-175 for one axis. *)
Definition cal_drop (e : bool) (mask pins : Z) : Z := if e then Z.land pins (Z.lnot mask) else pins.
(** Lines 159-175. *)
Definition cal_pins (ix iy iz : bool) (k : look) (pins : Z) : Z :=
  let mx := bit (qx (step_pin h)) in
  let my := bit (qy (step_pin h)) in
  let mz := bit (qz (step_pin h)) in
  let ex := cal_check pins mx (k_x k) ix in
  let ey := cal_check pins my (k_y k) iy in
  let ez := cal_check pins mz (k_z k) iz in
  cal_drop ez mz (cal_drop ey my (cal_drop ex mx pins)).

(** Lines 185-189. The number of rounds of "while generate > 0" is given in closed form,
    for a positive sum of delay and pulse length. *)
Definition cal_program (pins delay : Z) : list req :=
  let d := delay + pulse_us h in
  concat (repeat [DmaGpio.Pulse pins (pulse_us h); Delay delay] (Z.to_nat ((1000000 + d - 1) / d))).

(** Lines 151-155; end_time only matters in line 157. *)
Definition cal_delay (N : PyNum) (cfg : config) : res Z :=
  do! avg <- div (ofZ (qx (ppm cfg) + qy (ppm cfg) + qz (ppm cfg))) (ofZ (p:=N) 3);
  do! v <- div (ofZ (calibration_velocity h)) (ofZ 60);
  do! q <- div (ofZ 1000000) (mul v avg);
  trunc q.

Section Calibrate.
Variable base size : Z.

(** Lines 191-192. *)
Definition cal_run (k : look) (d : dma) : list cal_event * dma * res unit :=
  if k_active k then ([], d, Ok tt)
  else match run base size d false with
       | (d, Ok _) => ([CRun], d, Ok tt)
       | (d, Raise e) => ([], d, Raise e)
       end.

(** Lines 176-192: events, buffer, and None (go on) or the result. *)
Definition cal_round (delay : Z) (k : look) (pins last : Z) (d : dma) : list cal_event * dma * option (res bool) :=
  if pins =? last then
    match cal_run k d with
    | (ev, d, Ok _) => (ev, d, None)
    | (ev, d, Raise e) => (ev, d, Some (Raise e))
    end
  else if pins =? 0 then ([CStop], d, Some (Ok true))
  else
    let l := cal_program pins delay in
    match adds base size (clear d) l with
    | (d, Raise e) => ([CStop], d, Some (Raise e))
    | (d, Ok _) =>
      match finalize_stream base size d with
      | (d, Raise e) => ([CStop], d, Some (Raise e))
      | (d, Ok _) =>
        match cal_run k d with
        | (ev, d, Ok _) => (CStop :: CProgram pins l :: ev, d, None)
        | (ev, d, Raise e) => (CStop :: CProgram pins l :: ev, d, Some (Raise e))
        end
      end
    end.

(** Lines 157-193 with the rounds given by a list; no result (None) when it is used up.
    Returns events, buffer, result and the rounds that are left. *)
Fixpoint cal_loop (ix iy iz : bool) (delay : Z) (looks : list look) (pins last : Z) (d : dma)
  : list cal_event * dma * option (res bool) * list look :=
  match looks with
  | [] => ([], d, None, [])
  | k :: r =>
    if negb (k_go k) then ([], d, Some (Ok false), r)
    else
      let pins := cal_pins ix iy iz k pins in
      match cal_round delay k pins last d with
      | (ev, d, Some v) => (CLook k :: ev, d, Some v, r)
      | (ev, d, None) =>
        let '(ev', d, v, r) := cal_loop ix iy iz delay r pins pins d in
        (CLook k :: ev ++ ev', d, v, r)
      end
  end.

(** Lines 140-150. *)
Definition cal_start (x y z : bool) : Z :=
  let p := if x then bit (qx (step_pin h)) else 0 in
  let p := if y then Z.lor p (bit (qy (step_pin h))) else p in
  if z then Z.lor p (bit (qz (step_pin h))) else p.

(** __calibrate_private, lines 113-193. *)
Definition cal_phase (N : PyNum) (cfg : config) (x y z invert : bool) (looks : list look) (d : dma)
  : list cal_event * dma * option (res bool) * list look :=
  let flip b := if invert then negb b else b in
  let dirs := [cal_dir (flip (qx (inverted cfg))) (qx (dir_pin h));
               cal_dir (flip (qy (inverted cfg))) (qy (dir_pin h));
               cal_dir (flip (qz (inverted cfg))) (qz (dir_pin h))] in
  let pins := cal_start x y z in
  match cal_delay N cfg with
  | Raise e => (dirs, d, Some (Raise e), looks)
  | Ok delay =>
    let '(ev, d, v, r) := cal_loop (flip (stop_inv_x h)) (flip (stop_inv_y h)) (flip (stop_inv_z h)) delay looks pins (Z.lnot pins) d in
    (dirs ++ ev, d, v, r)
  end.

(** calibrate, lines 196-209. Result, events of the first and of the second phase (if it
    was begun). *)
Definition calibrate (N : PyNum) (cfg : config) (x y z : bool) (looks : list look) (d : dma)
  : option (res bool) * list cal_event * option (list cal_event) :=
  let '(ev1, d, v1, r) := cal_phase N cfg x y z true looks d in
  match v1 with
  | Some (Ok true) => let '(ev2, _, v2, _) := cal_phase N cfg x y z false r d in (v2, ev1, Some ev2)
  | _ => (v1, ev1, None)
  end.
End Calibrate.

(* ------------------------------------------------------------------ *)
(** ** deinit, cnc/hal_raspberry/hal.py:323-333 *)

(** A call of a method of DMAPWM from its first step on ([n] bounds the steps). *)
Fixpoint finish (base : Z) (n : nat) (s : shared) (t : pc) : shared :=
  match n with
  | O => s
  | S n => match t with Done => s | _ => let '(s, t) := tstep base s t in finish base n s t end
  end.
(** len(self._clear_pins). *)
Definition entries (d : Z -> option Z) : nat :=
  length (filter (fun p => match d p with Some _ => true | None => false end) all_pins).

(** remove_all, cnc/hal_raspberry/rpgpio.py:353-360, with Python 3: keys() is a view of the
    dictionary, and the iterator raises RuntimeError when the size is not the one it was
    created with ([n]); [keys] are the keys not visited yet. The engine of the PWM does
    not move meanwhile. *)
Fixpoint remove_loop (base : Z) (n : nat) (keys : list Z) (s : shared) : shared * res unit :=
  if negb (Nat.eqb (entries (w_dict s)) n) then (s, Raise RuntimeError)
  else match keys with
       | [] => (s, Ok tt)
       | p :: r => remove_loop base n r (finish base 16 s (RemTest p None))
       end.
Definition remove_all (base : Z) (keys : list Z) (s : shared) : shared * res unit :=
  match remove_loop base (entries (w_dict s)) keys s with
  | (s, Ok _) => (s, if Nat.eqb (entries (w_dict s)) 0 then Ok tt else Raise AssertionError)
  | r => r
  end.
(** deinit after join() returned, lines 327-333; the boolean tells whether watchdog.stop()
    was called. *)
Definition deinit (base : Z) (keys : list Z) (s : shared) : shared * bool * res unit :=
  let s := set_gpio s (disable_steppers (w_gpio s)) in
  match remove_all base keys s with
  | (s, Raise e) => (s, false, Raise e)
  | (s, Ok _) => (set_gpio s (fold_left gpio_clear [spindle_pin h; fan_pin h; extruder_pin h; bed_pin h] (w_gpio s)), true, Ok tt)
  end.

End Hal.
Arguments mpc : clear implicits.
Arguments mover : clear implicits.
Arguments machine : clear implicits.
