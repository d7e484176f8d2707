(** Model of utils/pid_finder.py: the loop that heats up and cools down around a target and
    computes coefficients from it, and the program around it. What the clock and the
    sensors give is arbitrary. Simplifications: last_t and the printed texts are left out;
    the calls of the outputs return (0 and 100 are accepted, C46); a keyboard interrupt
    arrives inside of a measurement. *)
From Coq Require Import ZArith Bool List.
From Verif Require Import PyBase PyNum Config.
Import ListNotations.
Local Open Scope num_scope.

Section PidFinder.
Context {N : PyNum}.
(** Local variables of finder, utils/pid_finder.py:25-34. *)
Record finder : Type := {
  f_on : bool; f_last_time : N; f_max : N; f_min : N; f_cycle : Z; f_acc : N; f_count : Z; f_cycle_time : N
}.
(** utils/pid_finder.py:25-34, with time [t0] at line 28. *)
Definition start_finder (t0 : N) : finder :=
  {| f_on := true; f_last_time := t0; f_max := ofZ 0; f_min := ofZ 10000; f_cycle := 0; f_acc := ofZ 0; f_count := 0; f_cycle_time := ofZ 0 |}.
(** utils/pid_finder.py:58-62; DUMMY_CYCLES = 2, line 18. *)
Definition extremes (t : N) (s : finder) : finder :=
  if (2 <? f_cycle s)%Z then
    {| f_on := f_on s; f_last_time := f_last_time s; f_max := if f_max s <? t then t else f_max s; f_min := if t <? f_min s then t else f_min s;
       f_cycle := f_cycle s; f_acc := f_acc s; f_count := f_count s; f_cycle_time := f_cycle_time s |}
  else s.
(** control(0) and its block, utils/pid_finder.py:39-48. *)
Definition turned_off (now : N) (s : finder) : finder :=
  let n := (f_cycle s + 1)%Z in
  {| f_on := false; f_last_time := now; f_max := f_max s; f_min := f_min s; f_cycle := n;
     f_acc := if (2 <? n)%Z then f_acc s + (now - f_cycle_time s) else f_acc s;
     f_count := if (2 <? n)%Z then (f_count s + 1)%Z else f_count s; f_cycle_time := now |}.
(** utils/pid_finder.py:52-54. *)
Definition turned_on (now : N) (s : finder) : finder :=
  {| f_on := true; f_last_time := now; f_max := f_max s; f_min := f_min s; f_cycle := f_cycle s; f_acc := f_acc s; f_count := f_count s; f_cycle_time := f_cycle_time s |}.
(** One round of the loop, utils/pid_finder.py:36-63, with the calls of control and their
    times, and whether it breaks (line 51); TOTAL_CYCLES = 7, line 19. *)
Definition iteration (target now t : N) (s : finder) : finder * list (N * N) * bool :=
  let time_filter := ofdec false 1 1 <? now - f_last_time s in
  let '(s1, c1) := if (target <=? t) && f_on s && time_filter then (turned_off now s, [(now, ofZ 0)]) else (s, []) in
  if (t <? target) && negb (f_on s1) && time_filter then
    if (7 <? f_cycle s1)%Z then (s1, c1, true) else (extremes t (turned_on now s1), c1 ++ [(now, ofZ 100)], false)
  else (extremes t s1, c1, false).
(** The loop, utils/pid_finder.py:35-63; None: it is still running. *)
Fixpoint finder_loop (target : N) (ins : list (N * res N)) (s : finder) : list (N * N) * option (res finder) :=
  match ins with
  | [] => ([], None)
  | (_, Raise e) :: _ => ([], Some (Raise e))
  | (now, Ok t) :: r =>
    let '(s1, c, stop) := iteration target now t s in
    if stop then (c, Some (Ok s1)) else let '(c', o) := finder_loop target r s1 in (c ++ c', o)
  end.
(** utils/pid_finder.py:64-71. *)
Definition coefficients (s : finder) : res (N * N * N) :=
  let d_temperature := f_max s - f_min s in
  match div (f_acc s) (ofZ (f_count s)) with
  | Raise e => Raise e
  | Ok d_time =>
    match div (ofZ 1) (ofdec false 12 1 * d_temperature), div (ofZ 1) (ofZ 15 * d_time), div (ofZ 1) (ofdec false 15 2 * d_time) with
    | Ok p, Ok i, Ok d => Ok (p, i, d)
    | Raise e, _, _ | _, Raise e, _ | _, _, Raise e => Raise e
    end
  end.
(** finder, utils/pid_finder.py:23-71. [start]: time and reading of lines 27-28. *)
Definition run_finder (target : N) (start : N * res N) (ins : list (N * res N)) : list (N * N) * option (res (N * N * N)) :=
  let on := (fst start, ofZ 100) in
  match snd start with
  | Raise e => ([on], Some (Raise e))
  | Ok _ =>
    let '(c, o) := finder_loop target ins (start_finder (fst start)) in
    (on :: c, match o with None => None | Some (Raise e) => Some (Raise e) | Some (Ok s) => Some (coefficients s) end)
  end.

(** Calls into the hardware layer. *)
Inductive util_call : Type := UFan (on : bool) | UPower (h : heater_id) (p : N) | UDeinit.
Definition powers (h : heater_id) (l : list (N * N)) : list util_call := map (fun a => UPower h (snd a)) l.
(** main, utils/pid_finder.py:75-103 (init before); what the sensors give to the two
    finders; None: it is still running. *)
Definition util_main (x y : (N * res N) * list (N * res N)) : list util_call * option (res unit) :=
  let '(lx, ox) := run_finder (ofZ 200) (fst x) (snd x) in
  let first := UFan true :: powers HeaterExtruder lx in
  match ox with
  | None => (first, None)
  | Some (Raise KeyboardInterrupt) => (first ++ [UDeinit], Some (Ok tt))
  | Some (Ok _) | Some (Raise IOErr) =>
    let '(ly, oy) := run_finder (ofZ 70) (fst y) (snd y) in
    let second := first ++ UPower HeaterExtruder (ofZ 0) :: powers HeaterBed ly in
    match oy with
    | None => (second, None)
    | Some (Raise KeyboardInterrupt) => (second ++ [UDeinit], Some (Ok tt))
    | Some (Ok _) | Some (Raise IOErr) => (second ++ [UPower HeaterBed (ofZ 0); UFan false; UDeinit], Some (Ok tt))
    | Some (Raise e) => (second, Some (Raise e))
    end
  | Some (Raise e) => (first, Some (Raise e))
  end.
End PidFinder.
Arguments finder : clear implicits.
Arguments util_call : clear implicits.
