(** Model of utils/heater_model_finder.py: heating up to a maximum, cooling down and heating
    again, with coefficients computed from the last two. What the clock and the sensors give
    is arbitrary. Simplifications: printed texts and the quick test of the result (lines
    95-106, no calls) are left out; the calls of the outputs return; a keyboard interrupt
    arrives inside of a measurement; one time is given with every reading. *)
From Coq Require Import ZArith Bool List.
From Verif Require Import PyBase PyNum Config PidFinder.
Import ListNotations.
Local Open Scope num_scope.

Section ModelFinder.
Context {N : PyNum}.
(** max_temperature and delta_temperature. *)
Variable max delta : N.
Notation inputs := (list (N * res N)).
(** if abs(last_t - t) >= 1, lines 44, 52, 73. *)
Definition changed (last_t t : N) : bool := ofZ 1 <=? absn (last_t - t).
(** abs((last_t + t) / 2.0 - ENVIRONMENT_TEMPERATURE), lines 57 and 81; the environment has
    25 degrees, line 22. *)
Definition above_environment (last_t t : N) : res N :=
  match div (last_t + t) (ofZ 2) with Ok m => Ok (absn (m - ofZ 25)) | Raise e => Raise e end.

(** Heating, utils/heater_model_finder.py:36-48: calls of control, and last_t, last_time and
    the inputs that are left. None: it is still running. *)
Fixpoint phase1 (ins : inputs) (heated : bool) (last_t last_time : N) : list N * option (res (N * N * inputs)) :=
  match ins with
  | [] => ([], None)
  | (_, Raise e) :: _ => ([], Some (Raise e))
  | (now, Ok t) :: r =>
    let '(c, heated) := if (max <=? t) && negb heated then ([ofZ 0], true) else ([], heated) in
    if heated && (t <=? max) then (c, Some (Ok (last_t, last_time, r)))
    else
      let '(last_t, last_time) := if changed last_t t then (t, now) else (last_t, last_time) in
      let '(c', o) := phase1 r heated last_t last_time in (c ++ c', o)
  end.
(** Cooling, lines 50-64: last_t, last_time, ca, cn and the inputs that are left. *)
Fixpoint phase2 (ins : inputs) (last_t last_time ca : N) (cn : Z) : option (res (N * N * N * Z * inputs)) :=
  match ins with
  | [] => None
  | (_, Raise e) :: _ => Some (Raise e)
  | (now, Ok t) :: r =>
    if changed last_t t then
      if t <=? max - delta then Some (Ok (last_t, last_time, ca, cn, r))
      else
        match above_environment last_t t with
        | Raise e => Some (Raise e)
        | Ok a =>
          match div (absn (last_t - t)) a with
          | Raise e => Some (Raise e)
          | Ok q => match div q (now - last_time) with Raise e => Some (Raise e) | Ok v => phase2 r t now (ca + v) (cn + 1) end
          end
        end
    else phase2 r last_t last_time ca cn
  end.
(** Heating again, lines 71-92: ha and hn. *)
Fixpoint phase3 (c : N) (ins : inputs) (last_t last_time ha : N) (hn : Z) : option (res (N * Z)) :=
  match ins with
  | [] => None
  | (_, Raise e) :: _ => Some (Raise e)
  | (now, Ok t) :: r =>
    if changed last_t t then
      if max <? t then Some (Ok (ha, hn))
      else if max - delta <=? t then
        match above_environment last_t t with
        | Raise e => Some (Raise e)
        | Ok a =>
          match div (absn (t - (last_t - c * (now - last_time) * a))) (now - last_time) with
          | Raise e => Some (Raise e)
          | Ok v => phase3 c r t now (ha + v) (hn + 1)
          end
        end
      else phase3 c r t now ha hn
    else phase3 c r last_t last_time ha hn
  end.
(** finder, utils/heater_model_finder.py:26-107: calls of control and result. [start]: time
    and reading of lines 33-34. *)
Definition find_model (start : N * res N) (ins : inputs) : list N * option (res (N * N)) :=
  match snd start with
  | Raise e => ([ofZ 100], Some (Raise e))
  | Ok t0 =>
    match phase1 ins false t0 (fst start) with
    | (l, None) => (ofZ 100 :: l, None)
    | (l, Some (Raise e)) => (ofZ 100 :: l, Some (Raise e))
    | (l, Some (Ok (t1, time1, ins1))) =>
      match phase2 ins1 t1 time1 (ofZ 0) 0 with
      | None => (ofZ 100 :: l, None)
      | Some (Raise e) => (ofZ 100 :: l, Some (Raise e))
      | Some (Ok (t2, time2, ca, cn, ins2)) =>
        match div ca (ofZ cn) with
        | Raise e => (ofZ 100 :: l, Some (Raise e))
        | Ok c =>
          match phase3 c ins2 t2 time2 (ofZ 0) 0 with
          | None => (ofZ 100 :: l ++ [ofZ 100], None)
          | Some (Raise e) => (ofZ 100 :: l ++ [ofZ 100], Some (Raise e))
          | Some (Ok (ha, hn)) =>
            match div ha (ofZ hn) with
            | Raise e => (ofZ 100 :: l ++ [ofZ 100], Some (Raise e))
            | Ok h => (ofZ 100 :: l ++ [ofZ 100; ofZ 0], Some (Ok (c, h)))
            end
          end
        end
      end
    end
  end.
End ModelFinder.

Section Main.
Context {N : PyNum}.
Definition sends (h : heater_id) (l : list N) : list (util_call N) := map (UPower h) l.
(** main, utils/heater_model_finder.py:111-143 (init before); settings of lines 18-21. *)
Definition model_main (x y : (N * res N) * list (N * res N)) : list (util_call N) * option (res unit) :=
  let '(lx, ox) := find_model (ofZ 200) (ofZ 50) (fst x) (snd x) in
  let first := UFan true :: sends HeaterExtruder lx in
  match ox with
  | None => (first, None)
  | Some (Raise KeyboardInterrupt) => (first ++ [UDeinit], Some (Ok tt))
  | Some (Ok _) | Some (Raise IOErr) =>
    let '(ly, oy) := find_model (ofZ 70) (ofZ 10) (fst y) (snd y) in
    let second := first ++ UPower HeaterExtruder (ofZ 0) :: sends HeaterBed ly in
    match oy with
    | None => (second, None)
    | Some (Raise KeyboardInterrupt) => (second ++ [UDeinit], Some (Ok tt))
    | Some (Ok _) | Some (Raise IOErr) => (second ++ [UPower HeaterBed (ofZ 0); UFan false; UDeinit], Some (Ok tt))
    | Some (Raise e) => (second, Some (Raise e))
    end
  | Some (Raise e) => (first, Some (Raise e))
  end.
End Main.
