(** Model of move of the virtual device, cnc/hal_virtual.py: the checks that it makes on
    the pulses of a generator. Log messages and the clock (st, pt, lines 95, 172, 184-186)
    are left out, as are the counters cx, cy, cz, ce and the values dx, dy, dz, de after
    they have been checked, which nothing else reads. *)
From Coq Require Import ZArith Bool List.
From Verif Require Import PyBase PyNum Config Coordinates Pulses.
From Coq Require Import List.
Import ListNotations.

Section Virtual.
Context {N : PyNum}.
Variable cfg : config.
Local Open Scope num_scope.

(** assert. *)
Definition check (b : bool) : res unit := if b then Ok tt else Raise AssertionError.

(** Variables of one motor: ix, lx and mx, cnc/hal_virtual.py:89-92. *)
Record vaxis : Type := { va_i : Z; va_last : option Z; va_max : N }.
(** Variables of move: those of the motors, direction_x etc. and direction_found,
    cnc/hal_virtual.py:89-96. *)
Record vstate : Type := { v_axes : quad vaxis; v_dir : quad Z; v_found : bool }.
Definition vstart : vstate :=
  let a := {| va_i := 0; va_last := None; va_max := zero |} in
  {| v_axes := Quad a a a a; v_dir := Quad 1 1 1 1; v_found := false |}%Z.

(** "if STEPPER_INVERTED_X: direction_x = -direction_x", cnc/hal_virtual.py:101-108. *)
Definition turn (inv : bool) (d : Z) : Z := if inv then (- d)%Z else d.
(** The condition of one assert, cnc/hal_virtual.py:110-117. *)
Definition dir_fits (d : Z) (x : N) : bool :=
  ((d <? 0)%Z && (x <? zero)) || ((0 <? d)%Z && (zero <? x)) || (x =? zero).
(** A direction message, cnc/hal_virtual.py:98-118. *)
Definition vdir (g : gen N) (s : vstate) (t : quad Z) : res vstate :=
  let d := Quad (turn (qx (inverted cfg)) (qx t)) (turn (qy (inverted cfg)) (qy t))
                (turn (qz (inverted cfg)) (qz t)) (turn (qe (inverted cfg)) (qe t)) in
  do! _ <- match g with
           | GLinear l =>
               do! _ <- check (dir_fits (qx d) (qx (l_delta l)));
               do! _ <- check (dir_fits (qy d) (qy (l_delta l)));
               do! _ <- check (dir_fits (qz d) (qz (l_delta l)));
               check (dir_fits (qe d) (qe (l_delta l)))
           | GCircular _ => Ok tt
           end;
  Ok {| v_axes := v_axes s; v_dir := d; v_found := true |}.

(** int(round(t * 1000000)), cnc/hal_virtual.py:122. *)
Definition micros (t : N) : res Z := rnd (t * ofZ 1000000).
(** One motor of a pulse message: its variables and the rounded time,
    cnc/hal_virtual.py:119-130 and likewise 131-166. *)
Definition vpulse1 (a : vaxis) (d : Z) (t : option N) : res (vaxis * option Z) :=
  match t with
  | None => Ok (a, None)
  | Some t =>
      let m := if va_max a <? t then t else va_max a in
      do! k <- micros t;
      do! _ <- match va_last a with Some l => check (0 <? k - l)%Z | None => Ok tt end;
      Ok ({| va_i := va_i a + d; va_last := Some k; va_max := m |}%Z, Some k)
  end.
(** f.count(f[0]) == len(f), cnc/hal_virtual.py:170-171. For a message without pulses,
    which no generator yields, f[0] raises IndexError; here AssertionError. *)
Definition given (q : quad (option Z)) : list Z :=
  flat_map (fun o => match o with Some k => [k] | None => [] end) [qx q; qy q; qz q; qe q].
Definition together (f : list Z) : bool :=
  match f with [] => false | k :: _ => forallb (Z.eqb k) f end.
(** A pulse message, cnc/hal_virtual.py:119-171. *)
Definition vpulse (s : vstate) (t : quad (option N)) : res vstate :=
  do! (ax, kx) <- vpulse1 (qx (v_axes s)) (qx (v_dir s)) (qx t);
  do! (ay, ky) <- vpulse1 (qy (v_axes s)) (qy (v_dir s)) (qy t);
  do! (az, kz) <- vpulse1 (qz (v_axes s)) (qz (v_dir s)) (qz t);
  do! (ae, ke) <- vpulse1 (qe (v_axes s)) (qe (v_dir s)) (qe t);
  do! _ <- check (together (given (Quad kx ky kz ke)));
  Ok {| v_axes := Quad ax ay az ae; v_dir := v_dir s; v_found := v_found s |}.

(** The loop, cnc/hal_virtual.py:97-171. *)
Fixpoint vloop (g : gen N) (s : vstate) (l : list (item N)) : res vstate :=
  match l with
  | [] => Ok s
  | Dir t :: l => do! s <- vdir g s t; vloop g s l
  | Pulse t :: l => do! s <- vpulse s t; vloop g s l
  end.

(** "round(ix / STEPPER_PULSES_PER_MM_X, 10) == delta.x", cnc/hal_virtual.py:174-181. *)
Definition arrived (i p : Z) (x : N) : res unit :=
  do! q <- div (ofZ i) (ofZ p);
  check (rnd10 q =? x).
(** After the loop, cnc/hal_virtual.py:173-183. *)
Definition vend (g : gen N) (s : vstate) : res unit :=
  do! _ <- check (v_found s);
  do! _ <- arrived (va_i (qx (v_axes s))) (qx (ppm cfg)) (qx (gen_delta g));
  do! _ <- arrived (va_i (qy (v_axes s))) (qy (ppm cfg)) (qy (gen_delta g));
  do! _ <- arrived (va_i (qz (v_axes s))) (qz (ppm cfg)) (qz (gen_delta g));
  do! _ <- arrived (va_i (qe (v_axes s))) (qe (ppm cfg)) (qe (gen_delta g));
  let m := pmax (pmax (pmax (va_max (qx (v_axes s))) (va_max (qy (v_axes s)))) (va_max (qz (v_axes s)))) (va_max (qe (v_axes s))) in
  check (m <=? total_time_s g).

(** move, cnc/hal_virtual.py:84-186, for a generator that yields the items [l] and stops. *)
Definition virtual_move (g : gen N) (l : list (item N)) : res unit :=
  do! s <- vloop g vstart l;
  vend g s.
End Virtual.
Arguments vaxis : clear implicits.
Arguments vstate : clear implicits.
