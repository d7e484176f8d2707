(** Model of cnc/coordinates.py. A Coordinates object is a [quad] of numbers;
    all constructions go through [coords], which rounds to ten decimals as
    __init__ does. __str__ is not modelled. *)
From Coq Require Import ZArith Bool.
From Verif Require Import PyBase PyNum Config.

Section Coordinates.
Context {N : PyNum}.
Local Open Scope num_scope.

Definition zero : N := ofZ 0.

(** Coordinates.__init__, cnc/coordinates.py:9-18. *)
Definition coords (x y z e : N) : quad N :=
  Quad (rnd10 x) (rnd10 y) (rnd10 z) (rnd10 e).

(** Coordinates(0.0, 0.0, 0.0, 0.0). *)
Definition coords0 : quad N := coords zero zero zero zero.

(** is_zero, cnc/coordinates.py:20-25. *)
Definition is_zero (c : quad N) : bool :=
  (qx c =? zero) && (qy c =? zero) && (qz c =? zero) && (qe c =? zero).

(** sorted((a, b)), cnc/coordinates.py:34-36: stable, swaps only if b < a. *)
Definition sorted2 (a b : N) : N * N := if b <? a then (b, a) else (a, b).

(** is_in_aabb, cnc/coordinates.py:27-41. *)
Definition is_in_aabb (c p1 p2 : quad N) : bool :=
  let '(min_x, max_x) := sorted2 (qx p1) (qx p2) in
  let '(min_y, max_y) := sorted2 (qy p1) (qy p2) in
  let '(min_z, max_z) := sorted2 (qz p1) (qz p2) in
  if (qx c <? min_x) || (qy c <? min_y) || (qz c <? min_z) then false
  else if (max_x <? qx c) || (max_y <? qy c) || (max_z <? qz c) then false
  else true.

(** length, cnc/coordinates.py:43-48. *)
Definition length (c : quad N) : res N :=
  sqrtn (qx c * qx c + qy c * qy c + qz c * qz c + qe c * qe c).

(** One component of round(): round(v / base) * base, cnc/coordinates.py:58-61. *)
Definition round1 (v base : N) : res N :=
  do! q <- div v base;
  do! n <- rnd q;
  Ok (ofZ n * base).

(** round, cnc/coordinates.py:50-61. *)
Definition round (c b : quad N) : res (quad N) :=
  do! x <- round1 (qx c) (qx b);
  do! y <- round1 (qy c) (qy b);
  do! z <- round1 (qz c) (qz b);
  do! e <- round1 (qe c) (qe b);
  Ok (coords x y z e).

(** find_max, cnc/coordinates.py:63-67. *)
Definition find_max (c : quad N) : N :=
  pmax (pmax (pmax (qx c) (qy c)) (qz c)) (qe c).

(** __add__, cnc/coordinates.py:70-72. *)
Definition cadd (a b : quad N) : quad N :=
  coords (qx a + qx b) (qy a + qy b) (qz a + qz b) (qe a + qe b).

(** __sub__, cnc/coordinates.py:74-76. *)
Definition csub (a b : quad N) : quad N :=
  coords (qx a - qx b) (qy a - qy b) (qz a - qz b) (qe a - qe b).

(** __mul__, cnc/coordinates.py:78-82. *)
Definition cmul (a : quad N) (v : N) : quad N :=
  coords (qx a * v) (qy a * v) (qz a * v) (qe a * v).

(** __truediv__, cnc/coordinates.py:90-94. *)
Definition cdiv (a : quad N) (v : N) : res (quad N) :=
  do! x <- div (qx a) v;
  do! y <- div (qy a) v;
  do! z <- div (qz a) v;
  do! e <- div (qe a) v;
  Ok (coords x y z e).

(** __abs__, cnc/coordinates.py:104-105. *)
Definition cabs (a : quad N) : quad N :=
  coords (absn (qx a)) (absn (qy a)) (absn (qz a)) (absn (qe a)).

End Coordinates.
