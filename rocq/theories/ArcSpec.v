(** Vocabulary of the statements about arcs: the items of a generator one after
    the other, and where the motors are after them. *)
From Coq Require Import ZArith Bool List Reals.
From Flocq Require Import BinarySingleNaN.
From Verif Require Import PyBase PyNum PyFloatFacts Config Coordinates Pulses PulseSpec.
From Coq Require Import List.
Import ListNotations.

Section Spec.
Context {N : PyNum}.

(** What the first [n] calls of next() return, from a state of the iterator;
    shorter if the iteration ends or fails before. *)
Fixpoint items_from (cfg : config) (g : gen N) (n : nat) (s : iter_state N) : list (item N) :=
  match n with
  | O => []
  | S n' => match next cfg g s with
            | Ok (Some (it, s')) => it :: items_from cfg g n' s'
            | _ => []
            end
  end.
(** The first [n] items of a generator. *)
Definition items (cfg : config) (g : gen N) (n : nat) : list (item N) :=
  match iter_start cfg g with
  | Ok s => items_from cfg g n s
  | Raise _ => []
  end.

(** Steps from the start to where a motor is after some items. The direction
    message for an inverted motor has the opposite sign. *)
Definition travel (cfg : config) (m : motor) (l : list (item N)) : Z :=
  if qat m (inverted cfg) then (- signed_steps m l)%Z else signed_steps m l.

(** The generator comes to its end after the items [l]. *)
Definition completes (cfg : config) (g : gen N) (l : list (item N)) : Prop :=
  exists fuel, run_gen cfg fuel g = Finished l.

(** An arc starting at [start] steps from the centre and going in the direction
    [dir] with a radius of R steps has room for so many steps of an axis: to the
    outermost point and from there once round; one and a half times round when
    the axis starts in the positive direction. Up to [k] steps too many. *)
Definition room_within (k : Z) (g : circular_gen N) : Prop :=
  (c_iterations_a g <= (6 + c_dir_a g) * c_radius_a_pulses g - c_dir_a g * c_start_a_pulses g + k)%Z /\
  (c_iterations_b g <= (6 + c_dir_b g) * c_radius_b_pulses g - c_dir_b g * c_start_b_pulses g + k)%Z.
Definition room : circular_gen N -> Prop := room_within 0.
End Spec.

(** Motors of the two axes of a plane, and of the third. *)
Definition motor_a (pl : plane) : motor := match pl with PlaneXY => MX | PlaneYZ => MY | PlaneZX => MZ end.
Definition motor_b (pl : plane) : motor := match pl with PlaneXY => MY | PlaneYZ => MZ | PlaneZX => MX end.
Definition motor_c (pl : plane) : motor := match pl with PlaneXY => MZ | PlaneYZ => MX | PlaneZX => MY end.

(** Assumption about the C library: acos of a number in [-1, 1] is a number
    between 0 and math.pi. *)
Definition good_acos (acos : f64 -> f64) : Prop :=
  forall x, fin x -> (-1 <= val x <= 1)%R -> fin (acos x) /\ (0 <= val (acos x) <= val f_pi)%R.
