(** Vocabulary of the statements about pulse generators. *)
From Coq Require Import ZArith Bool List Reals.
From Verif Require Import PyBase PyNum Config Coordinates Pulses.
From Coq Require Import List.
Import ListNotations.

Inductive motor := MX | MY | MZ | ME.
Definition qat {A} (m : motor) (q : quad A) : A :=
  match m with MX => qx q | MY => qy q | MZ => qz q | ME => qe q end.
Lemma qat_qmap {A B} (f : A -> B) m q : qat m (qmap f q) = f (qat m q).
Proof. destruct m; reflexivity. Qed.
Lemma qat_ext {A} (p q : quad A) : (forall m, qat m p = qat m q) -> p = q.
Proof.
  intros H. destruct p, q. f_equal; [exact (H MX)|exact (H MY)|exact (H MZ)|exact (H ME)].
Qed.

Section Spec.
Context {N : PyNum}.

(** 1 if the item moves this motor by one step, 0 otherwise. *)
Definition step_of (m : motor) (it : item N) : Z :=
  match it with
  | Dir _ => 0
  | Pulse q => match qat m q with Some _ => 1 | None => 0 end
  end.
(** Number of steps of a motor in a list of items. *)
Definition steps (m : motor) (l : list (item N)) : Z :=
  fold_right (fun it s => step_of m it + s)%Z 0%Z l.
Lemma steps_app m l1 l2 : steps m (l1 ++ l2) = (steps m l1 + steps m l2)%Z.
Proof. induction l1 as [|it r IH]; [reflexivity|]. cbn [steps fold_right app]. fold (steps m (r ++ l2)). rewrite IH. fold (steps m r). apply Z.add_assoc. Qed.
Lemma steps_nonneg m l : (0 <= steps m l)%Z.
Proof.
  induction l as [|it r IH]; [reflexivity|]. cbn [steps fold_right]. fold (steps m r).
  apply Z.add_nonneg_nonneg; [|exact IH]. destruct it as [d|q]; cbn [step_of]; [reflexivity|]. now destruct (qat m q).
Qed.

(** The item moves at least one motor, and every motor it moves at time [t]. *)
Definition pulse_at (t : N) (it : item N) : Prop :=
  exists q, it = Pulse q /\ (exists m, qat m q = Some t) /\ (forall m t', qat m q = Some t' -> t' = t).

(** Signed position reached by a list of items: each step moves the motor into
    the direction of the last direction message. *)
Definition signed_steps (m : motor) (l : list (item N)) : Z :=
  snd (fold_left (fun '(d, p) it =>
                    match it with
                    | Dir q => (qat m q, p)
                    | Pulse _ => (d, (p + d * step_of m it)%Z)
                    end) l (0%Z, 0%Z)).
End Spec.

(** The items a linear movement consists of: what iterating over
    PulseGeneratorLinear(delta, velocity) yields, if it comes to its end. *)
Definition emits {N : PyNum} (cfg : config) (delta : quad N) (v : N) (g : linear_gen N) (l : list (item N)) : Prop :=
  make_linear cfg delta v = Ok g /\ exists fuel, run_gen cfg fuel (GLinear g) = Finished l.

(** Machines with positive limits (config.py is edited by the user). *)
Record sane_cfg (cfg : config) : Prop := {
  sane_ppm : forall m, (0 < qat m (ppm cfg))%Z;
  sane_acc : (0 < max_acceleration cfg)%Z;
  sane_vel : forall m, (0 < qat m (max_velocity_min cfg))%Z
}.
Lemma default_sane : sane_cfg default_config.
Proof. split; try (intros []); reflexivity. Qed.

Local Open Scope R_scope.
(** Length of a vector. *)
Definition len (d : quad R) : R := sqrt (qx d * qx d + qy d * qy d + qz d * qz d + qe d * qe d).

(** A continuous motion behind the pulses of a movement along [delta]: [s t] is
    the part of the segment travelled at time [t], [s'] its derivative, and every
    motor is given step number k (counted from 0) exactly at the time at which
    its own distance travelled is k steps. *)
Record motion (cfg : config) (delta : quad R) (l : list (item RN)) (s s' : R -> R) : Prop := {
  motion_start : s 0 = 0;
  motion_deriv : forall t, derivable_pt_lim s t (s' t);
  motion_steps : forall l1 q l2 m t, l = l1 ++ Pulse q :: l2 -> qat m q = Some t ->
    s t * Rabs (qat m delta) * IZR (qat m (ppm cfg)) = IZR (steps (N:=RN) m l1)
}.
