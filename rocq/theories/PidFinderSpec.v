(** What C90 says about the calls of utils/pid_finder.py. *)
From Coq Require Import ZArith Bool Reals List.
From Verif Require Import PyBase PyNum Config PidFinder.
Import ListNotations.

Section Spec.
Context {N : PyNum}.
(** The newest power sent to a heater, and the newest state of the fan. *)
Fixpoint power_of (h : heater_id) (l : list (util_call N)) (p : N) : N :=
  match l with
  | [] => p
  | UPower h' q :: r => power_of h r (match h, h' with HeaterExtruder, HeaterExtruder | HeaterBed, HeaterBed => q | _, _ => p end)
  | _ :: r => power_of h r p
  end.
Fixpoint fan_of (l : list (util_call N)) (b : bool) : bool :=
  match l with [] => b | UFan c :: r => fan_of r c | _ :: r => fan_of r b end.
(** [l] ends with a switching to [p] at time [t]. *)
Definition newest (l : list (N * N)) (t p : N) : Prop := exists l0, l = l0 ++ [(t, p)].
(** Measurements fail with IOError only. *)
Definition only_io (ins : list (N * res N)) : Prop := forall t e, In (t, Raise e) ins -> e = IOErr.
End Spec.
(** The times at which the heater was switched off. *)
Definition offs (l : list (R * R)) : list R := map fst (filter (fun a => if Req_EM_T (snd a) 0 then true else false) l).
