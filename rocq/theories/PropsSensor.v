(** Property C57: the thermistor (cnc/sensors/thermistor.py), and C64: the sensor chip
    (cnc/sensors/ads111x.py). *)
From Coq Require Import ZArith Bool Lia List Reals Lra.
From Verif Require Import PyBase PyNum PyFloatFacts Config Coordinates GMachine Pid Heater HeaterProofs Thermistor ThermistorProofs PropsHeat.
Import ListNotations.
Local Open Scope R_scope.

(* ---------- C57 ---------- *)
(** For every number the converter can deliver: refused, and then with IOError, exactly
    if the voltage is not strictly between 0 and 3.3 V; otherwise a temperature above
    absolute zero which is the lower the higher the voltage. Real arithmetic. *)
Theorem C57_readings (n m : Z) :
  adc_code n -> adc_code m ->
  ((exists e, get_temperature (adc_volts n) = Raise e) <-> ~ (0 < adc_volts n < 33 / 10)) /\
  (forall e, get_temperature (adc_volts n) = Raise e -> e = IOErr) /\
  (forall t, get_temperature (adc_volts n) = Ok t -> -273.15 < t) /\
  (forall t u, get_temperature (adc_volts n) = Ok t -> get_temperature (adc_volts m) = Ok u ->
     adc_volts n < adc_volts m -> u < t).
Proof.
  intros Hn Hm. unfold adc_volts.
  assert (W: forall k, 0 < IZR k / 8000 < 33 / 10 -> rinf < ohms (IZR k / 8000)).
  { intros k Hk. apply code_ok; [|apply Hk].
    assert (0 < IZR k) by lra. apply lt_IZR in H. lia. }
  split; [|split; [|split]].
  - split.
    + intros [e H] K. rewrite get_works in H; [discriminate|exact K|exact (W _ K)].
    + intros K. destruct (get_temperature (IZR n / 8000)) as [t|e] eqn:E; [|eauto]. apply get_ok in E. tauto.
  - intros e H. apply get_refused in H. destruct H as [[_ E]|(K & E & _)]; [exact E|]. specialize (W _ K). lra.
  - intros t H. pose proof (get_ok _ _ H) as (K & _ & E). pose proof (ln_pos_ohms _ K (W _ K)) as L. subst t.
    apply Rinv_0_lt_compat in L. unfold beta, kelvin, Rdiv at 1. lra.
  - intros t u H H' L. pose proof (get_ok _ _ H) as (K & _). pose proof (get_ok _ _ H') as (K' & _).
    refine (proj2 (decreasing _ _ _ _ _ L _ (W _ K) H H')); tauto.
Qed.
Print Assumptions C57_readings.
(** 0.5 V and 1 V, and a shorted sensor. *)
Example C57_readings_ex :
  adc_code 4000 /\ adc_code 8000 /\ adc_code (-3) /\
  (exists t, get_temperature (adc_volts 4000) = Ok t) /\ (exists t, get_temperature (adc_volts 8000) = Ok t) /\
  get_temperature (adc_volts (-3)) = Raise IOErr.
Proof.
  unfold adc_code, adc_volts. repeat apply conj; try lia.
  - eexists. apply get_works; [unfold vcc; lra|]. apply code_ok; [lia|unfold vcc; lra].
  - eexists. apply get_works; [unfold vcc; lra|]. apply code_ok; [lia|unfold vcc; lra].
  - unfold get_temperature, vcc. destruct (Rle_dec _ _); [lra|]. destruct (Rle_dec _ _); [reflexivity|lra].
Qed.

(** In binary64 the refusal of a converter reading is decided without any rounding
    error: n/8000 V is refused exactly if it is not strictly between 0 and 3.3 V. *)
Theorem C57_refusal_float (n : Z) :
  adc_code n -> (refused n = true <-> ~ (0 < IZR n / 8000 < 33 / 10)).
Proof.
  intros H. rewrite refused_iff by exact H. split.
  - intros [K|K]; apply IZR_le in K; lra.
  - intros K. destruct (Z_le_gt_dec n 0) as [|G]; [now left|]. right.
    destruct (Z_le_gt_dec 26400 n) as [|G2]; [assumption|]. exfalso. apply K.
    assert (1 <= IZR n <= 26399) by (split; apply IZR_le; lia). lra.
Qed.
Print Assumptions C57_refusal_float.
Example C57_refusal_float_ex : adc_code 26399 /\ adc_code 26400 /\ refused 26399 = false /\ refused 26400 = true.
Proof. unfold adc_code. repeat split; try lia; vm_compute; reflexivity. Qed.

(** For arbitrary real voltages (not only those of the converter) C57 holds where the
    resistance is above Rinf, that is above about 77 microvolt ... *)
Theorem C57_voltages_partial (v w t u : R) :
  get_temperature v = Ok t -> get_temperature w = Ok u -> 1 / 8000 <= v < w -> -273.15 < u < t.
Proof.
  intros H H' L. pose proof (get_ok _ _ H) as (K & _). pose proof (get_ok _ _ H') as (K' & _).
  assert (R1: rinf < ohms v).
  { pose proof (code_ok 1 ltac:(lia) ltac:(unfold vcc; lra)) as W.
    destruct (Req_dec v (1 / 8000)) as [->|D]; [exact W|]. pose proof (ohms_mono (1 / 8000) v). lra. }
  assert (E: - kelvin = -273.15) by (unfold kelvin; lra). rewrite <- E.
  apply (decreasing v w t u); try assumption; try apply K'; lra.
Qed.
Print Assumptions C57_voltages_partial.
Example C57_voltages_partial_ex :
  exists t u, get_temperature (adc_volts 4000) = Ok t /\ get_temperature (adc_volts 8000) = Ok u /\ 1 / 8000 <= adc_volts 4000 < adc_volts 8000.
Proof.
  destruct C57_readings_ex as (_ & _ & _ & (t & H) & (u & H') & _). exists t, u. repeat split; try assumption; unfold adc_volts; lra.
Qed.
(** ... and not below: there a higher voltage can give a higher temperature, with readings
    below absolute zero. *)
Theorem C57_refuted :
  exists v w t u, 0 < v /\ v < w /\ w < 33 / 10 /\ get_temperature v = Ok t /\ get_temperature w = Ok u /\ t < -273.15 < u.
Proof.
  destruct turns_over as (v & w & t & u & H1 & H2 & H3 & H4 & H5 & H6). exists v, w, t, u.
  unfold vcc, kelvin in *. repeat split; try assumption; lra.
Qed.
Print Assumptions C57_refuted.

(* ---------- C64 ---------- *)
(** Thread [t] is between lock.acquire() and lock.release() of measure(). *)
Definition uses_chip {N : PyNum} (s : sys N) (t : tid) : Prop :=
  match t with
  | TMain => exists c, s_main s = MAdc c
  | THeat k => h_pc (s_heaters s k) = HAdc
  end.
Theorem C64_one_user (N : PyNum) (gains : heater_id -> N * N * N) (reading clock : N -> Prop) (s : sys N) (t t' : tid) :
  reachable gains reading clock s -> uses_chip s t -> uses_chip s t' -> t = t'.
Proof.
  intros H U U'. pose proof (a_hold s (proj2 (inv3_reachable gains reading clock s H))) as A.
  assert (E: forall x, uses_chip s x -> s_adc s = Some x) by (intros [|k] K; apply A; exact K).
  apply E in U. apply E in U'. congruence.
Qed.
Print Assumptions C64_one_user.
(** The main thread using the chip; a second thread has to wait. *)
Example C64_one_user_ex (acos : f64 -> f64) :
  exists s : sys (F64 acos), reachable (N:=F64 acos) default_gains tame tame s /\ uses_chip s TMain.
Proof.
  set (s1 := with_main (sys0 (pid_any (N:=F64 acos))) (MMeasure None) []).
  exists (with_main (with_adc s1 (Some TMain)) (MAdc None) []). split; [|exists None; reflexivity].
  eexists. eapply steps_cons; [apply step_main, m_measure; reflexivity|].
  eapply steps_cons; [apply step_main, m_adc; reflexivity|apply steps_refl].
Qed.
