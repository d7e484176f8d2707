(** The converter of the temperature sensors (cnc/sensors/ads111x.py): what a measurement
    returns (C83) and what happens at start without it (C84). Every theorem is followed by
    its assumptions and by an Example in which its hypotheses hold. *)
From Coq Require Import String ZArith Bool Reals Lra Lia List.
From Flocq Require Import Core BinarySingleNaN.
From Verif Require Import PyBase PyNum PyFloatFacts GCode Decimal MachineArc Board AdsChip Ads AdsProofs.
From Coq Require Import List.
Import ListNotations.
Local Open Scope R_scope.

(* ---------- C83 ---------- *)
(** The chip measures what is at its pins: [ain t i] volts at input [i] before transfer
    [t]. The result is the nearest of the 65536 steps of the range, if the voltage is inside
    the range. *)
Definition accurate (sense : nat -> Z -> Z -> Z) (ain : nat -> Z -> R) : Prop :=
  forall t mux pga, (-32768 <= sense t mux pga <= 32767)%Z /\
    let fs := IZR (range_mv pga) / 1000 in let v := input_of Rminus (ain t) mux in
    (Rabs v <= fs * (32767 / 32768) -> Rabs (IZR (sense t mux pga) * (fs / 32768) - v) <= fs / 65536).
(** [v] is the voltage of input [ch] at the end of a conversion after [t0] and before [t1],
    up to 63 microvolts, if this is inside the range of the chip. *)
Definition reads (ain : nat -> Z -> R) (ch : Z) (t0 t1 : nat) (v : f64) : Prop :=
  fin v /\ exists t, (t0 < t < t1)%nat /\ (Rabs (ain t ch) <= 4095 / 1000 -> Rabs (val v - ain t ch) <= 63 / 1000000).
Lemma volts_of n : (-32768 <= n <= 32767)%Z -> exists v, f_div (f_ofZ n) (f_ofZ 8000) = Ok v /\ fin v /\ Rabs (val v - IZR n / 8000) <= / 10000000.
Proof.
  intros H. destruct (f_ofZ_val n ltac:(lia)) as [Fn Vn]. destruct (f_ofZ_val 8000 ltac:(lia)) as [Fp Vp].
  assert (Hn: -32768 <= IZR n <= 32767) by (split; apply IZR_le; lia).
  assert (B: Rabs (IZR n / 8000) <= bpow radix2 3) by (change (bpow radix2 3) with 8; apply Rabs_le; lra).
  destruct (f_div_val (f_ofZ n) (f_ofZ 8000) Fn Fp) as (y & E & F & V); [rewrite Vp; lra|rewrite Vn, Vp; eapply bd_big; [exact B|lia]|].
  rewrite Vn, Vp in V. exists y. split; [exact E|]. split; [exact F|]. rewrite V.
  eapply Rle_trans; [apply (rd_error _ 3 ltac:(lia) B)|]. cbn -[IZR]. lra.
Qed.
Lemma result_reads sense ready bus ain fuel ch w w' v : accurate sense ain -> idle w -> measure sense ready bus fuel ch w = Ends w' (Ok v) ->
  (0 <= ch <= 3)%Z /\ reads ain ch (w_time w) (w_time w') v /\ idle w' /\ w_lock w = false /\ w_lock w' = false.
Proof.
  intros A I E. destruct (measure_result sense ready bus fuel ch w w' v I E) as (G & L & I' & L' & t & Ht & _ & V); [intros t mux pga; apply A|].
  assert (G': (0 <= ch <= 3)%Z) by (destruct G as [->|[->|[->| ->]]]; lia). split; [exact G'|]. split; [|tauto].
  destruct (A t (4 + ch)%Z 1%Z) as [R S]. destruct (volts_of _ R) as (v' & E' & F & D). assert (v' = v) by congruence. subst v'.
  split; [exact F|]. exists t. split; [exact Ht|]. intros B.
  assert (W: input_of Rminus (ain t) (4 + ch) = ain t ch) by (destruct G as [->|[->|[->| ->]]]; reflexivity). cbv zeta in S. rewrite W in S. change (range_mv 1) with 4096%Z in S.
  specialize (S ltac:(lra)). replace (IZR (sense t (4 + ch)%Z 1%Z) * (4096 / 1000 / 32768)) with (IZR (sense t (4 + ch)%Z 1%Z) / 8000) in S by field.
  apply Rabs_le. apply Rabs_le_inv in S, D. lra.
Qed.
(** Calls of measure, one after the other: channel, result, first and last transfer. *)
Record call : Type := { k_channel : Z; k_result : res f64; k_from : nat; k_to : nat }.
Inductive calls (sense : nat -> Z -> Z -> Z) (ready : nat -> bool) (bus : nat -> transfer) : world -> list call -> world -> Prop :=
| calls_none w : calls sense ready bus w [] w
| calls_more w fuel ch w1 r ks w2 : measure sense ready bus fuel ch w = Ends w1 r -> calls sense ready bus w1 ks w2 ->
    calls sense ready bus w ({| k_channel := ch; k_result := r; k_from := w_time w; k_to := w_time w1 |} :: ks) w2.

(** Whatever is called, in whatever order, with whatever failures on the bus: what a call
    returns is the voltage of the channel asked for, at a moment of this call. *)
Theorem C83_voltages sense ready bus (ain : nat -> Z -> R) w ks w' k v :
  accurate sense ain -> idle w -> calls sense ready bus w ks w' -> In k ks -> k_result k = Ok v ->
  (0 <= k_channel k <= 3)%Z /\ reads ain (k_channel k) (k_from k) (k_to k) v.
Proof.
  intros A I C Hin Hk. assert (J: w_lock w = true \/ idle w) by (right; exact I). clear I.
  induction C as [w|w fuel ch w1 r ks w2 E C IH]; [destruct Hin|].
  assert (S: w_lock w1 = true \/ idle w1).
  { destruct J as [L|I].
    - unfold measure in E. destruct ((ch <? 0)%Z || (3 <? ch)%Z); [injection E as <- _; left; exact L|]. rewrite L in E. discriminate E.
    - destruct r as [x|e]; [right; exact (proj1 (proj2 (proj2 (result_reads _ _ _ _ _ _ _ _ _ A I E))))|]. 
      exact (measure_failed sense ready bus _ _ _ _ _ I E). }
  destruct Hin as [<-|Hin]; [|exact (IH Hin S)]. cbn [k_channel k_result k_from k_to] in *. subst r.
  destruct J as [L|I]; [|destruct (result_reads _ _ _ _ _ _ _ _ _ A I E) as (G & R & _); split; assumption].
  unfold measure in E. destruct ((ch <? 0)%Z || (3 <? ch)%Z); [discriminate E|]. rewrite L in E. discriminate E.
Qed.
Print Assumptions C83_voltages.

(** A chip that measures whole volts. *)
Definition whole_sense (volts : nat -> Z -> Z) (t : nat) (mux pga : Z) : Z :=
  Z.max (-32768) (Z.min 32767 ((2 * (input_of Z.sub (volts t) mux) * 32768000 + range_mv pga) / (2 * range_mv pga))).
Lemma whole_accurate volts : accurate (whole_sense volts) (fun t i => IZR (volts t i)).
Proof.
  intros t mux pga. split; [unfold whole_sense; lia|]. cbv zeta. intros B.
  assert (I: input_of Rminus (fun i => IZR (volts t i)) mux = IZR (input_of Z.sub (volts t) mux)).
  { unfold input_of. repeat match goal with |- context [if ?b then _ else _] => destruct b end; rewrite <- ?minus_IZR; reflexivity. }
  rewrite I in *. clear I. unfold whole_sense. set (v := input_of Z.sub (volts t) mux) in *.
  assert (Hr: (256 <= range_mv pga <= 6144)%Z) by (unfold range_mv; repeat match goal with |- context [if ?b then _ else _] => destruct b end; lia).
  set (r := range_mv pga) in *. clearbody v r. clear - B Hr.
  assert (P: 256 <= IZR r) by (apply IZR_le; lia).
  assert (Bz: (Z.abs v * 32768000 <= r * 32767)%Z).
  { apply le_IZR. rewrite !mult_IZR, abs_IZR. apply Rmult_le_compat_r with (r := 32768000) in B; [|lra]. lra. }
  set (n := ((2 * v * 32768000 + r) / (2 * r))%Z).
  assert (D: (2 * r * n <= 2 * v * 32768000 + r < 2 * r * n + 2 * r)%Z).
  { unfold n. pose proof (Z_div_mod_eq_full (2 * v * 32768000 + r) (2 * r)). pose proof (Z.mod_pos_bound (2 * v * 32768000 + r) (2 * r) ltac:(lia)). lia. }
  assert (Hn: (-32767 <= n <= 32767)%Z) by nia. rewrite Z.min_r, Z.max_r by lia. clearbody n.
  destruct D as [D1 D2]. apply IZR_le in D1. apply IZR_lt in D2. repeat rewrite ?plus_IZR, ?mult_IZR in D1. repeat rewrite ?plus_IZR, ?mult_IZR in D2.
  assert (Q: IZR n * (IZR r / 1000 / 32768) = 2 * (IZR r * IZR n) / 65536000) by field.
  rewrite Q. apply Rabs_le. split; lra.
Qed.
(** Calls one after the other, as a function. *)
Fixpoint run_calls sense ready bus (cs : list (nat * Z)) (w : world) : option (list call * world) :=
  match cs with
  | [] => Some ([], w)
  | (fuel, ch) :: r =>
    match measure sense ready bus fuel ch w with
    | Waits => None
    | Ends w1 x =>
      match run_calls sense ready bus r w1 with
      | None => None
      | Some (ks, w2) => Some ({| k_channel := ch; k_result := x; k_from := w_time w; k_to := w_time w1 |} :: ks, w2)
      end
    end
  end.
Lemma run_calls_spec sense ready bus cs : forall w ks w', run_calls sense ready bus cs w = Some (ks, w') -> calls sense ready bus w ks w'.
Proof.
  induction cs as [|[fuel ch] r IH]; intros w ks w' H; cbn [run_calls] in H; [injection H as <- <-; constructor|].
  destruct (measure sense ready bus fuel ch w) as [|w1 x] eqn:E; [discriminate H|]. destruct (run_calls sense ready bus r w1) as [[ks1 w2]|] eqn:E2; [|discriminate H].
  injection H as <- <-. econstructor; [exact E|exact (IH _ _ _ E2)].
Qed.
(** 2 V at input 1 and 1 V at the others: input 1 is measured, which takes three rounds of
    waiting; a channel is refused; a measurement of input 3 fails on the bus. *)
Definition ex_volts (t : nat) (i : Z) : Z := if (i =? 1)%Z then 2%Z else 1%Z.
Definition ex_ready (t : nat) : bool := Nat.eqb t 5.
Definition ex_bus (t : nat) : transfer := if Nat.eqb t 11 then Fails else Works.
Definition ex_world : world := {| w_chip := {| c_pointer := 0; c_config := 34179; c_conversion := 77; c_busy := false |}; w_time := 0; w_lock := false |}.
Definition is_volts (r : res f64) (n : Z) : bool := match r with Ok v => f_eq v (f_ofZ n) | Raise _ => false end.
Definition ex_calls : bool :=
  match run_calls (whole_sense ex_volts) ex_ready ex_bus [(9%nat, 1%Z); (9%nat, 5%Z); (9%nat, 3%Z)] ex_world with
  | Some ([k1; k2; k3], w) => is_volts (k_result k1) 2 && (k_channel k1 =? 1)%Z && Nat.eqb (k_to k1) 9 && w_lock w
  | _ => false
  end.
Lemma ex_calls_true : ex_calls = true. Proof. vm_compute. reflexivity. Qed.
Example C83_voltages_ex : exists ks w' k v, accurate (whole_sense ex_volts) (fun t i => IZR (ex_volts t i)) /\ idle ex_world /\
  calls (whole_sense ex_volts) ex_ready ex_bus ex_world ks w' /\ In k ks /\ k_result k = Ok v /\ f_eq v (f_ofZ 2) = true /\ length ks = 3%nat.
Proof.
  pose proof ex_calls_true as H. unfold ex_calls in H. destruct (run_calls _ _ _ _ _) as [[ks w']|] eqn:E; [|discriminate H].
  destruct ks as [|k1 [|k2 [|k3 [|? ?]]]]; try discriminate H. rewrite !andb_true_iff in H. destruct H as (((H & _) & _) & _).
  destruct (k_result k1) as [v|] eqn:Ek; [|discriminate H]. exists [k1; k2; k3], w', k1, v.
  split; [apply whole_accurate|]. split; [reflexivity|]. split; [exact (run_calls_spec _ _ _ _ _ _ _ E)|]. split; [now left|]. split; [exact Ek|]. split; [exact H|reflexivity].
Qed.

(** A call ends if the transfers work and the chip ends its conversion. *)
Theorem C83_ends sense ready bus (ain : nat -> Z -> R) w ch t :
  accurate sense ain -> w_lock w = false -> (forall i, bus i = Works) -> (0 <= ch <= 3)%Z -> ready t = true -> (w_time w < t)%nat ->
  exists fuel w' v, measure sense ready bus fuel ch w = Ends w' (Ok v).
Proof.
  intros A L Hb Hc Hr Ht. apply (measure_ends sense ready bus Hb t Hr); auto; [unfold good_ch; lia|]. intros i mux pga. apply A.
Qed.
Print Assumptions C83_ends.
Example C83_ends_ex : accurate (whole_sense ex_volts) (fun t i => IZR (ex_volts t i)) /\ w_lock ex_world = false /\ ex_ready 5 = true /\ (w_time ex_world < 5)%nat.
Proof. split; [apply whole_accurate|]. repeat split. cbn. lia. Qed.

(* ---------- C84 ---------- *)
(** If /dev/i2c-1 can be opened and takes the address, and transfers work or raise OSError:
    the thermistor module is loaded (or still waits for the chip), with or without the chip;
    the chip is used if it answers, and if not then every reading raises IOError. *)
Theorem C84_start_partial sense ready bus d n fuel c :
  (0 <= d)%Z -> (0 <= n)%Z -> (forall t, bus t <> Short) ->
  (forall e, load_thermistor sense ready bus true (Number d) (Number n) fuel c <> AdcRaises e) /\
  (bus 0%nat = Fails -> load_thermistor sense ready bus true (Number d) (Number n) fuel c = NoAdc) /\
  (forall fuel' ch w, voltage sense ready bus NoAdc fuel' ch w = Ends w (Raise IOErr)).
Proof.
  intros Hd Hn Hs. unfold load_thermistor, load_ads. destruct (Z.ltb_spec d 0); [lia|]. destruct (Z.ltb_spec n 0); [lia|]. split; [|split; [|reflexivity]].
  - intros e. destruct (measure sense ready bus fuel 0 _) as [|w r] eqn:E; [discriminate|]. destruct r as [v|x]; [discriminate|].
    rewrite (measure_raises sense ready bus fuel 0 _ _ _ Hs eq_refl E). discriminate.
  - intros F. unfold measure, i2c_write. cbn [w_time set_lock orb]. change ((0 <? 0)%Z || (3 <? 0)%Z) with false. cbn [w_lock w_time]. rewrite F. reflexivity.
Qed.
Print Assumptions C84_start_partial.
Example C84_start_ex : load_thermistor (whole_sense ex_volts) ex_ready (fun _ => Works) true (Number 3) (Number 0) 9 (w_chip ex_world) = Adc /\
  load_thermistor (whole_sense ex_volts) ex_ready (fun _ => Fails) true (Number 3) (Number 0) 9 (w_chip ex_world) = NoAdc.
Proof. split; vm_compute; reflexivity. Qed.
(** A chip that answers is used. *)
Theorem C84_used_partial sense ready bus ain d n c t :
  accurate sense ain -> (0 <= d)%Z -> (0 <= n)%Z -> (forall i, bus i = Works) -> ready t = true -> (0 < t)%nat ->
  exists fuel, load_thermistor sense ready bus true (Number d) (Number n) fuel c = Adc.
Proof.
  intros A Hd Hn Hb Hr Ht. destruct (C83_ends sense ready bus ain {| w_chip := c; w_time := 0; w_lock := false |} 0 t A eq_refl Hb ltac:(lia) Hr Ht) as (fuel & w' & v & E).
  exists fuel. unfold load_thermistor, load_ads. destruct (Z.ltb_spec d 0); [lia|]. destruct (Z.ltb_spec n 0); [lia|]. now rewrite E.
Qed.
Print Assumptions C84_used_partial.
Example C84_used_ex : accurate (whole_sense ex_volts) (fun t i => IZR (ex_volts t i)) /\ ex_ready 5 = true /\ (0 < 5)%nat.
Proof. split; [apply whole_accurate|]. split; [reflexivity|lia]. Qed.

(** C84 is false where there is no I2C bus: os.open raises OSError and does not return a
    negative number, nothing catches it, and the program ends on a board that is otherwise
    recognised (C79). *)
Theorem C84_no_bus_refuted : exists cpuinfo b, choose cpuinfo = Raspberry b /\
  forall sense ready bus set_address fuel c, start sense ready bus cpuinfo true Refused set_address fuel c = NoDevice.
Proof.
  exists (Some (t ("Hardware	: BCM2835" ++ String (Ascii.ascii_of_nat 10) "Revision	: a02082")%string)), rpi23_base.
  split; [vm_compute; reflexivity|]. intros. unfold start. replace (choose _) with (Raspberry rpi23_base) by (vm_compute; reflexivity). reflexivity.
Qed.
Print Assumptions C84_no_bus_refuted.
(** C84 is false on Python 3: "import ads111x" in the package cnc.sensors does not find the
    file beside it, so a connected chip is never used and every reading is an IOError. *)
Theorem C84_python3_refuted : exists sense ready bus ain c, accurate sense ain /\ (forall i, bus i = Works) /\
  (exists fuel, load_thermistor sense ready bus true (Number 3) (Number 0) fuel c = Adc) /\
  forall fuel fuel' ch w, voltage sense ready bus (load_thermistor sense ready bus false (Number 3) (Number 0) fuel c) fuel' ch w = Ends w (Raise IOErr).
Proof.
  exists (whole_sense ex_volts), ex_ready, (fun _ => Works), (fun t i => IZR (ex_volts t i)), (w_chip ex_world).
  split; [apply whole_accurate|]. split; [reflexivity|]. split; [|reflexivity]. exists 9%nat. exact (proj1 C84_start_ex).
Qed.
Print Assumptions C84_python3_refuted.
