(** The output of the spindle through the PWM (C85). Every theorem is followed by its
    assumptions and by an Example in which its hypotheses hold. *)
From Coq Require Import String ZArith Bool Lia List Reals Lra.
From Flocq Require Import Core BinarySingleNaN.
From Verif Require Import PyBase PyNum PyFloatFacts Config GCode ExampleBase GMachine MachineFloat
  Dma Gpio Pwm PwmSpec PwmProofs PwmFloat PropsDma GpioProofs PwmRace Hal Outputs OutputsSpec OutputsProofs.
From Verif Require Import GMachine.
From Coq Require Import List.
Import ListNotations.
Local Open Scope R_scope.

(** For ever, if nothing is called: low, or high, or in every round of 256 blocks high for
    the first [n] of them and low for the others. *)
Definition keeps (s : shared) (pin n : Z) : Prop :=
  (n = 0%Z -> forall k, high (later k s) pin = false) /\
  (n = 256%Z -> forall k, high (later k s) pin = true) /\
  ((0 < n < 256)%Z -> exists k0, (k0 < 256)%nat /\ forall r j, (j < 256)%nat -> high (later (k0 + (256 * r + S j)) s) pin = (Z.of_nat j <? n)%Z).
(** The calls of the PWM for one pin. *)
Definition on_pin {N : PyNum} (pin : Z) (l : list (PwmSpec.call N)) : list (PwmSpec.call N) := filter (fun c => (pin_of c =? pin)%Z) l.

Section Spindle.
Variable acos : f64 -> f64.
Notation N := (F64 acos).

Lemma wanted_on_pin (l : list (PwmSpec.call N)) pin : wanted (on_pin pin l) pin = wanted l pin.
Proof.
  induction l as [|[p d|p] r IH]; [reflexivity| |]; cbn [on_pin filter pin_of wanted]; destruct (p =? pin)%Z eqn:E; cbn [wanted]; rewrite ?E; auto.
Qed.
Lemma later_add a b s : later (a + b) s = later a (later b s).
Proof. induction a as [|a IH]; [reflexivity|]. cbn [Nat.add]. rewrite !later_S, IH. reflexivity. Qed.
Lemma keeps_wanted base (l : list (PwmSpec.call N)) s pin : (0 < base /\ base + 8192 < 2 ^ 32)%Z -> runs base l s Done -> (0 <= pin < 32)%Z ->
  keeps s pin (wanted l pin) /\ (0 <= wanted l pin <= 256)%Z.
Proof.
  intros B R P. destruct (C46_levels acos base B l s pin R P) as (L0 & L1 & L2 & L3). split; [|exact L3]. split; [|split].
  - intros W k. exact (proj1 (C46_levels acos base B l (later k s) pin (runs_later base l s Done k R) P) W).
  - intros W k. exact (proj1 (proj2 (C46_levels acos base B l (later k s) pin (runs_later base l s Done k R) P)) W).
  - intros W. destruct (C46_first_block acos base B l s R (L2 W)) as (k0 & Hk & A & C). exists k0. split; [exact Hk|].
    assert (G: forall r, e_active (w_eng (later (k0 + 256 * r) s)) = true /\ e_cb (w_eng (later (k0 + 256 * r) s)) = base).
    { induction r as [|r [IA IC]]; [replace (k0 + 256 * 0)%nat with k0 by lia; auto|].
      destruct (C46_duty acos base B l _ (runs_later base l s Done (k0 + 256 * r) R) IA IC) as (_ & A2 & C2).
      rewrite <- later_add in A2, C2. replace (k0 + 256 * S r)%nat with (256 + (k0 + 256 * r))%nat by lia. auto. }
    intros r j Hj. destruct (G r) as [IA IC].
    destruct (C46_duty acos base B l _ (runs_later base l s Done (k0 + 256 * r) R) IA IC) as (D & _).
    replace (k0 + (256 * r + S j))%nat with (S j + (k0 + 256 * r))%nat by lia. rewrite later_add. exact (D j pin Hj P).
Qed.

(** After any commands, if programs end with the spindle at rest, and with any calls for
    other pins in between that do not overlap with those for the spindle: the part of the time in which the output
    is high is the speed as a part of the maximum, up to one of 256 slots. *)
Theorem C85_spindle_partial cfg hc base h (m : machine N) es l s :
  (0 < spindle_max_rpm cfg <= 2 ^ 40)%Z -> (0 < base /\ base + 8192 < 2 ^ 32)%Z -> (0 <= spindle_pin hc < 32)%Z ->
  commands calm_spindle cfg h m es -> stopped_first acos h ->
  runs base l s Done -> on_pin (spindle_pin hc) l = rev (map (spindle_control (N:=N) hc) (percents acos es)) ->
  exists n, keeps s (spindle_pin hc) n /\ (0 <= n <= 256)%Z /\
    Rabs (IZR n / 256 - val (speed acos h) / IZR (spindle_max_rpm cfg)) <= / 256 + bpow radix2 (-40).
Proof.
  intros Hc B P C S R E. destruct (keeps_wanted base l s (spindle_pin hc) B R P) as [K W]. exists (wanted l (spindle_pin hc)).
  split; [exact K|]. split; [exact W|]. clear K W. rewrite <- wanted_on_pin, E. rewrite (left_speed acos h S).
  destruct (spindle_inv acos cfg Hc h m es C) as (_ & _ & [Fs Hs] & [[E0 Z0]|(l0 & p & E0 & D)]); rewrite E0.
  - rewrite Z0. cbn [map rev wanted]. destruct (f_ofZ_val 0 ltac:(lia)) as [_ ->]. unfold Rdiv. rewrite !Rmult_0_l, Rminus_0_r, Rabs_R0.
    pose proof (bpow_ge_0 radix2 (-40)). lra.
  - destruct (percent_of cfg Hc _ p Fs Hs D) as [Fp Dp]. rewrite map_app, rev_app_distr. cbn [map rev app].
    assert (Hp: 0 <= val p <= 100).
    { assert (H := commands_history acos cfg _ _ _ _ C). eapply (history_percent acos cfg _ m es p Hc H).
      assert (Q: In p (percents acos es)) by (rewrite E0; apply in_or_app; right; now left). unfold percents in Q. apply in_flat_map in Q.
      destruct Q as (ev & Hev & Hq). destruct ev; cbn in Hq; try contradiction. destruct Hq as [<-|[]]. exact Hev. }
    change (bpow radix2 (-51)) with (/ 2251799813685248) in Dp. change (bpow radix2 (-40)) with (/ 1099511627776). apply Rabs_le_inv in Dp.
    unfold spindle_control. destruct (ltb (p := N) (ofZ (p := N) 0) p) eqn:L; cbn [wanted]; rewrite Z.eqb_refl.
    + destruct (C46_accepted acos p Fp Hp) as [b Eb]. rewrite Eb. destruct (C46_slots acos p b Eb) as (_ & _ & Q).
      change (bpow radix2 (-40)) with (/ 1099511627776) in Q. apply Rabs_def2 in Q. apply Rabs_le. lra.
    + change (f_lt (f_ofZ 0) p = false) in L. destruct (f_ofZ_val 0 ltac:(lia)) as [F0 V0]. apply f_lt_false in L; auto. rewrite V0 in L.
      apply Rabs_le. lra.
Qed.
(** None of these calls is refused. *)
Theorem C85_accepted cfg hc P h (m : machine N) es p :
  (0 < spindle_max_rpm cfg <= 2 ^ 40)%Z -> (0 <= spindle_pin hc < 32)%Z -> commands P cfg h m es -> In (ESpindle p) es ->
  exists t, begins (spindle_control (N:=N) hc p) t.
Proof.
  intros Hc Hp C Hin. destruct (history_percent acos cfg _ m es p Hc (commands_history acos cfg _ _ _ _ C) Hin) as [F R].
  unfold spindle_control. destruct (ltb _ _).
  - destruct (C46_accepted acos p F R) as [b Eb]. eexists. exact (begins_add _ _ b Hp Eb).
  - eexists. exact (begins_remove _ Hp).
Qed.

(* ---------- example: M3 S5000, F200 ---------- *)
Definition one (w : string) (m : machine N) : machine N * list (event N) * res unit := run_command default_config hw_ok (Some (gl w)) m.
Lemma hw_ok_calm : calm_spindle (N:=N) hw_ok.
Proof. intros l ev e _. discriminate. Qed.
Definition st (x : machine N * list (event N) * res unit) : machine N := fst (fst x).
Definition ev (x : machine N * list (event N) * res unit) : list (event N) := snd (fst x).
Lemma commands_one h w (m : machine N) es : commands calm_spindle default_config h m es ->
  commands calm_spindle default_config ((gl w, succeeded (snd (one w m))) :: h) (st (one w m)) (es ++ ev (one w m)).
Proof. intros C. eapply commands_more with (hw := hw_ok); [exact C|exact hw_ok_calm|]. fold (one w m). unfold st, ev. now destruct (one w m) as [[? ?] ?]. Qed.
Definition x1 := one "M3S5000" (init_machine default_config).
Definition x2 := one "F200" (st x1).
Definition x3 := one "M2" (st x2).
Definition es2 : list (event N) := ([] ++ ev x1) ++ ev x2.
Definition h2 : list (gcode * bool) := [(gl "F200", succeeded (snd x2)); (gl "M3S5000", succeeded (snd x1))].
Lemma commands_2 : commands calm_spindle default_config h2 (st x2) es2.
Proof. apply commands_one, commands_one, commands_none. Qed.
Lemma commands_3 : commands calm_spindle default_config ((gl "M2", succeeded (snd x3)) :: h2) (st x3) (es2 ++ ev x3).
Proof. apply commands_one, commands_2. Qed.
Definition q1 : shared * pc := Nat.iter 20 (fun x => tstep 4096 (fst x) (snd x)) (pwm0 4096 (fun _ => 0%Z) blank, RemTest 4 (Some 128%Z)).
Definition spindle_calls : list (PwmSpec.call N) := rev (map (spindle_control (N:=N) default_hal) (percents acos es2)).
Lemma iter_runs (l : list (PwmSpec.call N)) n : forall x, runs 4096 l (fst x) (snd x) -> runs 4096 l (fst (Nat.iter n (fun x => tstep 4096 (fst x) (snd x)) x)) (snd (Nat.iter n (fun x => tstep 4096 (fst x) (snd x)) x)).
Proof. induction n as [|n IH]; intros x H; [exact H|]. apply runs_thread. now apply IH. Qed.
Definition half_b : bool :=
  match percents acos es2 with
  | [p] => f_eq p (f_ofZ 50) && f_lt (f_ofZ 0) p && match block_number (N:=N) p with Ok b => (b =? 128)%Z | Raise _ => false end
  | _ => false
  end && match ev x3 with [] => true | _ => false end && succeeded (snd x3) && succeeded (snd x1) && succeeded (snd x2) && (spindle_pin default_hal =? 4)%Z &&
  f_eq (speed acos h2) (f_ofZ 5000) && match snd q1 with Done => true | _ => false end.
Lemma half_b_true : half_b = true. Proof. vm_compute. reflexivity. Qed.
Lemma half_facts : exists p, percents acos es2 = [p] /\ f_lt (f_ofZ 0) p = true /\ block_number (N:=N) p = Ok 128%Z /\ ev x3 = [] /\
  succeeded (snd x1) = true /\ succeeded (snd x2) = true /\ succeeded (snd x3) = true /\ snd q1 = Done.
Proof.
  pose proof half_b_true as H. unfold half_b in H. rewrite !andb_true_iff in H. destruct H as (((((((H & E3) & S3) & S1) & S2) & _) & _) & D).
  destruct (percents acos es2) as [|p [|? ?]]; try discriminate H. rewrite !andb_true_iff in H. destruct H as ((_ & L) & B). exists p.
  split; [reflexivity|]. split; [exact L|]. split; [destruct (block_number (N:=N) p) as [b|]; [apply Z.eqb_eq in B; now subst b|discriminate B]|].
  split; [destruct (ev x3); [reflexivity|discriminate E3]|]. repeat (split; [assumption|]). destruct (snd q1); [reflexivity|discriminate D..].
Qed.
Lemma half_runs : runs 4096 spindle_calls (fst q1) Done /\ on_pin 4 spindle_calls = spindle_calls /\ wanted spindle_calls 4 = 128%Z.
Proof.
  destruct half_facts as (p & E & L & B & _ & _ & _ & _ & D). unfold spindle_calls. rewrite E. cbn [map rev app]. unfold spindle_control.
  change (ltb (p := N) (ofZ (p := N) 0) p) with (f_lt (f_ofZ 0) p). rewrite L. change (spindle_pin default_hal) with 4%Z. split; [|split].
  - rewrite <- D. apply (iter_runs _ 20 (pwm0 4096 (fun _ => 0%Z) blank, RemTest 4 (Some 128%Z))). cbn [fst snd]. apply runs_call; [now apply runs_init|]. constructor; [lia|exact B].
  - reflexivity.
  - cbn [wanted]. rewrite Z.eqb_refl, B. reflexivity.
Qed.
Lemma percents_in es p : In p (percents acos es) -> In (ESpindle (N:=N) p) es.
Proof.
  unfold percents. intros I. apply in_flat_map in I. destruct I as (e & He & Hq). destruct e; cbn in Hq; try contradiction. destruct Hq as [<-|[]]. exact He.
Qed.
Lemma not_program_end : is_command (gl "F200") "M2" || is_command (gl "F200") "M30" = false /\ is_command (gl "M3S5000") "M2" || is_command (gl "M3S5000") "M30" = false.
Proof. split; vm_compute; reflexivity. Qed.
Example C85_spindle_ex :
  commands calm_spindle default_config h2 (st x2) es2 /\ stopped_first acos h2 /\ runs 4096 spindle_calls (fst q1) Done /\
  on_pin (spindle_pin default_hal) spindle_calls = rev (map (spindle_control (N:=N) default_hal) (percents acos es2)) /\
  f_eq (speed acos h2) (f_ofZ 5000) = true /\ exists p, In (ESpindle p) es2.
Proof.
  split; [exact commands_2|]. destruct not_program_end as [N1 N2]. split; [|split; [|split; [|split]]].
  - unfold h2. cbn [stopped_first]. rewrite N1, N2, !andb_false_r. repeat split; discriminate.
  - exact (proj1 half_runs).
  - exact (proj1 (proj2 half_runs)).
  - pose proof half_b_true as H. unfold half_b in H. rewrite !andb_true_iff in H. tauto.
  - destruct half_facts as (p & E & _). exists p. apply percents_in. rewrite E. now left.
Qed.

(** The end of a program does not stop the spindle: M3 S5000, then M2. M2 succeeds, and the
    output stays high for half of the time. *)
Theorem C85_program_end_refuted : exists h (m : machine N) es l s,
  commands calm_spindle default_config h m es /\ runs 4096 l s Done /\
  on_pin (spindle_pin default_hal) l = rev (map (spindle_control (N:=N) default_hal) (percents acos es)) /\
  val (speed acos h) = 0 /\ hd_error h = Some (gl "M2", true) /\ keeps s (spindle_pin default_hal) 128.
Proof.
  destruct half_facts as (p & _ & _ & _ & E3 & S1 & S2 & S3 & _). destruct half_runs as (R & O & W).
  exists ((gl "M2", succeeded (snd x3)) :: h2), (st x3), (es2 ++ ev x3), spindle_calls, (fst q1).
  split; [exact commands_3|]. split; [exact R|]. rewrite E3, app_nil_r, S3. split; [exact O|]. split; [|split; [reflexivity|]].
  - cbn [speed andb]. replace (is_command (gl "M2") "M3") with false by (vm_compute; reflexivity).
    replace (is_command (gl "M2") "M5" || is_command (gl "M2") "M2" || is_command (gl "M2") "M30") with true by (vm_compute; reflexivity).
    exact (proj2 (f_ofZ_val 0 ltac:(lia))).
  - rewrite <- W. exact (proj1 (keeps_wanted 4096 spindle_calls (fst q1) 4 ltac:(lia) R ltac:(lia))).
Qed.
End Spindle.
Print Assumptions C85_spindle_partial.
Print Assumptions C85_accepted.
Print Assumptions C85_program_end_refuted.
