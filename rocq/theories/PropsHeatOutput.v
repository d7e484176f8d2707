(** Property C87: the outputs of the heaters, from the heater threads to the pins. Every
    theorem is followed by its assumptions and by an Example in which its hypotheses hold. *)
From Coq Require Import ZArith Bool Lia List Reals Lra.
From Flocq Require Import Core BinarySingleNaN.
From Verif Require Import PyBase PyNum PyFloatFacts Config Coordinates Pid PidProofs Heater HeaterProofs PropsHeat
  Dma Gpio Pwm PwmSpec PwmProofs PwmFloat PropsDma GpioProofs PwmRace Hal Outputs OutputsSpec OutputsProofs PropsOutputs GMachine HeatOutput.
From Coq Require Import List.
From Flocq Require Import Core.
Import ListNotations.
Local Open Scope R_scope.

(* ---------- every call of the PWM returns ---------- *)
Definition to_do (t : pc) : nat :=
  match t with
  | Done => 0 | RemTest _ _ => 22 | RemRead1 _ _ _ => 21 | RemWrite1 _ _ _ _ => 20 | RemRead2 _ _ => 19 | RemWrite2 _ _ _ => 18
  | RemDel _ _ => 17 | RemLow _ _ => 16 | RemEmpty _ _ => 15 | RemActive _ _ => 14 | RemStop _ _ => 13
  | AddBranch _ _ => 12 | AddLow _ => 1 | AddHigh _ => 2 | AddHighDict _ => 1 | AddRead1 _ _ => 7 | AddWrite1 _ _ _ => 6
  | AddRead2 _ _ => 5 | AddWrite2 _ _ _ => 4 | AddDict _ _ => 3 | AddActive _ _ => 2 | AddRun _ _ => 1
  end%nat.
Lemma to_do_less base s t : t <> Done -> (to_do (snd (tstep base s t)) < to_do t)%nat.
Proof.
  intros H. destruct t; try (now destruct H); cbn [tstep snd]; unfold removed;
    repeat match goal with
    | |- context [match ?x with None => _ | Some _ => _ end] => destruct x
    | |- context [if ?x then _ else _] => destruct x
    end; cbn [to_do]; lia.
Qed.
Section Heat.
Variable acos : f64 -> f64.
Notation N := (F64 acos).
Lemma call_returns base n : forall (l : list (PwmSpec.call N)) s t, (to_do t <= n)%nat -> runs base l s t -> exists s', runs base l s' Done.
Proof.
  induction n as [|n IH]; intros l s t Hn R.
  - destruct t; try (exfalso; cbn in Hn; lia). now exists s.
  - assert (D: {t = Done} + {t <> Done}) by (destruct t; auto; right; discriminate). destruct D as [->|D]; [now exists s|].
    apply (IH l (fst (tstep base s t)) (snd (tstep base s t))); [pose proof (to_do_less base s t D); lia|]. now apply runs_thread.
Qed.
Lemma calls_run base (m : mem) (g : gpio) (l : list (PwmSpec.call N)) : (forall p, (0 <= p < 32)%Z -> g_latch g p = false) -> (forall c, In c l -> exists t, begins c t) ->
  exists s, runs base l s Done.
Proof.
  intros Hg. induction l as [|c l IH]; intros H; [exists (pwm0 base m g); now apply runs_init|].
  destruct IH as [s R]; [intros c' Hc; apply H; now right|]. destruct (H c (or_introl eq_refl)) as [t T].
  exact (call_returns base _ (c :: l) s t (le_n _) (runs_call _ _ _ _ _ R T)).
Qed.

(* ---------- the log ---------- *)
Lemma same_spec a b : same a b = true <-> a = b.
Proof. destruct a, b; cbn; split; congruence. Qed.
Lemma made_for_spec (log : list (happening N)) h k : made_for log h k = true <-> In (Created k h) log.
Proof.
  unfold made_for. rewrite existsb_exists. split.
  - intros (e & Hi & He). destruct e; try discriminate. apply andb_prop in He. destruct He as [H1 H2]. apply Nat.eqb_eq in H1. apply same_spec in H2. now subst.
  - intros Hi. exists (Created k h). split; [exact Hi|]. rewrite Nat.eqb_refl. cbn. now apply same_spec.
Qed.
Lemma sent_in (log l : list (happening N)) h p : In p (sent log h l) -> exists k b, In (Power k b p) l /\ In (Created k h) log.
Proof.
  unfold sent. rewrite in_flat_map. intros (e & Hi & He). destruct e; cbn in He; try contradiction. destruct (made_for log h k) eqn:E; [|contradiction].
  destruct He as [<-|[]]. exists k, by_main. split; [exact Hi|now apply made_for_spec].
Qed.
Lemma sent_first (log l : list (happening N)) h p r : sent log h l = p :: r ->
  exists a k b c, l = a ++ Power k b p :: c /\ In (Created k h) log /\ forall k' b' p', In (Power k' b' p') a -> ~ In (Created k' h) log.
Proof.
  induction l as [|e l IH]; [discriminate|]. intros H.
  assert (Q: sent log h l = p :: r -> (forall k' b' p', e = Power k' b' p' -> ~ In (Created k' h) log) ->
    exists a k b c, e :: l = a ++ Power k b p :: c /\ In (Created k h) log /\ forall k' b' p', In (Power k' b' p') a -> ~ In (Created k' h) log).
  { intros H1 H2. destruct (IH H1) as (a & k & b & c & E & M & Q). exists (e :: a), k, b, c. rewrite E. split; [reflexivity|]. split; [exact M|].
    intros k' b' p' [Hi|Hi]; [now apply (H2 k' b' p')|now apply (Q k' b' p')]. }
  unfold sent in H. cbn [flat_map] in H. fold (sent log h l) in H.
  destruct e; try (apply Q; [exact H|intros; discriminate]).
  destruct (made_for log h k) eqn:E; cbn [app] in H.
  - injection H as -> _. exists [], k, by_main, l. split; [reflexivity|]. split; [now apply made_for_spec|]. intros ? ? ? [].
  - apply Q; [exact H|]. intros k' b' p' X. injection X as <- <- <-. rewrite <- made_for_spec. congruence.
Qed.
Lemma meet {A} (x y z : A) c l2 : forall a l1, a ++ x :: c = l1 ++ y :: z :: l2 -> x <> y -> ~ In x l1 -> ~ In z a -> x = z.
Proof.
  induction a as [|e a IH]; intros [|e' l1] H Hxy Hx Hz; cbn in H.
  - injection H as H _. contradiction.
  - injection H as H _. exfalso. apply Hx. now left.
  - injection H as -> H. destruct a as [|e a]; cbn in H; injection H as H _; [exact H|]. exfalso. apply Hz. right. now left.
  - injection H as -> H. apply (IH l1 H Hxy); intros K; [apply Hx|apply Hz]; now right.
Qed.

(* ================= C87 ================= *)
Lemma control_pin hc h (p : N) : pin_of (control hc h p) = heater_pin hc h.
Proof. destruct h; cbn; unfold extruder_heater_control, bed_heater_control; now destruct (ltb _ _). Qed.
Lemma control_is hc h (p : N) : control hc h p = if f_lt (f_ofZ 0) p then CallAdd (heater_pin hc h) p else CallRemove (heater_pin hc h).
Proof. destruct h; reflexivity. Qed.
(** No percentage that a heater thread, or stop() in the main thread, sends is refused by
    the PWM. *)
Theorem C87_accepted gains hc (s : sys N) h k b p :
  (forall h, let '(kp, ki, kd) := gains h in tame_gains kp ki kd) -> (0 <= heater_pin hc h < 32)%Z ->
  reachable (N:=N) gains tame tame s -> In (Power k b p) (s_log s) ->
  exists t, begins (control hc h p) t.
Proof.
  intros Hg Hp H Hi. destruct (C39_power_partial acos gains s k b p Hg H Hi) as [F R]. rewrite control_is. destruct (f_lt _ _).
  - destruct (C46_accepted acos p F R) as [n En]. eexists. exact (begins_add _ _ n Hp En).
  - eexists. exact (begins_remove _ Hp).
Qed.

(** After any execution of the threads, with the calls of the PWM one at a time and any
    calls for other pins between them: the part of the time in which the output of a
    heater is high is the newest percentage sent for it, up to one of 256 slots; it is low
    if none was sent. *)
Theorem C87_power_partial gains hc base (s : sys N) h l q :
  (forall h, let '(kp, ki, kd) := gains h in tame_gains kp ki kd) -> (0 <= heater_pin hc h < 32)%Z -> (0 < base /\ base + 8192 < 2 ^ 32)%Z ->
  reachable (N:=N) gains tame tame s ->
  runs base l q Done -> on_pin (heater_pin hc h) l = map (control hc h) (sent (s_log s) h (s_log s)) ->
  exists n, keeps q (heater_pin hc h) n /\ (0 <= n <= 256)%Z /\
    match sent (s_log s) h (s_log s) with
    | [] => n = 0%Z
    | p :: _ => Rabs (IZR n / 256 - val p / 100) <= / 256 + bpow radix2 (-40) /\ (val p = 0 -> n = 0%Z)
    end.
Proof.
  intros Hg Hp B H R E. destruct (keeps_wanted acos base l q (heater_pin hc h) B R Hp) as [K W]. exists (wanted l (heater_pin hc h)).
  split; [exact K|]. split; [exact W|]. clear K W. rewrite <- wanted_on_pin, E.
  destruct (sent (s_log s) h (s_log s)) as [|p r] eqn:S; [reflexivity|]. cbn [map]. rewrite control_is.
  destruct (sent_in (s_log s) (s_log s) h p) as (k & b & Hi & _); [rewrite S; now left|].
  destruct (C39_power_partial acos gains s k b p Hg H Hi) as [F P]. destruct (f_ofZ_val 0 ltac:(lia)) as [F0 V0].
  change (bpow radix2 (-40)) with (/ 1099511627776).
  destruct (f_lt (f_ofZ 0) p) eqn:L; cbn [wanted]; rewrite Z.eqb_refl.
  - apply f_lt_true in L; auto. rewrite V0 in L. destruct (C46_accepted acos p F P) as [n En]. rewrite En. destruct (C46_slots acos p n En) as (_ & _ & Q).
    change (bpow radix2 (-40)) with (/ 1099511627776) in Q. apply Rabs_def2 in Q. split; [apply Rabs_le; lra|lra].
  - apply f_lt_false in L; auto. rewrite V0 in L. split; [apply Rabs_le; lra|reflexivity].
Qed.

(** A heater that the machine believes to be off is off at its pin, for ever if nothing is
    called; unless the constructor of a Heater object for it raised (C63). *)
Theorem C87_off_partial gains hc base (s : sys N) h l q :
  (forall h, let '(kp, ki, kd) := gains h in tame_gains kp ki kd) -> (0 <= heater_pin hc h < 32)%Z -> (0 < base /\ base + 8192 < 2 ^ 32)%Z ->
  reachable (N:=N) gains tame tame s -> s_main s = MIdle -> s_rec s h = None ->
  (forall k, In (Created k h) (s_log s) -> ~ In (NewRaised k) (s_log s)) ->
  runs base l q Done -> on_pin (heater_pin hc h) l = map (control hc h) (sent (s_log s) h (s_log s)) ->
  forall n, high (later n q) (heater_pin hc h) = false.
Proof.
  intros Hg Hp B H Hm Hr Hn R E. destruct (C87_power_partial gains hc base s h l q Hg Hp B H R E) as (n & K & _ & D).
  assert (Z: n = 0%Z).
  { destruct (sent (s_log s) h (s_log s)) as [|p r] eqn:S; [exact D|]. apply (proj2 D).
    destruct (sent_first _ _ _ _ _ S) as (a & k & b & c & El & Hc & Ha).
    destruct (off_means_off (N:=N) gains tame tame s h k H Hm Hr Hc (Hn k Hc)) as (l1 & l2 & E2 & Q).
    assert (X: Power k b p = Power (N:=N) k true zero).
    { apply (meet _ (StopReturned k) _ c l2 a l1); [congruence|discriminate|apply Q|]. intros Hi. exact (Ha k true zero Hi Hc). }
    assert (Y: p = zero) by congruence. rewrite Y. reflexivity. }
  exact (proj1 K Z).
Qed.

(** After a failed measurement the output is low as soon as the thread has sent a value;
    until then it can send it at once (C43). *)
Theorem C87_failed_partial gains hc base (s : sys N) h k f b p a c d l q :
  (forall h, let '(kp, ki, kd) := gains h in tame_gains kp ki kd) -> (0 <= heater_pin hc h < 32)%Z -> (0 < base /\ base + 8192 < 2 ^ 32)%Z ->
  reachable (N:=N) gains tame tame s -> s_log s = a ++ Power k b p :: c ++ MeasErr (THeat k) f :: d -> In (Created k h) (s_log s) ->
  (forall k' b' p', In (Power k' b' p') a -> ~ In (Created k' h) (s_log s)) ->
  runs base l q Done -> on_pin (heater_pin hc h) l = map (control hc h) (sent (s_log s) h (s_log s)) ->
  forall n, high (later n q) (heater_pin hc h) = false.
Proof.
  intros Hg Hp B H El Hc Ha R E. destruct (C87_power_partial gains hc base s h l q Hg Hp B H R E) as (n & K & _ & D).
  assert (Z: n = 0%Z).
  { assert (S: exists r, sent (s_log s) h (s_log s) = p :: r).
    { assert (G: forall l0, (forall k' b' p', In (Power k' b' p') l0 -> ~ In (Created k' h) (s_log s)) -> sent (s_log s) h l0 = []).
      { induction l0 as [|e l0 IH]; intros G; [reflexivity|]. unfold sent. cbn [flat_map]. fold (sent (s_log s) h l0).
        rewrite IH by (intros k' b' p' Hi; apply (G k' b' p'); now right). rewrite app_nil_r. destruct e; try reflexivity.
        destruct (made_for (s_log s) h k0) eqn:M; [|reflexivity]. apply made_for_spec in M. exfalso. exact (G k0 by_main p0 (or_introl eq_refl) M). }
      exists (sent (s_log s) h (c ++ MeasErr (THeat k) f :: d)). transitivity (sent (s_log s) h (a ++ Power k b p :: c ++ MeasErr (THeat k) f :: d)); [f_equal; exact El|].
      unfold sent at 1. rewrite flat_map_app. cbn [flat_map]. apply made_for_spec in Hc. rewrite Hc. fold (sent (s_log s) h a). rewrite (G a Ha). reflexivity. }
    destruct S as [r S]. rewrite S in D. apply (proj2 D).
    assert (Y: p = zero).
    { apply (C43_only_zero_after_failure N gains tame tame s k f (a ++ Power k b p :: c) d b p H); [rewrite El, <- app_assoc; reflexivity|]. apply in_or_app. right. now left. }
    rewrite Y. reflexivity. }
  exact (proj1 K Z).
Qed.

(* ---------- examples ---------- *)
(** Any execution of the threads can be carried out by the PWM. *)
Lemma outputs_exist (s : sys N) h : reachable (N:=N) default_gains tame tame s ->
  exists l q, runs 4096 l q Done /\ on_pin (heater_pin default_hal h) l = map (control default_hal h) (sent (s_log s) h (s_log s)).
Proof.
  intros H. exists (map (control default_hal h) (sent (s_log s) h (s_log s))).
  destruct (calls_run 4096 (fun _ => 0%Z) blank (map (control default_hal h) (sent (s_log s) h (s_log s)))) as [q R].
  - intros p _. reflexivity.
  - intros c Hc. apply in_map_iff in Hc. destruct Hc as (p & <- & Hi). destruct (sent_in _ _ _ _ Hi) as (k & b & Hi2 & _).
    apply (C87_accepted (@default_gains N) default_hal s h k b p (default_tame acos)); [destruct h; cbn; lia|exact H|exact Hi2].
  - exists q. split; [exact R|]. unfold on_pin. clear R. induction (sent (s_log s) h (s_log s)) as [|p r IH]; [reflexivity|].
    cbn [map filter]. rewrite control_pin, Z.eqb_refl. f_equal. exact IH.
Qed.
(** The extruder at 200 degrees: power is sent. *)
Example C87_power_ex : exists (s : sys N) l q x r, (forall h, let '(kp, ki, kd) := @default_gains N h in tame_gains kp ki kd) /\
  reachable (N:=N) default_gains tame tame s /\ runs 4096 l q Done /\
  on_pin (heater_pin default_hal HeaterExtruder) l = map (control default_hal HeaterExtruder) (sent (s_log s) HeaterExtruder (s_log s)) /\
  sent (s_log s) HeaterExtruder (s_log s) = x :: r /\ f_lt (f_ofZ 0) x = true.
Proof.
  destruct (start200 acos) as (s & x & Px & H & _ & _ & _ & _ & E). destruct (outputs_exist s HeaterExtruder H) as (l & q & R & O).
  exists s, l, q, x, []. split; [exact (default_tame acos)|]. split; [exact H|]. split; [exact R|]. split; [exact O|]. split; [|exact Px]. rewrite E. reflexivity.
Qed.
(** It is switched on, sends power twice and is switched off. *)
Example C87_off_ex : exists (s : sys N) l q x y, reachable (N:=N) default_gains tame tame s /\ s_main s = MIdle /\ s_rec s HeaterExtruder = None /\
  (forall k, In (Created k HeaterExtruder) (s_log s) -> ~ In (NewRaised k) (s_log s)) /\ runs 4096 l q Done /\
  on_pin (heater_pin default_hal HeaterExtruder) l = map (control default_hal HeaterExtruder) (sent (s_log s) HeaterExtruder (s_log s)) /\
  sent (s_log s) HeaterExtruder (s_log s) = [zero; y; x] /\ f_lt (f_ofZ 0) x = true.
Proof.
  destruct (start200 acos) as (s & x & Px & H & Hm & Ha & Hr & Hp & E).
  pose proof (i_rec s (inv_reachable (N:=N) default_gains tame tame s H) _ _ Hr) as (_ & Hid & _).
  assert (exists (s' : sys N) y, reachable (N:=N) default_gains tame tame s' /\ s_main s' = MIdle /\ s_rec s' HeaterExtruder = None /\
    s_log s' = [StopReturned 0; Power 0 true zero; StopCalled 0; Power 0 false y; MeasOk (THeat 0)] ++ s_log s) as (s' & y & H' & Hm' & Hr' & E').
  { eexists _, _. split; [eapply reachable_steps; [exact H|]|].
    - eapply steps_cons; [apply (step_heater _ _ _ _ 0%nat), h_adc; [exact Hp|exact Ha]|].
      eapply steps_cons; [eapply (step_heater _ _ _ _ 0%nat), (h_measured (N:=N) _ _ _ _ (f_ofZ 20) (f_ofZ 0)); [reflexivity|apply tame_Z; cbn; lia|apply tame_Z; cbn; lia|apply surjective_pairing]|].
      eapply steps_cons; [eapply (step_heater _ _ _ _ 0%nat), h_control; reflexivity|].
      eapply steps_cons; [apply (step_heater _ _ _ _ 0%nat), h_release; reflexivity|].
      eapply steps_cons; [apply step_main, (m_stop _ _ _ _ HeaterExtruder 0%nat); [exact Hm|exact Hr]|].
      eapply steps_cons; [apply step_main; eapply m_stop_acquire; reflexivity|].
      eapply steps_cons; [apply step_main; eapply m_stop_set; reflexivity|].
      eapply steps_cons; [apply step_main; eapply m_stop_release; reflexivity|].
      eapply steps_cons; [apply step_main; eapply m_stop_off; reflexivity|]. apply steps_refl.
    - split; [reflexivity|]. split; [|reflexivity]. cbn. rewrite Hid. reflexivity. }
  destruct (outputs_exist s' HeaterExtruder H') as (l & q & R & O).
  exists s', l, q, x, y. split; [exact H'|]. split; [exact Hm'|]. split; [exact Hr'|]. split; [|split; [exact R|split; [exact O|split; [|exact Px]]]].
  - intros k _. rewrite E', E. cbn. intuition discriminate.
  - rewrite E', E. reflexivity.
Qed.
(** Its sensor fails after power was sent. *)
Example C87_failed_ex : exists (s : sys N) l q x d, reachable (N:=N) default_gains tame tame s /\
  s_log s = [] ++ Power 0 false zero :: [] ++ MeasErr (THeat 0) Refused :: Power 0 false x :: d /\ f_lt (f_ofZ 0) x = true /\
  In (Created 0 HeaterExtruder) (s_log s) /\ runs 4096 l q Done /\
  on_pin (heater_pin default_hal HeaterExtruder) l = map (control default_hal HeaterExtruder) (sent (s_log s) HeaterExtruder (s_log s)).
Proof.
  destruct (fail200 acos Refused) as (s & x & Px & H & _ & Hr & Hp & d & E).
  assert (H': reachable (N:=N) default_gains tame tame (with_heater s 0 (set_pc (s_heaters s 0%nat) HFailTime) [Power (N:=N) 0 false zero])).
  { eapply reachable_steps; [exact H|]. apply steps_one, (step_heater _ _ _ _ 0%nat), h_off. exact Hp. }
  destruct (outputs_exist _ HeaterExtruder H') as (l & q & R & O). eexists _, l, q, x, d. split; [exact H'|]. split; [cbn; rewrite E; reflexivity|].
  split; [exact Px|]. split; [|split; [exact R|exact O]].
  destruct (made_reachable (N:=N) default_gains tame tame _ H') as [I (_ & _ & M)].
  pose proof (i_rec _ (inv_reachable (N:=N) default_gains tame tame s H) _ _ Hr) as (_ & Hid & Hk). specialize (M 0%nat Hk). cbn in M. rewrite Hid in M. exact M.
Qed.
End Heat.
Print Assumptions C87_accepted.
Print Assumptions C87_power_partial.
Print Assumptions C87_off_partial.
Print Assumptions C87_failed_partial.
