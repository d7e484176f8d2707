(** Property C88: the fan output. Every theorem is followed by its assumptions and by an
    Example in which its hypotheses hold. *)
From Coq Require Import String Ascii ZArith Bool Lia List.
From Verif Require Import PyBase PyNum GCode Config Coordinates GMachine GMachineProofs MachineFacts MachineRel MachineHist ExampleBase PropsMachine
  Gpio GpioProofs PwmRace Hal OutputsSpec FanSpec.
From Verif Require Import GMachine MachineRel.
From Coq Require Import List.
Import ListNotations.

Ltac minv2 :=
  repeat first [progress minv |
    match goal with
    | H : measure_or_fail _ _ _ _ = _ |- _ => apply measure_or_fail_inv in H; destruct H as (-> & ->)
    | H : (match ?x with _ => _ end) _ _ = _ |- _ => destruct x eqn:?
    | H : fan _ _ _ _ = _ |- _ => unfold fan in H
    end].
Section Fan.
Context {N : PyNum}.
Variable cfg : config.
(** Hardware that raises in nothing but measurements of temperatures. *)
Definition calm_hw (hw : hw_oracle N) : Prop := forall l ev x, hw l ev = HRaise x -> exists h, ev = EMeasure h.

Lemma is_word g w : is_command g w = true <-> effective_command g = Some (tx w).
Proof.
  unfold is_command. destruct (effective_command g) as [t|]; [|split; discriminate]. unfold text_eqb.
  destruct (list_eq_dec Ascii.ascii_dec t (tx w)) as [->|H]; split; congruence.
Qed.
Lemma heat_keeps hw t w (m m' : machine N) es : (eqb t zero = true \/ auto_fan cfg = false) ->
  heat cfg hw HeaterExtruder t w m [] = (m', es, Ok tt) -> m_fan m' = m_fan m.
Proof.
  intros [K|K] H; unfold heat in H; rewrite K in H; minv2; try discriminate; try reflexivity.
Qed.
Lemma hot_keeps hw g (m m' : machine N) es w : run_command cfg hw (Some g) m = (m', es, Ok tt) -> effective_command g = Some (tx w) -> In w ["M104"; "M109"]%string ->
  auto_fan cfg && nonzero_S (N:=N) g zero = false -> m_fan m' = m_fan m.
Proof.
  intros H Ht Hw K.
  assert (Hc: exists wait, assoc_text (tx w) command_table = Some (MHeat HeaterExtruder wait)) by (destruct Hw as [<-|[<-|[]]]; eexists; vm_compute; reflexivity).
  destruct Hc as (wait & Hc).
  destruct (exec_inv cfg _ _ _ _ _ _ _ _ Ht Hc H) as [(_ & _ & e & E)|(d & v & rr & m1 & _ & Hx & ->)]; [discriminate|].
  simpl in Hx. unfold nonzero_S in K. destruct (get (N:=N) g "S"%char zero (ofZ 1)) as [t|e] eqn:G; minv.
  match goal with Q : heat _ _ _ _ _ _ _ = _ |- _ => apply heat_keeps in Q; [exact Q|] end.
  destruct (auto_fan cfg); [left|right; reflexivity]. cbn in K. now apply negb_false_iff in K.
Qed.
Theorem fan_state h (m : machine N) es : commands calm_hw cfg h m es -> m_fan m = fan_on (N:=N) (auto_fan cfg) h.
Proof.
  induction 1 as [|h hw g m es m' es' r C IH Hw E]; [reflexivity|].
  cbn [fan_on]. rewrite <- IH. clear IH C.
  destruct r as [[]|e]; cbn [succeeded andb].
  - destruct (is_command g "M106") eqn:W1; [|destruct (is_command g "M107") eqn:W2; [|destruct (is_command g "M104" || is_command g "M109") eqn:W3]].
    + apply is_word in W1. destruct (C26_fan_commands N cfg hw g m m' es' "M106" E W1) as (F & _). destruct (F eq_refl) as (s & G & _ & ->). unfold nonzero_S. now rewrite G.
    + apply is_word in W2. destruct (C26_fan_commands N cfg hw g m m' es' "M107" E W2) as (_ & F & _). now destruct (F eq_refl) as [_ ->].
    + assert (W: exists w, effective_command g = Some (tx w) /\ In w ["M104"; "M109"]%string).
      { apply orb_prop in W3. destruct W3 as [W3|W3]; apply is_word in W3; eexists; (split; [exact W3|cbn; auto]). }
      destruct W as (w & W & Hin). rewrite andb_true_r. destruct (auto_fan cfg && nonzero_S g zero) eqn:A.
      * apply andb_prop in A. destruct A as [A1 A2]. unfold nonzero_S in A2. destruct (get (N:=N) g "S"%char zero (ofZ 1)) as [t|] eqn:G; [|discriminate].
        destruct (C26_fan_commands N cfg hw g m m' es' w E W) as (_ & _ & F). apply (F Hin A1 t G). now apply negb_true_iff in A2.
      * exact (hot_keeps hw g m m' es' w E W Hin A).
    + rewrite andb_false_r. cbn [andb]. destruct (C12_frame N cfg hw g m m' es' _ E) as (_ & _ & _ & _ & _ & _ & F & _). apply F.
      intros t Ht Hi. apply orb_false_iff in W3. destruct W3 as [W3 W4].
      assert (Q: forall w, is_command g w = false -> t <> tx w) by (intros w Hf ->; apply is_word in Ht; congruence).
      destruct Hi as [Hi|[Hi|[Hi|[Hi|[]]]]]; symmetry in Hi; [exact (Q _ W1 Hi)|exact (Q _ W2 Hi)|exact (Q _ W3 Hi)|exact (Q _ W4 Hi)].
  - destruct (is_command g "G28") eqn:W.
    + apply is_word in W. destruct (C12_frame N cfg hw g m m' es' _ E) as (_ & _ & _ & _ & _ & _ & F & _). apply F.
      intros t Ht Hi. rewrite W in Ht. injection Ht as <-. cbn in Hi. destruct Hi as [Hi|[Hi|[Hi|[Hi|[]]]]]; discriminate.
    + destruct (C11_rejected_no_effect N cfg hw g m m' es' e Hw) as [-> _]; [|exact E|reflexivity]. intros Q. apply is_word in Q. congruence.
Qed.
Lemma commands_hw h (m : machine N) es : commands calm_hw cfg h m es -> history_hw (never_fails_on is_fan) cfg m es.
Proof.
  induction 1 as [|h hw g m es m' es' r C IH Hw E]; [constructor|]. eapply h_step; [exact IH| |exact E].
  intros l ev e [b ->] K. destruct (Hw _ _ _ K). discriminate.
Qed.
Lemma level_after hc g es g' : (0 <= fan_pin hc < 54)%Z -> carried_out (N:=N) hc g es g' -> g_latch g' (fan_pin hc) = last_fan (g_latch g (fan_pin hc)) es.
Proof.
  intros P. induction 1 as [g|g b es g' C IH|g e es g' Hn C IH|g g1 es g' E C IH]; [reflexivity| | |].
  - rewrite IH. unfold last_fan. cbn [fold_left]. f_equal. unfold fan_control. destruct b; [rewrite latch_set by assumption|rewrite latch_clear by assumption]; now rewrite Z.eqb_refl.
  - rewrite IH. unfold last_fan. cbn [fold_left]. destruct e; try reflexivity. exfalso. now apply (Hn on).
  - now rewrite IH, E.
Qed.

(* ================= C88 ================= *)
(** After any commands, on hardware that raises only in measurements, from a low pin (C67):
    the level of the fan's pin is what the commands ask for. Missing: hardware that raises
    elsewhere (C88_refuted). *)
Theorem C88_fan_partial hc h (m : machine N) es g g' :
  (0 <= fan_pin hc < 54)%Z -> commands calm_hw cfg h m es -> g_latch g (fan_pin hc) = false -> carried_out hc g es g' ->
  g_latch g' (fan_pin hc) = fan_on (N:=N) (auto_fan cfg) h.
Proof.
  intros P C L K. rewrite (level_after hc g es g' P K), L, <- (fan_state h m es C). symmetry. exact (history_fan cfg m es (commands_hw h m es C)).
Qed.
End Fan.
Print Assumptions C88_fan_partial.

Section Ex.
Variable acos : f64 -> f64.
Notation N := (F64 acos).
Definition one (hw : hw_oracle N) (w : string) (m : machine N) : machine N * list (event N) * res unit := run_command default_config hw (Some (gl w)) m.
Lemma commands_one (P : hw_oracle N -> Prop) hw h w (m : machine N) es : P hw -> commands P default_config h m es ->
  commands P default_config ((gl w, succeeded (snd (one hw w m))) :: h) (state_of (one hw w m)) (es ++ events_of (one hw w m)).
Proof. intros Q C. eapply commands_more with (hw := hw); [exact C|exact Q|]. fold (one hw w m). unfold state_of, events_of. now destruct (one hw w m) as [[? ?] ?]. Qed.
Fixpoint carry (hc : hal_config) (g : gpio) (es : list (event N)) : gpio :=
  match es with [] => g | EFan b :: r => carry hc (fan_control hc g b) r | _ :: r => carry hc g r end.
Lemma carry_out hc es : forall g, carried_out hc g es (carry hc g es).
Proof. induction es as [|e es IH]; intros g; [constructor|]. destruct e; cbn [carry]; try (apply co_other; [discriminate|apply IH]). apply co_fan, IH. Qed.
Definition y1 := one hw_ok "M104S200" (init_machine default_config).
Definition y2 := one hw_no_sensor "M109S210" (state_of y1).
Definition y3 := one hw_ok "M107" (state_of y2).
Definition y4 := one hw_ok "M106S3" (state_of y3).
Definition yes : list (event N) := ((([] ++ events_of y1) ++ events_of y2) ++ events_of y3) ++ events_of y4.
Definition yh : list (gcode * bool) := [(gl "M106S3", succeeded (snd y4)); (gl "M107", succeeded (snd y3)); (gl "M109S210", succeeded (snd y2)); (gl "M104S200", succeeded (snd y1))].
(** Heating, a second heating that fails in the measurement, the fan off and on again. *)
Example C88_fan_partial_ex : commands calm_hw default_config yh (state_of y4) yes /\ g_latch blank (fan_pin default_hal) = false /\
  carried_out default_hal blank yes (carry default_hal blank yes) /\
  map snd yh = [true; true; false; true] /\ fan_on (N:=N) true yh = true /\ fan_on (N:=N) true (tl yh) = false /\ fan_on (N:=N) true (tl (tl yh)) = true.
Proof.
  split; [|split; [reflexivity|split; [apply carry_out|repeat split; vm_compute; reflexivity]]].
  repeat (apply commands_one; [intros l ev x H; destruct ev; try discriminate H; eexists; reflexivity|]). apply commands_none.
Qed.
(** Hardware on which the measurement works and the start of the heater raises (C63). *)
Definition hw_no_heater : hw_oracle N := fun _ ev => match ev with EHeaterOn _ _ => HRaise IOErr | _ => HReturn true end.
Definition z1 := one hw_no_heater "M104S200" (init_machine default_config).
(** C88 fails on it: M104 is rejected, no heater was started, and the fan is left on. *)
Theorem C88_refuted : exists h (m : machine N) es g', commands (fun hw => hw = hw_no_heater) default_config h m es /\
  g_latch blank (fan_pin default_hal) = false /\ carried_out default_hal blank es g' /\
  map snd h = [false] /\ m_ext m = None /\ g_latch g' (fan_pin default_hal) = true /\ fan_on (N:=N) (auto_fan default_config) h = false.
Proof.
  exists [(gl "M104S200", succeeded (snd z1))], (state_of z1), ([] ++ events_of z1), (carry default_hal blank ([] ++ events_of z1)).
  split; [apply commands_one; [reflexivity|apply commands_none]|]. split; [reflexivity|]. split; [apply carry_out|]. repeat split; vm_compute; reflexivity.
Qed.
End Ex.
Print Assumptions C88_refuted.
