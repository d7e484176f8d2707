(** The motors stay on the table at every moment of every move (C81). *)
From Coq Require Import String Ascii ZArith Bool Reals Lra Lia List.
From Flocq Require Import Core BinarySingleNaN.
From Verif Require Import PyBase PyNum PyFloatFacts Config Coordinates Pulses PulseSpec GCode GCodeSpec GMachine GMachineProofs MachineFacts MachineRel MachineHist MachineFloat MachinePos MachineArc ArcSpec LinearGen LinearTravel ArcRun MachineMoves LineAnswers TextDrive.
From Verif Require Import Dma DmaGpio DmaSpec DmaGpioProofs Hal HalSpec MoveNew HalDrive.
From Verif Require Import GMachine MainLoop MainSpec MainProofs LineAnswers.
From Coq Require Import List.
From Flocq Require Import Core.
Import ListNotations.
Local Open Scope Z_scope.

Section Prefix.
Context {N : PyNum}.
Variable h : hal_config.
Hypothesis Hp : pins_ok h.
Hypothesis Hd : NoDup (used_pins h).
Notation drv m := (driver (qat m (step_pin h)) (qat m (dir_pin h))).

Lemma prefix_rise sp dp t mask evs n (s : Z * Z) : fold_left (driver sp dp) (firstn n (rise t mask ++ evs)) s = s \/
  exists n', fold_left (driver sp dp) (firstn n (rise t mask ++ evs)) s = fold_left (driver sp dp) (firstn n' evs) (driver sp dp s (Rise t mask)).
Proof.
  unfold rise. destruct (Z.eqb_spec mask 0) as [->|].
  - right. exists n. cbn [app driver]. rewrite !Z.testbit_0_l. now destruct s.
  - destruct n as [|n]; [now left|]. right. exists n. reflexivity.
Qed.
Lemma prefix_fall sp dp t mask evs n (s : Z * Z) : fold_left (driver sp dp) (firstn n (fall t mask ++ evs)) s = s \/
  exists n', fold_left (driver sp dp) (firstn n (fall t mask ++ evs)) s = fold_left (driver sp dp) (firstn n' evs) (driver sp dp s (Fall t mask)).
Proof.
  unfold fall. destruct (Z.eqb_spec mask 0) as [->|].
  - right. exists n. cbn [app driver]. rewrite !Z.testbit_0_l. now destruct s.
  - destruct n as [|n]; [now left|]. right. exists n. reflexivity.
Qed.
(** Between two signals the driver is where the motor is after some items. *)
Lemma plan_prefix m (l : list (item N)) : unit_dirs l -> forall k prev rs t s n, plan h k prev l = Ok rs ->
  exists j, snd (fold_left (drv m) (firstn n (asked t rs)) s) = snd (fold_left (walker m) (firstn j l) s).
Proof.
  induction 1 as [|it l U _ IH]; intros k prev rs t s n E.
  - injection E as <-. exists 0%nat. now destruct n.
  - cbn [plan] in E. destruct it as [d|q].
    + cbn [plan_item rbind] in E. destruct (plan h k prev l) as [b|] eqn:EB; [|discriminate]. cbn [rbind] in E. injection E as <-.
      rewrite dir_req_of. cbn [app asked].
      match goal with |- context [firstn n (rise t ?a ++ ?r)] => destruct (prefix_rise (qat m (step_pin h)) (qat m (dir_pin h)) t a r n s) as [->|[n1 ->]] end; [now exists 0%nat|].
      match goal with |- context [fold_left _ (firstn n1 (fall t ?a ++ ?r)) ?u] => destruct (prefix_fall (qat m (step_pin h)) (qat m (dir_pin h)) t a r n1 u) as [->|[n2 ->]] end.
      * exists 0%nat. cbn [driver firstn fold_left]. now rewrite dir_step.
      * destruct (IH _ _ _ t (driver (qat m (step_pin h)) (qat m (dir_pin h))
           (driver (qat m (step_pin h)) (qat m (dir_pin h)) s (Rise t (mask_of (dir_pin h) (fun m => qat m d <? 0)))) (Fall t (mask_of (dir_pin h) (fun m => 0 <? qat m d)))) n2 EB) as [j ->].
        exists (S j). cbn [firstn fold_left]. f_equal. f_equal. cbn [driver walker]. rewrite !dir_at, !dir_step by assumption.
        destruct s as [u p]. cbn [fst snd]. unfold walker. destruct (U m) as [E|E]; rewrite E; reflexivity.
    + destruct (plan_item h k prev (Pulses.Pulse q)) as [[a [k' prev']]|] eqn:EP; [|discriminate]. cbn [rbind] in E.
      destruct (plan h k' prev' l) as [b|] eqn:EB; [|discriminate]. cbn [rbind] in E. injection E as <-.
      cbn [plan_item] in EP. destruct (min_time q) as [mt|]; [|discriminate]. destruct (rnd (mul mt (ofZ 1000000))) as [z|]; [|discriminate]. cbn [rbind] in EP.
      injection EP as <- <- <-. rewrite step_mask_of, <- app_assoc.
      assert (W: driver (qat m (step_pin h)) (qat m (dir_pin h)) s (Rise 0 (mask_of (step_pin h) (moves q))) = walker m s (Pulses.Pulse q)).
      { cbn [driver walker]. rewrite step_at, step_dir by assumption. destruct s as [u p]. cbn [fst snd]. unfold moves, walker, step_of. destruct (qat m q); f_equal; lia. }
      assert (G: forall t, exists j, snd (fold_left (drv m) (firstn n (asked t (DmaGpio.Pulse (mask_of (step_pin h) (moves q)) (pulse_us h) :: b))) s) = snd (fold_left (walker m) (firstn j (Pulses.Pulse q :: l)) s)).
      { intros t'. cbn [asked].
        match goal with |- context [firstn n (rise ?t ?a ++ ?r)] => destruct (prefix_rise (qat m (step_pin h)) (qat m (dir_pin h)) t a r n s) as [->|[n1 ->]] end; [now exists 0%nat|].
        change (driver (qat m (step_pin h)) (qat m (dir_pin h)) s (Rise t' (mask_of (step_pin h) (moves q)))) with (driver (qat m (step_pin h)) (qat m (dir_pin h)) s (Rise 0 (mask_of (step_pin h) (moves q)))). rewrite W.
        match goal with |- context [fold_left _ (firstn n1 (fall ?t ?a ++ ?r)) ?u] => destruct (prefix_fall (qat m (step_pin h)) (qat m (dir_pin h)) t a r n1 u) as [->|[n2 ->]] end; [now exists 1%nat|].
        replace (driver (qat m (step_pin h)) (qat m (dir_pin h)) (walker m s (Pulses.Pulse q)) (Fall (t' + pulse_us h) (mask_of (step_pin h) (moves q)))) with (walker m s (Pulses.Pulse q)).
        2: { cbn [driver]. rewrite step_dir by assumption. now destruct (walker m s (Pulses.Pulse q)). }
        destruct (IH _ _ _ (t' + pulse_us h) (walker m s (Pulses.Pulse q)) n2 EB) as [j ->]. now exists (S j). }
      destruct (z - prev >? 0); cbn [app asked]; apply G.
Qed.
Lemma driver_prefix base size extra (l : list (item N)) d e x rest m n :
  buffer_ok base size -> 0 <= pulse_us h < 2 ^ 26 -> unit_dirs l -> (forall rs, plan h 0 0 l = Ok rs -> short_pauses rs) ->
  reach_in_time h base size extra (begin_move h l None d e) x -> m_pc (x_move x) = MDone ->
  remains extra (d_mem (x_dma x)) (x_eng x) rest ->
  exists j, driven (qat m (step_pin h)) (qat m (dir_pin h)) (firstn n (seen 0 (x_done x ++ rest))) = signed_steps m (firstn j l).
Proof.
  intros B U D S R PC RM. destruct (move_program h base size extra (proj1 B) l None d e x R PC) as (rs & PL & _ & _ & rest' & RM' & Q).
  rewrite (remains_det _ _ _ _ _ RM RM'). rewrite (Q B (plan_sane_short h Hp l U 0 0 rs PL (S rs PL))). exact (plan_prefix m l D 0 0 rs 0 (0, 0) n PL).
Qed.
End Prefix.

Lemma items_from_firstn {N : PyNum} cfg (g : gen N) n : forall j s, exists k, firstn j (items_from cfg g n s) = items_from cfg g k s.
Proof.
  induction n as [|n IH]; intros j s.
  - exists 0%nat. now destruct j.
  - cbn [items_from]. destruct (next cfg g s) as [[[it s']|]|] eqn:E.
    + destruct j as [|j]; [now exists 0%nat|]. destruct (IH j s') as [k Ek]. exists (S k). cbn [items_from firstn]. now rewrite E, Ek.
    + exists 0%nat. now destruct j.
    + exists 0%nat. now destruct j.
Qed.
Lemma items_firstn {N : PyNum} cfg (g : gen N) n j : exists k, firstn j (items cfg g n) = items cfg g k.
Proof. unfold items. destruct (iter_start cfg g) as [s|]; [apply items_from_firstn|exists 0%nat; now destruct j]. Qed.

Section Table.
Variable acos : f64 -> f64.
Notation N := (F64 acos).
Variables (cfg : config) (h : hal_config) (base size : Z) (extra : bool).

(** [s] is the number of net steps of the axis [a] between two signals of one of the moves
    of [es], the moves before it having been played. *)
Inductive during (a : axis) (es : list (GMachine.event N)) : Z -> Prop :=
| during_move es1 g es2 s1 l d e x rest n :
    es = es1 ++ EMove g :: es2 -> played acos cfg h base size extra a es1 s1 ->
    completes cfg g l ->
    (forall rs, plan h 0 0 l = Ok rs -> short_pauses rs) ->
    reach_in_time h base size extra (begin_move h l None d e) x -> m_pc (x_move x) = MDone ->
    remains extra (d_mem (x_dma x)) (x_eng x) rest ->
    during a es
      (s1 + invert (ax a (inverted cfg)) (driven (ax a (step_pin h)) (ax a (dir_pin h)) (firstn n (seen 0 (x_done x ++ rest))))).

Hypothesis Hp : pins_ok h.
Hypothesis Hd : NoDup (used_pins h).
Hypothesis Hb : buffer_ok base size.
Hypothesis Hu : 0 <= pulse_us h < 2 ^ 26.
Hypothesis Hcfg : good_cfg cfg.

(** The same for the items of the generators. *)
Inductive passes (a : axis) (es : list (GMachine.event N)) : Z -> Prop :=
| passes_move es1 g es2 s1 l j :
    es = es1 ++ EMove g :: es2 -> sent acos cfg a es1 s1 -> completes cfg g l ->
    passes a es (s1 + travel (N:=N) cfg (motor_of a) (firstn j l)).
Lemma during_passes a es s : Forall (fun ev => match ev with EMove g => made (N:=N) cfg g | _ => True end) es -> during a es s -> passes a es s.
Proof.
  intros F X. destruct X as [es1 g es2 s1 l d e x rest n -> P C S R PC RM].
  apply Forall_app in F. destruct F as [F1 F2]. apply Forall_inv in F2.
  assert (U: unit_dirs (N:=N) l). { eapply completes_dirs; [|exact F2|exact C]. intros y. cbn. unfold f_copysign1. destruct (Bsign y); auto. }
  destruct (driver_prefix (N:=N) h Hp Hd base size extra l d e x rest (motor_of a) n Hb Hu U S R PC RM) as [j Ej].
  rewrite <- !qat_motor_of, Ej.
  replace (invert _ _) with (travel (N:=N) cfg (motor_of a) (firstn j l)) by (unfold travel, invert; reflexivity).
  eapply passes_move; [reflexivity| |exact C]. eapply played_sent; eassumption.
Qed.

Definition stays (m : GMachine.machine N) (es : list (GMachine.event N)) (m' : GMachine.machine N) : Prop :=
  sends acos cfg m es m' /\ forall a n s, at_step acos cfg m a n -> passes a es s -> 0 <= n + s <= table cfg a * ax a (ppm cfg).
Lemma no_passes a (es : list (GMachine.event N)) s : (forall g, ~ In (EMove g) es) -> ~ passes a es s.
Proof. intros H [es1 g es2 s1 l j -> _ _]. apply (H g). apply in_or_app. right. now left. Qed.
Lemma stays_refl m : stays m [] m.
Proof. split; [apply sends_refl|]. intros a n s _ X. elim (no_passes a [] s); [intros g []|exact X]. Qed.
Lemma passes_other a ev es s : (forall g, ev <> EMove g) -> passes a es s -> passes a (ev :: es) s.
Proof. intros V [es1 g es2 s1 l j -> S C]. apply (passes_move a _ (ev :: es1) g es2); [reflexivity|now apply sent_other|exact C]. Qed.
Lemma passes_again a g l es s : completes cfg g l -> passes a es s -> passes a (EMove g :: es) (travel (N:=N) cfg (motor_of a) l + s).
Proof. intros C' [es1 g1 es2 s1 l1 j -> S C]. rewrite Z.add_assoc. apply (passes_move a _ (EMove g :: es1) g1 es2); [reflexivity|now apply sent_move|exact C]. Qed.
Lemma passes_app a e1 e2 s : passes a (e1 ++ e2) s -> passes a e1 s \/ exists s1 s2, s = s1 + s2 /\ sent acos cfg a e1 s1 /\ passes a e2 s2.
Proof.
  intros [es1 g es2 s1 l j E S C]. revert es1 s1 E S. induction e1 as [|ev e1 IH]; intros es1 s1 E S; cbn [app] in E.
  - right. exists 0, (s1 + travel (N:=N) cfg (motor_of a) (firstn j l)). split; [lia|]. split; [constructor|]. now apply (passes_move a e2 es1 g es2).
  - destruct es1 as [|ev' es1]; cbn [app] in E; injection E as -> E.
    + left. eapply passes_move; [|exact S|exact C]. reflexivity.
    + inversion S as [|ev0 es0 s0 V H' E1 E2|g0 l0 es0 s0 C' H' E1 E2]; subst; destruct (IH es1 _ E H') as [X|(u & v & Es & S1 & X)].
      * left. now apply passes_other.
      * right. exists u, v. split; [exact Es|]. split; [now apply sent_other|exact X].
      * left. rewrite <- Z.add_assoc. now apply passes_again.
      * right. exists (travel (N:=N) cfg (motor_of a) l0 + u), v. split; [rewrite <- Z.add_assoc, Es; lia|]. split; [now apply sent_move|exact X].
Qed.
Lemma stays_trans m1 e1 m2 e2 m3 : stays m1 e1 m2 -> stays m2 e2 m3 -> stays m1 (e1 ++ e2) m3.
Proof.
  intros [S1 H1] [S2 H2]. split; [eapply sends_trans; eassumption|]. intros a n s A X.
  destruct (passes_app _ _ _ _ X) as [Y|(u & v & -> & Y & Z0)]; [now apply H1|]. rewrite Z.add_assoc. apply H2; [now apply S1|exact Z0].
Qed.
Lemma stays_still m m' : m_position m' = m_position m -> stays m [] m'.
Proof. intros E. split; [now apply sends_still|]. intros a n s _ X. elim (no_passes a [] s); [intros g []|exact X]. Qed.
Lemma stays_event m ev m' : m_position m' = m_position m -> (forall g, ev <> EMove g) -> stays m [ev] m'.
Proof. intros E V. split; [now apply sends_event|]. intros a n s _ X. elim (no_passes a [ev] s); [intros g [Q|[]]; now apply (V g)|exact X]. Qed.
Lemma stays_linear hw d v : never_fails_on (is_move acos) hw -> linear_steps cfg hw stays d v.
Proof.
  clear Hu Hb Hp Hd. intros Hn m d' g Hdd Hz Hbb Hg Hf. destruct (sends_linear acos cfg Hcfg hw d v Hn m d' g Hdd Hz Hbb Hg Hf) as [S1 _]. split.
  - split; [exact S1|]. intros a n s A X. inversion X as [es1 g1 es2 s1 l j E S C Es]. subst s.
    destruct es1 as [|ev es1]; cbn [app] in E; [|injection E as _ E; now destruct es1]. injection E as <- _. inversion S; subst.
    destruct (completes_items _ _ _ C) as [i <-]. destruct (items_firstn (N:=N) cfg (GLinear g) i j) as [k ->]. rewrite Z.add_0_l.
    destruct (linear_axis acos cfg Hcfg m d d' a n A Hdd Hbb) as (j0 & Dj & Sj & [_ Ij]). destruct A as [_ In]. unfold inside in In, Ij.
    destruct (make_linear_axes acos cfg d' v g a Hg) as (Hp1 & Hdir & _).
    destruct (axis_pulses acos _ _ (acfg cfg Hcfg a) j0 _ Dj Sj) as [Hp2 Hs]. rewrite Hp1 in Hp2. injection Hp2 as Hp2.
    destruct (line_travel cfg g k (motor_of a)) as [Tr St]. rewrite !qat_motor_of in *. rewrite Tr, Hdir. rewrite Hp2 in St.
    assert (D: f_copysign1 (ax a d') = 1 \/ f_copysign1 (ax a d') = -1) by (unfold f_copysign1; match goal with |- context [if ?b then _ else _] => destruct b end; auto).
    destruct D as [D|D]; rewrite D in *; lia.
  - intros (l & e & He). exfalso. apply (Hn l _ e) in He; [contradiction|]. eexists. reflexivity.
Qed.
Lemma stays_exec hw g c d rr v : never_fails_on (is_move acos) hw -> is_arc c = false -> rel stays (exec_cmd (N:=N) cfg hw g c d rr v).
Proof.
  clear Hu Hb Hp Hd. intros Hn Ha. destruct c; try discriminate Ha; simpl;
    exec_rel stays_refl stays_trans ltac:(first [apply stays_still; reflexivity|apply stays_event; [reflexivity|discriminate]]); try (now apply stays_linear).
  all: intros; now apply stays_linear.
Qed.
Lemma history_stays (P : hw_oracle N -> option gcode -> Prop) m es a s :
  (forall hw gc, P hw gc -> never_fails_on (is_move acos) hw /\ no_arc gc) ->
  history_where P cfg m es -> during a es s -> 0 <= s <= table cfg a * ax a (ppm cfg).
Proof.
  intros HP H X. apply during_passes in X; [|exact (history_made (N:=N) cfg P m es H)].
  apply (history_rel P cfg stays stays_refl stays_trans) in H.
  - destruct H as [_ H]. exact (H a 0 s (init_at acos cfg Hcfg a) X).
  - intros hw gc Hgc. destruct (HP hw gc Hgc) as [Hn Ha].
    apply rel_do_command_if; [exact stays_refl|exact stays_trans|intros; now apply stays_still|].
    intros g t0 c delta radius v E Et Ec. subst gc. apply stays_exec; auto. eapply no_arc_cmd; eauto.
Qed.

(* ---------- sessions of lines ---------- *)
Definition Straight : hw_oracle N -> option gcode -> Prop := fun hw gc => moves_return hw /\ no_arc gc.
Variable hw : hw_oracle N.
Hypothesis Hhw : moves_return hw.
Lemma straight_history f ls s bs s' : answered cfg hw f ls s bs s' -> Forall (fun i => match i with Line l => without ["G2"; "G3"]%string (f l) | Err _ => True end) ls ->
  history_where Straight cfg (s_machine s) (s_log s) -> history_where Straight cfg (s_machine s') (s_log s').
Proof.
  induction 1 as [|l r s s1 b bs s2 E _ IH]; intros O Hh; [exact Hh|]. apply Forall_cons_iff in O. destruct O as [O1 O2]. apply IH; [exact O2|].
  apply do_line_inv in E. destruct E as (g & m' & es & r0 & H & -> & -> & _).
  destruct H as [(Ep & H)|(e & _ & _ & -> & -> & _)]; [|now rewrite app_nil_r].
  eapply h_step; [exact Hh| |exact H]. split; [intros l0 gg e; apply Hhw|]. destruct g as [g|]; [|exact I].
  cbn [no_arc]. destruct (effective_command g) as [t|] eqn:Et.
  - specialize (O1 g t Ep Et). split; intros E; injection E as ->; apply O1; cbn; auto.
  - split; discriminate.
Qed.
End Table.
