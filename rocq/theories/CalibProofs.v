(** Proofs about hal.calibrate. *)
From Coq Require Import ZArith Bool Lia List.
From Verif Require Import PyBase PyNum Config Coordinates Pulses PulseSpec Dma Gpio DmaGpio DmaSpec DmaGpioProofs Pwm Hal HalSpec.
From Coq Require Import List.
Import ListNotations.
Local Open Scope Z_scope.

Section Cal.
Variable h : hal_config.
Hypothesis sep : separate h.
Notation pin m := (qat m (step_pin h)).

Lemma bit_bit p i : 0 <= p -> 0 <= i -> Z.testbit (bit p) i = (i =? p).
Proof.
  intros Hp Hi. unfold bit. rewrite Z.shiftl_1_l. destruct (Z.eqb_spec i p) as [->|D]; [now apply Z.pow2_bits_true|apply Z.pow2_bits_false; lia].
Qed.
Lemma pin_pos m : 0 <= pin m.
Proof. destruct sep as [P _]. specialize (P m). unfold pin_ok in P. lia. Qed.
Lemma pin_inj m m' : pin m = pin m' -> m = m'.
Proof. apply sep. Qed.

(** Step pins of the axes in [s]. *)
Definition pins_of (s : motor -> bool) : Z := cal_start h (s MX) (s MY) (s MZ).
Lemma pins_bit s i : 0 <= i -> Z.testbit (pins_of s) i = (s MX && (i =? pin MX)) || (s MY && (i =? pin MY)) || (s MZ && (i =? pin MZ)).
Proof.
  intros Hi. unfold pins_of, cal_start. pose proof (pin_pos MX). pose proof (pin_pos MY). pose proof (pin_pos MZ). cbn [qat] in *.
  destruct (s MX), (s MY), (s MZ); rewrite ?Z.lor_spec, ?bit_bit, ?Z.bits_0 by lia; cbn [andb orb]; rewrite ?orb_false_r; reflexivity.
Qed.
Lemma pins_nonneg s : 0 <= pins_of s.
Proof.
  assert (B: forall m, 0 <= bit (pin m)) by (intros m; unfold bit; rewrite Z.shiftl_nonneg; lia).
  pose proof (B MX); pose proof (B MY); pose proof (B MZ). cbn [qat] in *.
  unfold pins_of, cal_start. destruct (s MX), (s MY), (s MZ); try lia; rewrite ?Z.lor_nonneg; auto; try (split; [rewrite ?Z.lor_nonneg; auto; try lia|auto]).
Qed.
Lemma pins_bit_axis s m : m <> ME -> Z.testbit (pins_of s) (pin m) = s m.
Proof.
  intros NE. rewrite pins_bit by apply pin_pos.
  assert (K: forall m', (pin m =? pin m') = match m, m' with MX, MX | MY, MY | MZ, MZ | ME, ME => true | _, _ => false end).
  { intros m'. destruct (Z.eqb_spec (pin m) (pin m')) as [E|E]; [apply pin_inj in E; subst m'; now destruct m|]. destruct m, m'; try reflexivity; congruence. }
  rewrite !K. destruct m; try congruence; rewrite ?andb_true_r, ?andb_false_r, ?orb_false_r; reflexivity.
Qed.
Lemma pins_ext s s' : (forall m, m <> ME -> s m = s' m) -> pins_of s = pins_of s'.
Proof. intros H. unfold pins_of. rewrite !H by discriminate. reflexivity. Qed.
Lemma pins_zero s : pins_of s = 0 -> forall m, m <> ME -> s m = false.
Proof. intros E m H. rewrite <- (pins_bit_axis s m H), E. apply Z.bits_0. Qed.

Definition three (w : bool) (r : Z * Z * Z) : bool :=
  let '(a, b, c) := r in Bool.eqb (a =? 1) w && Bool.eqb (b =? 1) w && Bool.eqb (c =? 1) w.
Lemma land_bit p v : 0 <= p -> negb (Z.land (bit p) v =? 0) = Z.testbit v p.
Proof.
  intros Hp. destruct (Z.eqb_spec (Z.land (bit p) v) 0) as [E|E]; cbn [negb].
  - destruct (Z.testbit v p) eqn:T; [|reflexivity]. assert (F: Z.testbit (Z.land (bit p) v) p = true) by (rewrite Z.land_spec, bit_bit, Z.eqb_refl, T by lia; reflexivity).
    rewrite E, Z.bits_0 in F. discriminate.
  - destruct (Z.testbit v p) eqn:T; [reflexivity|]. exfalso. apply E. apply Z.bits_inj'. intros i Hi. rewrite Z.land_spec, bit_bit, Z.bits_0 by lia.
    destruct (Z.eqb_spec i p) as [->|]; [now rewrite T|reflexivity].
Qed.
Lemma check_three pins p r w : 0 <= p -> cal_check pins (bit p) r w = Z.testbit pins p && three w r.
Proof. intros Hp. destruct r as [[a b] c]. unfold cal_check, three. rewrite land_bit by exact Hp. now rewrite !andb_assoc. Qed.
Lemma drop_bit e p pins i : 0 <= p -> 0 <= i -> Z.testbit (cal_drop e (bit p) pins) i = Z.testbit pins i && negb (e && (i =? p)).
Proof.
  intros Hp Hi. unfold cal_drop. destruct e; cbn [andb negb]; [|now rewrite andb_true_r]. rewrite Z.land_spec, Z.lnot_spec, bit_bit by lia. reflexivity.
Qed.

Definition raw (k : look) (m : motor) : Z * Z * Z := match m with MX => k_x k | MY => k_y k | _ => k_z k end.
Definition hit (w : motor -> bool) (k : look) (m : motor) : bool := three (w m) (raw k m).
Definition left_ (w : motor -> bool) (k : look) (s : motor -> bool) (m : motor) : bool := s m && negb (hit w k m).

Lemma cal_pins_left w k s : cal_pins h (w MX) (w MY) (w MZ) k (pins_of s) = pins_of (left_ w k s).
Proof.
  apply Z.bits_inj'. intros i Hi. unfold cal_pins.
  pose proof (pin_pos MX). pose proof (pin_pos MY). pose proof (pin_pos MZ). cbn [qat] in *.
  rewrite !drop_bit, !check_three by assumption.
  pose proof (pins_bit_axis s MX ltac:(discriminate)) as X. pose proof (pins_bit_axis s MY ltac:(discriminate)) as Y. pose proof (pins_bit_axis s MZ ltac:(discriminate)) as Z.
  cbn [qat] in X, Y, Z. rewrite X, Y, Z. rewrite !pins_bit by assumption. cbn [qat].
  unfold left_, hit. cbn [raw].
  assert (D1: i =? qx (step_pin h) = true -> i =? qy (step_pin h) = true -> False).
  { intros E1 E2. apply Z.eqb_eq in E1, E2. pose proof (pin_inj MX MY) as K. cbn [qat] in K. discriminate K; congruence. }
  assert (D2: i =? qx (step_pin h) = true -> i =? qz (step_pin h) = true -> False).
  { intros E1 E2. apply Z.eqb_eq in E1, E2. pose proof (pin_inj MX MZ) as K. cbn [qat] in K. discriminate K; congruence. }
  assert (D3: i =? qy (step_pin h) = true -> i =? qz (step_pin h) = true -> False).
  { intros E1 E2. apply Z.eqb_eq in E1, E2. pose proof (pin_inj MY MZ) as K. cbn [qat] in K. discriminate K; congruence. }
  destruct (i =? qx (step_pin h)), (i =? qy (step_pin h)), (i =? qz (step_pin h)); try (exfalso; tauto);
    destruct (s MX), (s MY), (s MZ), (three (w MX) (k_x k)), (three (w MY) (k_y k)), (three (w MZ) (k_z k)); reflexivity.
Qed.

Variable base size : Z.

(** What a round does after the readings. *)
Inductive round_shape (delay pins last : Z) : list cal_event -> option (res bool) -> Prop :=
| rs_same ev v : pins = last -> ev = [] \/ ev = [CRun] -> v <> Some (Ok true) -> round_shape delay pins last ev v
| rs_all : pins <> last -> pins = 0 -> round_shape delay pins last [CStop] (Some (Ok true))
| rs_fail v : pins <> last -> v <> None -> v <> Some (Ok true) -> round_shape delay pins last [CStop] v
| rs_new ev v : pins <> last -> ev = [] \/ ev = [CRun] -> v <> Some (Ok true) ->
    round_shape delay pins last (CStop :: CProgram pins (cal_program h pins delay) :: ev) v.
Lemma round_cases delay k pins last d ev d' v : cal_round h base size delay k pins last d = (ev, d', v) -> round_shape delay pins last ev v.
Proof.
  assert (R: forall d ev d' r, cal_run base size k d = (ev, d', r) -> ev = [] \/ ev = [CRun]).
  { intros d1 ev1 d1' r. unfold cal_run. destruct (k_active k); [intros [= <- _ _]; auto|]. destruct (run base size d1 false) as [d2 [u|e]]; intros [= <- _ _]; auto. }
  unfold cal_round. destruct (Z.eqb_spec pins last) as [E|E].
  - destruct (cal_run base size k d) as [[ev1 d1] [u|e]] eqn:EQ; intros [= <- _ <-]; apply rs_same; eauto; discriminate.
  - destruct (Z.eqb_spec pins 0) as [E0|E0]; [intros [= <- _ <-]; now apply rs_all|].
    destruct (adds base size (clear d) (cal_program h pins delay)) as [d1 [u|e]]; [|intros [= <- _ <-]; apply rs_fail; [assumption|discriminate|discriminate]].
    destruct (finalize_stream base size d1) as [d2 [u'|e]]; [|intros [= <- _ <-]; apply rs_fail; [assumption|discriminate|discriminate]].
    destruct (cal_run base size k d2) as [[ev1 d3] [u''|e]] eqn:EQ; intros [= <- _ <-]; apply rs_new; eauto; discriminate.
Qed.

Section Loop.
Variable w : motor -> bool.
Variable delay : Z.
Notation loop := (cal_loop h base size (w MX) (w MY) (w MZ) delay).

(** One round and the rest. *)
Lemma loop_cons k r s last d ev d' v r' : loop (k :: r) (pins_of s) last d = (ev, d', v, r') ->
  (k_go k = false /\ ev = [] /\ v = Some (Ok false)) \/
  (exists ev1 d1, round_shape delay (pins_of (left_ w k s)) last ev1 v /\ v <> None /\ ev = CLook k :: ev1 /\ d1 = d') \/
  (exists ev1 ev2 d1, round_shape delay (pins_of (left_ w k s)) last ev1 None /\
     loop r (pins_of (left_ w k s)) (pins_of (left_ w k s)) d1 = (ev2, d', v, r') /\ ev = CLook k :: ev1 ++ ev2).
Proof.
  cbn [cal_loop]. destruct (k_go k); cbn [negb]; [|intros [= <- _ <- _]; left; auto]. rewrite cal_pins_left.
  destruct (cal_round h base size delay k (pins_of (left_ w k s)) last d) as [[ev1 d1] [v1|]] eqn:E.
  - intros [= <- <- <- <-]. right; left. exists ev1, d1. apply round_cases in E. repeat split; auto. discriminate.
  - destruct (loop r (pins_of (left_ w k s)) (pins_of (left_ w k s)) d1) as [[[ev2 d2] v2] r2] eqn:E2. intros [= <- <- <- <-].
    right; right. exists ev1, ev2, d1. apply round_cases in E. auto.
Qed.

Lemma shape_program p last ev v q l : round_shape delay p last ev v -> In (CProgram q l) ev -> q = p /\ l = cal_program h p delay.
Proof.
  intros R I. destruct R as [ev v _ [->| ->]| | |ev v _ [->| ->]]; cbn in I; intuition (try congruence; try discriminate).
Qed.
Lemma shape_look p last ev v k : round_shape delay p last ev v -> ~ In (CLook k) ev.
Proof. intros R I. destruct R as [ev v _ [->| ->]| | |ev v _ [->| ->]]; cbn in I; intuition discriminate. Qed.

Lemma loop_programs looks : forall s last d ev d' v r', loop looks (pins_of s) last d = (ev, d', v, r') ->
  forall q l, In (CProgram q l) ev -> (exists s', (forall m, s' m = true -> s m = true) /\ q = pins_of s') /\ l = cal_program h q delay.
Proof.
  induction looks as [|k r IH]; intros s last d ev d' v r' E q l I.
  - cbn in E. injection E as <- _ _ _. destruct I.
  - assert (L: forall m, left_ w k s m = true -> s m = true) by (intros m H; unfold left_ in H; now apply andb_true_iff in H).
    destruct (loop_cons _ _ _ _ _ _ _ _ _ E) as [(_ & -> & _)|[(ev1 & d1 & R & _ & -> & _)|(ev1 & ev2 & d1 & R & E2 & ->)]]; cbn [In] in I.
    + destruct I.
    + destruct I as [I|I]; [discriminate|]. destruct (shape_program _ _ _ _ _ _ R I) as [-> ->]. split; [exists (left_ w k s); auto|reflexivity].
    + destruct I as [I|I]; [discriminate|]. apply in_app_or in I. destruct I as [I|I].
      * destruct (shape_program _ _ _ _ _ _ R I) as [-> ->]. split; [exists (left_ w k s); auto|reflexivity].
      * destruct (IH _ _ _ _ _ _ _ E2 q l I) as [(s' & S1 & S2) S3]. split; [exists s'; auto|exact S3].
Qed.

Lemma loop_true looks : forall s last d ev d' r', loop looks (pins_of s) last d = (ev, d', Some (Ok true), r') ->
  forall m, m <> ME -> s m = true -> exists k, In (CLook k) ev /\ hit w k m = true.
Proof.
  induction looks as [|k r IH]; intros s last d ev d' r' E m NE S; [discriminate|].
  destruct (hit w k m) eqn:HT.
  { destruct (loop_cons _ _ _ _ _ _ _ _ _ E) as [(_ & _ & E1)|[(ev1 & d1 & R & _ & -> & _)|(ev1 & ev2 & d1 & R & E2 & ->)]]; [discriminate| |]; exists k; cbn; auto. }
  assert (SL: left_ w k s m = true) by (unfold left_; now rewrite S, HT).
  destruct (loop_cons _ _ _ _ _ _ _ _ _ E) as [(_ & _ & E1)|[(ev1 & d1 & R & _ & -> & _)|(ev1 & ev2 & d1 & R & E2 & ->)]]; [discriminate| |].
  - assert (P0: pins_of (left_ w k s) = 0) by (inversion R; congruence). rewrite (pins_zero _ P0 m NE) in SL. discriminate.
  - destruct (IH _ _ _ _ _ _ E2 m NE SL) as (k' & I & H'). exists k'. split; [|exact H']. cbn [In]. right. apply in_or_app. now right.
Qed.

(** Motor [m] is not driven and will not be. *)
Definition off (m : motor) (st : Z * Z) : Prop := Z.testbit (fst st) (pin m) = false /\ Z.testbit (snd st) (pin m) = false.
Lemma off_effect m st e : off m st -> (forall q l, e = CProgram q l -> Z.testbit q (pin m) = false) -> off m (cal_effect st e).
Proof.
  intros [A B] H. destruct e; cbn [cal_effect]; try (split; assumption); split; cbn [fst snd]; auto using Z.bits_0.
  eapply H. reflexivity.
Qed.
Lemma off_driven m l : forall st, off m st -> (forall q r, In (CProgram q r) l -> Z.testbit q (pin m) = false) -> off m (fold_left cal_effect l st).
Proof.
  induction l as [|e l IH]; intros st O H; [exact O|]. cbn [fold_left]. apply IH; [apply off_effect; [exact O|]|].
  - intros q r ->. eapply H. now left.
  - intros q r I. eapply H. right. exact I.
Qed.

(** Anything may run before the first round, which stops it; later only axes that are
    still moving are in the program. *)
Definition known (s : motor -> bool) (last : Z) (st : Z * Z) : Prop :=
  last < 0 \/ (last = pins_of s /\ forall m, m <> ME -> s m = false -> off m st).

Lemma prog_off s' m q : (exists s2, (forall m, s2 m = true -> s' m = true) /\ q = pins_of s2) -> m <> ME -> s' m = false -> Z.testbit q (pin m) = false.
Proof.
  intros (s2 & S1 & ->) NE S. rewrite pins_bit_axis by exact NE. destruct (s2 m) eqn:E; [|reflexivity]. apply S1 in E. congruence.
Qed.

Lemma loop_stops looks : forall s last d ev d' v r' st, loop looks (pins_of s) last d = (ev, d', v, r') -> known s last st ->
  forall l1 k l2 m, ev = l1 ++ CLook k :: l2 -> m <> ME -> hit w k m = true -> 
  forall pre post, l2 = pre ++ post -> pre <> [] \/ post = [] -> Z.testbit (driven st (l1 ++ CLook k :: pre)) (pin m) = false.
Proof.
  induction looks as [|k0 r IH]; intros s last d ev d' v r' st E KN l1 k l2 m EV NE HT pre post L2 PP.
  - cbn in E. injection E as <- _ _ _. destruct l1; discriminate.
  - set (s' := left_ w k0 s) in *.
    assert (HEAD: forall ev1 ev2 v1, round_shape delay (pins_of s') last ev1 v1 -> (v1 <> None -> ev2 = []) ->
       (forall q l, In (CProgram q l) ev2 -> exists s2, (forall m, s2 m = true -> s' m = true) /\ q = pins_of s2) ->
       hit w k0 m = true -> ev1 ++ ev2 = pre ++ post -> Z.testbit (driven st (CLook k0 :: pre)) (pin m) = false).
    { intros ev1 ev2 v1 R NV PR H0 EQ. assert (S': s' m = false) by (unfold s', left_; rewrite H0; apply andb_false_r).
      assert (PB: Z.testbit (pins_of s') (pin m) = false) by (rewrite pins_bit_axis; assumption).
      assert (PQ: forall q l, In (CProgram q l) (ev1 ++ ev2) -> Z.testbit q (pin m) = false).
      { intros q l I. apply in_app_or in I. destruct I as [I|I]; [destruct (shape_program _ _ _ _ _ _ R I) as [-> _]; exact PB|].
        eapply prog_off; [eapply PR, I|exact NE|exact S']. }
      assert (PQ': forall q l, In (CProgram q l) pre -> Z.testbit q (pin m) = false) by (intros q l I; apply (PQ q l); rewrite EQ; apply in_or_app; now left).
      unfold driven. cbn [fold_left cal_effect].
      destruct (Z.eq_dec (pins_of s') last) as [EL|NL].
      - (* nothing changed: the axis was off before *)
        destruct KN as [KN|[KN1 KN2]]; [pose proof (pins_nonneg s'); lia|].
        assert (SM: s m = false). { rewrite <- (pins_bit_axis s m NE), <- KN1, <- EL. exact PB. }
        apply off_driven; [apply KN2; assumption|exact PQ'].
      - (* the engine is stopped first *)
        assert (C: exists t, ev1 = CStop :: t) by (inversion R; subst; eauto; contradiction). destruct C as [t ->].
        destruct pre as [|e0 pre].
        + destruct PP as [PP|PP]; [congruence|]. subst post. discriminate EQ.
        + cbn [app] in EQ. injection EQ as <- EQ. cbn [fold_left cal_effect fst].
          clear PP. assert (K: forall l a, (forall q x, In (CProgram q x) l -> Z.testbit q (pin m) = false) -> (Z.testbit a (pin m) = false \/ match l with CRun :: _ => False | _ => True end) -> 
                     (match l with CProgram _ _ :: _ | [] => True | _ => Z.testbit a (pin m) = false end) -> Z.testbit (snd (fold_left cal_effect l (a, 0))) (pin m) = false).
          { intros l a HL _ HA. destruct l as [|e l]; [apply Z.bits_0|]. destruct e; cbn [fold_left cal_effect fst snd].
            - apply off_driven; [split; [exact HA|apply Z.bits_0]|]. intros; eapply HL; right; eassumption.
            - apply off_driven; [split; [exact HA|apply Z.bits_0]|]. intros; eapply HL; right; eassumption.
            - apply off_driven; [split; [exact HA|apply Z.bits_0]|]. intros; eapply HL; right; eassumption.
            - apply off_driven; [split; [eapply HL; now left|apply Z.bits_0]|]. intros; eapply HL; right; eassumption.
            - apply off_driven; [split; exact HA|]. intros; eapply HL; right; eassumption. }
          assert (T: (t = [] /\ ev2 = []) \/ exists t', t = CProgram (pins_of s') (cal_program h (pins_of s') delay) :: t').
          { inversion R; subst.
            - match goal with H : _ \/ _ |- _ => destruct H as [HH|HH]; discriminate HH end.
            - left. split; [reflexivity|]. apply NV. discriminate.
            - left. split; [reflexivity|]. now apply NV.
            - right. eauto. }
          destruct T as [[-> ->]|[t' ->]].
          * destruct pre as [|e1 pre]; [apply Z.bits_0|discriminate EQ].
          * destruct pre as [|e1 pre]; [apply Z.bits_0|]. cbn [app] in EQ. injection EQ as <- EQ.
            apply K; [intros q x IN; apply (PQ' q x); now right|now right|exact I]. }
    destruct (loop_cons _ _ _ _ _ _ _ _ _ E) as [(_ & EN & _)|[(ev1 & d1 & R & NV & EN & _)|(ev1 & ev2 & d1 & R & E2 & EN)]]; rewrite EN in EV.
    + destruct l1; discriminate.
    + destruct l1 as [|e0 l1]; cbn [app] in EV |- *.
      * injection EV as <- EV. apply (HEAD ev1 [] v); auto; [intros q l []|]. rewrite app_nil_r. congruence.
      * injection EV as <- EV. exfalso. apply (shape_look _ _ _ _ k R). rewrite EV. apply in_or_app. right. now left.
    + assert (PR: forall q l, In (CProgram q l) ev2 -> exists s2, (forall m, s2 m = true -> s' m = true) /\ q = pins_of s2).
      { intros q l I. destruct (loop_programs _ _ _ _ _ _ _ _ E2 q l I) as [P _]. exact P. }
      destruct l1 as [|e0 l1]; cbn [app] in EV |- *.
      * injection EV as <- EV. apply (HEAD ev1 ev2 None); auto; [congruence|congruence].
      * injection EV as <- EV.
        assert (SPL: exists l1', l1 = ev1 ++ l1' /\ ev2 = l1' ++ CLook k :: l2).
        { assert (NL: ~ In (CLook k) ev1) by exact (shape_look _ _ _ _ k R). clear - EV NL. revert l1 EV. induction ev1 as [|a ev1 IHe]; intros l1 EV.
          - exists l1. auto.
          - destruct l1 as [|b l1]; cbn [app] in EV.
            + injection EV as -> _. exfalso. apply NL. now left.
            + injection EV as <- EV. destruct (IHe ltac:(intros I; apply NL; now right) l1 EV) as (l1' & -> & ->). exists l1'. auto. }
        destruct SPL as (l1' & -> & EV2). unfold driven. cbn [fold_left cal_effect]. rewrite <- app_assoc, fold_left_app.
        change (Z.testbit (driven (fold_left cal_effect ev1 st) (l1' ++ CLook k :: pre)) (pin m) = false).
        refine (IH _ _ _ _ _ _ _ _ E2 _ l1' k l2 m EV2 NE HT pre post L2 PP).
        right. split; [reflexivity|]. intros m' NE' S'. fold s' in S'.
        assert (PB: Z.testbit (pins_of s') (pin m') = false) by (rewrite pins_bit_axis; assumption).
        destruct (Z.eq_dec (pins_of s') last) as [EL|NL].
        { destruct KN as [KN|[KN1 KN2]]; [pose proof (pins_nonneg s'); lia|].
          apply off_driven; [apply KN2; [exact NE'|]|].
          - rewrite <- (pins_bit_axis s m' NE'), <- KN1, <- EL. exact PB.
          - intros q x I. destruct (shape_program _ _ _ _ _ _ R I) as [-> _]. exact PB. }
        inversion R; subst; try contradiction; try congruence.
        cbn [fold_left cal_effect fst snd]. apply off_driven; [split; [exact PB|apply Z.bits_0]|].
        intros q x I. match goal with H : _ \/ _ |- _ => destruct H as [->| ->] end; cbn in I; intuition discriminate.
Qed.
(** Programs after the end stop of an axis was seen do not move it. *)
Lemma loop_after looks : forall s last d ev d' v r', loop looks (pins_of s) last d = (ev, d', v, r') ->
  forall l1 k l2 m, ev = l1 ++ CLook k :: l2 -> m <> ME -> hit w k m = true ->
  forall q l, In (CProgram q l) l2 -> Z.testbit q (pin m) = false.
Proof.
  induction looks as [|k0 r IH]; intros s last d ev d' v r' E l1 k l2 m EV NE HT q l I.
  - cbn in E. injection E as <- _ _ _. destruct l1; discriminate.
  - assert (ST: hit w k0 m = true -> left_ w k0 s m = false) by (intros H; unfold left_; rewrite H; apply andb_false_r).
    destruct (loop_cons _ _ _ _ _ _ _ _ _ E) as [(_ & EN & _)|[(ev1 & d1 & R & NV & EN & _)|(ev1 & ev2 & d1 & R & E2 & EN)]]; rewrite EN in EV.
    + destruct l1; discriminate.
    + destruct l1 as [|e0 l1]; cbn [app] in EV.
      * injection EV as <- <-. destruct (shape_program _ _ _ _ _ _ R I) as [-> _]. rewrite pins_bit_axis by exact NE. auto.
      * injection EV as <- EV. exfalso. apply (shape_look _ _ _ _ k R). rewrite EV. apply in_or_app. right. now left.
    + destruct l1 as [|e0 l1]; cbn [app] in EV.
      * injection EV as <- <-. apply in_app_or in I. destruct I as [I|I].
        { destruct (shape_program _ _ _ _ _ _ R I) as [-> _]. rewrite pins_bit_axis by exact NE. auto. }
        destruct (loop_programs _ _ _ _ _ _ _ _ E2 q l I) as [P _]. eapply prog_off; eauto.
      * injection EV as <- EV.
        assert (SPL: exists l1', l1 = ev1 ++ l1' /\ ev2 = l1' ++ CLook k :: l2).
        { assert (NL: ~ In (CLook k) ev1) by exact (shape_look _ _ _ _ k R). clear - EV NL. revert l1 EV. induction ev1 as [|a ev1 IHe]; intros l1 EV.
          - exists l1. auto.
          - destruct l1 as [|b l1]; cbn [app] in EV.
            + injection EV as -> _. exfalso. apply NL. now left.
            + injection EV as <- EV. destruct (IHe ltac:(intros J; apply NL; now right) l1 EV) as (l1' & -> & ->). exists l1'. auto. }
        destruct SPL as (l1' & -> & EV2). eapply IH; eauto.
Qed.
(** Success ends with dma.stop(). *)
Lemma loop_last looks : forall s last d ev d' r', loop looks (pins_of s) last d = (ev, d', Some (Ok true), r') -> exists ev', ev = ev' ++ [CStop].
Proof.
  induction looks as [|k r IH]; intros s last d ev d' r' E; [discriminate|].
  destruct (loop_cons _ _ _ _ _ _ _ _ _ E) as [(_ & _ & E1)|[(ev1 & d1 & R & _ & -> & _)|(ev1 & ev2 & d1 & R & E2 & ->)]]; [discriminate| |].
  - inversion R; try congruence. exists [CLook k]. reflexivity.
  - destruct (IH _ _ _ _ _ _ E2) as [ev' ->]. exists (CLook k :: ev1 ++ ev'). cbn [app]. now rewrite app_assoc.
Qed.
End Loop.
End Cal.

(** Levels that end a phase. *)
Definition goal_level (h : hal_config) (invert : bool) (m : motor) : bool :=
  if invert then negb (zero_level h m) else zero_level h m.
Definition asked_axes (x y z : bool) (m : motor) : bool := match m with MX => x | MY => y | MZ => z | ME => false end.

Lemma three_all w r : three w r = true <-> all_read w (let '(a, b, c) := r in [a; b; c]).
Proof.
  destruct r as [[a b] c]. unfold three, all_read. rewrite !andb_true_iff, !eqb_true_iff.
  assert (K: forall v, (v =? 1) = w <-> (v = 1 <-> w = true)).
  { intros v. rewrite <- Z.eqb_eq. destruct (v =? 1), w; intuition congruence. }
  split.
  - intros [[H1 H2] H3]. repeat constructor; now apply K.
  - intros F. inversion F as [|? ? F1 F']; subst. inversion F' as [|? ? F2 F'']; subst. inversion F'' as [|? ? F3 _]; subst. repeat split; now apply K.
Qed.
Lemma hit_all w k m : hit w k m = true <-> all_read (w m) (readings k m).
Proof. unfold hit. rewrite three_all. unfold readings, raw. reflexivity. Qed.

Section Phase.
Variable h : hal_config.
Hypothesis sep : separate h.
Variable base size : Z.
Variable N : PyNum.
Variable cfg : config.

Lemma phase_cases x y z inv looks d ev d' v r : cal_phase h base size N cfg x y z inv looks d = (ev, d', v, r) ->
  (exists p q s b1 b2 b3, ev = [CDir p b1; CDir q b2; CDir s b3] /\ v <> Some (Ok true)) \/
  (exists p q s b1 b2 b3 ev' delay, ev = [CDir p b1; CDir q b2; CDir s b3] ++ ev' /\ cal_delay h N cfg = Ok delay /\
    cal_loop h base size (goal_level h inv MX) (goal_level h inv MY) (goal_level h inv MZ) delay looks
      (pins_of h (asked_axes x y z)) (Z.lnot (pins_of h (asked_axes x y z))) d = (ev', d', v, r)).
Proof.
  unfold cal_phase. destruct (cal_delay h N cfg) as [delay|e]; [|intros [= <- _ <- _]; left; do 6 eexists; split; [reflexivity|discriminate]].
  intros E. right. cbv zeta in E.
  assert (G: forall m b, (match m with MX => stop_inv_x h | MY => stop_inv_y h | _ => stop_inv_z h end) = b -> (if inv then negb b else b) = goal_level h inv m) by (intros m b <-; unfold goal_level, zero_level; reflexivity).
  rewrite (G MX _ eq_refl), (G MY _ eq_refl), (G MZ _ eq_refl) in E.
  change (cal_start h x y z) with (pins_of h (asked_axes x y z)) in E.
  destruct (cal_loop h base size (goal_level h inv MX) (goal_level h inv MY) (goal_level h inv MZ) delay looks
      (pins_of h (asked_axes x y z)) (Z.lnot (pins_of h (asked_axes x y z))) d) as [[[ev' d''] v'] r'] eqn:EL.
  injection E as <- <- <- <-. do 8 eexists. split; [reflexivity|]. split; [reflexivity|exact EL].
Qed.

Lemma phase_true x y z inv looks d ev d' r : cal_phase h base size N cfg x y z inv looks d = (ev, d', Some (Ok true), r) ->
  forall m, asked_axes x y z m = true -> exists k, In (CLook k) ev /\ all_read (goal_level h inv m) (readings k m).
Proof.
  intros E m A. destruct (phase_cases _ _ _ _ _ _ _ _ _ _ E) as [(? & ? & ? & ? & ? & ? & _ & V)|(? & ? & ? & ? & ? & ? & ev' & delay & -> & _ & L)]; [congruence|].
  assert (NE: m <> ME) by (intros ->; discriminate).
  destruct (loop_true h sep base size (goal_level h inv) delay looks _ _ _ _ _ _ L m NE A) as (k & I & H).
  exists k. split; [apply in_or_app; now right|now apply hit_all].
Qed.

Lemma phase_programs x y z inv looks d ev d' v r : cal_phase h base size N cfg x y z inv looks d = (ev, d', v, r) ->
  forall q l, In (CProgram q l) ev -> 
    (forall i, 0 <= i -> Z.testbit q i = true -> exists m, asked_axes x y z m = true /\ i = qat m (step_pin h)) /\
    (forall msk us, In (DmaGpio.Pulse msk us) l -> msk = q) /\ (forall a b, ~ In (SetClear a b) l).
Proof.
  intros E q l I. destruct (phase_cases _ _ _ _ _ _ _ _ _ _ E) as [(? & ? & ? & ? & ? & ? & -> & V)|(? & ? & ? & ? & ? & ? & ev' & delay & -> & _ & L)].
  { cbn in I. intuition discriminate. }
  apply in_app_or in I. destruct I as [I|I]; [cbn in I; intuition discriminate|].
  destruct (loop_programs h sep base size (goal_level h inv) delay looks _ _ _ _ _ _ _ L q l I) as [(s' & S1 & ->) ->].
  split; [|].
  - intros i Hi B. rewrite pins_bit in B by assumption. 
    apply orb_true_iff in B. destruct B as [B|B]; [apply orb_true_iff in B; destruct B as [B|B]|]; apply andb_true_iff in B; destruct B as [B1 B2]; apply Z.eqb_eq in B2; eauto.
  - assert (K: forall e, In e (cal_program h (pins_of h s') delay) -> e = DmaGpio.Pulse (pins_of h s') (pulse_us h) \/ e = Delay delay).
    { intros e. unfold cal_program. rewrite in_concat. intros (c & C1 & C2). apply repeat_spec in C1. subst c. cbn in C2. intuition auto. }
    split; [intros msk us J|intros a b J]; apply K in J; destruct J as [J|J]; try discriminate. now injection J as -> _.
Qed.

Lemma phase_stops x y z inv looks d ev d' v r : cal_phase h base size N cfg x y z inv looks d = (ev, d', v, r) ->
  forall st l1 k l2 m, ev = l1 ++ CLook k :: l2 -> m <> ME -> all_read (goal_level h inv m) (readings k m) ->
  (forall q l, In (CProgram q l) l2 -> Z.testbit q (qat m (step_pin h)) = false) /\
  forall pre post, l2 = pre ++ post -> pre <> [] \/ post = [] -> Z.testbit (driven st (l1 ++ CLook k :: pre)) (qat m (step_pin h)) = false.
Proof.
  intros E st l1 k l2 m EV NE A. destruct (phase_cases _ _ _ _ _ _ _ _ _ _ E) as [(? & ? & ? & ? & ? & ? & -> & V)|(? & ? & ? & ? & ? & ? & ev' & delay & -> & _ & L)].
  { exfalso. do 4 (destruct l1 as [|? l1]; cbn in EV; try discriminate; try (injection EV; intros; congruence)). }
  cbn [app] in EV. do 3 (destruct l1 as [|? l1]; cbn [app] in EV; [discriminate|injection EV as <- EV]).
  apply hit_all in A.
  assert (KN: forall st, known h (asked_axes x y z) (Z.lnot (pins_of h (asked_axes x y z))) st).
  { intros st0. left. pose proof (pins_nonneg h (asked_axes x y z)). unfold Z.lnot. lia. }
  pose proof (loop_stops h sep base size (goal_level h inv) delay looks _ _ _ _ _ _ _ st L (KN st) l1 k l2 m EV NE A) as P.
  split.
  - (* a program is either driven later or not, but its pins are known *)
    intros q l I. apply in_split in I. destruct I as (u1 & u2 & ->).
    eapply loop_after; eauto. apply in_or_app. right. now left.
  - exact P.
Qed.

Lemma phase_last x y z inv looks d ev d' r : cal_phase h base size N cfg x y z inv looks d = (ev, d', Some (Ok true), r) ->
  forall st, driven st ev = 0.
Proof.
  intros E st. destruct (phase_cases _ _ _ _ _ _ _ _ _ _ E) as [(? & ? & ? & ? & ? & ? & _ & V)|(? & ? & ? & ? & ? & ? & ev' & delay & -> & _ & L)]; [congruence|].
  destruct (loop_last h sep base size (goal_level h inv) delay looks _ _ _ _ _ _ L) as [ev2 ->]. unfold driven. rewrite !fold_left_app. reflexivity.
Qed.
End Phase.
