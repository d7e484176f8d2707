(** Proofs about the spindle (C85). *)
From Coq Require Import String ZArith Bool Lia List Reals Lra.
From Flocq Require Import Core BinarySingleNaN.
From Verif Require Import PyBase PyNum PyFloatFacts Config Coordinates Pulses GCode GMachine GMachineProofs MachineFacts MachineRel MachineHist MachineFloat MachineArc
  Dma Gpio Pwm PwmSpec PwmFloat Hal Outputs OutputsSpec.
From Verif Require Import GMachine MachineRel.
From Coq Require Import List.
Import ListNotations.

Ltac exec_rel Hr Ht side :=
  unfold spindle, fan, heat;
  repeat first
    [ apply rel_lift; exact Hr | apply rel_ret; exact Hr | apply rel_throw; exact Hr
    | apply rel_gets; exact Hr | apply rel_fail_if; exact Hr
    | apply rel_move_linear; [exact Hr|] | apply rel_move_circular; [exact Hr|]
    | apply rel_safe_zero; [exact Hr|exact Ht|]
    | apply rel_call; intros ? | apply rel_measure; intros ? | apply rel_measure_opt; intros ?
    | apply rel_modify; intros ?
    | apply rel_bind; [exact Ht| |intros ?]
    | match goal with |- rel _ (match ?x with _ => _ end) => destruct x end ];
  try side.

Section Quiet.
Context {N : PyNum}.
Variable cfg : config.
(* ---------- other commands leave the spindle alone ---------- *)
Definition quiet (m : machine N) (es : list (event N)) (m' : machine N) : Prop := forall p, ~ In (ESpindle p) es.
Lemma quiet_refl m : quiet m [] m. Proof. intros p []. Qed.
Lemma quiet_trans m1 e1 m2 e2 m3 : quiet m1 e1 m2 -> quiet m2 e2 m3 -> quiet m1 (e1 ++ e2) m3.
Proof. intros H1 H2 p H. apply in_app_or in H. destruct H; [exact (H1 p H)|exact (H2 p H)]. Qed.
Ltac quiet_side := let p := fresh in let H := fresh in intros p H; simpl in H; repeat destruct H as [H|H]; try discriminate; contradiction.
Lemma quiet_linear hw d v : linear_steps cfg hw quiet d v.
Proof. intros m d' g Hd Hz Hb Hg Hf. split; [|intros _]; quiet_side. Qed.
Lemma quiet_arc hw d rr v rot : arc_steps cfg hw quiet d rr v rot.
Proof.
  intros m ce ld g lg H. split; [destruct lg; quiet_side|].
  intros p ev s E _ q Hin.
  assert (Hin2: In (ESpindle q) (arc_events g lg)).
  { rewrite E. apply in_app_or in Hin. apply in_or_app. destruct Hin as [Hin|[Hin|[]]]; auto. right. now left. }
  destruct lg; simpl in Hin2; repeat destruct Hin2 as [Hin2|Hin2]; try discriminate; contradiction.
Qed.
Definition drives (c : cmd) : bool := match c with M3 | M5 => true | _ => false end.
Lemma quiet_exec hw g c d rr v : drives c = false -> rel quiet (exec_cmd cfg hw g c d rr v).
Proof.
  intros Hd. destruct c as [| | | | | | | | | | | | | | | | | | |h w| | | | | | |]; try discriminate Hd; clear Hd.
  all: simpl; exec_rel quiet_refl quiet_trans quiet_side; try apply quiet_linear; try apply quiet_arc.
  all: intros; apply quiet_linear.
Qed.
Lemma quiet_command hw g (m m' : machine N) es r : run_command cfg hw (Some g) m = (m', es, r) ->
  effective_command g <> Some (tx "M3") -> effective_command g <> Some (tx "M5") -> forall p, ~ In (ESpindle p) es.
Proof.
  intros H N3 N5. unfold run_command in H. apply do_command_inv in H.
  destruct H as [e|delta v radius Hd Hvel Hr Hmin He|delta v radius t c m1 l1 r Hd Hvel Hr Hmin He Ha Hx]; [intros p []|intros p []|].
  assert (D: drives c = false).
  { apply assoc_text_In in Ha. destruct (drives c) eqn:E; [|reflexivity]. exfalso. simpl in Ha.
    repeat (destruct Ha as [Ha|Ha]; [injection Ha as <- <-; try discriminate E; first [exact (N3 He)|exact (N5 He)]|]). contradiction. }
  destruct (quiet_exec hw g c delta radius v D _ _ _ _ _ Hx) as (es & -> & Q). exact Q.
Qed.
(** A rejected M3 or M5, if the hardware does not refuse it, does nothing. *)
Definition calm_spindle (hw : hw_oracle N) : Prop := never_fails_on (fun ev => ev = EJoin \/ exists p, ev = ESpindle p) hw.
Lemma rejected_quiet hw g (m m' : machine N) es e : calm_spindle hw -> run_command cfg hw (Some g) m = (m', es, Raise e) ->
  (forall s, exists q, div (mul (ofZ 100) s) (ofZ (spindle_max_rpm cfg)) = Ok q :> res N) ->
  effective_command g = Some (tx "M3") \/ effective_command g = Some (tx "M5") -> (forall p, ~ In (ESpindle p) es) /\ m_spindle_rpm m' = m_spindle_rpm m.
Proof.
  intros Hc H Hd [Ht|Ht].
  - destruct (exec_inv cfg _ _ _ _ _ _ _ M3 Ht eq_refl H) as [(-> & -> & _)|(d & v & rr & m1 & _ & Hx & ->)]; [split; [intros p []|reflexivity]|].
    simpl in Hx. unfold spindle in Hx. minv; try (split; [intros p []|reflexivity]).
    all: match goal with
         | K : calm_spindle _, F : _ _ _ = HRaise _ |- _ => exfalso; eapply K; [|exact F]; eauto
         | K : forall s, exists q, div (mul _ s) _ = Ok q, E : Raise _ = div (mul _ ?s) _ |- _ => destruct (K s) as [q Q]; rewrite Q in E; discriminate E
         end.
  - destruct (exec_inv cfg _ _ _ _ _ _ _ M5 Ht eq_refl H) as [(-> & -> & _)|(d & v & rr & m1 & _ & Hx & ->)]; [split; [intros p []|reflexivity]|].
    simpl in Hx. unfold spindle in Hx. minv.
    all: match goal with
         | K : calm_spindle _, F : _ _ _ = HRaise _ |- _ => exfalso; eapply K; [|exact F]; eauto
         | K : forall s, exists q, div (mul _ s) _ = Ok q, E : Raise _ = div (mul _ ?s) _ |- _ => destruct (K s) as [q Q]; rewrite Q in E; discriminate E
         end.
Qed.
End Quiet.

Local Open Scope R_scope.
Lemma rd_any x : Rabs (rd x - x) <= bpow radix2 (-53) * Rabs x + bpow radix2 (-1075).
Proof.
  destruct (Rle_lt_dec (bpow radix2 (-1022)) (Rabs x)) as [H|H].
  - pose proof (rd_error_rel x H). pose proof (bpow_ge_0 radix2 (-1075)). lra.
  - assert (B: Rabs x <= bpow radix2 (-1021)) by (eapply Rle_trans; [apply Rlt_le, H|apply bpow_le; lia]).
    pose proof (rd_error x (-1021) ltac:(lia) B) as K. replace (-1021 - 54)%Z with (-1075)%Z in K by lia.
    pose proof (bpow_ge_0 radix2 (-53)). pose proof (Rabs_pos x). nra.
Qed.

Section Speed.
Variable acos : f64 -> f64.
Notation N := (F64 acos).
Variable cfg : config.
Hypothesis Hc : (0 < spindle_max_rpm cfg <= 2 ^ 40)%Z.
Notation max := (spindle_max_rpm cfg).
Notation setting := (setting acos).
Notation speed := (speed acos).

Lemma max_ok : fin (f_ofZ max) /\ val (f_ofZ max) = IZR max.
Proof. apply f_ofZ_val. apply Z.le_trans with (2 ^ 40)%Z; [lia|vm_compute; discriminate]. Qed.
Lemma max_pos : 1 <= IZR max. Proof. apply IZR_le. lia. Qed.
Lemma divides (s : f64) : exists q, f_div (f_mul (f_ofZ 100) s) (f_ofZ max) = Ok q.
Proof.
  destruct max_ok as [F V]. pose proof max_pos. unfold f_div. destruct (is_zero_f (f_ofZ max)) eqn:E; [|eexists; reflexivity].
  exfalso. destruct (f_ofZ max) as [b| | |b m e]; cbn in E; try discriminate E. cbn in V. lra.
Qed.
(** The percentage of a speed. *)
Lemma percent_of (s p : f64) : fin s -> 0 <= val s <= IZR max -> f_div (f_mul (f_ofZ 100) s) (f_ofZ max) = Ok p ->
  fin p /\ Rabs (val p / 100 - val s / IZR max) <= bpow radix2 (-51).
Proof.
  intros Fs Hs E. destruct max_ok as [FM VM]. pose proof max_pos as M1. destruct (f_ofZ_val 100 ltac:(lia)) as [F1 V1].
  assert (M2: IZR max <= 1099511627776) by (apply IZR_le; lia).
  destruct (f_mul_val (f_ofZ 100) s F1 Fs) as [Fm Vm]. { rewrite V1. eapply bd_big with (e := 50%Z); [|lia]. change (bpow radix2 50) with 1125899906842624. apply Rabs_le. lra. }
  rewrite V1 in Vm. set (x := 100 * val s) in *. set (u := bpow radix2 (-53)) in *. set (w := bpow radix2 (-1075)) in *.
  assert (Hu: 0 < u <= / 9007199254740992) by (split; [apply bpow_gt_0|right; reflexivity]).
  assert (Hw: 0 < w <= / 9007199254740992 / 1099511627776) by (split; [apply bpow_gt_0|eapply Rle_trans; [apply (bpow_le radix2 (-1075) (-93)); lia|right; cbn -[IZR]; lra]]).
  assert (X: 0 <= x <= 100 * IZR max) by (unfold x; lra).
  pose proof (rd_any x) as R1. fold u w in R1. rewrite (Rabs_pos_eq x) in R1 by lra. apply Rabs_le_inv in R1.
  assert (Dm: 0 < / IZR max <= 1) by (split; [apply Rinv_0_lt_compat; lra|rewrite <- Rinv_1; apply Rinv_le_contravar; lra]).
  set (y := rd x / IZR max) in *. set (y0 := val s / IZR max).
  assert (Y0: 0 <= y0 <= 1). { unfold y0. split; [apply Rmult_le_pos; lra|]. apply Rmult_le_reg_r with (IZR max); [lra|]. unfold Rdiv. rewrite Rmult_assoc, Rinv_l by lra. lra. }
  assert (Y: Rabs (y - 100 * y0) <= 100 * u + w).
  { replace (y - 100 * y0) with ((rd x - x) * / IZR max) by (unfold y, y0, x; field; lra).
    assert (Q: x * / IZR max <= 100). { replace (x * / IZR max) with (100 * y0) by (unfold x, y0; field; lra). lra. }
    apply Rabs_le. split; nra. }
  apply Rabs_le_inv in Y.
  destruct (f_div_val (f_mul (f_ofZ 100) s) (f_ofZ max) Fm FM) as (q & Eq & Fq & Vq); [rewrite VM; lra| |].
  { rewrite Vm, VM. fold y. eapply bd_big with (e := 10%Z); [|lia]. change (bpow radix2 10) with 1024. apply Rabs_le. lra. }
  rewrite Eq in E. injection E as <-. rewrite Vm, VM in Vq. fold y in Vq. split; [exact Fq|]. rewrite Vq.
  pose proof (rd_any y) as R2. fold u w in R2. assert (A: Rabs y <= 101) by (apply Rabs_le; lra).
  assert (R3: Rabs (rd y - y) <= u * 101 + w) by (eapply Rle_trans; [exact R2|]; apply Rplus_le_compat_r, Rmult_le_compat_l; lra). apply Rabs_le_inv in R3.
  change (bpow radix2 (-51)) with (/ 2251799813685248). apply Rabs_le. lra.
Qed.

(** Speed of the newest M3 or M5. *)
Fixpoint left_on (h : list (gcode * bool)) : f64 :=
  match h with
  | [] => f_ofZ 0
  | (g, ok) :: r =>
    if ok && is_command g "M3" then word_S acos g (setting r)
    else if ok && is_command g "M5" then f_ofZ 0
    else left_on r
  end.
Lemma is_command_spec g w : is_command g w = true <-> effective_command g = Some (tx w).
Proof.
  unfold is_command. destruct (effective_command g) as [t|]; [|split; discriminate]. unfold text_eqb.
  destruct (list_eq_dec Ascii.ascii_dec t (tx w)) as [->|H]; split; congruence.
Qed.
Lemma left_speed h : stopped_first acos h -> speed h = left_on h.
Proof.
  induction h as [|[g ok] r IH]; [reflexivity|]. cbn [stopped_first OutputsSpec.speed left_on]. intros [H1 H2]. specialize (IH H2).
  destruct (ok && is_command g "M3"); [reflexivity|]. destruct ok; [|exact IH]. cbn [andb] in *.
  destruct (is_command g "M5"); [reflexivity|]. cbn [orb]. destruct (is_command g "M2" || is_command g "M30"); [|exact IH].
  rewrite <- IH. symmetry. now apply H1.
Qed.
(** Percentages sent to hal.spindle_control. *)
Definition percent (ev : event N) : list f64 := match ev with ESpindle p => [p] | _ => [] end.
Definition percents (es : list (event N)) : list f64 := flat_map percent es.
Lemma percents_app a b : percents (a ++ b) = percents a ++ percents b. Proof. apply flat_map_app. Qed.
Lemma percents_quiet es : (forall p, ~ In (ESpindle p) es) -> percents es = [].
Proof.
  induction es as [|ev r IH]; [reflexivity|]. intros H. change (percents (ev :: r)) with (percent ev ++ percents r).
  rewrite IH by (intros p K; apply (H p); now right). destruct ev as [| | | | |q| | | | | | |]; try reflexivity. all: try (match goal with |- context [percent (ESpindle ?x)] => destruct (H x); now left end).
Qed.
Definition sane (s : f64) : Prop := fin s /\ 0 <= val s <= IZR max.
Lemma sane_0 : sane (f_ofZ 0).
Proof. destruct (f_ofZ_val 0 ltac:(lia)) as [F V]. split; [exact F|]. rewrite V. pose proof max_pos. lra. Qed.
Lemma spindle_inv h (m : machine N) es : commands calm_spindle cfg h m es ->
  (m_spindle_rpm m : f64) = setting h /\ is_nan (setting h) = false /\ sane (left_on h) /\
  (percents es = [] /\ left_on h = f_ofZ 0 \/ exists l p, percents es = l ++ [p] /\ f_div (f_mul (f_ofZ 100) (left_on h)) (f_ofZ max) = Ok p).
Proof.
  induction 1 as [|h hw g m es m' es' r C (S1 & S2 & S3 & S4) Hw E].
  - split; [reflexivity|]. split; [reflexivity|]. split; [exact sane_0|]. left. split; reflexivity.
  - cbn [OutputsSpec.setting left_on]. rewrite percents_app.
    assert (Other: (forall p, ~ In (ESpindle p) es') -> percents es' = []) by apply percents_quiet.
    destruct (is_command g "M3") eqn:I3.
    { apply is_command_spec in I3. destruct r as [[]|e]; cbn [succeeded andb].
      - destruct (spindle_commands cfg hw g m m' es' E) as [_ K]. destruct (K I3) as (s & p & G & D & -> & R). clear K.
        assert (W: word_S acos g (setting h) = s). { unfold word_S. rewrite <- S1. change (f_ofZ 1) with (ofZ (p:=N) 1). now rewrite G. }
        rewrite W. assert (Ns: is_nan s = false) by (eapply (get1_not_nan acos g); [|exact G]; rewrite S1; exact S2).
        assert (L0: f_lt s (f_ofZ 0) = false). { destruct (f_lt s (f_ofZ 0)) eqn:L; [|reflexivity]. destruct (bad_speed_rejected cfg hw g m m' _ _ s I3 G (or_introl L) E) as (_ & _ & e & Q). discriminate Q. }
        assert (L1: f_lt (f_ofZ max) s = false). { destruct (f_lt (f_ofZ max) s) eqn:L; [|reflexivity]. destruct (bad_speed_rejected cfg hw g m m' _ _ s I3 G (or_intror L) E) as (_ & _ & e & Q). discriminate Q. }
        destruct max_ok as [FM VM]. destruct (f_ofZ_val 0 ltac:(lia)) as [F0 V0].
        destruct (fin_between s (f_ofZ 0) (f_ofZ max) Ns F0 FM L0 L1) as [Fs Vs]. rewrite V0, VM in Vs.
        split; [exact R|]. split; [exact Ns|]. split; [split; assumption|]. right. exists (percents es), p. split; [reflexivity|exact D].
      - destruct (rejected_quiet cfg hw g m m' es' e Hw E divides (or_introl I3)) as [Q R]. rewrite (Other Q), app_nil_r. rewrite R. tauto. }
    destruct (is_command g "M5") eqn:I5.
    { apply is_command_spec in I5. assert (Hm: is_command g "M2" = false /\ is_command g "M30" = false).
      { unfold is_command. rewrite I5. split; reflexivity. } destruct Hm as [-> ->]. rewrite !andb_false_r.
      destruct r as [[]|e]; cbn [succeeded andb].
      - destruct (spindle_commands cfg hw g m m' es' E) as [K _]. destruct (K I5) as (p & D & ->). clear K.
        assert (R: m_spindle_rpm m' = m_spindle_rpm m).
        { apply (c12_rpm cfg hw g m m' _ _ E). intros t Ht. rewrite I5 in Ht. injection Ht as <-. intros K. simpl in K. repeat destruct K as [K|K]; try discriminate K; contradiction. }
        rewrite R. split; [exact S1|]. split; [exact S2|]. split; [exact sane_0|]. right. exists (percents es), p. split; [reflexivity|exact D].
      - destruct (rejected_quiet cfg hw g m m' es' e Hw E divides (or_intror I5)) as [Q R]. rewrite (Other Q), app_nil_r, R. tauto. }
    assert (Q: forall p, ~ In (ESpindle p) es').
    { apply (quiet_command cfg hw g m m' es' r E); intros K; apply is_command_spec in K; congruence. }
    rewrite (Other Q), app_nil_r, !andb_false_r.
    assert (N3: effective_command g <> Some (tx "M3")) by (intros K; apply is_command_spec in K; congruence).
    destruct (is_command g "M2" || is_command g "M30") eqn:I2.
    + destruct r as [[]|e]; cbn [succeeded andb].
      * assert (R: m_spindle_rpm m' = f_ofZ 1000).
        { apply orb_true_iff in I2. assert (T: exists t, effective_command g = Some t /\ assoc_text t command_table = Some M2).
          { destruct I2 as [I2|I2]; apply is_command_spec in I2; eexists; (split; [exact I2|reflexivity]). }
          destruct T as (t & Ht & Ha). destruct (exec_inv cfg _ _ _ _ _ _ _ M2 Ht Ha E) as [(_ & _ & e & Qe)|(d & v & rr & m1 & _ & Hx & ->)]; [discriminate Qe|].
          simpl in Hx. minv. reflexivity. }
        split; [exact R|]. split; [apply ofZ_not_nan|]. split; assumption.
      * assert (R: m_spindle_rpm m' = m_spindle_rpm m).
        { apply orb_true_iff in I2. assert (T: exists t, effective_command g = Some t /\ assoc_text t command_table = Some M2).
          { destruct I2 as [I2|I2]; apply is_command_spec in I2; eexists; (split; [exact I2|reflexivity]). }
          destruct T as (t & Ht & Ha). destruct (exec_inv cfg _ _ _ _ _ _ _ M2 Ht Ha E) as [(-> & _ & _)|(d & v & rr & m1 & _ & Hx & ->)]; [reflexivity|].
          simpl in Hx. minv. }
        rewrite R. tauto.
    + rewrite andb_false_r. assert (R: m_spindle_rpm m' = m_spindle_rpm m).
      { apply (c12_rpm cfg hw g m m' _ _ E). intros t Ht K. simpl in K. apply orb_false_iff in I2. destruct I2 as [I2 I30].
        assert (X: forall w, is_command g w = false -> tx w = t -> False) by (intros w Hw1 <-; apply (proj2 (is_command_spec g w)) in Ht; congruence).
        destruct K as [K|[K|[K|[]]]]; [exact (X _ I3 K)|exact (X _ I2 K)|exact (X _ I30 K)]. }
      rewrite R. tauto.
Qed.
Lemma commands_history P h (m : machine N) es : commands P cfg h m es -> history cfg m es.
Proof.
  induction 1 as [|h hw g m es m' es' r C IH Hw E]; [constructor|]. eapply h_step; [exact IH|exact I|exact E].
Qed.
End Speed.
