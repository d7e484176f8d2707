(** The straight moves of a command, one after the other: where they start and which
    part of the table they use (C09), and what the motors do in them (C16). *)
From Coq Require Import String ZArith Bool Reals Lra Lia List.
From Flocq Require Import Core BinarySingleNaN.
From Verif Require Import PyBase PyNum PyFloatFacts Config Coordinates GCode Pulses PulseSpec GMachine GMachineProofs LinearGen ArcSpec LinearTravel MachineRel MachineFacts MachineFloat MachinePos MachineHist MachineArc.
From Coq Require Import List.
Import ListNotations.
Local Open Scope Z_scope.

(** The motor of an axis. *)
Definition motor_of (a : axis) : motor := match a with AX => MX | AY => MY | AZ => MZ end.
Lemma qat_motor_of {A} a (q : quad A) : qat (motor_of a) q = ax a q.
Proof. now destruct a. Qed.

Ltac exec_rel Hr Ht side :=
  unfold spindle, fan, heat;
  repeat first
    [ apply rel_lift; exact Hr | apply rel_ret; exact Hr | apply rel_throw; exact Hr
    | apply rel_gets; exact Hr | apply rel_fail_if; exact Hr
    | apply rel_move_linear; [exact Hr|]
    | apply rel_safe_zero; [exact Hr|exact Ht|]
    | apply rel_call; intros ? | apply rel_measure; intros ? | apply rel_measure_opt; intros ?
    | apply rel_modify; intros ?
    | apply rel_bind; [exact Ht| |intros ?]
    | match goal with |- rel _ (match ?x with _ => _ end) => destruct x end ];
  try side.

Section Moves.
Variable acos : f64 -> f64.
Notation N := (F64 acos).
Variable cfg : config.

(** From the position [q], read as a number of steps on each axis, the move [g] keeps
    the axis on the table after every item of the generator. *)
Definition keeps_on_table (q : quad f64) (g : linear_gen N) : Prop :=
  forall a, exists k, nearest_to (ax a (ppm cfg)) k (ax a q) /\
    forall n, 0 <= k + travel cfg (motor_of a) (items cfg (GLinear g) n) <= table cfg a * ax a (ppm cfg).
(** The events [es] took the reported position from [q] to [q']: every straight move
    keeps to the table, starts at the reported position, and takes it to its end, or
    leaves it if the call of the hardware fails. No arcs. *)
Inductive moves_from : quad f64 -> list (event N) -> quad f64 -> Prop :=
| mf_nil q : moves_from q [] q
| mf_other q ev es q' : (forall g, ev <> EMove g) -> moves_from q es q' -> moves_from q (ev :: es) q'
| mf_move q g es q1 q' : keeps_on_table q g -> q1 = q \/ q1 = cadd (N:=N) q (l_delta g) ->
    moves_from q1 es q' -> moves_from q (EMove (GLinear g) :: es) q'.
Lemma moves_app q1 e1 q2 e2 q3 : moves_from q1 e1 q2 -> moves_from q2 e2 q3 -> moves_from q1 (e1 ++ e2) q3.
Proof. induction 1; intros H2; cbn [app]; [exact H2|apply mf_other; auto|eapply mf_move; eauto]. Qed.

Hypothesis Hcfg : good_cfg cfg.
Definition moves_ok (m : machine N) (es : list (event N)) (m' : machine N) : Prop :=
  on_table acos cfg m -> on_table acos cfg m' /\ moves_from (m_position m) es (m_position m').
Lemma moves_refl m : moves_ok m [] m.
Proof. intros H. split; [exact H|constructor]. Qed.
Lemma moves_trans m1 e1 m2 e2 m3 : moves_ok m1 e1 m2 -> moves_ok m2 e2 m3 -> moves_ok m1 (e1 ++ e2) m3.
Proof. intros H1 H2 T. destruct (H1 T) as [T2 A]. destruct (H2 T2) as [T3 B]. split; [exact T3|]. eapply moves_app; eauto. Qed.
Lemma moves_still m m' : m_position m' = m_position m -> moves_ok m [] m'.
Proof. intros E T. split; [|rewrite E; constructor]. intros a. destruct (T a) as [n H]. exists n. eapply at_step_position; eauto. Qed.
Lemma moves_event m ev m' : m_position m' = m_position m -> (forall g, ev <> EMove g) -> moves_ok m [ev] m'.
Proof. intros E V T. split; [|rewrite E; apply mf_other; [exact V|constructor]]. intros a. destruct (T a) as [n H]. exists n. eapply at_step_position; eauto. Qed.
Lemma moves_linear hw d v : linear_steps cfg hw moves_ok d v.
Proof.
  intros m d' g Hd Hz Hb Hg Hf.
  assert (K: on_table acos cfg m -> keeps_on_table (m_position m) g /\ on_table acos cfg (set_position m (cadd (N:=N) (m_position m) d'))).
  { intros T. split.
    - intros a. destruct (T a) as (n & Hn). exists n. split; [apply (at_step_nearest acos cfg Hcfg m a n Hn)|]. intros i.
      destruct (linear_axis acos cfg Hcfg m d d' a n Hn Hd Hb) as (j & Dj & Sj & [_ Ij]). destruct Hn as [_ In]. unfold inside in In, Ij.
      destruct (make_linear_axes acos cfg d' v g a Hg) as (Hp & Hdir & _).
      destruct (axis_pulses acos _ _ (acfg cfg Hcfg a) j _ Dj Sj) as [Hp2 Hs]. rewrite Hp in Hp2. injection Hp2 as Hp2.
      destruct (line_travel cfg g i (motor_of a)) as [Tr St]. rewrite !qat_motor_of in *. rewrite Tr, Hdir. rewrite Hp2 in St.
      assert (D: f_copysign1 (ax a d') = 1 \/ f_copysign1 (ax a d') = -1) by (unfold f_copysign1; match goal with |- context [if ?b then _ else _] => destruct b end; auto).
      destruct D as [D|D]; rewrite D in *; lia.
    - intros a. destruct (T a) as (n & Hn). destruct (linear_axis acos cfg Hcfg m d d' a n Hn Hd Hb) as (j & _ & _ & Hj). eauto. }
  destruct (make_linear_axes acos cfg d' v g AX Hg) as (_ & _ & Dg). split.
  - intros T. destruct (K T) as [K1 K2]. split; [exact K2|]. eapply mf_move; [exact K1|right; reflexivity|]. rewrite Dg. constructor.
  - intros _ T. destruct (K T) as [K1 _]. split; [exact T|]. eapply mf_move; [exact K1|left; reflexivity|constructor].
Qed.
Lemma moves_exec hw g c d rr v : is_arc c = false -> rel moves_ok (exec_cmd (N:=N) cfg hw g c d rr v).
Proof.
  intros Ha. destruct c; try discriminate Ha; simpl;
    exec_rel moves_refl moves_trans ltac:(first [apply moves_still; reflexivity|apply moves_event; [reflexivity|discriminate]]); try (now apply moves_linear).
  all: intros; now apply moves_linear.
Qed.
Lemma moves_command hw gc : no_arc gc -> rel moves_ok (do_command (N:=N) cfg hw gc).
Proof.
  intros Ha. apply rel_do_command_if; [exact moves_refl|exact moves_trans|intros; now apply moves_still|].
  intros g t0 c delta radius v E Et Ec. subst gc. apply moves_exec. eapply no_arc_cmd; eauto.
Qed.

(** The sum [s] of the net travel of the axis [a] over the moves of [es], each
    generator run to its end. *)
Inductive sent (a : axis) : list (event N) -> Z -> Prop :=
| sent_nil : sent a [] 0
| sent_other ev es s : (forall g, ev <> EMove g) -> sent a es s -> sent a (ev :: es) s
| sent_move g l es s : completes cfg g l -> sent a es s -> sent a (EMove g :: es) (travel cfg (motor_of a) l + s).
Lemma sent_app a e1 e2 s : sent a (e1 ++ e2) s -> exists s1 s2, s = s1 + s2 /\ sent a e1 s1 /\ sent a e2 s2.
Proof.
  revert s. induction e1 as [|ev e1 IH]; intros s H; cbn [app] in H.
  - exists 0, s. repeat split; [constructor|exact H].
  - inversion H as [|ev' es' s' V H' E1 E2|g l es' s' C H' E1 E2]; subst; destruct (IH _ H') as (s1 & s2 & -> & H1 & H2).
    + exists s1, s2. repeat split; [now apply sent_other|exact H2].
    + exists (travel cfg (motor_of a) l + s1), s2. repeat split; [lia|now apply sent_move|exact H2].
Qed.
Definition sends (m : machine N) (es : list (event N)) (m' : machine N) : Prop :=
  forall a n s, at_step acos cfg m a n -> sent a es s -> at_step acos cfg m' a (n + s).
Lemma sends_refl m : sends m [] m.
Proof. intros a n s H X. inversion X; subst. now rewrite Z.add_0_r. Qed.
Lemma sends_trans m1 e1 m2 e2 m3 : sends m1 e1 m2 -> sends m2 e2 m3 -> sends m1 (e1 ++ e2) m3.
Proof. intros H1 H2 a n s H X. destruct (sent_app _ _ _ _ X) as (s1 & s2 & -> & X1 & X2). rewrite Z.add_assoc. eauto. Qed.
Lemma sends_still m m' : m_position m' = m_position m -> sends m [] m'.
Proof. intros E a n s H X. inversion X; subst. rewrite Z.add_0_r. eapply at_step_position; eauto. Qed.
Lemma sends_event m ev m' : m_position m' = m_position m -> (forall g, ev <> EMove g) -> sends m [ev] m'.
Proof.
  intros E V a n s H X. inversion X as [|ev' es' s' V' H' E1 E2|g l es' s' C H' E1 E2]; subst; [|exfalso; eapply V; reflexivity].
  inversion H'; subst. rewrite Z.add_0_r. eapply at_step_position; eauto.
Qed.
Lemma sends_linear hw d v : never_fails_on (is_move acos) hw -> linear_steps cfg hw sends d v.
Proof.
  intros Hn m d' g Hd Hz Hb Hg Hf. split.
  - intros a n s H X. inversion X as [|ev' es' s' V' H' E1 E2|g' l es' s' C H' E1 E2]; subst; [exfalso; eapply V'; reflexivity|].
    inversion H'; subst. rewrite Z.add_0_r.
    destruct (linear_axis acos cfg Hcfg m d d' a n H Hd Hb) as (j & Dj & Sj & Hm).
    destruct (make_linear_axes acos cfg d' v g a Hg) as (Hp & Hdir & _).
    destruct (axis_pulses acos _ _ (acfg cfg Hcfg a) j _ Dj Sj) as [Hp2 Hs]. rewrite Hp in Hp2. injection Hp2 as Hp2.
    assert (Tr := line_complete cfg g l (motor_of a) C). rewrite !qat_motor_of in Tr. rewrite Tr, Hdir, Hp2.
    replace (Z.max 0 (Z.abs j)) with (Z.abs j) by lia. rewrite Hs. exact Hm.
  - intros (l & e & He). exfalso. apply (Hn l _ e) in He; [contradiction|]. eexists. reflexivity.
Qed.
Lemma sends_exec hw g c d rr v : never_fails_on (is_move acos) hw -> is_arc c = false -> rel sends (exec_cmd (N:=N) cfg hw g c d rr v).
Proof.
  intros Hn Ha. destruct c; try discriminate Ha; simpl;
    exec_rel sends_refl sends_trans ltac:(first [apply sends_still; reflexivity|apply sends_event; [reflexivity|discriminate]]); try (now apply sends_linear).
  all: intros; now apply sends_linear.
Qed.
Lemma history_sends (P : hw_oracle N -> option gcode -> Prop) m es a s :
  (forall hw gc, P hw gc -> never_fails_on (is_move acos) hw /\ no_arc gc) ->
  history_where P cfg m es -> sent a es s -> nearest_to (ax a (ppm cfg)) s (ax a (m_position m)).
Proof.
  intros HP H X. apply (at_step_nearest acos cfg Hcfg m a).
  apply (history_rel P cfg sends sends_refl sends_trans) in H.
  - specialize (H a 0 s (init_at acos cfg Hcfg a) X). now rewrite Z.add_0_l in H.
  - intros hw gc Hgc. destruct (HP hw gc Hgc) as [Hn Ha].
    apply rel_do_command_if; [exact sends_refl|exact sends_trans|intros; now apply sends_still|].
    intros g t0 c delta radius v E Et Ec. subst gc. apply sends_exec; auto. eapply no_arc_cmd; eauto.
Qed.
End Moves.
