(** Relations between machine states and the events in between that are
    compatible with sequencing; used for statements about whole histories. *)
From Coq Require Import String Ascii ZArith Bool Lia List.
From Verif Require Import PyBase PyNum Config Coordinates Pulses GCode GMachine GMachineProofs MachineFacts.
From Coq Require Import List.
Import ListNotations.

Section R.
Context {N : PyNum}.
Variable cfg : config.
Variable hw : hw_oracle N.
Variable R : machine N -> list (event N) -> machine N -> Prop.
Hypothesis R_refl : forall m, R m [] m.
Hypothesis R_trans : forall m1 e1 m2 e2 m3, R m1 e1 m2 -> R m2 e2 m3 -> R m1 (e1 ++ e2) m3.

Definition rel {A} (c : M N A) : Prop :=
  forall m l m' l' r, c m l = (m', l', r) -> exists es, l' = l ++ es /\ R m es m'.

Lemma rel_same {A} m l (c : M N A) m' l' r :
  c m l = (m', l', r) -> m' = m -> l' = l -> exists es, l' = l ++ es /\ R m es m'.
Proof. intros _ -> ->. exists []. rewrite app_nil_r. auto. Qed.

Lemma rel_bind {A B} (c : M N A) (k : A -> M N B) :
  rel c -> (forall a, rel (k a)) -> rel (bind c k).
Proof.
  intros H1 H2 m l m' l' r H. apply bind_inv in H.
  destruct H as [(e & H & _)|(a & m1 & l1 & Ha & Hb)]; [eapply H1; eauto|].
  apply H1 in Ha. destruct Ha as (e1 & -> & R1). apply H2 in Hb. destruct Hb as (e2 & -> & R2).
  exists (e1 ++ e2). rewrite app_assoc. split; auto. eapply R_trans; eauto.
Qed.
Lemma rel_lift {A} (x : res A) : rel (lift x).
Proof. intros m l m' l' r H. assert (H' := H). apply lift_inv in H. destruct H as (-> & -> & _). eapply rel_same; eauto. Qed.
Lemma rel_ret {A} (x : A) : rel (ret x).
Proof. intros m l m' l' r H. assert (H' := H). apply ret_inv in H. destruct H as (-> & -> & _). eapply rel_same; eauto. Qed.
Lemma rel_throw {A} e : rel (throw (A:=A) e).
Proof. intros m l m' l' r H. assert (H' := H). apply throw_inv in H. destruct H as (-> & -> & _). eapply rel_same; eauto. Qed.
Lemma rel_gets : rel gets.
Proof. intros m l m' l' r H. assert (H' := H). apply gets_inv in H. destruct H as (-> & -> & _). eapply rel_same; eauto. Qed.
Lemma rel_fail_if b s : rel (fail_if b s).
Proof. intros m l m' l' r H. assert (H' := H). apply fail_if_inv in H. destruct H as (-> & -> & _). eapply rel_same; eauto. Qed.
Lemma rel_modify g : (forall m, R m [] (g m)) -> rel (modify g).
Proof.
  intros Hg m l m' l' r H. apply modify_inv in H. destruct H as (-> & -> & _).
  exists []. rewrite app_nil_r. auto.
Qed.
Lemma rel_call ev : (forall m, R m [ev] m) -> rel (call hw ev).
Proof.
  intros Hg m l m' l' r H. apply call_inv in H. destruct H as (-> & -> & _). exists [ev]. auto.
Qed.
Lemma rel_measure h : (forall m, R m [EMeasure h] m) -> rel (measure_or_fail hw h).
Proof. intros Hg m l m' l' r H. apply measure_or_fail_inv in H. destruct H as (-> & ->). exists [EMeasure h]. auto. Qed.
Lemma rel_measure_opt h : (forall m, R m [EMeasure h] m) -> rel (measure_opt hw h).
Proof. intros Hg m l m' l' r H. apply measure_opt_inv in H. destruct H as (-> & ->). exists [EMeasure h]. auto. Qed.

(** Moves. *)
Definition linear_steps (d : quad N) (v : N) : Prop :=
  forall m d' g, round_to_grid cfg d = Ok d' -> is_zero d' = false ->
    in_box cfg (cadd (m_position m) d') = true ->
    make_linear cfg d' v = Ok g -> too_fast cfg (gen_max_velocity (GLinear g)) = false ->
    R m [EMove (GLinear g)] (set_position m (cadd (m_position m) d')) /\
    ((exists l e, hw l (EMove (GLinear g)) = HRaise e) -> R m [EMove (GLinear g)] m).
Lemma rel_move_linear d v : linear_steps d v -> rel (move_linear cfg hw d v).
Proof.
  intros Hl m l m' l' r H. assert (H' := H). apply move_linear_inv in H. destruct H.
  - eapply rel_same; eauto.
  - eexists. split; [reflexivity|]. eapply Hl; eauto.
  - eexists. split; [reflexivity|]. eapply Hl; eauto.
  - eapply rel_same; eauto.
Qed.

Definition arc_steps (delta radius : quad N) (v : N) (rot : rotation) : Prop :=
  forall m ce ld g lg, circular_ok cfg delta radius v rot m ce ld g lg ->
    R m (arc_events g lg) (set_position m (cadd (cadd (m_position m) ce) ld)) /\
    (forall p ev s, arc_events g lg = p ++ ev :: s -> (exists l e, hw l ev = HRaise e) ->
       R m (p ++ [ev]) m).
Lemma rel_move_circular d rr v rot : arc_steps d rr v rot -> rel (move_circular cfg hw d rr v rot).
Proof.
  intros Hl m l m' l' r H. assert (H' := H). apply move_circular_inv in H. destruct H.
  - eexists. split; [reflexivity|]. eapply Hl; eauto.
  - eexists. split; [reflexivity|]. destruct (Hl _ _ _ _ _ H) as [_ H2]. eapply H2; eauto.
  - eapply rel_same; eauto.
Qed.

Lemma rel_safe_zero x y z : (forall d v, linear_steps d v) -> rel (safe_zero cfg hw x y z).
Proof.
  intros Hl. unfold safe_zero. apply rel_bind; [apply rel_gets|intros a].
  apply rel_bind.
  - destruct (x && negb y); [now apply rel_move_linear|].
    destruct (y && negb x); [now apply rel_move_linear|].
    destruct (x && y); [now apply rel_move_linear|apply rel_ret].
  - intros _. destruct z; [|apply rel_ret]. apply rel_bind; [apply rel_gets|intros b].
    now apply rel_move_linear.
Qed.

(** Whole commands. *)
Lemma rel_do_command gc :
  (forall m v, R m [] (set_velocity m v)) ->
  (forall g c delta radius v, rel (exec_cmd cfg hw g c delta radius v)) ->
  rel (do_command cfg hw gc).
Proof.
  intros Hv Hx m l m' l' r H. destruct gc as [g|].
  2: { apply (rel_ret tt) in H. exact H. }
  apply do_command_inv in H. destruct H.
  - exists []. rewrite app_nil_r. auto.
  - exists []. rewrite app_nil_r. auto.
  - apply Hx in H5. destruct H5 as (es & -> & HR). exists es. split; auto.
    destruct r; auto. rewrite <- (app_nil_r es). eapply R_trans; eauto.
Qed.

End R.

Lemma history_rel {N : PyNum} (P : hw_oracle N -> option gcode -> Prop) cfg (R : machine N -> list (event N) -> machine N -> Prop) :
  (forall m, R m [] m) ->
  (forall m1 e1 m2 e2 m3, R m1 e1 m2 -> R m2 e2 m3 -> R m1 (e1 ++ e2) m3) ->
  (forall hw gc, P hw gc -> rel R (do_command cfg hw gc)) ->
  forall m es, history_where P cfg m es -> R (init_machine cfg) es m.
Proof.
  intros Hr Ht Hc m es H. induction H; auto.
  apply (Ht _ _ m); auto. unfold run_command in H1.
  destruct (Hc hw gc H0 _ _ _ _ _ H1) as (es2 & E & HR). simpl in E. subst. exact HR.
Qed.

Ltac relt :=
  repeat first
    [ apply rel_lift; [assumption] | apply rel_lift | apply rel_ret | apply rel_throw | apply rel_gets
    | apply rel_fail_if
    | apply rel_bind; [| |intros ?]
    | match goal with |- rel _ (match ?x with _ => _ end) => destruct x end ].
