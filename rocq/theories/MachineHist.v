(** Proofs about whole histories: speed limits (C21), fan (C26), heaters (C25),
    order of events (C24). For every number structure. *)
From Coq Require Import String Ascii ZArith Bool Lia List.
From Verif Require Import PyBase PyNum Config Coordinates Pulses GCode GMachine GMachineProofs MachineFacts MachineRel.
From Coq Require Import List.
Import ListNotations.

Section H.
Context {N : PyNum}.
Variable cfg : config.

Ltac exec_rel Hr Ht side :=
  unfold spindle, fan, heat;
  repeat first
    [ apply rel_lift; exact Hr | apply rel_ret; exact Hr | apply rel_throw; exact Hr
    | apply rel_gets; exact Hr | apply rel_fail_if; exact Hr
    | apply rel_move_linear; [exact Hr|] | apply rel_move_circular; [exact Hr|]
    | apply rel_safe_zero; [exact Hr|exact Ht|]
    | apply rel_call; intros ? | apply rel_measure; intros ? | apply rel_measure_opt; intros ?
    | apply rel_modify; intros ?
    | apply rel_bind; [exact Ht| |intros ?]
    | match goal with |- rel _ (match ?x with _ => _ end) => destruct x end ];
  try side.

(* ---------- C21 ---------- *)
Definition slow_moves (m : machine N) (es : list (event N)) (m' : machine N) : Prop :=
  forall g, In (EMove g) es -> too_fast cfg (gen_max_velocity g) = false.
Lemma slow_refl m : slow_moves m [] m. Proof. intros g []. Qed.
Lemma slow_trans m1 e1 m2 e2 m3 : slow_moves m1 e1 m2 -> slow_moves m2 e2 m3 -> slow_moves m1 (e1 ++ e2) m3.
Proof. intros H1 H2 g H. apply in_app_or in H. destruct H; auto. Qed.

Lemma slow_linear hw d v : linear_steps cfg hw slow_moves d v.
Proof.
  intros m d' g Hd Hz Hb Hg Hf. split; [|intros _]; intros g' [E|[]]; injection E as <-; exact Hf.
Qed.
Lemma slow_arc hw d rr v rot : arc_steps cfg hw slow_moves d rr v rot.
Proof.
  intros m ce ld g lg H.
  assert (A: slow_moves m (arc_events g lg) m).
  { destruct H as [d' r' ea eb _ _ _ _ _ _ Hf _ Hl]. intros g' Hin. unfold arc_events in Hin.
    destruct lg as [lg|]; simpl in Hin.
    - destruct Hin as [E|[E|[]]]; injection E as <-; tauto.
    - destruct Hin as [E|[]]; injection E as <-; exact Hf. }
  split; [exact A|]. intros p ev s E _ g' Hin. apply A. rewrite E.
  apply in_app_or in Hin. apply in_or_app. destruct Hin as [Hin|[Hin|[]]]; auto. right. left. exact Hin.
Qed.

Ltac no_move := let g := fresh in let Hg := fresh in intros g Hg; simpl in Hg; repeat destruct Hg as [Hg|Hg]; try discriminate; contradiction.
Lemma slow_exec hw g c d rr v : rel slow_moves (exec_cmd cfg hw g c d rr v).
Proof.
  destruct c; simpl; exec_rel slow_refl slow_trans no_move; try apply slow_linear; try apply slow_arc.
  all: intros; apply slow_linear.
Qed.
Lemma history_slow P (m : machine N) es g :
  history_where P cfg m es -> In (EMove g) es -> too_fast cfg (gen_max_velocity g) = false.
Proof.
  intros H. revert g.
  apply (history_rel P cfg slow_moves slow_refl slow_trans) in H; [exact H|].
  intros hw gc _. apply (rel_do_command _ _ _ slow_refl slow_trans); [intros; no_move|].
  intros. apply slow_exec.
Qed.

(* ---------- C26 ---------- *)
Definition last_fan (d : bool) (es : list (event N)) : bool :=
  fold_left (fun s ev => match ev with EFan b => b | _ => s end) es d.
Definition fan_follows (m : machine N) (es : list (event N)) (m' : machine N) : Prop :=
  m_fan m' = last_fan (m_fan m) es.
Lemma fan_refl m : fan_follows m [] m. Proof. reflexivity. Qed.
Lemma fan_trans m1 e1 m2 e2 m3 : fan_follows m1 e1 m2 -> fan_follows m2 e2 m3 -> fan_follows m1 (e1 ++ e2) m3.
Proof. unfold fan_follows, last_fan. intros H1 H2. rewrite fold_left_app, <- H1. exact H2. Qed.
Definition never_fails_on (Q : event N -> Prop) (hw : hw_oracle N) : Prop :=
  forall l ev e, Q ev -> hw l ev <> HRaise e.
Definition is_fan (ev : event N) : Prop := exists b, ev = EFan b.

Lemma fan_rel hw b : never_fails_on is_fan hw -> rel fan_follows (fan hw b).
Proof.
  intros Hn m l m' l' r H. unfold fan in H. minv.
  - exfalso. apply (Hn _ _ _ (ex_intro _ b eq_refl) F).
  - exists [EFan b]. split; reflexivity.
Qed.
Lemma fan_linear hw d v : linear_steps cfg hw fan_follows d v.
Proof. intros m d' g Hd Hz Hb Hg Hf. split; [|intros _]; reflexivity. Qed.
Lemma fan_arc hw d rr v rot : arc_steps cfg hw fan_follows d rr v rot.
Proof.
  intros m ce ld g lg H. split; [destruct lg; reflexivity|].
  intros p ev s E _. unfold fan_follows.
  assert (Forall (fun ev => exists g, ev = EMove g) (p ++ ev :: s)) as HF.
  { rewrite <- E. destruct lg; repeat (apply Forall_cons; [eauto|]); apply Forall_nil. }
  change (p ++ ev :: s) with (p ++ [ev] ++ s) in HF. rewrite app_assoc in HF.
  apply Forall_app in HF. destruct HF as [HF _]. clear E.
  induction HF as [|x r (gg & ->) _ IH]; [reflexivity|]. exact IH.
Qed.
Lemma fan_exec hw g c d rr v : never_fails_on is_fan hw -> rel fan_follows (exec_cmd cfg hw g c d rr v).
Proof.
  intros Hn. destruct c; simpl.
  all: unfold spindle, heat;
  repeat first
    [ apply fan_rel; exact Hn | apply rel_lift; exact fan_refl | apply rel_ret; exact fan_refl | apply rel_throw; exact fan_refl
    | apply rel_gets; exact fan_refl | apply rel_fail_if; exact fan_refl
    | apply rel_move_linear; [exact fan_refl|] | apply rel_move_circular; [exact fan_refl|]
    | apply rel_safe_zero; [exact fan_refl|exact fan_trans|]
    | apply rel_call; intros ? | apply rel_measure; intros ? | apply rel_measure_opt; intros ?
    | apply rel_modify; intros ?
    | apply rel_bind; [exact fan_trans| |intros ?]
    | match goal with |- rel _ (match ?x with _ => _ end) => destruct x end ];
  try apply fan_linear; try apply fan_arc; try reflexivity.
  all: intros; apply fan_linear.
Qed.
Lemma history_fan (m : machine N) es :
  history_hw (never_fails_on is_fan) cfg m es -> m_fan m = last_fan false es.
Proof.
  intros H. apply (history_rel _ cfg fan_follows fan_refl fan_trans) in H; [exact H|].
  intros hw gc Hn. apply (rel_do_command _ _ _ fan_refl fan_trans); [reflexivity|].
  intros. apply fan_exec; auto.
Qed.

(* ---------- heaters: state and events ---------- *)
Definition heater_eqb (a b : heater_id) : bool :=
  match a, b with HeaterExtruder, HeaterExtruder | HeaterBed, HeaterBed => true | _, _ => false end.
Definition last_heater (h : heater_id) (d : option N) (es : list (event N)) : option N :=
  fold_left (fun s ev => match ev with
                         | EHeaterOn h' t => if heater_eqb h h' then Some t else s
                         | EHeaterOff h' => if heater_eqb h h' then None else s
                         | _ => s end) es d.
Definition heater_follows (h : heater_id) (m : machine N) (es : list (event N)) (m' : machine N) : Prop :=
  heater_target m' h = last_heater h (heater_target m h) es.
Lemma heater_refl h m : heater_follows h m [] m. Proof. reflexivity. Qed.
Lemma heater_trans h m1 e1 m2 e2 m3 :
  heater_follows h m1 e1 m2 -> heater_follows h m2 e2 m3 -> heater_follows h m1 (e1 ++ e2) m3.
Proof. unfold heater_follows, last_heater. intros H1 H2. rewrite fold_left_app, <- H1. exact H2. Qed.
Definition is_heater_switch (ev : event N) : Prop :=
  exists h, ev = EHeaterOff h \/ exists t, ev = EHeaterOn h t.

Lemma heater_linear h hw d v : linear_steps cfg hw (heater_follows h) d v.
Proof. intros m d' g Hd Hz Hb Hg Hf. split; [|intros _]; destruct h; reflexivity. Qed.
Lemma heater_arc h hw d rr v rot : arc_steps cfg hw (heater_follows h) d rr v rot.
Proof.
  intros m ce ld g lg H. split; [destruct lg, h; reflexivity|].
  intros p ev s E _. unfold heater_follows.
  assert (Forall (fun ev => exists g, ev = EMove g) (p ++ ev :: s)) as HF.
  { rewrite <- E. destruct lg; repeat (apply Forall_cons; [eauto|]); apply Forall_nil. }
  change (p ++ ev :: s) with (p ++ [ev] ++ s) in HF. rewrite app_assoc in HF.
  apply Forall_app in HF. destruct HF as [HF _]. clear E.
  induction HF as [|x r (gg & ->) _ IH]; [reflexivity|]. exact IH.
Qed.
Lemma heater_off_rel h hw h' : never_fails_on is_heater_switch hw ->
  rel (heater_follows h) (bind (call hw (EHeaterOff h')) (fun _ => modify (fun m => set_heater m h' None))).
Proof.
  intros Hn m l m' l' r H. minv.
  - exfalso. eapply Hn; [|exact F]. exists h'. auto.
  - exists [EHeaterOff h']. split; auto. unfold heater_follows. destruct h, h'; reflexivity.
Qed.
Lemma heater_on_rel {A} h hw h' t (k : M N A) : never_fails_on is_heater_switch hw ->
  rel (heater_follows h) k ->
  rel (heater_follows h) (bind (call hw (EHeaterOn h' t)) (fun _ => bind (modify (fun m => set_heater m h' (Some t))) (fun _ => k))).
Proof.
  intros Hn Hk m l m' l' r H. minv.
  - exfalso. eapply Hn; [|exact F]. exists h'. eauto.
  - apply Hk in H1. destruct H1 as (es & -> & HR).
    exists (EHeaterOn h' t :: es). rewrite <- app_assoc. split; auto.
    change (EHeaterOn h' t :: es) with ([EHeaterOn h' t] ++ es). eapply heater_trans; [|exact HR].
    unfold heater_follows. destruct h, h'; reflexivity.
Qed.
Lemma heater_exec h hw g c d rr v : never_fails_on is_heater_switch hw ->
  rel (heater_follows h) (exec_cmd cfg hw g c d rr v).
Proof.
  intros Hn. destruct c; simpl.
  all: unfold spindle, heat, fan;
  repeat first
    [ apply heater_off_rel; exact Hn | apply heater_on_rel; [exact Hn|]
    | apply rel_lift; exact (heater_refl h) | apply rel_ret; exact (heater_refl h) | apply rel_throw; exact (heater_refl h)
    | apply rel_gets; exact (heater_refl h) | apply rel_fail_if; exact (heater_refl h)
    | apply rel_move_linear; [exact (heater_refl h)|] | apply rel_move_circular; [exact (heater_refl h)|]
    | apply rel_safe_zero; [exact (heater_refl h)|exact (heater_trans h)|]
    | apply rel_call; intros ? | apply rel_measure; intros ? | apply rel_measure_opt; intros ?
    | apply rel_modify; intros ?
    | apply rel_bind; [exact (heater_trans h)| |intros ?]
    | match goal with |- rel _ (match ?x with _ => _ end) => destruct x end ];
  try apply heater_linear; try apply heater_arc; try (destruct h; reflexivity).
  all: intros; apply heater_linear.
Qed.
Lemma history_heater h (m : machine N) es :
  history_hw (never_fails_on is_heater_switch) cfg m es -> heater_target m h = last_heater h None es.
Proof.
  intros H. apply (history_rel _ cfg (heater_follows h) (heater_refl h) (heater_trans h)) in H.
  - rewrite H. destruct h; reflexivity.
  - intros hw gc Hn. apply (rel_do_command _ _ _ (heater_refl h) (heater_trans h)); [destruct h; reflexivity|].
    intros. apply heater_exec; auto.
Qed.

(* ---------- heater targets passed their check ---------- *)
Definition checked_target (h : heater_id) (t : N) : Prop :=
  bad_temperature cfg h t = false /\ eqb t zero = false /\
  exists g d, has g "S" = true /\ get (N:=N) g "S" d (ofZ 1) = Ok t.
Definition targets_checked (m : machine N) (es : list (event N)) (m' : machine N) : Prop :=
  (forall h t, In (EHeaterOn h t) es -> checked_target h t) /\
  forall h, (forall t, heater_target m h = Some t -> checked_target h t) ->
            forall t, heater_target m' h = Some t -> checked_target h t.
Lemma tc_refl m : targets_checked m [] m. Proof. split; [intros h t []|auto]. Qed.
Lemma tc_trans m1 e1 m2 e2 m3 :
  targets_checked m1 e1 m2 -> targets_checked m2 e2 m3 -> targets_checked m1 (e1 ++ e2) m3.
Proof.
  intros [H1 K1] [H2 K2]. split.
  - intros h t H. apply in_app_or in H. destruct H; eauto.
  - intros h H t. apply K2. apply K1. exact H.
Qed.
Ltac tc_side := split; [intros h1 t1 Hin; simpl in Hin; repeat destruct Hin as [Hin|Hin]; try discriminate; contradiction
                       | intros h1 Hh1; destruct h1; simpl in *; auto; try discriminate].
Lemma tc_linear hw d v : linear_steps cfg hw targets_checked d v.
Proof.
  intros m d' g Hd Hz Hb Hg Hf. split; [|intros _]; tc_side.
Qed.
Lemma tc_arc hw d rr v rot : arc_steps cfg hw targets_checked d rr v rot.
Proof.
  intros m ce ld g lg H. split; [destruct lg; tc_side|].
  intros p ev s E _. split; [|auto]. intros h t Hin. exfalso.
  assert (Hin2: In (EHeaterOn h t) (arc_events g lg)).
  { rewrite E. apply in_app_or in Hin. apply in_or_app. destruct Hin as [Hin|[Hin|[]]]; auto. right. now left. }
  destruct lg; simpl in Hin2; repeat destruct Hin2 as [Hin2|Hin2]; try discriminate; contradiction.
Qed.
Lemma tc_heat hw h t w : checked_target h t \/ eqb t zero = true -> rel targets_checked (heat cfg hw h t w).
Proof.
  intros Ht. unfold heat.
  apply rel_bind; [exact tc_trans|apply rel_measure; intros m; tc_side|intros _].
  apply rel_bind; [exact tc_trans|apply rel_gets; exact tc_refl|intros m].
  apply rel_bind; [exact tc_trans| |intros _].
  { destruct (heater_target m h); [|apply rel_ret; exact tc_refl].
    apply rel_bind; [exact tc_trans|apply rel_call; intros m2; tc_side|intros _].
    apply rel_modify. intros m2. split; [intros h1 t1 []|]. intros h1 Hh1 t1 E.
    destruct h, h1; simpl in *; auto; discriminate. }
  destruct (eqb t zero) eqn:Ez; [apply rel_ret; exact tc_refl|].
  destruct Ht as [Ht|Ht]; [|discriminate].
  apply rel_bind; [exact tc_trans| |intros _].
  { destruct h; [|apply rel_ret; exact tc_refl]. destruct (auto_fan cfg); [|apply rel_ret; exact tc_refl].
    unfold fan. apply rel_bind; [exact tc_trans|apply rel_call; intros m2; tc_side|intros _].
    apply rel_modify; intros m2; tc_side. }
  apply rel_bind; [exact tc_trans| |intros _].
  { apply rel_call; intros m2. split; [|auto]. intros h1 t1 [E|[]]. injection E as <- <-. exact Ht. }
  apply rel_bind; [exact tc_trans| |intros _].
  { apply rel_modify; intros m2. split; [intros h1 t1 []|]. intros h1 Hh1 t1 E.
    destruct h, h1; simpl in *; auto; injection E as <-; exact Ht. }
  destruct w; [|apply rel_ret; exact tc_refl].
  apply rel_bind; [exact tc_trans|apply rel_call; intros m2; tc_side|intros _]. apply rel_ret; exact tc_refl.
Qed.
Lemma tc_exec hw g c d rr v : rel targets_checked (exec_cmd cfg hw g c d rr v).
Proof.
  destruct c as [| | | | | | | | | | | | | | | | | | |h w| | | | | | |].
  20: { simpl. intros m l m' l' r H. minv; try (exists []; rewrite app_nil_r; split; [reflexivity|apply tc_refl]).
        eapply tc_heat; [|exact H2].
        destruct (eqb a0 zero) eqn:Ez; [now right|left].
        split; [exact F|]. split; [exact Ez|]. exists g, zero. split; [now apply negb_false_iff in F0|].
        now symmetry. }
  all: simpl; exec_rel tc_refl tc_trans tc_side; try apply tc_linear; try apply tc_arc.
  all: intros; apply tc_linear.
Qed.
Lemma history_targets P (m : machine N) es : history_where P cfg m es ->
  (forall h t, In (EHeaterOn h t) es -> checked_target h t) /\
  (forall h t, heater_target m h = Some t -> checked_target h t).
Proof.
  intros H. apply (history_rel P cfg targets_checked tc_refl tc_trans) in H.
  - destruct H as [H1 H2]. split; auto. intros h. apply H2. destruct h; discriminate.
  - intros hw gc _. apply (rel_do_command _ _ _ tc_refl tc_trans); [intros; tc_side|]. intros. apply tc_exec.
Qed.

(* ---------- C24: spindle, calibration and pauses only after hal.join() ---------- *)
Definition needs_rest (ev : event N) : Prop :=
  (exists p, ev = ESpindle p) \/ (exists x y z, ev = ECalibrate x y z) \/ (exists s, ev = ESleep s).
Definition rests (m : machine N) (es : list (event N)) (m' : machine N) : Prop :=
  forall es1 ev es2, es = es1 ++ ev :: es2 -> needs_rest ev -> exists es0, es1 = es0 ++ [EJoin].
Lemma rests_refl m : rests m [] m. Proof. intros [|x es1] ev es2 H; discriminate. Qed.
Lemma rests_app e1 e2 m1 m2 m3 : rests m1 e1 m2 -> rests m2 e2 m3 -> rests m1 (e1 ++ e2) m3.
Proof.
  intros H1 H2 es1 ev es2 E Hn.
  destruct (app_eq_app _ _ _ _ E) as (l & [(E1 & E2)|(E1 & E2)]).
  - destruct l as [|x l]; simpl in E2.
    + subst. rewrite app_nil_r in *. destruct (H2 [] ev es2) as (es0 & Hes); auto. destruct es0; discriminate.
    + injection E2 as <- ->. subst. destruct (H1 es1 ev l eq_refl Hn) as (es0 & ->). eauto.
  - subst. destruct (H2 l ev es2 eq_refl Hn) as (es0 & ->). rewrite app_assoc. eauto.
Qed.
Lemma rests_trans m1 e1 m2 e2 m3 : rests m1 e1 m2 -> rests m2 e2 m3 -> rests m1 (e1 ++ e2) m3.
Proof. apply rests_app. Qed.
Lemma rests_one m ev m' : ~ needs_rest ev -> rests m [ev] m'.
Proof.
  intros Hn es1 ev' es2 E H. destruct es1 as [|x es1]; simpl in E.
  - injection E as -> _. contradiction.
  - injection E as _ E. destruct es1; discriminate.
Qed.
Lemma rests_join m ev m' : rests m [EJoin; ev] m'.
Proof.
  intros es1 ev' es2 E H. destruct es1 as [|x [|y es1]]; simpl in E.
  - injection E as <- _. destruct H as [(p & H)|[(x & y & z & H)|(s & H)]]; discriminate.
  - injection E as <- _. exists []. reflexivity.
  - injection E as _ _ E. destruct es1; discriminate.
Qed.
Ltac not_rest := let H := fresh in intros H; destruct H as [(?p & H)|[(?x & ?y & ?z & H)|(?s & H)]]; discriminate.
Ltac rests_side := solve [apply rests_one; not_rest | let E := fresh in intros [|? ?] ? ? E; discriminate E | apply rests_refl | exact rests_refl].
Lemma rests_linear hw d v : linear_steps cfg hw rests d v.
Proof. intros m d' g Hd Hz Hb Hg Hf. split; [|intros _]; apply rests_one; not_rest. Qed.
Lemma rests_moves m m' es : Forall (fun ev => exists g, ev = EMove g) es -> rests m es m'.
Proof.
  intros HF es1 ev es2 E Hn. exfalso. rewrite Forall_forall in HF.
  destruct (HF ev) as (g & ->); [rewrite E; apply in_elt|].
  revert Hn. not_rest.
Qed.
Lemma rests_arc hw d rr v rot : arc_steps cfg hw rests d rr v rot.
Proof.
  intros m ce ld g lg H. 
  assert (HF: Forall (fun ev => exists g, ev = EMove g) (arc_events g lg)).
  { destruct lg; repeat (apply Forall_cons; [eauto|]); apply Forall_nil. }
  split; [now apply rests_moves|].
  intros p ev s E _. apply rests_moves. rewrite E in HF.
  change (p ++ ev :: s) with (p ++ [ev] ++ s) in HF. rewrite app_assoc in HF.
  apply Forall_app in HF. apply HF.
Qed.
Lemma rests_pair {A} hw ev (k : bool -> M N A) : (forall b, rel rests (k b)) ->
  rel rests (bind (call hw EJoin) (fun _ => bind (call hw ev) k)).
Proof.
  intros Hk m l m' l' r H. minv.
  - exists [EJoin]. split; auto. apply rests_one. not_rest.
  - exists [EJoin; ev]. rewrite <- app_assoc. split; auto. apply rests_join.
  - apply Hk in H1. destruct H1 as (es & -> & HR). exists ([EJoin; ev] ++ es).
    rewrite <- !app_assoc. split; auto. eapply rests_app; [apply rests_join|exact HR].
Qed.
Lemma rests_spindle hw s : rel rests (spindle cfg hw s).
Proof.
  intros m l m' l' r H. unfold spindle in H. minv.
  all: rewrite <- ?app_assoc; eexists; (split; [reflexivity|]); simpl.
  all: solve [apply rests_one; not_rest | apply rests_join].
Qed.
Lemma rests_exec hw g c d rr v : rel rests (exec_cmd cfg hw g c d rr v).
Proof.
  destruct c; simpl; unfold heat, fan;
  repeat first
    [ apply rests_spindle | apply rests_pair; intros ?
    | apply rel_lift; exact rests_refl | apply rel_ret; exact rests_refl | apply rel_throw; exact rests_refl
    | apply rel_gets; exact rests_refl | apply rel_fail_if; exact rests_refl
    | apply rel_move_linear; [exact rests_refl|] | apply rel_move_circular; [exact rests_refl|]
    | apply rel_safe_zero; [exact rests_refl|exact rests_trans|]
    | apply rel_call; intros ? | apply rel_measure; intros ? | apply rel_measure_opt; intros ?
    | apply rel_modify; intros ?
    | apply rel_bind; [exact rests_trans| |intros ?]
    | match goal with |- rel _ (match ?x with _ => _ end) => destruct x end ];
  try apply rests_linear; try apply rests_arc; try rests_side.
  all: intros; apply rests_linear.
Qed.
Lemma history_rests P (m : machine N) es1 ev es2 : history_where P cfg m (es1 ++ ev :: es2) -> needs_rest ev ->
  exists es0, es1 = es0 ++ [EJoin].
Proof.
  intros H. apply (history_rel P cfg rests rests_refl rests_trans) in H.
  - intros Hn. exact (H es1 ev es2 eq_refl Hn).
  - intros hw gc _. apply (rel_do_command _ _ _ rests_refl rests_trans); [intros ? ? [|? ?] ? ? ?; discriminate|]. intros. apply rests_exec.
Qed.

(* ---------- spindle commands come from M3 (checked) or are 0 ---------- *)
Definition spindle_value (p : N) : Prop :=
  exists s, div (mul (ofZ 100) s) (ofZ (spindle_max_rpm cfg)) = Ok p /\
    (s = zero \/ ltb s zero = false /\ ltb (ofZ (spindle_max_rpm cfg)) s = false).
Definition spindles (m : machine N) (es : list (event N)) (m' : machine N) : Prop :=
  forall p, In (ESpindle p) es -> spindle_value p.
Lemma sp_refl m : spindles m [] m. Proof. intros p []. Qed.
Lemma sp_trans m1 e1 m2 e2 m3 : spindles m1 e1 m2 -> spindles m2 e2 m3 -> spindles m1 (e1 ++ e2) m3.
Proof. intros H1 H2 p H. apply in_app_or in H. destruct H; auto. Qed.
Ltac sp_side := let p := fresh in let H := fresh in intros p H; simpl in H; repeat destruct H as [H|H]; try discriminate; contradiction.
Lemma sp_linear hw d v : linear_steps cfg hw spindles d v.
Proof. intros m d' g Hd Hz Hb Hg Hf. split; [|intros _]; sp_side. Qed.
Lemma sp_arc hw d rr v rot : arc_steps cfg hw spindles d rr v rot.
Proof.
  intros m ce ld g lg H. split; [destruct lg; sp_side|].
  intros p ev s E _ q Hin. exfalso.
  assert (Hin2: In (ESpindle q) (arc_events g lg)).
  { rewrite E. apply in_app_or in Hin. apply in_or_app. destruct Hin as [Hin|[Hin|[]]]; auto. right. now left. }
  destruct lg; simpl in Hin2; repeat destruct Hin2 as [Hin2|Hin2]; try discriminate; contradiction.
Qed.
Lemma sp_spindle hw s : s = zero \/ ltb s zero = false /\ ltb (ofZ (spindle_max_rpm cfg)) s = false ->
  rel spindles (spindle cfg hw s).
Proof.
  intros Hs m l m' l' r H. unfold spindle in H. minv.
  all: rewrite <- ?app_assoc; eexists; (split; [reflexivity|]); simpl.
  all: intros p Hp; simpl in Hp; repeat destruct Hp as [Hp|Hp]; try discriminate; try contradiction.
  all: injection Hp as <-; exists s; auto.
Qed.
Lemma sp_exec hw g c d rr v : rel spindles (exec_cmd cfg hw g c d rr v).
Proof.
  destruct c as [| | | | | | | | | | | | | | | | | | |h w| | | | | | |].
  16: { simpl. intros m l m' l' r H. minv; try (exists []; rewrite app_nil_r; split; [reflexivity|apply sp_refl]).
        - eapply sp_spindle; [|exact H2]. right. apply orb_false_iff in F. exact F.
        - eapply sp_spindle in H2; [|right; apply orb_false_iff in F; exact F].
          destruct H2 as (es & -> & HR). exists es. split; auto. }
  16: { simpl. apply sp_spindle. now left. }
  all: simpl; exec_rel sp_refl sp_trans sp_side; try apply sp_linear; try apply sp_arc.
  all: intros; apply sp_linear.
Qed.
Lemma history_spindles P (m : machine N) es p : history_where P cfg m es -> In (ESpindle p) es -> spindle_value p.
Proof.
  intros H. apply (history_rel P cfg spindles sp_refl sp_trans) in H.
  - apply H.
  - intros hw gc _. apply (rel_do_command _ _ _ sp_refl sp_trans); [intros; sp_side|]. intros. apply sp_exec.
Qed.
End H.
