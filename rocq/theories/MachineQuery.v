(** Proofs about G4, M105 and the sensor test before heating (C59-C61). *)
From Coq Require Import String Ascii ZArith Bool Lia List.
From Verif Require Import PyBase PyNum Config Coordinates Pulses GCode GMachine GMachineProofs MachineFacts MachineRel MachineHist.
From Coq Require Import List.
Import ListNotations.

Section Q.
Context {N : PyNum}.
Variable cfg : config.

Ltac exec_rel Hr Ht side :=
  unfold spindle, fan, heat;
  repeat first
    [ apply rel_lift; exact Hr | apply rel_ret; exact Hr | apply rel_throw; exact Hr
    | apply rel_gets; exact Hr | apply rel_fail_if; exact Hr
    | apply rel_move_linear; [exact Hr|] | apply rel_move_circular; [exact Hr|]
    | apply rel_safe_zero; [exact Hr|exact Ht|]
    | apply rel_call; intros ? | apply rel_measure; intros ? | apply rel_measure_opt; intros ?
    | apply rel_modify; intros ?
    | apply rel_bind; [exact Ht| |intros ?]
    | match goal with |- rel _ (match ?x with _ => _ end) => destruct x end ];
  try side.

Ltac minv2 :=
  repeat first [progress minv |
    match goal with
    | H : measure_or_fail _ _ _ _ = _ |- _ => apply measure_or_fail_inv in H; destruct H as (-> & ->)
    | H : measure_opt _ _ _ _ = _ |- _ => apply measure_opt_inv in H; destruct H as (-> & ->)
    | H : (match ?x with _ => _ end) _ _ = _ |- _ => destruct x eqn:?
    | H : spindle _ _ _ _ _ = _ |- _ => unfold spindle in H
    | H : fan _ _ _ _ = _ |- _ => unfold fan in H
    end].

(* ---------- G4 ---------- *)
Lemma dwell hw g (m m' : machine N) es r :
  effective_command g = Some (tx "G4") -> run_command cfg hw (Some g) m = (m', es, r) ->
  (es = [] /\ m' = m /\ exists e, r = Raise e) \/
  (has g "P" = true /\ exists p, get (N:=N) g "P" zero (ofZ 1) = Ok p /\ ltb p zero = false /\
     (es = [EJoin; ESleep p] \/ (es = [EJoin] /\ exists e, r = Raise e /\ hw [] EJoin = HRaise e)) /\
     (r = Ok tt -> es = [EJoin; ESleep p] /\ exists v, m' = set_velocity m v)).
Proof.
  intros Ht H. destruct (exec_inv _ _ _ _ _ _ _ _ G4 Ht eq_refl H) as [(-> & -> & e & ->)|(d & v & rr & m1 & _ & Hx & ->)]; [left; eauto|].
  cbn [exec_cmd] in Hx. minv; eauto; try (left; repeat split; eauto; fail).
  all: right; (split; [match goal with F : negb _ = false |- _ => exact (proj1 (negb_false_iff _) F) end|]); exists a0; (split; [symmetry; exact E|]); (split; [assumption|]); cbn [app].
  - split; [right; eauto|discriminate].
  - split; [left; reflexivity|discriminate].
  - split; [left; reflexivity|eauto].
Qed.

(* ---------- sensor test ---------- *)
Lemma sensor_test hw g (m m' : machine N) es r w x :
  effective_command g = Some (tx w) -> In w ["M104"; "M109"; "M140"; "M190"]%string ->
  run_command cfg hw (Some g) m = (m', es, r) ->
  hw [] (EMeasure (if (w =? "M104")%string || (w =? "M109")%string then HeaterExtruder else HeaterBed)) = HRaise x ->
  m' = m /\ (exists e, r = Raise e) /\
  (es = [] \/ es = [EMeasure (if (w =? "M104")%string || (w =? "M109")%string then HeaterExtruder else HeaterBed)]).
Proof.
  intros Ht Hw H Hs. destruct (heat_word_cmd w Hw) as (wait & Hc). set (h := if (w =? "M104")%string || (w =? "M109")%string then HeaterExtruder else HeaterBed) in *.
  destruct (exec_inv _ _ _ _ _ _ _ _ _ Ht Hc H) as [(-> & -> & e & ->)|(d & v & rr & m1 & _ & Hx & ->)]; [eauto|].
  cbn [exec_cmd] in Hx. minv; eauto. unfold heat in H2. apply bind_inv in H2.
  unfold measure_or_fail, call in H2. rewrite Hs in H2. destruct H2 as [(e & H2 & ->)|(a & m2 & l2 & H2 & _)].
  - destruct x; injection H2 as <- <- <-; eauto.
  - destruct x; discriminate H2.
Qed.

Definition no_start (m : machine N) (es : list (event N)) (m' : machine N) : Prop := forall h t, ~ In (EHeaterOn h t) es.
Lemma ns_refl m : no_start m [] m. Proof. intros h t []. Qed.
Lemma ns_trans m1 e1 m2 e2 m3 : no_start m1 e1 m2 -> no_start m2 e2 m3 -> no_start m1 (e1 ++ e2) m3.
Proof. intros H1 H2 h t H. apply in_app_or in H. destruct H; [eapply H1|eapply H2]; eauto. Qed.
Ltac ns_side := intros h1 t1 Hin; simpl in Hin; repeat destruct Hin as [Hin|Hin]; try discriminate; contradiction.
Lemma ns_linear hw d v : linear_steps cfg hw no_start d v.
Proof. intros m d' g Hd Hz Hb Hg Hf. split; [|intros _]; ns_side. Qed.
Lemma ns_arc hw d rr v rot : arc_steps cfg hw no_start d rr v rot.
Proof.
  intros m ce ld g lg H. split; [destruct lg; ns_side|].
  intros p ev s E _ h t Hin.
  assert (Hin2: In (EHeaterOn h t) (arc_events g lg)).
  { rewrite E. apply in_app_or in Hin. apply in_or_app. destruct Hin as [Hin|[Hin|[]]]; auto. right. now left. }
  destruct lg; simpl in Hin2; repeat destruct Hin2 as [Hin2|Hin2]; try discriminate; contradiction.
Qed.
Lemma ns_exec hw g c d rr v : (forall h w, c <> MHeat h w) -> rel no_start (exec_cmd cfg hw g c d rr v).
Proof.
  intros Hc. destruct c as [| | | | | | | | | | | | | | | | | | |h w| | | | | | |].
  20: exfalso; eapply Hc; reflexivity.
  all: simpl; exec_rel ns_refl ns_trans ns_side; try apply ns_linear; try apply ns_arc.
  all: intros; apply ns_linear.
Qed.
Lemma heat_start hw h t w (m m' : machine N) es r h1 t1 : heat cfg hw h t w m [] = (m', es, r) -> In (EHeaterOn h1 t1) es ->
  h1 = h /\ exists b es', hw [] (EMeasure h) = HReturn b /\ es = EMeasure h :: es'.
Proof.
  intros H Hin. assert (H0 := H). unfold heat in H. apply bind_inv in H. destruct H as [(e & H & _)|(a & m2 & l2 & H & H2)].
  - apply measure_or_fail_inv in H. destruct H as (-> & ->). simpl in Hin. destruct Hin as [Hin|[]]. discriminate.
  - unfold measure_or_fail, call in H. destruct (hw [] (EMeasure h)) as [b|x] eqn:E; [|destruct x; discriminate].
    injection H as <- <- <-. clear H0.
    assert (K: h1 = h /\ exists es', es = EMeasure h :: es').
    { minv2; simpl in Hin; repeat destruct Hin as [Hin|Hin]; try discriminate Hin; try contradiction;
        injection Hin as <- <-; split; try reflexivity; eexists; reflexivity. }
    destruct K as (-> & es' & ->). split; [reflexivity|]. eauto.
Qed.
Lemma start_after_test hw g (m m' : machine N) es r h t :
  run_command cfg hw (Some g) m = (m', es, r) -> In (EHeaterOn h t) es ->
  exists b es', hw [] (EMeasure h) = HReturn b /\ es = EMeasure h :: es'.
Proof.
  intros H Hin. unfold run_command in H. apply do_command_inv in H.
  destruct H as [e|delta v radius Hd Hvel Hr Hmin He|delta v radius t' c m1 l1 r Hd Hvel Hr Hmin He Ha Hx]; try contradiction.
  assert (D: (exists h w, c = MHeat h w) \/ forall h w, c <> MHeat h w).
  { destruct c; try (right; intros; discriminate). left. eauto. }
  destruct D as [(h' & w & ->)|D].
  - cbn [exec_cmd] in Hx. minv; try contradiction. match goal with K : heat _ _ _ _ _ _ _ = _ |- _ => destruct (heat_start _ _ _ _ _ _ _ _ _ _ K Hin) as (-> & b & es' & Hb & ->) end. eauto.
  - apply (ns_exec hw g c delta radius v D) in Hx. destruct Hx as (es' & -> & Hn). exfalso. eapply Hn. exact Hin.
Qed.

(* ---------- M105 ---------- *)
Lemma temperature_query hw g (m m' : machine N) es r :
  effective_command g = Some (tx "M105") -> run_command cfg hw (Some g) m = (m', es, r) -> es <> [] ->
  (forall l ev x, hw l ev = HRaise x -> x = IOErr) ->
  es = [EMeasure HeaterExtruder; EMeasure HeaterBed] /\
  (r = Ok tt <-> (exists b, hw [] (EMeasure HeaterExtruder) = HReturn b) \/ (exists b, hw [EMeasure HeaterExtruder] (EMeasure HeaterBed) = HReturn b)) /\
  (m' = m \/ exists v, m' = set_velocity m v).
Proof.
  intros Ht H Hne Hio. destruct (exec_inv _ _ _ _ _ _ _ _ M105 Ht eq_refl H) as [(_ & -> & _)|(d & v & rr & m1 & _ & Hx & ->)]; [contradiction|].
  cbn [exec_cmd] in Hx. unfold measure_opt, call, bind, fail_if, throw, ret in Hx.
  destruct (hw [] (EMeasure HeaterExtruder)) as [b1|x1] eqn:E1.
  - cbn [app negb andb] in Hx. destruct (hw [EMeasure HeaterExtruder] (EMeasure HeaterBed)) as [b2|x2] eqn:E2.
    + cbn [app negb andb] in Hx. injection Hx as <- <- <-. split; [reflexivity|]. split; [|eauto]. split; eauto.
    + rewrite (Hio _ _ _ E2) in Hx. cbn [app negb andb] in Hx. injection Hx as <- <- <-. split; [reflexivity|]. split; [|eauto]. split; eauto.
  - rewrite (Hio _ _ _ E1) in Hx. cbn [app negb andb] in Hx. destruct (hw [EMeasure HeaterExtruder] (EMeasure HeaterBed)) as [b2|x2] eqn:E2.
    + cbn [app negb andb] in Hx. injection Hx as <- <- <-. split; [reflexivity|]. split; [|eauto]. split; eauto.
    + rewrite (Hio _ _ _ E2) in Hx. cbn [app negb andb] in Hx. injection Hx as <- <- <-. split; [reflexivity|]. split; [|eauto].
      split; [discriminate|]. intros [(b & K)|(b & K)]; discriminate.
Qed.
End Q.
