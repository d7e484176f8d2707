(** Property C91: utils/heater_model_finder.py. Every theorem is followed by its assumptions
    and by an Example in which its hypotheses hold. *)
From Coq Require Import ZArith Bool Reals Lra Lia List.
From Verif Require Import PyBase PyNum PyFloatFacts Config PidFinder PidFinderSpec PropsPidFinder ModelFinder.
From Verif Require Import PyBase PyNum.
From Coq Require Import List.
Import ListNotations.
Local Open Scope R_scope.

Section Exact.
Variable max delta : R.
Notation inputs := (list (R * res R)).
Definition last_is (l : list R) (x : R) : Prop := exists l0, l = l0 ++ [x].
Lemma last_is_eq l a x : last_is (l ++ [a]) x -> a = x.
Proof. intros (l0 & H). apply app_inj_tail in H. tauto. Qed.

Lemma exists_last' {A} (l : list A) : l = [] \/ exists l0 a, l = l0 ++ [a].
Proof. destruct l as [|a l]; [now left|]. right. destruct (exists_last (l:=a :: l)) as (l0 & b & E); [discriminate|eauto]. Qed.

Lemma phase1_hot ins : forall lt lm, fst (phase1 (N:=RN) max ins true lt lm) = [].
Proof.
  induction ins as [|[now [t|e]] r IH]; intros lt lm; cbn [phase1]; try reflexivity.
  rewrite andb_false_r. cbn [andb]. destruct (leb t max); [reflexivity|].
  destruct (changed lt t); [specialize (IH t now)|specialize (IH lt lm)]; destruct (phase1 _ _ _ _ _); exact IH.
Qed.
Lemma phase1_cold ins : forall lt lm l o, phase1 (N:=RN) max ins false lt lm = (l, o) ->
  (l = [0] \/ (l = [] /\ (o = None \/ exists e, o = Some (Raise e)) /\ forall ins0 now t, ins = ins0 ++ [(now, Ok t)] -> o = None -> t < max)).
Proof.
  induction ins as [|[now [t|e]] r IH]; intros lt lm l o; cbn [phase1]; intros H.
  - injection H as <- <-. right. repeat split; auto. intros [|? ?] ? ? K; discriminate K.
  - cbn [negb andb] in H. rewrite andb_true_r in H. cbn [leb RN] in H. unfold Rleb at 1 in H. destruct (Rle_dec max t) as [M|M].
    + left. destruct (true && _); [injection H as <- _; reflexivity|]. pose proof (phase1_hot r) as Q.
      destruct (changed lt t); [specialize (Q t now)|specialize (Q lt lm)]; destruct (phase1 _ _ _ _ _) as [c' o']; cbn [fst] in Q; subst c'; injection H as <- _; reflexivity.
    + cbn [andb] in H.
      assert (G: exists lt' lm' c', phase1 (N:=RN) max r false lt' lm' = (c', o) /\ l = c').
      { destruct (changed lt t); [exists t, now|exists lt, lm]; destruct (phase1 _ _ _ _ _) as [c' o']; injection H as <- <-; eauto. }
      destruct G as (lt' & lm' & c' & G & ->). destruct (IH _ _ _ _ G) as [K|(K & O & B)]; [now left|right]. repeat split; auto.
      intros ins0 now' t' J N0. destruct ins0 as [|a ins0].
      * injection J as _ <- _. lra.
      * injection J as _ J2. exact (B _ _ _ J2 N0).
  - injection H as <- <-. right. split; [reflexivity|]. split; [eauto|]. intros; discriminate.
Qed.
(** What is left after a phase, and where last_t comes from. *)
Definition from (ins : inputs) (x : R) : Prop := exists w, In (w, Ok x) ins.
Lemma phase1_rest ins : forall h lt lm l t1 m1 r1, phase1 (N:=RN) max ins h lt lm = (l, Some (Ok (t1, m1, r1))) ->
  exists pre now t, ins = pre ++ (now, Ok t) :: r1 /\ (t1 = lt \/ from pre t1).
Proof.
  induction ins as [|[now [t|e]] r IH]; intros h lt lm l t1 m1 r1; cbn [phase1]; intros H; try discriminate.
  match type of H with (let '(_, _) := ?x in _) = _ => destruct x as [c h'] end. destruct (h' && leb (p:=RN) t max).
  - injection H as <- <- <- <-. exists [], now, t. auto.
  - destruct (changed lt t); cbv iota in H; destruct (phase1 _ _ _ _ _) as [c' o'] eqn:F; injection H as <- ->;
      destruct (IH _ _ _ _ _ _ _ F) as (pre & now' & t' & -> & K); exists ((now, Ok t) :: pre), now', t'; (split; [reflexivity|]).
    + right. destruct K as [->|(w & K)]; [exists now; now left|exists w; now right].
    + destruct K as [->|(w & K)]; [now left|right; exists w; now right].
Qed.
Lemma phase2_rest ins : forall lt lm ca cn t2 m2 ca' cn' r2, phase2 (N:=RN) max delta ins lt lm ca cn = Some (Ok (t2, m2, ca', cn', r2)) ->
  exists pre now t, ins = pre ++ (now, Ok t) :: r2 /\ t <= max - delta /\ (t2 = lt \/ from pre t2).
Proof.
  induction ins as [|[now [t|e]] r IH]; intros lt lm ca cn t2 m2 ca' cn' r2; cbn [phase2]; intros H; try discriminate.
  destruct (changed lt t).
  - cbn [leb sub RN] in H. unfold Rleb in H. destruct (Rle_dec t (max - delta)) as [M|M].
    + injection H as <- <- <- <- <-. exists [], now, t. auto.
    + repeat match type of H with (match ?x with Ok _ => _ | Raise _ => _ end = _) => destruct x; try discriminate H end.
      destruct (IH _ _ _ _ _ _ _ _ _ H) as (pre & now' & t' & -> & L & K). exists ((now, Ok t) :: pre), now', t'. split; [reflexivity|]. split; [exact L|].
      right. destruct K as [->|(w & K)]; [exists now; now left|exists w; now right].
  - destruct (IH _ _ _ _ _ _ _ _ _ H) as (pre & now' & t' & -> & L & K). exists ((now, Ok t) :: pre), now', t'. split; [reflexivity|]. split; [exact L|].
    destruct K as [->|(w & K)]; [now left|right; exists w; now right].
Qed.
Lemma phase3_run c ins : forall lt lm ha hn now t, phase3 (N:=RN) max delta c (ins ++ [(now, Ok t)]) lt lm ha hn = None ->
  t < max + 1 \/ (max < lt /\ Rabs (lt - t) < 1).
Proof.
  assert (Ch: forall a b, changed (N:=RN) a b = if Rle_dec 1 (Rabs (a - b)) then true else false) by reflexivity.
  induction ins as [|[w [x|e]] r IH]; intros lt lm ha hn now t; cbn [phase3 app]; intros H; try discriminate.
  - rewrite Ch in H. destruct (Rle_dec 1 (Rabs (lt - t))) as [M|M].
    + cbn [ltb RN] in H. unfold Rltb in H. destruct (Rlt_dec max t) as [V|V]; [discriminate|]. left. lra.
    + destruct (Rlt_dec max lt) as [V|V]; [right; split; [exact V|lra]|]. left. assert (Rabs (lt - t) < 1) by lra. apply Rabs_def2 in H0. lra.
  - rewrite Ch in H. destruct (Rle_dec 1 (Rabs (lt - x))) as [M|M].
    + cbn [ltb RN] in H. unfold Rltb in H. destruct (Rlt_dec max x) as [V|V]; [discriminate|].
      assert (G: exists ha' hn', phase3 (N:=RN) max delta c (r ++ [(now, Ok t)]) x w ha' hn' = None).
      { match type of H with (if ?b then _ else _) = _ => destruct b end; [|do 2 eexists; exact H]. repeat match type of H with (match ?y with Ok _ => _ | Raise _ => _ end = _) => destruct y; try discriminate H end. do 2 eexists. exact H. }
      destruct G as (ha' & hn' & G). destruct (IH _ _ _ _ _ _ G) as [K|[K _]]; [now left|lra].
    + exact (IH _ _ _ _ _ _ H).
Qed.

(** C91. While the finder runs with full power on the heater, the newest reading is less than
    one degree above the maximum, or it is within one degree of an earlier reading that was
    above the maximum. *)
Theorem C91_limit start ins now t l : 0 <= delta ->
  find_model (N:=RN) max delta start (ins ++ [(now, Ok t)]) = (l, None) -> last_is l 100 ->
  t < max + 1 \/ exists w x, In (w, Ok x) (start :: ins) /\ max < x /\ Rabs (x - t) < 1.
Proof.
  intros D. unfold find_model. destruct start as [t0 [x0|e]]; cbn [snd fst]; [|discriminate].
  destruct (phase1 (N:=RN) max (ins ++ [(now, Ok t)]) false x0 t0) as [l1 o1] eqn:E1. intros H L.
  destruct (phase1_cold _ _ _ _ _ E1) as [->|(-> & O & B)].
  2: { destruct O as [->|(e & ->)]; [|discriminate H]. left. specialize (B ins now t eq_refl eq_refl). lra. }
  destruct o1 as [[[[t1 m1] r1]|e]|]; try discriminate H.
  2: { injection H as <-. apply (last_is_eq [100]) in L. cbn in L. lra. }
  destruct (phase1_rest _ _ _ _ _ _ _ _ E1) as (pre1 & w1 & x1 & S1 & T1).
  destruct (phase2 (N:=RN) max delta r1 t1 m1 (ofZ 0) 0) as [[[[[[t2 m2] ca] cn] r2]|e]|] eqn:E2; try discriminate H.
  2: { injection H as <-. apply (last_is_eq [100]) in L. cbn in L. lra. }
  destruct (phase2_rest _ _ _ _ _ _ _ _ _ _ E2) as (pre2 & w2 & x2 & S2 & M2 & T2).
  destruct (div ca (ofZ cn)) as [c|e]; [|discriminate H].
  destruct (phase3 (N:=RN) max delta c r2 t2 m2 (ofZ 0) 0) as [[[ha hn]|e]|] eqn:E3; [destruct (div ha (ofZ hn)); discriminate H|discriminate H|]. clear H.
  destruct (exists_last' r2) as [->|(r2' & z & ->)].
  - subst r1. left. change (pre1 ++ (w1, Ok x1) :: pre2 ++ [(w2, Ok x2)]) with (pre1 ++ ((w1, Ok x1) :: pre2) ++ [(w2, Ok x2)]) in S1. rewrite app_assoc in S1.
    apply app_inj_tail in S1. destruct S1 as [_ S1]. injection S1 as _ ->. lra.
  - subst r1. replace (pre1 ++ (w1, Ok x1) :: pre2 ++ (w2, Ok x2) :: r2' ++ [z]) with ((pre1 ++ (w1, Ok x1) :: pre2 ++ (w2, Ok x2) :: r2') ++ [z]) in S1
      by (rewrite <- app_assoc; cbn [app]; rewrite <- app_assoc; reflexivity).
    apply app_inj_tail in S1. destruct S1 as [S1 <-].
    destruct (phase3_run _ _ _ _ _ _ _ _ E3) as [K|[K1 K2]]; [now left|]. right.
    assert (P: exists w, In (w, Ok t2) ((t0, Ok x0) :: ins)).
    { rewrite S1. destruct T2 as [->|(w & T2)]; [destruct T1 as [->|(w & T1)]|].
      - exists t0. now left.
      - exists w. right. apply in_or_app. now left.
      - exists w. right. apply in_or_app. right. right. apply in_or_app. now left. }
    destruct P as (w & P). exists w, t2. auto.
Qed.
Print Assumptions C91_limit.
End Exact.

(* ---------- the end of the program ---------- *)
Lemma div_RN a b e : div (p:=RN) a b = Raise e -> e = ZeroDivisionError.
Proof. cbn [div RN]. destruct (Req_EM_T b 0); intros H; [now injection H as <-|discriminate]. Qed.
Lemma above_RN a b e : above_environment (N:=RN) a b = Raise e -> e = ZeroDivisionError.
Proof. unfold above_environment. destruct (div _ _) eqn:E; intros H; [discriminate|]. injection H as <-. exact (div_RN _ _ _ E). Qed.
(** Where an exception comes from. *)
Definition blame (ins : list (R * res R)) (e : exn) : Prop := (exists w, In (w, Raise e) ins) \/ e = ZeroDivisionError.
Lemma blame_more a ins e : blame ins e -> blame (a :: ins) e.
Proof. intros [(w & K)|K]; [left; exists w; now right|now right]. Qed.
Lemma blame_rest pre a ins e : blame ins e -> blame (pre ++ a :: ins) e.
Proof. intros [(w & K)|K]; [left; exists w; apply in_or_app; right; now right|now right]. Qed.
Lemma phase1_raise max ins : forall h lt lm l e, phase1 (N:=RN) max ins h lt lm = (l, Some (Raise e)) -> blame ins e.
Proof.
  induction ins as [|[now [t|x]] r IH]; intros h lt lm l e; cbn [phase1]; intros H; [discriminate| |injection H as _ <-; left; exists now; now left].
  match type of H with (let '(_, _) := ?x in _) = _ => destruct x as [c h'] end. destruct (h' && _); [discriminate|].
  destruct (changed lt t); cbv iota in H; destruct (phase1 _ _ _ _ _) as [c' o'] eqn:F; injection H as _ ->; apply blame_more, (IH _ _ _ _ _ F).
Qed.
Lemma phase2_raise max delta ins : forall lt lm ca cn e, phase2 (N:=RN) max delta ins lt lm ca cn = Some (Raise e) -> blame ins e.
Proof.
  induction ins as [|[now [t|x]] r IH]; intros lt lm ca cn e; cbn [phase2]; intros H; [discriminate| |injection H as <-; left; exists now; now left].
  destruct (changed lt t); [|apply blame_more, (IH _ _ _ _ _ H)]. match type of H with (if ?b then _ else _) = _ => destruct b end; [discriminate|].
  destruct (above_environment lt t) eqn:A; [|injection H as <-; right; exact (above_RN _ _ _ A)].
  destruct (div (absn (lt - t)%num) _) eqn:B; [|injection H as <-; right; exact (div_RN _ _ _ B)].
  destruct (div _ _) eqn:C in H; [|injection H as <-; right; exact (div_RN _ _ _ C)]. apply blame_more, (IH _ _ _ _ _ H).
Qed.
Lemma phase3_raise max delta c ins : forall lt lm ha hn e, phase3 (N:=RN) max delta c ins lt lm ha hn = Some (Raise e) -> blame ins e.
Proof.
  induction ins as [|[now [t|x]] r IH]; intros lt lm ha hn e; cbn [phase3]; intros H; [discriminate| |injection H as <-; left; exists now; now left].
  destruct (changed lt t); [|apply blame_more, (IH _ _ _ _ _ H)]. match type of H with (if ?b then _ else _) = _ => destruct b end; [discriminate|].
  match type of H with (if ?b then _ else _) = _ => destruct b end; [|apply blame_more, (IH _ _ _ _ _ H)].
  destruct (above_environment lt t) eqn:A; [|injection H as <-; right; exact (above_RN _ _ _ A)].
  destruct (div _ _) eqn:C in H; [|injection H as <-; right; exact (div_RN _ _ _ C)]. apply blame_more, (IH _ _ _ _ _ H).
Qed.
Lemma find_raise max delta start ins l e : find_model (N:=RN) max delta start ins = (l, Some (Raise e)) -> blame (start :: ins) e.
Proof.
  unfold find_model. destruct start as [t0 [x0|x]]; cbn [snd fst]; intros H; [|injection H as _ <-; left; exists t0; now left]. apply blame_more.
  destruct (phase1 (N:=RN) max ins false x0 t0) as [l1 [[[[t1 m1] r1]|x]|]] eqn:E1; try discriminate H; [|injection H as _ <-; exact (phase1_raise _ _ _ _ _ _ _ E1)].
  destruct (phase1_rest _ _ _ _ _ _ _ _ _ E1) as (pre1 & w1 & x1 & -> & _). apply blame_rest.
  destruct (phase2 (N:=RN) max delta r1 t1 m1 (ofZ 0) 0) as [[[[[[t2 m2] ca] cn] r2]|x]|] eqn:E2; try discriminate H; [|injection H as _ <-; exact (phase2_raise _ _ _ _ _ _ _ _ E2)].
  destruct (phase2_rest _ _ _ _ _ _ _ _ _ _ _ _ E2) as (pre2 & w2 & x2 & -> & _). apply blame_rest.
  destruct (div ca (ofZ cn)) as [c|x] eqn:A; [|injection H as _ <-; right; exact (div_RN _ _ _ A)].
  destruct (phase3 (N:=RN) max delta c r2 t2 m2 (ofZ 0) 0) as [[[ha hn]|x]|] eqn:E3; try discriminate H; [|injection H as _ <-; exact (phase3_raise _ _ _ _ _ _ _ _ _ E3)].
  destruct (div ha (ofZ hn)) as [h|x] eqn:B; [discriminate|]. injection H as _ <-. right. exact (div_RN _ _ _ B).
Qed.
Lemma sends_other {N : PyNum} (l : list N) : forall p, power_of HeaterExtruder (sends HeaterBed l) p = p.
Proof. induction l as [|a l IH]; intros p; [reflexivity|]. cbn [sends map power_of]. apply IH. Qed.

(** The end of the program: if measurements fail with nothing but IOError, it ends by itself
    with both heaters and the fan switched off and deinit called, or with ZeroDivisionError.
    Exact arithmetic. Missing: see C91_end_refuted. *)
Theorem C91_end_partial x y es r : model_main (N:=RN) x y = (es, Some r) ->
  only_io (N:=RN) (fst x :: snd x) -> only_io (N:=RN) (fst y :: snd y) ->
  r = Raise ZeroDivisionError \/
  r = Ok tt /\ (exists es0, es = es0 ++ [UDeinit]) /\ fan_of es true = false /\ forall h q, power_of h es q = 0.
Proof.
  unfold model_main. intros H X Y. destruct (find_model (N:=RN) (ofZ 200) (ofZ 50) (fst x) (snd x)) as [lx [ox|]] eqn:E; [|discriminate].
  destruct (find_model (N:=RN) (ofZ 70) (ofZ 10) (fst y) (snd y)) as [ly oy] eqn:F.
  assert (A: ox = Raise ZeroDivisionError \/ (exists v, ox = Ok v) \/ ox = Raise IOErr).
  { destruct ox as [v|e]; [eauto|]. destruct (find_raise _ _ _ _ _ _ E) as [(w & K)| ->]; [|auto]. rewrite (X w e K). auto. }
  assert (B: oy = None \/ oy = Some (Raise ZeroDivisionError) \/ (exists v, oy = Some (Ok v)) \/ oy = Some (Raise IOErr)).
  { destruct oy as [[v|e]|]; [eauto| |auto]. destruct (find_raise _ _ _ _ _ _ F) as [(w & K)| ->]; [|auto]. rewrite (Y w e K). auto. }
  destruct A as [->|A]; [injection H as _ <-; now left|].
  assert (R: oy = Some (Raise ZeroDivisionError) /\ r = Raise ZeroDivisionError \/
    es = ((UFan true :: sends HeaterExtruder lx) ++ UPower HeaterExtruder (ofZ 0) :: sends HeaterBed ly) ++ [UPower HeaterBed (ofZ 0); UFan false; UDeinit] /\ r = Ok tt).
  { destruct A as [(v & ->)| ->]; (destruct B as [->|[->|[(w & ->)| ->]]]; [discriminate H|left; split; congruence|right; split; congruence..]). }
  destruct R as [[_ ->]|[-> ->]]; [now left|]. right. split; [reflexivity|]. split.
  { exists (((UFan true :: sends HeaterExtruder lx) ++ UPower HeaterExtruder (ofZ 0) :: sends HeaterBed ly) ++ [UPower HeaterBed (ofZ 0); UFan false]). now rewrite <- !app_assoc. }
  split; [rewrite fan_app; reflexivity|]. intros h q. rewrite !power_app. destruct h; cbn [power_of]; [apply sends_other|reflexivity].
Qed.
Print Assumptions C91_end_partial.

(** With a sensor that always works the program can end with full power on the heater and
    without deinit: one reading above the maximum while the heater is still far below it
    (line 93 divides by zero before line 94 switches off). Binary64. *)
Section Refuted.
Variable acos : f64 -> f64.
Notation N := (F64 acos).
Definition rd (t x : Z) : f64 * res f64 := (ofZ (p:=N) t, Ok (ofZ (p:=N) x)).
Definition spike : (f64 * res f64) * list (f64 * res f64) := (rd 0 20, [rd 60 201; rd 61 199; rd 70 190; rd 90 150; rd 160 201]).
Theorem C91_end_refuted : exists (x y : (f64 * res f64) * list (f64 * res f64)) (es : list (util_call N)),
  (forall w e, ~ In (w, Raise e) (fst x :: snd x)) /\ model_main (N:=N) x y = (es, Some (Raise ZeroDivisionError)) /\
  eqb (power_of HeaterExtruder es (ofZ 0)) (ofZ (p:=N) 100) = true /\ ~ In UDeinit es.
Proof.
  exists spike, spike, (fst (model_main (N:=N) spike spike)).
  assert (S: match snd (model_main (N:=N) spike spike) with Some (Raise ZeroDivisionError) => true | _ => false end = true) by (vm_compute; reflexivity).
  assert (D: forallb (fun c => match c with UDeinit => false | _ => true end) (fst (model_main (N:=N) spike spike)) = true) by (vm_compute; reflexivity).
  split; [intros w e K; cbn [spike fst snd In] in K; unfold rd in K; intuition discriminate|]. split; [|split].
  - destruct (model_main (N:=N) spike spike) as [es [[|e]|]]; cbn [fst snd] in *; try discriminate S. destruct e; try discriminate S. reflexivity.
  - vm_compute. reflexivity.
  - intros K. rewrite forallb_forall in D. specialize (D _ K). discriminate D.
Qed.
End Refuted.
Print Assumptions C91_end_refuted.
(** The hypotheses of C91_limit and C91_end_partial. *)
Example C91_limit_ex : find_model (N:=RN) 200 50 (0, Ok 20) ([] ++ [(1, Ok 150)]) = ([100], None) /\ last_is [100] 100.
Proof.
  split; [|exists []; reflexivity]. unfold find_model. cbn [snd fst app phase1 leb RN negb andb]. unfold Rleb. destruct (Rle_dec 200 150); [lra|]. cbn [andb].
  destruct (changed (N:=RN) 20 150); reflexivity.
Qed.
Example C91_end_partial_ex : exists es, model_main (N:=RN) ((0, Ok 20), [(1, Raise IOErr)]) ((0, Raise IOErr), []) = (es, Some (Ok tt)) /\
  only_io (N:=RN) [(0, Ok 20); (1, Raise IOErr)] /\ only_io (N:=RN) [(0, Raise IOErr)].
Proof. eexists. split; [reflexivity|]. split; intros t e K; cbn in K; intuition congruence. Qed.
