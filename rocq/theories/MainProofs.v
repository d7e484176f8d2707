(** Proofs about the main loop. *)
From Coq Require Import String Ascii ZArith Reals Bool List Lia.
From Flocq Require Import Core BinarySingleNaN.
From Verif Require Import PyBase PyNum Config Coordinates Pulses GCode GMachine PyFloatFacts GMachineProofs MachineFacts MachineRel MachineHist MainLoop MainSpec.
From Coq Require Import List.
Import ListNotations.

(* ---------- which exceptions can escape ---------- *)
(** Exceptions of float arithmetic and the assert in pulses.py. *)
Definition arithmetic (e : exn) : bool :=
  match e with ValueError | OverflowError | ZeroDivisionError | AssertionError => true | _ => false end.

Section Escape.
Variable acos : f64 -> f64.
Notation N := (F64 acos).
Variable cfg : config.
Variable hw : hw_oracle N.

Definition r_only {A} (r : res A) : Prop := forall e, r = Raise e -> arithmetic e = true \/ caught e = true.
Lemma r_ok {A} (a : A) : r_only (Ok a). Proof. intros e H. discriminate H. Qed.
Lemma r_raise {A} e : arithmetic e || caught e = true -> r_only (Raise (A:=A) e).
Proof. intros H e' E. injection E as <-. now apply orb_prop. Qed.
Lemma r_bind {A B} (r : res A) (f : A -> res B) : r_only r -> (forall a, r_only (f a)) -> r_only (rbind r f).
Proof. intros H1 H2 e. destruct r as [a|e1]; cbn; [apply H2|]. intros E. injection E as <-. now apply H1. Qed.
Lemma r_div x y : r_only (div (p:=N) x y).
Proof. cbn. unfold f_div. destruct (is_zero_f y); [now apply r_raise|apply r_ok]. Qed.
Lemma r_sqrt x : r_only (sqrtn (p:=N) x).
Proof. cbn. unfold f_sqrt. destruct x as [s|[]| |[] mx ex B]; try apply r_ok; now apply r_raise. Qed.
Lemma r_rnd x : r_only (rnd (p:=N) x).
Proof. cbn. unfold f_rnd. destruct x as [s|s| |s mx ex B]; try apply r_ok; now apply r_raise. Qed.
Lemma r_trunc x : r_only (trunc (p:=N) x).
Proof. cbn. unfold f_trunc. destruct x as [s|s| |s mx ex B]; try apply r_ok; now apply r_raise. Qed.
Lemma r_sqr x : r_only (sqr (p:=N) x).
Proof. cbn. unfold f_sqr. destruct (is_finite x && negb (is_finite (f_mul x x))); [now apply r_raise|apply r_ok]. Qed.
Lemma r_acos x : r_only (acosn (p:=N) x).
Proof. cbn. unfold f_acos. destruct (f_lt f_one x || f_lt x (Bopp f_one)); [now apply r_raise|apply r_ok]. Qed.
Lemma r_guard b e : arithmetic e || caught e = true -> r_only (guard b e).
Proof. intros H. destruct b; [apply r_ok|now apply r_raise]. Qed.
Lemma r_get g k (d mu : N) : r_only (get g k d mu).
Proof. unfold get. destruct (lookup g k) as [lit|]; [|apply r_ok]. destruct (decimal_of lit) as [[[s n] dd]|]; [apply r_ok|now apply r_raise]. Qed.

Ltac r_go :=
  repeat first
    [ apply r_ok | apply r_div | apply r_sqrt | apply r_rnd | apply r_trunc | apply r_sqr | apply r_acos | apply r_get
    | apply r_guard; reflexivity | apply r_raise; reflexivity
    | apply r_bind; [|intros ?]
    | match goal with
      | |- r_only (if ?b then _ else _) => destruct b
      | |- r_only (match ?x with _ => _ end) => destruct x
      | |- r_only (let '(_, _) := ?x in _) => destruct x
      | |- r_only (let x := _ in _) => cbv zeta
      end ].

Lemma r_coordinates g d mu : r_only (get_coordinates (N:=N) g d mu). Proof. unfold get_coordinates. r_go. Qed.
Lemma r_radius g d mu : r_only (get_radius (N:=N) g d mu). Proof. unfold get_radius. r_go. Qed.
Lemma r_grid d : r_only (round_to_grid (N:=N) cfg d).
Proof. unfold round_to_grid, grid, Coordinates.round, Coordinates.round1. r_go. Qed.
Lemma r_adjust v : r_only (adjust_velocity (N:=N) cfg v).
Proof. unfold adjust_velocity, adjust1. r_go. Qed.
Lemma r_linear d v : r_only (make_linear (N:=N) cfg d v).
Proof. unfold make_linear, pulses_of, Coordinates.length, cdiv. r_go; apply r_adjust. Qed.
Lemma r_angle a b : r_only (angle_of (N:=N) a b). Proof. unfold angle_of. r_go. Qed.
Lemma r_circle a b c d rot e f h i : r_only (adjust_circle (N:=N) a b c d rot e f h i).
Proof. unfold adjust_circle, circle_end_point. r_go. Qed.
Lemma r_rapid d : r_only (rapid_velocity (N:=N) cfg d).
Proof. unfold rapid_velocity, rapid1, Coordinates.length, cdiv. r_go. Qed.
Lemma r_circular d rr pl rot v : r_only (make_circular (N:=N) cfg d rr pl rot v).
Proof.
  unfold make_circular, Coordinates.length.
  repeat first
    [ apply r_ok | apply r_div | apply r_sqrt | apply r_rnd | apply r_trunc | apply r_sqr | apply r_acos
    | apply r_angle | apply r_adjust
    | apply r_guard; reflexivity | apply r_raise; reflexivity
    | apply r_bind; [|intros ?]
    | match goal with
      | |- r_only (let '(_, _) := ?x in _) => destruct x
      | |- r_only (if ?b then _ else _) => destruct b
      | |- r_only (match ?x with CW => _ | CCW => _ end) => destruct x
      | |- r_only (match ?x with (_, _) => _ end) => destruct x
      | |- r_only (let x := _ in _) => cbv zeta
      end ].
Qed.

(** A computation raises only such exceptions, or what the hardware raised. *)
Definition from_hw (e : exn) : Prop := exists l ev, hw l ev = HRaise e.
Definition m_only {A} (c : M N A) : Prop :=
  forall m l m' l' e, c m l = (m', l', Raise e) -> arithmetic e = true \/ caught e = true \/ from_hw e.
Lemma m_ret {A} (a : A) : m_only (ret a).
Proof. intros m l m' l' e H. apply ret_inv in H. destruct H as (_ & _ & H). discriminate. Qed.
Lemma m_lift {A} (r : res A) : r_only r -> m_only (lift r).
Proof. intros Hr m l m' l' e H. apply lift_inv in H. destruct H as (_ & _ & H). destruct (Hr e (eq_sym H)); auto. Qed.
Lemma m_gets : m_only gets.
Proof. intros m l m' l' e H. apply gets_inv in H. destruct H as (_ & _ & H). discriminate. Qed.
Lemma m_modify f : m_only (modify f).
Proof. intros m l m' l' e H. apply modify_inv in H. destruct H as (_ & _ & H). discriminate. Qed.
Lemma m_fail b s : m_only (fail_if b s).
Proof. intros m l m' l' e H. apply fail_if_inv in H. destruct H as (_ & _ & [(_ & H)|(_ & H)]); [injection H as ->|discriminate]. auto. Qed.
Lemma m_throw {A} s : m_only (throw (A:=A) (GMachineException s)).
Proof. intros m l m' l' e H. apply throw_inv in H. destruct H as (_ & _ & H). injection H as ->. auto. Qed.
Lemma m_call ev : m_only (call hw ev).
Proof.
  intros m l m' l' e H. apply call_inv in H. destruct H as (_ & _ & [(b & _ & H)|(e' & Hh & H)]); [discriminate|].
  injection H as ->. right. right. exists l, ev. exact Hh.
Qed.
Lemma m_bind {A B} (c : M N A) (f : A -> M N B) : m_only c -> (forall a, m_only (f a)) -> m_only (bind c f).
Proof.
  intros H1 H2 m l m' l' e H. apply bind_inv in H. destruct H as [(e1 & H & E)|(a & m1 & l1 & _ & H)].
  - injection E as ->. eapply H1; eauto.
  - eapply H2; eauto.
Qed.
Lemma m_measure h : m_only (measure_or_fail hw h).
Proof.
  intros m l m' l' e H. unfold measure_or_fail, call in H. destruct (hw l (EMeasure h)) as [b|x] eqn:Hh; [discriminate|].
  assert (from_hw x) by (exists l, (EMeasure h); exact Hh).
  destruct x; injection H as <- <- <-; auto.
Qed.
Lemma m_measure_opt h : m_only (measure_opt hw h).
Proof.
  intros m l m' l' e H. unfold measure_opt, call in H. destruct (hw l (EMeasure h)) as [b|x] eqn:Hh; [discriminate|].
  assert (from_hw x) by (exists l, (EMeasure h); exact Hh).
  destruct x; try discriminate H; injection H as <- <- <-; auto.
Qed.

Ltac m_go :=
  repeat first
    [ apply m_ret | apply m_gets | apply m_modify | apply m_fail | apply m_throw | apply m_call | apply m_measure | apply m_measure_opt
    | apply m_lift; first [apply r_grid|apply r_linear|apply r_circular|apply r_circle|apply r_rapid|apply r_coordinates|apply r_radius|r_go]
    | apply m_bind; [|intros ?]
    | match goal with
      | |- m_only (if ?b then _ else _) => destruct b
      | |- m_only (match ?x with _ => _ end) => destruct x
      | |- m_only (let '(_, _) := ?x in _) => destruct x
      | |- m_only (let x := _ in _) => cbv zeta
      end ].
Lemma m_spindle s : m_only (spindle cfg hw s). Proof. unfold spindle. m_go. Qed.
Lemma m_fan b : m_only (fan hw b). Proof. unfold fan. m_go. Qed.
Lemma m_heat h t w : m_only (heat cfg hw h t w).
Proof. unfold heat. m_go; apply m_fan. Qed.
Lemma m_move_linear d v : m_only (move_linear cfg hw d v).
Proof. unfold move_linear, check_delta, check_velocity. m_go. Qed.
Lemma m_move_circular d rr v rot : m_only (move_circular cfg hw d rr v rot).
Proof. unfold move_circular, check_delta, check_velocity. m_go. Qed.
Lemma m_safe_zero x y z : m_only (safe_zero cfg hw x y z).
Proof. unfold safe_zero. m_go; apply m_move_linear. Qed.
Lemma m_exec g c d rr v : m_only (exec_cmd cfg hw g c d rr v).
Proof.
  destruct c; cbn [exec_cmd]; m_go; first [apply m_move_linear|apply m_move_circular|apply m_safe_zero|apply m_spindle|apply m_heat|apply m_fan].
Qed.
Lemma m_command gc : m_only (do_command cfg hw gc).
Proof.
  destruct gc as [g|]; [|apply m_ret]. unfold do_command, command_delta. m_go; try apply m_exec.

Qed.
End Escape.

Lemma parse_only line e : parse_line line = Raise e -> caught e = true.
Proof.
  unfold parse_line. destruct (clean Outside (upper line)) as [|c r]; [discriminate|].
  destruct (Ascii.eqb c "%"); [discriminate|]. cbv zeta.
  destruct (_ =? 0)%nat; [intros H; now injection H as <-|].
  destruct (negb _); [intros H; now injection H as <-|].
  destruct (negb _); [intros H; now injection H as <-|].
  destruct (_ && _); [intros H; now injection H as <-|discriminate].
Qed.

Section Loop.
Context {N : PyNum}.
Variable cfg : config.
Variable hw : hw_oracle N.

(** One line: what it did. *)
Lemma do_line_inv line s s' r : do_line cfg hw line s = (s', r) ->
  exists g m' es r0,
    ((parse_line line = Ok g /\ run_command cfg (hw_now hw s) g (s_machine s) = (m', es, r0)) \/
     (exists e, parse_line line = Raise e /\ caught e = true /\ m' = s_machine s /\ es = [] /\ r0 = Raise e)) /\
    s_machine s' = m' /\ s_log s' = s_log s ++ es /\
    match r0 with
    | Ok _ => r = Ok true /\ s_out s' = s_out s ++ [true]
    | Raise e => if caught e then r = Ok false /\ s_out s' = s_out s ++ [false] else r = Raise e /\ s_out s' = s_out s
    end.
Proof.
  unfold do_line. destruct (parse_line line) as [g|e] eqn:Ep.
  - destruct (run_command cfg (hw_now hw s) g (s_machine s)) as [[m' es] r0] eqn:Er. intros H.
    exists g, m', es, r0. split; [left; auto|]. destruct r0 as [[]|e]; cbn in H; [|destruct (caught e)]; injection H as <- <-; auto.
  - intros H. assert (C := parse_only _ _ Ep). exists None, (s_machine s), [], (Raise e).
    split; [right; exists e; auto|]. cbn in H. rewrite C in *. injection H as <- <-. rewrite app_nil_r. auto.
Qed.

Lemma file_loop_spec ls s s' r : file_loop cfg hw ls s = (s', r) ->
  (r = Ok tt /\ answered cfg hw strip ls s (repeat true (length ls)) s') \/
  (exists done l rest, ls = done ++ Line l :: rest /\ r = Ok tt /\
     answered cfg hw strip (done ++ [Line l]) s (repeat true (length done) ++ [false]) s') \/
  (exists done i rest s1 e, ls = done ++ i :: rest /\ r = Raise e /\
     answered cfg hw strip done s (repeat true (length done)) s1 /\ raises cfg hw strip i s1 e s').
Proof.
  revert s. induction ls as [|i ls IH]; intros s; cbn [file_loop].
  - intros H. injection H as <- <-. left. split; [reflexivity|constructor].
  - destruct i as [l|e].
    2: { intros H. injection H as <- <-. right. right. exists [], (Err e), ls, s, e. repeat split; constructor. }
    destruct (do_line cfg hw (strip l) s) as [s1 [[]|e]] eqn:E.
    + intros H. apply IH in H. destruct H as [(-> & H)|[(done & l1 & rest & -> & -> & H)|(done & i & rest & s2 & e & -> & -> & H & H2)]].
      * left. split; [reflexivity|]. cbn. econstructor; eauto.
      * right. left. exists (Line l :: done), l1, rest. split; [reflexivity|]. split; [reflexivity|]. cbn. econstructor; eauto.
      * right. right. exists (Line l :: done), i, rest, s2, e. split; [reflexivity|]. split; [reflexivity|]. split; [|exact H2].
        cbn. econstructor; eauto.
    + intros H. injection H as <- <-. right. left. exists [], l, ls. split; [reflexivity|]. split; [reflexivity|]. cbn.
      econstructor; [exact E|constructor].
    + intros H. injection H as <- <-. right. right. exists [], (Line l), ls, s, e. repeat split; [constructor|exact E].
Qed.

Lemma is_quit_spec l : is_quit l = true <-> quits (Line l).
Proof.
  unfold is_quit, quits, text_eqb. destruct (list_eq_dec ascii_dec l (tx "quit")) as [->|H1]; [split; auto|].
  destruct (list_eq_dec ascii_dec l (tx "exit")) as [->|H2]; [split; auto|]. split; [discriminate|].
  intros [H|H]; injection H as H; contradiction.
Qed.

Lemma interactive_spec ls s s' r : interactive cfg hw ls s = (s', r) ->
  exists done rest bs s1, ls = done ++ rest /\ Forall (fun i => ~ quits i) done /\ answered cfg hw (fun l => l) done s bs s1 /\
    match r with
    | None => rest = [] /\ s' = s1
    | Some (Ok _) => exists i rest', rest = i :: rest' /\ quits i /\ s' = s1
    | Some (Raise e) => exists i rest', rest = i :: rest' /\ ~ quits i /\ raises cfg hw (fun l => l) i s1 e s'
    end.
Proof.
  revert s. induction ls as [|i ls IH]; intros s; cbn [interactive].
  - intros H. injection H as <- <-. exists [], [], [], s. repeat split; constructor.
  - destruct i as [l|e].
    2: { intros H. injection H as <- <-. exists [], (Err e :: ls), [], s. repeat split; try constructor.
         exists (Err e), ls. repeat split. intros [X|X]; discriminate X. }
    destruct (is_quit l) eqn:Q.
    { intros H. injection H as <- <-. exists [], (Line l :: ls), [], s. repeat split; try constructor.
      exists (Line l), ls. apply is_quit_spec in Q. auto. }
    assert (NQ: ~ quits (Line l)) by (rewrite <- is_quit_spec; congruence).
    destruct (do_line cfg hw l s) as [s1 [b|e]] eqn:E.
    + intros H. apply IH in H. destruct H as (done & rest & bs & s2 & -> & Hq & Ha & Hr).
      exists (Line l :: done), rest, (b :: bs), s2. split; [reflexivity|]. split; [constructor; auto|]. split; [|exact Hr].
      econstructor; eauto.
    + intros H. injection H as <- <-. exists [], (Line l :: ls), [], s. repeat split; try constructor.
      exists (Line l), ls. auto.
Qed.

Lemma answered_length f ls s bs s' : answered cfg hw f ls s bs s' -> length bs = length ls /\ s_out s' = s_out s ++ bs.
Proof.
  intros H. induction H as [s|l r s s1 b bs s2 H _ IH]; [rewrite app_nil_r; auto|].
  destruct IH as [IH1 IH2]. cbn. split; [congruence|]. rewrite IH2.
  apply do_line_inv in H. destruct H as (g & m' & es & r0 & _ & _ & _ & H). destruct r0 as [[]|e].
  - destruct H as [E ->]. injection E as ->. now rewrite <- app_assoc.
  - destruct (caught e); destruct H as [E ->]; [|discriminate]. injection E as ->. now rewrite <- app_assoc.
Qed.

(** Every session state is a history. *)
Section Hist.
Variable Q : hw_oracle N -> Prop.
Hypothesis HQ : forall log, Q (fun l ev => hw (log ++ l) ev).

Lemma do_line_history line s s' r : do_line cfg hw line s = (s', r) ->
  history_hw Q cfg (s_machine s) (s_log s) -> history_hw Q cfg (s_machine s') (s_log s').
Proof.
  intros H Hh. apply do_line_inv in H. destruct H as (g & m' & es & r0 & [(_ & H)|(e & _ & _ & -> & -> & _)] & E1 & E2 & _); rewrite E1, E2.
  - eapply h_step; [exact Hh| |exact H]. exact (HQ (s_log s)).
  - now rewrite app_nil_r.
Qed.
Lemma raises_history f i s e s' : raises cfg hw f i s e s' ->
  history_hw Q cfg (s_machine s) (s_log s) -> history_hw Q cfg (s_machine s') (s_log s').
Proof. destruct i as [l|e1]; cbn; [apply do_line_history|]. now intros (_ & ->). Qed.
Lemma answered_history f ls s bs s' : answered cfg hw f ls s bs s' ->
  history_hw Q cfg (s_machine s) (s_log s) -> history_hw Q cfg (s_machine s') (s_log s').
Proof. intros H. induction H; eauto using do_line_history. Qed.

Lemma body_history a s s' r : body cfg hw a s = (s', r) ->
  history_hw Q cfg (s_machine s) (s_log s) -> history_hw Q cfg (s_machine s') (s_log s').
Proof.
  intros H Hh. destruct a as [i|l|e]; cbn [body] in H.
  - apply interactive_spec in H. destruct H as (done & rest & bs & s1 & _ & _ & Ha & Hr).
    apply (answered_history _ _ _ _ _ Ha) in Hh. destruct r as [[[]|e]|].
    + destruct Hr as (? & ? & _ & _ & ->). exact Hh.
    + destruct Hr as (i0 & ? & _ & _ & Hr). eapply raises_history; eauto.
    + destruct Hr as (_ & ->). exact Hh.
  - destruct (file_loop cfg hw l s) as [s1 r1] eqn:E. injection H as -> <-. apply file_loop_spec in E.
    destruct E as [(_ & Ha)|[(? & ? & ? & _ & _ & Ha)|(? & ? & ? & s2 & ? & _ & _ & Ha & Hr)]].
    + eapply answered_history; eauto.
    + eapply answered_history; eauto.
    + eapply raises_history; eauto. eapply answered_history; eauto.
  - injection H as <- <-. exact Hh.
Qed.
End Hist.

(** How the program ends. *)
Lemma main_spec a s s' r : main cfg hw a s = (s', r) ->
  exists sb rb, body cfg hw a s = (sb, rb) /\
  match rb with
  | None => r = None /\ s' = sb
  | Some rb =>
    if match rb with Ok _ => true | Raise KeyboardInterrupt => true | Raise _ => false end
    then exists m' es r', release cfg (hw_now hw sb) (s_machine sb) [] = (m', es, r') /\
           r = Some r' /\ s_machine s' = m' /\ s_log s' = s_log sb ++ es /\ s_out s' = s_out sb
    else r = Some rb /\ s' = sb
  end.
Proof.
  unfold main. destruct (body cfg hw a s) as [sb rb]. intros H. exists sb, rb. split; [reflexivity|].
  assert (F: forall x, finish cfg hw sb = (s', x) -> exists m' es r', release cfg (hw_now hw sb) (s_machine sb) [] = (m', es, r') /\
           x = Some r' /\ s_machine s' = m' /\ s_log s' = s_log sb ++ es /\ s_out s' = s_out sb).
  { intros x. unfold finish. destruct (release cfg (hw_now hw sb) (s_machine sb) []) as [[m' es] r'].
    intros E. injection E as <- <-. exists m', es, r'. auto. }
  destruct rb as [[[]|e]|].
  - apply F. exact H.
  - destruct e; try (injection H as <- <-; auto). apply F. exact H.
  - injection H as <- <-. auto.
Qed.
End Loop.

(* ---------- the end of the program ---------- *)
Section End_.
Variable acos : f64 -> f64.
Notation N := (F64 acos).
Variable cfg : config.

Lemma quiet_shift (hw : hw_oracle N) log : quiet_end hw -> quiet_end (fun l ev => hw (log ++ l) ev).
Proof. intros H l ev e E. exact (H _ _ _ E). Qed.
Lemma quiet_returns (hw : hw_oracle N) l ev : quiet_end hw ->
  match ev with EJoin | ESpindle _ | EHeaterOff _ | EHeaterOn _ _ | EFan _ | EDeinit => exists b, hw l ev = HReturn b | _ => True end.
Proof.
  intros Q. destruct ev; try exact I; destruct (hw l _) as [b|e] eqn:E; eauto;
  apply Q in E; destruct E as [(? & E)|[(? & E)|[(? & E)|[(? & E)|(? & ? & ? & E)]]]]; discriminate E.
Qed.

Lemma release_quiet (hw : hw_oracle N) m : quiet_end hw -> (0 < spindle_max_rpm cfg <= 2 ^ 53)%Z ->
  exists m' es, release cfg hw m [] = (m', es, Ok tt).
Proof.
  intros Q Hs. destruct (release cfg hw m []) as [[m' es] r] eqn:E. exists m', es.
  destruct r as [[]|e]; [reflexivity|exfalso].
  unfold release, spindle, fan in E.
  assert (D: exists p, div (p:=N) (mul (ofZ 100) zero) (ofZ (spindle_max_rpm cfg)) = Ok p).
  { cbn. unfold f_div. destruct (f_ofZ_val (spindle_max_rpm cfg)) as [F V]; [rewrite Z.abs_eq; lia|].
    destruct (is_zero_f _) eqn:Z; [exfalso|eauto]. unfold is_zero_f in Z.
    destruct (f_ofZ (spindle_max_rpm cfg)); try discriminate Z. cbn in V. apply (eq_IZR 0) in V. lia. }
  destruct D as [p D].
  repeat match goal with
  | H : bind _ _ _ _ = (_, _, Raise _) |- _ => apply bind_inv in H; destruct H as [(? & H & ?)|(? & ? & ? & ? & H)]
  | H : call _ _ _ _ = (_, _, Raise _) |- _ => apply call_inv in H; destruct H as (_ & _ & [(? & ? & H)|(? & H & _)]); [discriminate H|]
  | H : call _ _ _ _ = (_, _, Ok _) |- _ => clear H
  | H : ret _ _ _ = (_, _, Raise _) |- _ => apply ret_inv in H; destruct H as (_ & _ & H); discriminate H
  | H : gets _ _ = (_, _, Raise _) |- _ => apply gets_inv in H; destruct H as (_ & _ & H); discriminate H
  | H : modify _ _ _ = (_, _, Raise _) |- _ => apply modify_inv in H; destruct H as (_ & _ & H); discriminate H
  | H : lift _ _ _ = (_, _, Raise _) |- _ => apply lift_inv in H; destruct H as (_ & _ & H); rewrite D in H; discriminate H
  | H : (match ?x with Some _ => _ | None => _ end) _ _ = (_, _, Raise _) |- _ => destruct x
  | H : hw ?l ?ev = HRaise _ |- _ => destruct (quiet_returns hw l ev Q) as [? Y]; rewrite Y in H; discriminate H
  end.
Qed.

Lemma heater_bool h (es : list (event N)) d :
  fold_left (fun s ev => match ev with
                         | EHeaterOn h' _ => if heater_eqb h h' then true else s
                         | EHeaterOff h' => if heater_eqb h h' then false else s
                         | _ => s end) es (match d with Some _ => true | None => false end)
  = match last_heater h d es with Some _ => true | None => false end.
Proof.
  revert d. unfold last_heater. induction es as [|ev es IH]; intros d; [reflexivity|]. cbn [fold_left].
  rewrite <- IH. f_equal. destruct ev; try reflexivity; destruct (heater_eqb h _); reflexivity.
Qed.
Lemma release_all_off (hw : hw_oracle N) m es0 m' es :
  quiet_end hw -> (0 < spindle_max_rpm cfg <= 2 ^ 53)%Z ->
  history_hw quiet_end cfg m es0 -> release cfg hw m [] = (m', es, Ok tt) -> all_off (es0 ++ es).
Proof.
  intros Q Hs Hh E. apply release_events in E. destruct E as (p & Hp & ->).
  assert (Hp0: is_finite p = true /\ B2R p = 0%R).
  { cbn in Hp. unfold f_div in Hp. destruct (f_ofZ_val (spindle_max_rpm cfg)) as [F V]; [rewrite Z.abs_eq; lia|].
    destruct (is_zero_f _); [discriminate|]. injection Hp as <-.
    change (f_mul (f_ofZ 100) (f_ofZ 0)) with (B754_zero false : f64).
    destruct (f_ofZ (spindle_max_rpm cfg)) as [s|s| |s mx ex B] eqn:Ef; try discriminate F.
    - cbn in V. apply (eq_IZR 0) in V. lia.
    - split; reflexivity. }
  assert (HH: forall h, heater_target m h = last_heater h None es0).
  { intros h. apply (history_heater cfg).
    clear -Hh. induction Hh as [|? ? hw0 ? ? ? ? ? IH HP Hr]; [constructor|]. eapply h_step; [exact IH| |exact Hr].
    intros l ev e He Ex. apply HP in Ex. destruct He as [h He].
    destruct He as [->|(? & ->)]; destruct Ex as [(? & E)|[(? & E)|[(? & E)|[(? & E)|(? & ? & ? & E)]]]]; discriminate E. }
  unfold all_off, last_spindle, last_fan in *. split; [|split].
  - exists p. split; [|exact Hp0]. rewrite !fold_left_app. cbn [fold_left]. destruct (m_ext m), (m_bed m); reflexivity.
  - intros h. rewrite (heater_bool h _ None). unfold last_heater in *. rewrite fold_left_app, <- HH. destruct h; cbn [heater_target]; destruct (m_ext m), (m_bed m); reflexivity.
  - rewrite !fold_left_app. cbn [fold_left]. reflexivity.
Qed.

Lemma main_all_off (hw : hw_oracle N) a sb r :
  quiet_end hw -> (0 < spindle_max_rpm cfg <= 2 ^ 53)%Z ->
  body cfg hw a (session0 cfg) = (sb, Some r) -> r = Ok tt \/ r = Raise KeyboardInterrupt ->
  exists s', main cfg hw a (session0 cfg) = (s', Some (Ok tt)) /\ all_off (s_log s').
Proof.
  intros Q Hs Hb Hr.
  assert (Hh: history_hw quiet_end cfg (s_machine sb) (s_log sb)).
  { eapply body_history; [|exact Hb|constructor]. intros log. now apply quiet_shift. }
  destruct (release_quiet (hw_now hw sb) (s_machine sb) (quiet_shift _ _ Q) Hs) as (m' & es & E).
  unfold main. rewrite Hb. exists {| s_machine := m'; s_log := s_log sb ++ es; s_out := s_out sb |}.
  split.
  - destruct Hr as [->| ->]; unfold finish; now rewrite E.
  - cbn [s_log]. exact (release_all_off _ _ _ _ _ (quiet_shift _ (s_log sb) Q) Hs Hh E).
Qed.
Lemma main_ends (hw : hw_oracle N) a s' r :
  quiet_end hw -> (0 < spindle_max_rpm cfg <= 2 ^ 53)%Z ->
  main cfg hw a (session0 cfg) = (s', Some r) ->
  (r = Ok tt /\ all_off (s_log s')) \/
  (exists e, r = Raise e /\ e <> KeyboardInterrupt /\ body cfg hw a (session0 cfg) = (s', Some (Raise e))).
Proof.
  intros Q Hs H. destruct (body cfg hw a (session0 cfg)) as [sb rb] eqn:Hb.
  assert (K: rb = Some (Ok tt) \/ rb = Some (Raise KeyboardInterrupt) -> r = Ok tt /\ all_off (s_log s')).
  { intros [E|E]; subst rb; (edestruct main_all_off as (s1 & H1 & H2); [exact Q|exact Hs|exact Hb|auto|]);
    rewrite H in H1; injection H1 as -> ->; auto. }
  pose proof H as H0. unfold main in H0. rewrite Hb in H0.
  destruct rb as [[[]|e]|]; [left; auto| |discriminate].
  destruct e; try (left; apply K; now auto); right; injection H0 as -> <-; eexists; (split; [reflexivity|]); (split; [discriminate|reflexivity]).
Qed.
End End_.

Lemma line_answered acos cfg (hw : hw_oracle (F64 acos)) line s s' r : do_line cfg hw line s = (s', r) ->
  (exists b, r = Ok b /\ s_out s' = s_out s ++ [b]) \/
  (exists e, r = Raise e /\ s_out s' = s_out s /\
     (In e [ValueError; OverflowError; ZeroDivisionError; AssertionError] \/ exists l ev, hw l ev = HRaise e)).
Proof.
  intros H. apply do_line_inv in H. destruct H as (g & m' & es & r0 & H & _ & _ & Hr).
  destruct r0 as [[]|e]; [left; exists true; exact Hr|]. destruct (caught e) eqn:C; [left; exists false; exact Hr|].
  right. exists e. destruct Hr as [-> ->]. split; [reflexivity|]. split; [reflexivity|].
  destruct H as [(_ & H)|(e' & _ & C' & _ & _ & E)]; [|injection E as ->; congruence].
  apply (m_command acos cfg (hw_now hw s)) in H. destruct H as [H|[H|(l & ev & H)]]; [|congruence|].
  - left. destruct e; try discriminate H; cbn; auto 6.
  - right. exists (s_log s ++ l), ev. exact H.
Qed.
