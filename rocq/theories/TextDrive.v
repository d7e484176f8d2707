(** From the lines of a program to the motors (C80): answered sessions as histories. *)
From Coq Require Import String Ascii ZArith Bool Reals Lra Lia List.
From Flocq Require Import Core BinarySingleNaN.
From Verif Require Import PyBase PyNum PyFloatFacts Config Coordinates Pulses PulseSpec GCode GCodeSpec WordFacts GMachine GMachineProofs MachineFacts MachineHist MachineFloat Decimal MachinePos MachineArc MachineWork MachineMoves MainLoop MainSpec MainProofs LinearFloat LinearFloatRun LinearFloatLimit StraightRun LineAnswers.
From Coq Require Import List.
From Flocq Require Import Core.
Import ListNotations.
Local Open Scope R_scope.

(** Moves do not raise. *)
Definition moves_return {N : PyNum} (hw : hw_oracle N) : Prop := forall l g e, hw l (EMove g) <> HRaise e.
(** The line has none of the command words [ws]. *)
Definition without (ws : list string) (line : text) : Prop :=
  forall g t, parse_line line = Ok (Some g) -> effective_command g = Some t -> ~ In t (map tx ws).
(** Lines that keep absolute millimetres from the corner of the table. *)
Definition keeps_modes : text -> Prop := without ["G20"; "G91"; "G92"]%string.

Section T.
Variable acos : f64 -> f64.
Notation N := (F64 acos).
Variable cfg : config.
Hypothesis Hcfg : good_cfg cfg.
Variable hw : hw_oracle N.
Hypothesis Hhw : moves_return hw.

Definition Driven : hw_oracle N -> option gcode -> Prop := fun hw gc =>
  moves_return hw /\ match gc with Some g => ordinary g | None => True end.
Lemma Driven_moderate hw0 gc : Driven hw0 gc -> moderate gc.
Proof. intros [_ H]. destruct gc as [g|]; [|split; [exact I|left; exact I]]. destruct H as (W & _ & Na & _). split; [exact W|left; exact Na]. Qed.

Lemma line_history line s s' r : ordinary_line line -> history_where Driven cfg (s_machine s) (s_log s) -> do_line cfg hw line s = (s', r) ->
  history_where Driven cfg (s_machine s') (s_log s').
Proof.
  intros O Hh H. apply do_line_inv in H. destruct H as (g & m' & es & r0 & H & -> & -> & _).
  destruct H as [(Ep & H)|(e & _ & _ & -> & -> & _)]; [|now rewrite app_nil_r].
  unfold ordinary_line in O. rewrite Ep in O. eapply h_step; [exact Hh| |exact H]. split; [intros l gg e; apply Hhw|destruct g; exact O].
Qed.
Lemma session_history f ls s bs s' : answered cfg hw f ls s bs s' -> Forall (fun i => match i with Line l => ordinary_line (f l) | Err _ => True end) ls ->
  history_where Driven cfg (s_machine s) (s_log s) -> history_where Driven cfg (s_machine s') (s_log s').
Proof.
  induction 1 as [|l r s s1 b bs s2 E _ IH]; intros O Hh; [exact Hh|]. apply Forall_cons_iff in O. destruct O as [O1 O2].
  apply IH; [exact O2|]. eapply line_history; eassumption.
Qed.

Lemma answered_last f l1 l s0 bs s : answered cfg hw f (l1 ++ [Line l]) s0 bs s ->
  exists bs1 b s1, bs = bs1 ++ [b] /\ answered cfg hw f l1 s0 bs1 s1 /\ do_line cfg hw (f l) s1 = (s, Ok b).
Proof.
  revert s0 bs. induction l1 as [|i l1 IH]; intros s0 bs H; cbn [app] in H; inversion H as [|? ? ? s1 b bs' ? E R]; subst.
  - inversion R; subst. exists [], b, s0. split; [reflexivity|]. split; [constructor|exact E].
  - destruct (IH _ _ R) as (bs1 & b1 & s2 & -> & A & D). exists (b :: bs1), b1, s2. split; [reflexivity|]. split; [econstructor; eassumption|exact D].
Qed.
Lemma Driven_Moderate m es : history_where Driven cfg m es -> history_where (fun _ gc => moderate gc) cfg m es.
Proof.
  induction 1 as [|m es hw0 gc m' es' r _ IH Hgc Hr]; [constructor|]. eapply h_step; [exact IH| |exact Hr]. now apply (Driven_moderate hw0).
Qed.
Lemma position_bound m es a : history_where Driven cfg m es -> Rabs (val (ax a (m_position m))) <= 4096.
Proof.
  intros H. destruct (history_on_table acos cfg Hcfg Driven _ _ (fun hw0 gc D => moderate_radius gc (Driven_moderate hw0 gc D)) H a) as (n & [_ ->] & B).
  destruct Hcfg as [Ha _]. specialize (Ha a). change 4096 with (bpow radix2 12). apply rd_abs_le; [lia|].
  assert (Bs := inside_small _ _ Ha n B). assert (Sm := step_mul _ _ Ha). set (P := ax a (ppm cfg)) in *. destruct Ha as (HP & _).
  unfold e10. replace (IZR (n * step P) / 10000000000) with (IZR n / IZR P).
  - unfold Rdiv. rewrite Rabs_mult, Rabs_inv, (Rabs_pos_eq (IZR P)) by (apply IZR_le; lia).
    apply Rmult_le_reg_r with (IZR P); [apply IZR_lt; lia|]. rewrite Rmult_assoc, Rinv_l, Rmult_1_r by (apply not_0_IZR; lia).
    rewrite <- abs_IZR. change (bpow radix2 12) with 4096. rewrite <- mult_IZR. now apply IZR_le.
  - apply (f_equal IZR) in Sm. rewrite mult_IZR in *. field_simplify_eq; [|apply not_0_IZR; lia]. rewrite <- Sm. ring.
Qed.
(** Modes of a session that does not change them. *)
Definition plain_modes (m : machine N) : Prop := m_absolute m = true /\ m_local m = coords0 /\ m_convert m = ofZ 1.
Lemma modes_command hw0 g (m m' : machine N) es r : calm hw0 -> (forall t, effective_command g = Some t -> ~ In t (map tx ["G20"; "G91"; "G92"]%string)) ->
  plain_modes m -> run_command cfg hw0 (Some g) m = (m', es, r) -> plain_modes m'.
Proof.
  intros C X (A & L & U) H.
  assert (F: forall ws, (forall t, effective_command g = Some t -> In t (map tx ws) -> exists w, t = tx w /\ In w ws /\ ~ In w ["G20"; "G91"; "G92"]%string)).
  { intros ws t Et I. apply in_map_iff in I. destruct I as (w & <- & I). exists w. split; [reflexivity|]. split; [exact I|]. intros J. apply (X _ Et). now apply in_map. }
  destruct r as [[]|e].
  - split; [|split].
    + destruct (in_dec (list_eq_dec ascii_dec) (match effective_command g with Some t => t | None => [] end) (map tx ["G90"; "G91"; "M2"; "M30"]%string)) as [I|I].
      * destruct (effective_command g) as [t|] eqn:Et; [|cbn in I; repeat destruct I as [I|I]; discriminate I || contradiction].
        destruct (F _ t eq_refl I) as (w & -> & J & K). cbn in J. destruct J as [<-|[<-|J]]; [now apply (mode_commands cfg hw0 g m m' es _ H Et)|elim K; cbn; tauto|].
        destruct (program_end cfg hw0 g m m' es _ H Et) as (_ & _ & _ & -> & _); [|reflexivity]. cbn. destruct J as [<-|[<-|[]]]; tauto.
      * rewrite (c12_mode cfg hw0 g m m' es _ H); [exact A|]. intros t Et. now rewrite Et in I.
    + destruct (in_dec (list_eq_dec ascii_dec) (match effective_command g with Some t => t | None => [] end) (map tx ["G92"; "G53"; "M2"; "M30"]%string)) as [I|I].
      * destruct (effective_command g) as [t|] eqn:Et; [|cbn in I; repeat destruct I as [I|I]; discriminate I || contradiction].
        destruct (F _ t eq_refl I) as (w & -> & J & K). cbn in J. destruct J as [<-|[<-|J]]; [elim K; cbn; tauto|now apply (mode_commands cfg hw0 g m m' es _ H Et)|].
        destruct (program_end cfg hw0 g m m' es _ H Et) as (_ & -> & _); [|reflexivity]. cbn. destruct J as [<-|[<-|[]]]; tauto.
      * rewrite (c12_local cfg hw0 g m m' es _ H); [exact L|]. intros t Et. now rewrite Et in I.
    + destruct (in_dec (list_eq_dec ascii_dec) (match effective_command g with Some t => t | None => [] end) (map tx ["G20"; "G21"; "M2"; "M30"]%string)) as [I|I].
      * destruct (effective_command g) as [t|] eqn:Et; [|cbn in I; repeat destruct I as [I|I]; discriminate I || contradiction].
        destruct (F _ t eq_refl I) as (w & -> & J & K). cbn in J. destruct J as [<-|[<-|J]]; [elim K; cbn; tauto|now apply (mode_commands cfg hw0 g m m' es _ H Et)|].
        destruct (program_end cfg hw0 g m m' es _ H Et) as (_ & _ & -> & _); [|reflexivity]. cbn. destruct J as [<-|[<-|[]]]; tauto.
      * rewrite (c12_units cfg hw0 g m m' es _ H); [exact U|]. intros t Et. now rewrite Et in I.
  - destruct (list_eq_dec ascii_dec (match effective_command g with Some t => t | None => [] end) (tx "G28")) as [I|I].
    + destruct (effective_command g) as [t|] eqn:Et; [|discriminate I]. subst t.
      split; [|split]; [rewrite (c12_mode cfg hw0 g m m' es _ H); [exact A|]|rewrite (c12_local cfg hw0 g m m' es _ H); [exact L|]|rewrite (c12_units cfg hw0 g m m' es _ H); [exact U|]];
        intros t E'; rewrite Et in E'; injection E' as <-; cbn; intros J; repeat destruct J as [J|J]; discriminate J || contradiction.
    + destruct (rejected_no_effect cfg hw0 g m m' es e) as [-> _]; [|intros E'; rewrite E' in I; now apply I|exact H|exact (conj A (conj L U))].
      intros l ev x Hx. elim (C _ _ _ Hx).
Qed.
Lemma modes_session f ls s bs s' : calm hw -> answered cfg hw f ls s bs s' -> Forall (fun i => match i with Line l => keeps_modes (f l) | Err _ => True end) ls ->
  plain_modes (s_machine s) -> plain_modes (s_machine s').
Proof.
  intros C. induction 1 as [|l r s s1 b bs s2 E _ IH]; intros O Hm; [exact Hm|]. apply Forall_cons_iff in O. destruct O as [O1 O2]. apply IH; [exact O2|].
  apply do_line_inv in E. destruct E as (g & m' & es & r0 & E & -> & _). destruct E as [(Ep & E)|(e & _ & _ & -> & _)]; [|exact Hm].
  destruct g as [g|]; [|rewrite no_command_line in E; injection E as <- <- <-; exact Hm].
  refine (modes_command _ g _ _ _ _ _ _ Hm E); [intros l0 ev x; apply C|]. intros t Et. exact (O1 g t Ep Et).
Qed.
Lemma modes0 : plain_modes (init_machine cfg).
Proof. repeat split. Qed.

(** Steps from a position: [s] steps are where the position says. *)
Lemma nearest_steps p s x t : (0 < p)%Z -> nearest_to p s x -> Rabs (val x) <= 4096 -> Rabs (val x - t) <= / (2 * IZR p) + / 1000000000 ->
  Rabs (IZR s - t * IZR p) <= / 2 + IZR p / 500000000.
Proof.
  intros Hp [F V] B H. apply IZR_lt in Hp. set (y := IZR s / IZR p) in *.
  assert (Ys: y * IZR p = IZR s) by (unfold y; field; lra).
  assert (By: Rabs y <= bpow radix2 13).
  { destruct (Rle_or_lt (Rabs y) (bpow radix2 13)) as [|G]; [assumption|]. exfalso.
    assert (X: rd (bpow radix2 13) <= rd (Rabs y)) by (apply rd_le; lra).
    rewrite rd_abs, <- V, rd_format in X; [|apply generic_format_bpow; vm_compute; discriminate]. change (bpow radix2 13) with 8192 in X. lra. }
  assert (E := rd_error y 13 ltac:(lia) By). rewrite <- V in E. change (bpow radix2 (13 - 54)) with (/ 2199023255552) in E.
  assert (Q: Rabs (y - t) <= / (2 * IZR p) + / 500000000).
  { replace (y - t) with ((val x - t) - (val x - y)) by ring. apply Rabs_le_inv in E, H. apply Rabs_le. lra. }
  replace (IZR s - t * IZR p) with ((y - t) * IZR p) by (rewrite <- Ys; ring). rewrite Rabs_mult, (Rabs_pos_eq (IZR p)) by lra.
  eapply Rle_trans; [apply Rmult_le_compat_r; [lra|exact Q]|]. right. field. lra.
Qed.
End T.
