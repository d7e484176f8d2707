(** Property C80: from the lines of a program to the motors, over binary64. *)
From Coq Require Import String Ascii ZArith Bool Reals Lra Lia List.
From Flocq Require Import Core BinarySingleNaN.
From Verif Require Import PyBase PyNum PyFloatFacts Config Coordinates Pulses PulseSpec GCode GCodeSpec WordFacts GMachine MachineFacts MachineHist MachineFloat Decimal MachinePos MachineArc MachineWork MachineMoves LinearFloat LinearFloatRun LinearFloatLimit StraightRun LineAnswers TextDrive ExampleBase PropsPosition PropsAnswers.
From Verif Require Import LinearTravel Dma DmaGpio DmaSpec DmaGpioProofs Hal HalSpec MoveNew HalDrive PropsMoves PropsHal PropsDrive.
From Verif Require Import GMachine MainLoop MainSpec MainProofs LineAnswers.
From Coq Require Import List.
From Flocq Require Import Core.
Import ListNotations.
Local Open Scope R_scope.

(** C80. A session of lines without arcs and extruder, whose words are numbers
    (coordinates of at most 1000) and which do not change to inches, to relative
    movements or to another origin, on hardware that raises nothing. The last line is a
    G0 or G1 that names the coordinate [x] of an axis and is answered with OK. Then the
    driver of this axis, from the signals of all moves, has made the steps to [x]: within
    half a step (and the step's share of 2e-9 mm). Missing: arcs, the extruder, the other modes
    (C14, C72_position_partial have them for the state of the machine). *)
Theorem C80_motors_where_told_partial (acos : f64 -> f64) cfg h base size extra (hw : hw_oracle (F64 acos)) ls last bs s g a lit x k :
  good_cfg cfg -> pins_ok h -> NoDup (used_pins h) -> buffer_ok base size -> (0 <= pulse_us h < 2 ^ 26)%Z -> calm hw ->
  Forall ordinary_line (ls ++ [last]) -> Forall keeps_modes ls ->
  answered cfg hw (fun l => l) (map Line (ls ++ [last])) (session0 cfg) (bs ++ [true]) s ->
  parse_line last = Ok (Some g) -> effective_command g = Some (tx "G0") \/ effective_command g = Some (tx "G1") ->
  lookup g (axis_letter a) = Some lit -> LiteralValue lit x ->
  played acos cfg h base size extra a (s_log s) k ->
  Rabs (IZR k - x * IZR (ax a (ppm cfg))) <= / 2 + IZR (ax a (ppm cfg)) / 500000000.
Proof.
  intros Hc Hp Hd Hb Hu Hw Ho Hk Ha Ep Ec L V Pl.
  assert (Mr: moves_return hw) by (intros l gg e; apply Hw).
  rewrite map_app in Ha. cbn [map] in Ha. apply answered_last in Ha. destruct Ha as (bs1 & b & s1 & Eb & A1 & D). apply app_inj_tail in Eb. destruct Eb as [<- <-].
  assert (Fm: forall Q : text -> Prop, Forall Q ls -> Forall (fun i => match i with Line l => Q l | Err _ => True end) (map Line ls)) by (intros Q F; apply Forall_map; exact F).
  apply Forall_app in Ho. destruct Ho as [Ho Hl]. apply Forall_inv in Hl.
  assert (H1: history_where (Driven acos) cfg (s_machine s1) (s_log s1)) by (apply (session_history acos cfg hw Mr _ _ _ _ _ A1 (Fm _ Ho)); constructor).
  assert (H2: history_where (Driven acos) cfg (s_machine s) (s_log s)) by exact (line_history acos cfg hw Mr _ _ _ _ Hl H1 D).
  destruct (modes_session acos cfg hw (fun l => l) _ _ _ _ Hw A1 (Fm _ Hk) (modes0 acos cfg)) as (Ab & Lo & Un).
  apply do_line_inv in D. destruct D as (g' & m' & es & r0 & D & Em & El & Hr).
  destruct D as [(Ep' & D)|(e & Ep' & _)]; [|congruence]. rewrite Ep in Ep'. injection Ep' as <-.
  destruct r0 as [[]|e]; [|destruct (caught e); destruct Hr as [Hr _]; discriminate Hr]. clear Hr.
  unfold ordinary_line in Hl. rewrite Ep in Hl. destruct Hl as (W & _ & Na & _).
  assert (T := C14_absolute_move_partial acos cfg (s_machine s1) m' (s_log s1) es (hw_now hw s1) g a 1 Hc (Driven_Moderate acos cfg _ _ H1) (conj W (or_introl Na)) (or_introl (conj Un eq_refl)) Ab Ec D).
  destruct T as [_ T]. specialize (T lit x L V). rewrite Lo, Rmult_1_r in T. rewrite <- Em in T.
  replace (val (ax a (coords0 (N:=F64 acos)))) with 0 in T by (destruct a; reflexivity). rewrite Rplus_0_l in T.
  assert (Nr: nearest_to (ax a (ppm cfg)) k (ax a (m_position (s_machine s)))).
  { apply (C72_position_partial acos cfg h base size extra (Driven acos) _ (s_log s) a k); auto. intros hw0 gc [M O]. split; [exact M|]. destruct gc as [g0|]; [apply O|exact I]. }
  apply (nearest_steps _ _ (ax a (m_position (s_machine s)))); auto.
  - apply Hc.
  - exact (position_bound acos cfg Hc _ _ a H2).
Qed.
Print Assumptions C80_motors_where_told_partial.

Definition session80 : list text := map tx ["G21"; "g90 F600 ; absolute"; "G1 X0.12 Y.1"; "M3 S100"; "X999"; "(comment)"; "G0 Z0.03"]%string.
Definition last80 : text := tx "G1 X0.053 F300".
Definition keeps_b (line : text) : bool :=
  match parse_line line with
  | Ok (Some g) => match effective_command g with Some t => negb (existsb (fun w => text_eqb t (tx w)) ["G20"; "G91"; "G92"]%string) | None => true end
  | _ => true
  end.
Lemma keeps_b_spec line : keeps_b line = true -> keeps_modes line.
Proof.
  unfold keeps_b. intros H g t Ep Et I. rewrite Ep, Et in H. apply negb_true_iff in H. apply in_map_iff in I. destruct I as (w & <- & I).
  assert (X: existsb (fun w0 => text_eqb (tx w) (tx w0)) ["G20"; "G91"; "G92"]%string = true).
  { apply existsb_exists. exists w. split; [exact I|]. unfold text_eqb. now destruct (list_eq_dec ascii_dec (tx w) (tx w)). }
  congruence.
Qed.
Fixpoint run_lines {N : PyNum} cfg (hw : hw_oracle N) (ls : list text) (s : session N) : option (list bool * session N) :=
  match ls with
  | [] => Some ([], s)
  | l :: r => match do_line cfg hw l s with
              | (s1, Ok b) => match run_lines cfg hw r s1 with Some (bs, s2) => Some (b :: bs, s2) | None => None end
              | _ => None
              end
  end.
Lemma run_lines_spec {N : PyNum} cfg (hw : hw_oracle N) ls : forall s bs s', run_lines cfg hw ls s = Some (bs, s') -> answered cfg hw (fun l => l) (map Line ls) s bs s'.
Proof.
  induction ls as [|l r IH]; intros s bs s' H; cbn [run_lines map] in *.
  - injection H as <- <-. constructor.
  - destruct (do_line cfg hw l s) as [s1 [b|]] eqn:E; [|discriminate]. destruct (run_lines cfg hw r s1) as [[bs1 s2]|] eqn:R; [|discriminate]. injection H as <- <-.
    econstructor; [exact E|]. now apply IH.
Qed.
(** The fifth line is refused, the last one moves X back to 5 steps. *)
Example C80_motors_where_told_ex :
  good_cfg default_config /\ pins_ok default_hal /\ NoDup (used_pins default_hal) /\ buffer_ok 8192 65536 /\ (0 <= pulse_us default_hal < 2 ^ 26)%Z /\ calm (N:=FX) hw_ok /\
  Forall ordinary_line (session80 ++ [last80]) /\ Forall keeps_modes session80 /\
  exists s g lit, answered default_config (N:=FX) hw_ok (fun l => l) (map Line (session80 ++ [last80])) (session0 default_config) ([true; true; true; true; false; true; true] ++ [true]) s /\
    parse_line last80 = Ok (Some g) /\ effective_command g = Some (tx "G1") /\ lookup g (axis_letter AX) = Some lit /\ LiteralValue lit (53 / 1000) /\
    played (fun x => x) default_config default_hal 8192 65536 false AX (s_log s) 5.
Proof.
  split; [exact default_good|]. split; [exact default_pins|]. split; [exact default_distinct|]. split; [repeat split; lia|]. split; [cbn; lia|]. split; [exact ok_calm|].
  split; [apply (ordinary_all (fun l => l)); vm_compute; reflexivity|].
  split; [apply Forall_forall; intros l I; apply keeps_b_spec; revert l I; apply forallb_forall; vm_compute; reflexivity|].
  assert (T: match run_lines default_config (N:=FX) hw_ok (session80 ++ [last80]) (session0 default_config) with
             | Some (bs, s) => andb (if list_eq_dec bool_dec bs ([true; true; true; true; false; true; true] ++ [true]) then true else false)
                                    (match played_b AX (s_log s) with Some k => (k =? 5)%Z | None => false end)
             | None => false end = true) by (vm_compute; reflexivity).
  destruct (run_lines default_config (N:=FX) hw_ok (session80 ++ [last80]) (session0 default_config)) as [[bs s]|] eqn:R; [|discriminate T].
  apply andb_prop in T. destruct T as [T1 T2]. destruct (list_eq_dec bool_dec bs _) as [->|]; [|discriminate T1]. clear T1.
  destruct (played_b AX (s_log s)) as [k|] eqn:Pk; [|discriminate T2]. apply Z.eqb_eq in T2. subst k.
  exists s, (match parse_line last80 with Ok (Some g) => g | _ => [] end), (tx "0.053"). apply run_lines_spec in R. split; [exact R|].
  split; [vm_compute; reflexivity|]. split; [vm_compute; reflexivity|]. split; [vm_compute; reflexivity|]. split.
  - assert (D: decimal_of (tx "0.053") = Some (false, 53%Z, 3%nat)) by (vm_compute; reflexivity).
    destruct (decimal_LiteralValue _ _ _ _ D) as [_ V]. replace (53 / 1000) with (sgn false * (53 / 10 ^ 3)) by (unfold sgn; field). exact V.
  - apply played_b_spec; [|exact Pk].
    apply (history_made (N:=FX) default_config (Driven (fun x => x)) (s_machine s)).
    apply (session_history (fun x => x) default_config hw_ok (fun _ _ _ H => ltac:(discriminate H)) (fun l => l) _ _ _ _ R); [|constructor].
    apply Forall_map. apply (ordinary_all (fun l => l)). vm_compute. reflexivity.
Qed.
