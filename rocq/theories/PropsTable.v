(** Property C81: at every moment of a program without arcs the motors are on the table.
    Every theorem is followed by its assumptions and by an Example in which its hypotheses
    hold. *)
From Coq Require Import String Ascii ZArith Bool Reals Lia List.
From Flocq Require Import Core BinarySingleNaN.
From Verif Require Import PyBase PyNum PyFloatFacts Config Coordinates Pulses PulseSpec GCode GCodeSpec GMachine MachineFacts MachineHist MachineFloat MachinePos MachineArc ArcSpec MachineMoves LineAnswers TextDrive TableDrive ExampleBase PropsPosition PropsAnswers.
From Verif Require Import LinearTravel Dma DmaGpio DmaSpec DmaGpioProofs Hal HalSpec MoveNew HalDrive PropsMoves PropsHal PropsDrive.
From Verif Require Import GMachine MainLoop MainSpec MainProofs LineAnswers PropsText.
From Coq Require Import List.
Import ListNotations.
Local Open Scope Z_scope.

(** C81. Any session of answered lines without G2 and G3 - any text, in any mode of units,
    of coordinates and of origins, including refused lines - on hardware whose moves do not
    raise. Between any two signals of the pins, in any of the moves, the driver of each axis
    has made a number of net steps from 0 to the size of the table. Missing: arcs, which can
    leave the table (C10); the steps of homing (C55, C68) are not counted. *)
Theorem C81_motors_on_table_partial (acos : f64 -> f64) cfg h base size extra (hw : hw_oracle (F64 acos)) ls bs s a k :
  good_cfg cfg -> pins_ok h -> NoDup (used_pins h) -> buffer_ok base size -> 0 <= pulse_us h < 2 ^ 26 -> moves_return hw ->
  Forall (without ["G2"; "G3"]%string) ls ->
  answered cfg hw (fun l => l) (map Line ls) (session0 cfg) bs s ->
  during acos cfg h base size extra a (s_log s) k ->
  0 <= k <= table cfg a * ax a (ppm cfg).
Proof.
  intros Hc Hp Hd Hb Hu Hw Ho Ha D.
  refine (history_stays acos cfg h base size extra Hp Hd Hb Hu Hc (Straight acos) (s_machine s) (s_log s) a k _ _ D).
  - intros hw0 gc [M Na]. split; [|exact Na]. intros l ev e [g ->]. apply M.
  - apply (straight_history acos cfg hw Hw (fun l => l) _ _ _ _ Ha); [apply Forall_map; exact Ho|constructor].
Qed.
Print Assumptions C81_motors_on_table_partial.

Definition without_b (ws : list string) (line : text) : bool :=
  match parse_line line with
  | Ok (Some g) => match effective_command g with Some t => negb (existsb (fun w => text_eqb t (tx w)) ws) | None => true end
  | _ => true
  end.
Lemma without_b_spec ws line : without_b ws line = true -> without ws line.
Proof.
  unfold without_b. intros H g t Ep Et I. rewrite Ep, Et in H. apply negb_true_iff in H. apply in_map_iff in I. destruct I as (w & <- & I).
  assert (X: existsb (fun w0 => text_eqb (tx w) (tx w0)) ws = true).
  { apply existsb_exists. exists w. split; [exact I|]. unfold text_eqb. now destruct (list_eq_dec ascii_dec (tx w) (tx w)). }
  congruence.
Qed.
(** After [n] signals of the event number [i]. *)
Definition during_b (a : axis) (es : list (GMachine.event FX)) (i n : nat) : option Z :=
  match nth_error es i with
  | Some (EMove g) =>
      match played_b a (firstn i es), run_gen default_config 200 g with
      | Some s1, Finished l =>
          if move_b l then
            match plan default_hal 0 0 l with
            | Ok rs => Some (s1 + invert (ax a (inverted default_config)) (driven (ax a (step_pin default_hal)) (ax a (dir_pin default_hal)) (firstn n (asked 0 rs))))
            | Raise _ => None
            end
          else None
      | _, _ => None
      end
  | _ => None
  end.
Lemma during_b_spec a es i n k : all_made default_config (init_machine default_config) es (init_machine default_config) ->
  during_b a es i n = Some k -> during (fun x => x) default_config default_hal 8192 65536 false a es k.
Proof.
  intros M H. unfold during_b in H. destruct (nth_error es i) as [ev|] eqn:En; [|discriminate H]. destruct ev; try discriminate H.
  apply nth_error_split in En. destruct En as (es1 & es2 & -> & Li).
  assert (F: firstn i (es1 ++ EMove g :: es2) = es1) by (rewrite <- Li, firstn_app, Nat.sub_diag, firstn_all; cbn [firstn]; apply app_nil_r).
  rewrite F in H. destruct (played_b a es1) as [s1|] eqn:P1; [|discriminate H]. destruct (run_gen default_config 200 g) as [l| |] eqn:E; [|discriminate H|discriminate H].
  destruct (move_b l) eqn:B; [|discriminate H]. destruct (plan default_hal 0 0 l) as [rs|] eqn:PL; [|discriminate H]. injection H as <-.
  apply move_b_spec in B. destruct B as (S & R & D).
  assert (BO: buffer_ok 8192 65536) by (repeat split; lia).
  destruct (move_program default_hal 8192 65536 false (proj1 BO) l None dma0 stopped (moved l) R D) as (rs' & PL' & _ & _ & rest & RM & Q).
  rewrite PL in PL'. injection PL' as <-.
  rewrite <- (Q BO (plan_sane_short default_hal default_pins l ltac:(cbn; lia) 0 0 rs PL (S rs PL))).
  eapply during_move; [reflexivity| |exists 200%nat; exact E|exact S|exact R|exact D|exact RM].
  apply played_b_spec; [|exact P1]. apply Forall_app in M. apply M.
Qed.
Definition session81 : list text := map tx ["G91"; "G1 X0.12 Y.1"; "G1 X-3"; "G20"; "G92 X1"; "nonsense"; "M2"; "G90"; "X0.07 Y0.02 Z0.01"]%string.
(** The third line would leave the table and is refused; in the last move, after nine
    signals, X has gone back from 12 to 10 steps. *)
Example C81_motors_on_table_ex :
  good_cfg default_config /\ pins_ok default_hal /\ NoDup (used_pins default_hal) /\ buffer_ok 8192 65536 /\ 0 <= pulse_us default_hal < 2 ^ 26 /\ moves_return (N:=FX) hw_ok /\
  Forall (without ["G2"; "G3"]%string) session81 /\
  exists bs s, answered default_config (N:=FX) hw_ok (fun l => l) (map Line session81) (session0 default_config) bs s /\
    during (fun x => x) default_config default_hal 8192 65536 false AX (s_log s) 10.
Proof.
  split; [exact default_good|]. split; [exact default_pins|]. split; [exact default_distinct|]. split; [repeat split; lia|]. split; [cbn; lia|]. split; [intros ? ? ? ?; discriminate|].
  split; [apply Forall_forall; intros l I; apply without_b_spec; revert l I; apply forallb_forall; vm_compute; reflexivity|].
  assert (T: match run_lines default_config (N:=FX) hw_ok session81 (session0 default_config) with
             | Some (bs, s) => match during_b AX (s_log s) 1 9 with Some k => k =? 10 | None => false end
             | None => false end = true) by (vm_compute; reflexivity).
  destruct (run_lines default_config (N:=FX) hw_ok session81 (session0 default_config)) as [[bs s]|] eqn:R; [|discriminate T].
  destruct (during_b AX (s_log s) 1 9) as [k|] eqn:Dk; [|discriminate T]. apply Z.eqb_eq in T. subst k.
  apply run_lines_spec in R. exists bs, s. split; [exact R|]. eapply during_b_spec; [|exact Dk].
  apply (history_made (N:=FX) default_config (Straight (fun x => x)) (s_machine s)).
  apply (straight_history (fun x => x) default_config hw_ok (fun _ _ _ H => ltac:(discriminate H)) (fun l => l) _ _ _ _ R); [|constructor].
  apply Forall_map, Forall_forall. intros l I. apply without_b_spec. revert l I. apply forallb_forall. vm_compute. reflexivity.
Qed.
