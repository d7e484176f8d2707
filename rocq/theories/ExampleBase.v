(** Definitions used only in Examples: lines of text run on the model. *)
From Coq Require Import String Ascii ZArith Bool List.
From Flocq Require Import BinarySingleNaN.
From Verif Require Import PyBase PyNum Config Coordinates Pulses GCode GMachine.
Import ListNotations.

(** The words of a line (empty if the line is not accepted). *)
Definition gl (s : string) : gcode :=
  match parse_line (tx s) with Ok (Some g) => g | _ => [] end.

Section Ex.
Context {N : PyNum}.
(** Hardware that always answers True. *)
Definition hw_ok : hw_oracle N := fun _ _ => HReturn true.
(** Hardware whose temperature sensors fail. *)
Definition hw_no_sensor : hw_oracle N :=
  fun _ ev => match ev with EMeasure _ => HRaise IOErr | _ => HReturn true end.

Definition state_of (r : machine N * list (event N) * res unit) : machine N := fst (fst r).
Definition events_of (r : machine N * list (event N) * res unit) : list (event N) := snd (fst r).
Definition result_of (r : machine N * list (event N) * res unit) : res unit := snd r.

(** State and events after several lines, failing ones included. *)
Fixpoint after (cfg : config) (hw : hw_oracle N) (ls : list string) (m : machine N) (es : list (event N))
  : machine N * list (event N) :=
  match ls with
  | [] => (m, es)
  | s :: r => let '(m', es', _) := run_command cfg hw (Some (gl s)) m in after cfg hw r m' (es ++ es')
  end.
Definition after0 (ls : list string) : machine N :=
  fst (after default_config hw_ok ls (init_machine default_config) []).
Definition events0 (ls : list string) : list (event N) :=
  snd (after default_config hw_ok ls (init_machine default_config) []).

Lemma after_history (P : hw_oracle N -> option gcode -> Prop) cfg hw ls m es :
  Forall (fun s => P hw (Some (gl s))) ls ->
  history_where P cfg m es ->
  history_where P cfg (fst (after cfg hw ls m es)) (snd (after cfg hw ls m es)).
Proof.
  revert m es. induction ls as [|s r IH]; intros m es HP H; [exact H|].
  apply Forall_cons_iff in HP. destruct HP as [HP HPr].
  cbn [after]. destruct (run_command cfg hw (Some (gl s)) m) as [[m' es'] rr] eqn:E.
  apply IH; [exact HPr|]. eapply h_step; eauto.
Qed.
Lemma history0_where (P : hw_oracle N -> option gcode -> Prop) ls :
  Forall (fun s => P hw_ok (Some (gl s))) ls ->
  history_where P default_config (after0 ls) (events0 ls).
Proof. intros H. apply after_history; [exact H|constructor]. Qed.
Lemma history0 (P : hw_oracle N -> Prop) ls : P hw_ok ->
  history_hw P default_config (after0 ls) (events0 ls).
Proof. intros H. apply history0_where. apply Forall_forall. intros _ _. exact H. Qed.
End Ex.
