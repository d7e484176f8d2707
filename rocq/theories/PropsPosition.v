(** Properties C08, C14-C18, C20 of the machine: position, offset, units, homing
    (cnc/gmachine.py), over binary64. Every theorem is followed by its
    assumptions and by an Example in which its hypotheses hold. *)
From Coq Require Import String Ascii ZArith Bool Reals Lra Lia List FunctionalExtensionality.
From Flocq Require Import Core BinarySingleNaN.
From Verif Require Import PyBase PyNum PyFloatFacts Config Coordinates Pulses GCode GCodeSpec WordFacts GMachine MachineFacts MachineHist MachineFloat Decimal MachinePos MachineArc MachineWork MachineHome ExampleBase.
From Coq Require Import List.
From Flocq Require Import Core.
Import ListNotations.
Local Open Scope R_scope.

(* ---------- for the Examples ---------- *)
(** Decision procedure for the bounds on words. *)
Definition word_ok (b : Z) (g : gcode) (k : ascii) : bool :=
  match lookup g k with
  | None => true
  | Some lit => match decimal_of lit with
                | None => true
                | Some (_, n, d) => (n <=? b * 10 ^ Z.of_nat d)%Z
                end
  end.
Lemma word_ok_spec ks b g : forallb (word_ok b g) ks = true -> words_at_most ks (IZR b) g.
Proof.
  intros H k lit x Hk Hl Hv. rewrite forallb_forall in H. specialize (H k Hk). unfold word_ok in H. rewrite Hl in H.
  destruct (LiteralValue_decimal _ _ Hv) as (s & n & d & Hd & Hn & ->). rewrite Hd in H. apply Z.leb_le in H.
  assert (P10: 0 < 10 ^ d) by (apply pow_lt; lra).
  assert (E: Rabs (sgn s * (IZR n / 10 ^ d)) = IZR n / 10 ^ d).
  { rewrite Rabs_mult. replace (Rabs (sgn s)) with 1.
    - rewrite Rmult_1_l. apply Rabs_pos_eq. apply Rmult_le_pos; [now apply IZR_le|]. left. now apply Rinv_0_lt_compat.
    - destruct s; unfold sgn; [rewrite Rabs_left by lra; ring|now rewrite Rabs_R1]. }
  rewrite E. apply Rmult_le_reg_r with (10 ^ d); [exact P10|]. unfold Rdiv. rewrite Rmult_assoc, Rinv_l, Rmult_1_r by lra.
  apply IZR_le in H. rewrite mult_IZR, <- pow_IZR in H. exact H.
Qed.
Definition moderate_b (s : string) : bool :=
  forallb (word_ok 1000 (gl s)) coord_letters && forallb (word_ok 600 (gl s)) radius_letters.
Lemma moderate_b_spec s : moderate_b s = true -> moderate (Some (gl s)).
Proof.
  unfold moderate_b, moderate. intros H. apply andb_prop in H. destruct H as [H1 H2]. split; [now apply word_ok_spec|].
  right. now apply word_ok_spec.
Qed.
Definition Moderate {N : PyNum} : hw_oracle N -> option gcode -> Prop := fun _ gc => moderate gc.
Lemma moderate_history {N : PyNum} ls : forallb moderate_b ls = true ->
  history_where Moderate default_config (after0 (N:=N) ls) (events0 ls).
Proof.
  intros H. apply history0_where. apply Forall_forall. intros s Hs. rewrite forallb_forall in H. apply moderate_b_spec. auto.
Qed.
Definition succeeds {N : PyNum} (r : machine N * list (event N) * res unit) : bool :=
  match result_of r with Ok _ => true | Raise _ => false end.
Lemma succeeds_run (N : PyNum) cfg hw gc (m : machine N) : succeeds (run_command cfg hw gc m) = true ->
  run_command cfg hw gc m = (state_of (run_command cfg hw gc m), events_of (run_command cfg hw gc m), Ok tt).
Proof. destruct (run_command cfg hw gc m) as [[m' es] [[]|e]]; cbn; auto; discriminate. Qed.

Definition shows (x : f64) (n : Z) : bool := is_finite x && f_eq x (f_ofZ n).
Lemma shows_val x n : shows x n = true -> (Z.abs n <= 2 ^ 53)%Z -> val x = IZR n.
Proof.
  intros H Hn. apply andb_prop in H. destruct H as [F E]. destruct (f_ofZ_val n Hn) as [Fn Vn].
  apply f_eq_true in E; [|exact F|exact Fn]. now rewrite E.
Qed.

(* ---------- C08 ---------- *)
(** C08. After any history whose arcs have radius words of at most 600, the
    position is finite and inside the table. Missing: arcs with larger radius
    words, for which the statement is false (next theorem). *)
Theorem C08_position_on_table_partial (acos : f64 -> f64) (cfg : config) (P : hw_oracle (F64 acos) -> option gcode -> Prop)
        (m : machine (F64 acos)) (es : list (event (F64 acos))) (a : axis) :
  good_cfg cfg -> (forall hw gc, P hw gc -> small_radius gc) ->
  history_where P cfg m es ->
  fin (ax a (m_position m)) /\ 0 <= val (ax a (m_position m)) <= IZR (table cfg a).
Proof.
  intros Hc HP H. destruct (history_on_table acos cfg Hc P m es HP H a) as (n & Hn).
  destruct (at_step_nearest acos cfg Hc m a n Hn) as ([F _] & _ & B). exact (conj F B).
Qed.
Print Assumptions C08_position_on_table_partial.
Example C08_position_on_table_ex (acos : f64 -> f64) :
  good_cfg default_config
  /\ history_where (N:=F64 acos) (fun _ gc => small_radius gc) default_config
       (after0 ["G1X150Y50"; "G1X300"; "G28Y0"; "G1Z10"]%string) (events0 ["G1X150Y50"; "G1X300"; "G28Y0"; "G1Z10"]%string)
  /\ f_eq (qx (m_position (after0 (N:=F64 acos) ["G1X150Y50"; "G1X300"; "G28Y0"; "G1Z10"]%string))) (f_ofZ 150) = true.
Proof.
  split; [exact default_good|]. split; [|vm_compute; reflexivity].
  apply history0_where. apply Forall_forall. intros s Hs. apply moderate_radius, moderate_b_spec.
  assert (K: forallb moderate_b ["G1X150Y50"; "G1X300"; "G28Y0"; "G1Z10"]%string = true) by (vm_compute; reflexivity).
  rewrite forallb_forall in K. auto.
Qed.

(** An accepted arc of radius 1e35 leaves the reported X position at 256 on a
    table of 200. [acos 1 = 0] is what IEEE 754 prescribes. *)
Definition acos_at_1 (acos : f64 -> f64) : f64 -> f64 :=
  fun x => if SpecFloat.SFeqb (B2SF x) (B2SF (f_ofZ 1)) then f_ofZ 0 else acos x.
Lemma acos_at_1_eq acos : acos (f_ofZ 1) = f_ofZ 0 -> acos_at_1 acos = acos.
Proof.
  intros H. apply functional_extensionality. intros x. unfold acos_at_1.
  destruct (SpecFloat.SFeqb (B2SF x) (B2SF (f_ofZ 1))) eqn:E; [|reflexivity].
  assert (E2: f_eq x (f_ofZ 1) = true) by exact E.
  assert (F: fin x) by (destruct x as [s|s| |s mx ex B]; try reflexivity; try discriminate E; destruct s; discriminate E).
  assert (V: val x = val (f_ofZ 1)) by (apply f_eq_true; auto; reflexivity).
  assert (x = f_ofZ 1).
  { apply B2R_inj; [|reflexivity|exact V]. destruct x as [s|s| |s mx ex B]; try discriminate F; [destruct s; discriminate E|reflexivity]. }
  now subst x.
Qed.
Definition arc_1e35 : list string :=
  ["G1X190Y100"; "G3X150Y50J-100000000000000000000000000000000000"]%string.
Theorem C08_position_on_table_refuted (acos : f64 -> f64) : acos (f_ofZ 1) = f_ofZ 0 ->
  exists (m : machine (F64 acos)) es,
    history default_config m es /\ val (qx (m_position m)) = 256 /\ table_x default_config = 200%Z.
Proof.
  intros H. rewrite <- (acos_at_1_eq acos H). clear H.
  exists (after0 arc_1e35), (events0 arc_1e35). split; [apply history0; exact I|]. split; [|reflexivity].
  apply (shows_val _ 256); [vm_compute; reflexivity|lia].
Qed.
Print Assumptions C08_position_on_table_refuted.

(* ---------- C14 ---------- *)
(** C14. A successful absolute G0/G1 (also as a line without a command word)
    ends, on every axis that is named, within half a motor step (and 1e-9 mm) of
    offset + word * unit factor; an axis that is not named does not move.
    Histories with coordinate words up to 1000 and arc radius words up to 600.
    Missing: larger words, for which it is false (next theorem). *)
Theorem C14_absolute_move_partial (acos : f64 -> f64) (cfg : config) (m m' : machine (F64 acos))
        (es0 es : list (event (F64 acos))) (hw : hw_oracle (F64 acos)) (g : gcode) (a : axis) (u : R) :
  good_cfg cfg -> history_where Moderate cfg m es0 -> moderate (Some g) ->
  unit_factor acos m u -> m_absolute m = true ->
  effective_command g = Some (tx "G0") \/ effective_command g = Some (tx "G1") ->
  run_command cfg hw (Some g) m = (m', es, Ok tt) ->
  (lookup g (axis_letter a) = None -> val (ax a (m_position m')) = val (ax a (m_position m))) /\
  (forall lit x, lookup g (axis_letter a) = Some lit -> LiteralValue lit x ->
     Rabs (val (ax a (m_position m')) - (val (ax a (m_local m)) + x * u))
       <= / (2 * IZR (ax a (ppm cfg))) + / 1000000000).
Proof. intros Hc Hh. exact (absolute_move acos cfg Hc Moderate m es0 hw g m' es a u (fun _ _ H => H) Hh). Qed.
Print Assumptions C14_absolute_move_partial.
Definition prog14 : list string := ["G1X150.123Y50"; "G92X7.77"; "G20"; "G2Y2I1"]%string.
Example C14_absolute_move_ex (acos : f64 -> f64) :
  history_where (N:=F64 acos) Moderate default_config (after0 prog14) (events0 prog14)
  /\ moderate (Some (gl "X1.2345"))
  /\ unit_factor acos (after0 prog14) (254 / 10)
  /\ m_absolute (after0 (N:=F64 acos) prog14) = true
  /\ effective_command (gl "X1.2345") = Some (tx "G1")
  /\ succeeds (run_command default_config (N:=F64 acos) hw_ok (Some (gl "X1.2345")) (after0 prog14)) = true.
Proof.
  refine (conj _ (conj _ (conj _ (conj _ (conj _ _))))).
  - apply moderate_history. vm_compute; reflexivity.
  - apply moderate_b_spec. vm_compute; reflexivity.
  - right. split; [|reflexivity]. assert (U := history_units acos default_config _ _ _ (moderate_history (N:=F64 acos) prog14 ltac:(vm_compute; reflexivity))).
    destruct U as [U|U]; [|exact U]. exfalso.
    assert (E: f_eq (m_convert (after0 (N:=F64 acos) prog14)) (f_ofZ 1) = false) by (vm_compute; reflexivity).
    rewrite U in E. vm_compute in E. discriminate E.
  - vm_compute; reflexivity.
  - vm_compute; reflexivity.
  - vm_compute; reflexivity.
Qed.

(** With an offset of 1e30 a move along Y alone also moves X, from 100 to 0. *)
Definition far_offset : list string := ["G1X100"; "G92X1000000000000000000000000000000"]%string.
Theorem C14_absolute_move_refuted (acos : f64 -> f64) :
  exists (m m' : machine (F64 acos)) es es' g hw,
    history default_config m es /\ m_absolute m = true /\ effective_command g = Some (tx "G1") /\
    run_command default_config hw (Some g) m = (m', es', Ok tt) /\
    lookup g "X" = None /\ val (qx (m_position m)) = 100 /\ val (qx (m_position m')) = 0.
Proof.
  set (m := after0 (N:=F64 acos) far_offset). set (r := run_command default_config hw_ok (Some (gl "G1Y1")) m).
  exists m, (state_of r), (events0 far_offset), (events_of r), (gl "G1Y1"), hw_ok.
  split; [apply history0; exact I|]. split; [vm_compute; reflexivity|]. split; [vm_compute; reflexivity|].
  split; [apply succeeds_run; vm_compute; reflexivity|]. split; [vm_compute; reflexivity|].
  split; [apply (shows_val _ 100)|apply (shows_val _ 0)]; try lia; vm_compute; reflexivity.
Qed.
Print Assumptions C14_absolute_move_refuted.

(* ---------- C15 ---------- *)
(** C15. Successful relative moves commanding distances x1, x2, ... along an axis
    move it by their sum up to half a step (and 1e-9 mm) for each move. Missing:
    the bound of one step for the whole sequence, which is false (see below). *)
Theorem C15_relative_sum_partial (acos : f64 -> f64) (cfg : config) (P : hw_oracle (F64 acos) -> option gcode -> Prop)
        (m m' : machine (F64 acos)) (es : list (event (F64 acos))) (a : axis) (xs : list R) :
  good_cfg cfg -> (forall hw gc, P hw gc -> small_radius gc) -> history_where P cfg m es ->
  relative_moves acos cfg a m xs m' ->
  Rabs (val (ax a (m_position m')) - (val (ax a (m_position m)) + fold_right Rplus 0 xs))
    <= INR (List.length xs) * (/ (2 * IZR (ax a (ppm cfg))) + / 1000000000).
Proof.
  intros Hc HP Hh Hm. exact (relative_sum acos cfg Hc a m xs m' Hm (history_on_table acos cfg Hc P m es HP Hh)).
Qed.
Print Assumptions C15_relative_sum_partial.

(** Distances that are whole numbers of motor steps add up exactly, for any
    number of moves: the position is the double nearest to (n + j1 + j2 + ...) / p. *)
Theorem C15_whole_steps_exact (acos : f64 -> f64) (cfg : config) (P : hw_oracle (F64 acos) -> option gcode -> Prop)
        (m m' : machine (F64 acos)) (es : list (event (F64 acos))) (a : axis) (xs : list R) (js : list Z) :
  good_cfg cfg -> (forall hw gc, P hw gc -> small_radius gc) -> history_where P cfg m es ->
  relative_moves acos cfg a m xs m' ->
  Forall2 (fun x j => x * IZR (ax a (ppm cfg)) = IZR j) xs js ->
  exists n, nearest_to (ax a (ppm cfg)) n (ax a (m_position m)) /\
            nearest_to (ax a (ppm cfg)) (n + fold_right Z.add 0%Z js) (ax a (m_position m')).
Proof.
  intros Hc HP Hh Hm HF. assert (Ht := history_on_table acos cfg Hc P m es HP Hh). destruct (Ht a) as (n & Hn).
  exists n. split; [apply (at_step_nearest acos cfg Hc m a n Hn)|].
  apply (at_step_nearest acos cfg Hc m' a _ (relative_whole acos cfg Hc a m xs m' Hm Ht n js Hn HF)).
Qed.
Print Assumptions C15_whole_steps_exact.
(** Two relative moves of 0.25 mm and -0.1 mm along X. *)
Example C15_relative_ex (acos : f64 -> f64) : exists m',
  history_where (N:=F64 acos) Moderate default_config (after0 ["G1X5"; "G91"]%string) (events0 ["G1X5"; "G91"]%string)
  /\ relative_moves acos default_config AX (after0 ["G1X5"; "G91"]%string) [25 / 100; - (1 / 10)] m'
  /\ Forall2 (fun x j => x * IZR (ax AX (ppm default_config)) = IZR j) [25 / 100; - (1 / 10)] [25%Z; (-10)%Z].
Proof.
  set (m0 := after0 (N:=F64 acos) ["G1X5"; "G91"]%string).
  set (r1 := run_command default_config hw_ok (Some (gl "X0.25")) m0).
  set (r2 := run_command default_config hw_ok (Some (gl "G1X-.1")) (state_of r1)).
  assert (M0 := moderate_history (N:=F64 acos) ["G1X5"; "G91"]%string ltac:(vm_compute; reflexivity)).
  exists (state_of r2). split; [exact M0|]. split.
  2: { constructor; [cbn; lra|]. constructor; [cbn; lra|constructor]. }
  assert (S1: run_command default_config hw_ok (Some (gl "X0.25")) m0 = (state_of r1, events_of r1, Ok tt))
    by (apply succeeds_run; vm_compute; reflexivity).
  assert (S2: run_command default_config hw_ok (Some (gl "G1X-.1")) (state_of r1) = (state_of r2, events_of r2, Ok tt))
    by (apply succeeds_run; vm_compute; reflexivity).
  assert (W: forall s, forallb (word_ok 1000 (gl s)) coord_letters = true -> words_at_most coord_letters 1000 (gl s))
    by (intros; now apply word_ok_spec).
  assert (K: forall m es, history_where (N:=F64 acos) Moderate default_config m es -> f_eq (m_convert m) (f_ofZ 1) = true -> unit_factor acos m 1).
  { intros m es H E. destruct (history_units acos default_config _ _ _ H) as [U|U]; [left; auto|].
    exfalso. rewrite U in E. vm_compute in E. discriminate E. }
  assert (M1: history_where (N:=F64 acos) Moderate default_config (state_of r1) (events0 ["G1X5"; "G91"]%string ++ events_of r1)).
  { eapply h_step; [exact M0| |exact S1]. apply moderate_b_spec. vm_compute; reflexivity. }
  eapply rm_cons; [|exact S1|].
  - split; [right; vm_compute; reflexivity|]. split; [vm_compute; reflexivity|]. split; [apply W; vm_compute; reflexivity|].
    exists 1. split; [apply (K _ _ M0); vm_compute; reflexivity|].
    change (lookup (gl "X0.25") (axis_letter AX)) with (Some (tx "0.25")). exists (25 / 100). split; [|lra].
    destruct (decimal_LiteralValue (tx "0.25") false 25 2 eq_refl) as [_ H].
    replace (25 / 100) with (sgn false * (25 / 10 ^ 2)) by (unfold sgn; simpl; lra). exact H.
  - eapply rm_cons; [|exact S2|apply rm_nil].
    split; [right; vm_compute; reflexivity|]. split; [vm_compute; reflexivity|]. split; [apply W; vm_compute; reflexivity|].
    exists 1. split; [apply (K _ _ M1); vm_compute; reflexivity|].
    change (lookup (gl "G1X-.1") (axis_letter AX)) with (Some (tx "-.1")). exists (- (1 / 10)). split; [|lra].
    destruct (decimal_LiteralValue (tx "-.1") true 1 1 eq_refl) as [_ H].
    replace (- (1 / 10)) with (sgn true * (1 / 10 ^ 1)) by (unfold sgn; simpl; lra). exact H.
Qed.

(** k relative moves of 0.004 mm, all successful, never move the axis at all. *)
Definition crawl : gcode := gl "X0.004".
Lemma crawl_noop (acos : f64 -> f64) (hw : hw_oracle (F64 acos)) (m : machine (F64 acos)) :
  m_convert m = f_ofZ 1 -> m_absolute m = false -> f_lt (m_velocity m) (f_ofZ (min_velocity_min default_config)) = false ->
  run_command default_config hw (Some crawl) m = (m, [], Ok tt).
Proof.
  intros Hc Ha Hv. unfold run_command, do_command, bind, gets, lift, command_delta. rewrite Ha, Hc.
  assert (Z2: match get_coordinates crawl (coords0 (N:=F64 acos)) (f_ofZ 1) with
              | Ok d => match round_to_grid default_config d with Ok d' => is_zero d' | Raise _ => false end
              | Raise _ => false end = true) by (vm_compute; reflexivity).
  assert (R2: match get_radius crawl (coords0 (N:=F64 acos)) (f_ofZ 1) with Ok _ => true | Raise _ => false end = true)
    by (vm_compute; reflexivity).
  destruct (get_coordinates crawl (coords0 (N:=F64 acos)) (f_ofZ 1)) as [d|]; [|discriminate Z2].
  change (get crawl "F" (m_velocity m) (ofZ 1)) with (Ok (m_velocity m)).
  destruct (get_radius crawl (coords0 (N:=F64 acos)) (f_ofZ 1)) as [rr|]; [|discriminate R2].
  cbv iota beta. change (ltb (p:=F64 acos) (m_velocity m) (ofZ (min_velocity_min default_config))) with (f_lt (m_velocity m) (f_ofZ (min_velocity_min default_config))).
  rewrite Hv. unfold fail_if, ret. change (effective_command crawl) with (Some (tx "G1")).
  cbv iota beta. change (assoc_text (tx "G1") command_table) with (Some G1). cbn [exec_cmd].
  rename Z2 into Z.
  unfold move_linear, bind, lift. destruct (round_to_grid default_config d) as [d'|]; [|discriminate Z]. cbv iota beta. rewrite Z.
  unfold ret, modify. now destruct m.
Qed.
Theorem C15_relative_sum_refuted (acos : f64 -> f64) (k : nat) :
  exists (m m' : machine (F64 acos)) es,
    history default_config m es /\
    relative_moves acos default_config AX m (repeat (4 / 1000) k) m' /\
    val (qx (m_position m)) = 0 /\ val (qx (m_position m')) = 0.
Proof.
  set (m := after0 (N:=F64 acos) ["G91"]%string).
  exists m, m, (events0 ["G91"]%string). split; [apply history0; exact I|].
  split; [|split; apply (shows_val _ 0); try lia; vm_compute; reflexivity].
  assert (U: m_convert m = f_ofZ 1) by reflexivity.
  assert (A: m_absolute m = false) by reflexivity.
  assert (V: f_lt (m_velocity m) (f_ofZ (min_velocity_min default_config)) = false) by (vm_compute; reflexivity).
  clearbody m. induction k as [|k IH]; [apply rm_nil|]. cbn [repeat].
  eapply rm_cons; [|exact (crawl_noop acos hw_ok m U A V)|exact IH].
  split; [right; vm_compute; reflexivity|]. split; [exact A|].
  split; [apply word_ok_spec; vm_compute; reflexivity|]. exists 1. split; [left; auto|].
  change (lookup crawl (axis_letter AX)) with (Some (tx "0.004")). exists (4 / 1000). split; [|lra].
  destruct (decimal_LiteralValue (tx "0.004") false 4 3 eq_refl) as [_ H].
  replace (4 / 1000) with (sgn false * (4 / 10 ^ 3)) by (unfold sgn; simpl; lra). exact H.
Qed.
Print Assumptions C15_relative_sum_refuted.

(* ---------- C16 ---------- *)
(** C16. After any history without arcs, on hardware whose motor calls do not
    fail, the position of each axis is the double nearest to
    (net number of steps sent) / (pulses per mm), at any length of history. *)
Theorem C16_position_is_steps_sent (acos : f64 -> f64) (cfg : config) (P : hw_oracle (F64 acos) -> option gcode -> Prop)
        (m : machine (F64 acos)) (es : list (event (F64 acos))) (a : axis) :
  good_cfg cfg ->
  (forall hw gc, P hw gc -> (forall l g e, hw l (EMove g) <> HRaise e) /\ no_arc gc) ->
  history_where P cfg m es ->
  nearest_to (ax a (ppm cfg)) (net acos a es) (ax a (m_position m)).
Proof.
  intros Hc HP Hh. apply (at_step_nearest acos cfg Hc m a _).
  refine (history_follows acos cfg Hc P m es _ Hh a). intros hw gc H. destruct (HP hw gc H) as [H1 H2].
  split; [|exact H2]. intros l ev e (g & ->). apply H1.
Qed.
Print Assumptions C16_position_is_steps_sent.
Definition prog16 : list string := ["G1X150.123Y50"; "G91"; "G1X-0.333Y0.01"; "G20"; "G0Z0.1X-.3"; "G28Y0"]%string.
Example C16_position_is_steps_sent_ex (acos : f64 -> f64) :
  (forall l g e, hw_ok (N:=F64 acos) l (EMove g) <> HRaise e)
  /\ Forall (fun s => no_arc (Some (gl s))) prog16
  /\ net acos AX (events0 prog16) = 14217%Z /\ net acos AY (events0 prog16) = 0%Z /\ net acos AZ (events0 prog16) = 1016%Z.
Proof.
  split; [intros; discriminate|]. split.
  { repeat constructor; vm_compute; discriminate. }
  repeat split; vm_compute; reflexivity.
Qed.

(* ---------- C17 ---------- *)
(** C17. G92 moves nothing; an absolute straight move with the same coordinate
    words directly after it is accepted and produces no motion. Histories with
    coordinate words up to 1000 and arc radius words up to 600, and an E position
    and E offset below 2^15 = 32768 mm. Missing: larger words, for which it is
    false (last theorem of C17). *)
Definition e_small (acos : f64 -> f64) (m : machine (F64 acos)) : Prop :=
  bd 15 (qe (m_position m)) /\ bd 15 (qe (m_local m)).
Theorem C17_g92_same_words_no_motion_partial (acos : f64 -> f64) (cfg : config) (m m' m2 : machine (F64 acos))
        (es0 es es2 : list (event (F64 acos))) (hw hw1 : hw_oracle (F64 acos)) (g g1 : gcode) (r : res unit) :
  good_cfg cfg -> history_where Moderate cfg m es0 -> e_small acos m ->
  run_command cfg hw (Some g) m = (m', es, Ok tt) -> effective_command g = Some (tx "G92") -> has_coordinates g = true ->
  words_at_most coord_letters 1000 g -> m_absolute m = true ->
  (forall k, In k coord_letters -> lookup g1 k = lookup g k) ->
  effective_command g1 = Some (tx "G0") \/ effective_command g1 = Some (tx "G1") ->
  run_command cfg hw1 (Some g1) m' = (m2, es2, r) ->
  es = [] /\ m_position m' = m_position m /\ es2 = [] /\ m_position m2 = m_position m /\
  ((forall k, In k ["F"; "I"; "J"; "K"]%char -> lookup g1 k = None) -> r = Ok tt).
Proof.
  intros Hc Hh [Bp Bl] H Et Hco Hw Ha Hs Hg1 H1.
  destruct (g92_effect acos cfg hw g m m' es H Et) as (E0 & Ep & _).
  destruct (g92_noop acos cfg Hc hw g m m' es hw1 g1 m2 es2 r H Et Hco Hw (history_units acos cfg _ _ _ Hh)
     (history_tame4 acos cfg Hc Moderate m es0 (fun _ _ X => X) Hh Bp Bl) Ha (fun a => Hs _ (letter4_in a)) Hg1 H1) as (A & B & C).
  rewrite Ep in B. auto.
Qed.
Print Assumptions C17_g92_same_words_no_motion_partial.

(** The work coordinates (position - offset) after G92: named axes have the
    given coordinate (within 1e-9), other axes keep theirs exactly. *)
Theorem C17_g92_work_coordinates_partial (acos : f64 -> f64) (cfg : config) (m m' : machine (F64 acos))
        (es0 es : list (event (F64 acos))) (hw : hw_oracle (F64 acos)) (g : gcode) (a : axis4) (u : R) :
  good_cfg cfg -> history_where Moderate cfg m es0 -> e_small acos m ->
  run_command cfg hw (Some g) m = (m', es, Ok tt) -> effective_command g = Some (tx "G92") -> has_coordinates g = true ->
  words_at_most coord_letters 1000 g -> unit_factor acos m u ->
  let work m : quad (F64 acos) := csub (m_position m) (m_local m) in
  (lookup g (letter4 a) = None -> val (ax4 a (work m')) = val (ax4 a (work m))) /\
  (forall lit x, lookup g (letter4 a) = Some lit -> LiteralValue lit x ->
     Rabs (val (ax4 a (work m')) - x * u) <= / 1000000000).
Proof.
  intros Hc Hh [Bp Bl] H Et Hco Hw U.
  exact (g92_work acos cfg hw g m m' es a u H Et Hco Hw U (history_tame4 acos cfg Hc Moderate m es0 (fun _ _ X => X) Hh Bp Bl a)).
Qed.
Print Assumptions C17_g92_work_coordinates_partial.

(** G92 without coordinates: the current point becomes the origin. *)
Theorem C17_g92_origin (acos : f64 -> f64) (cfg : config) (m m' : machine (F64 acos))
        (es : list (event (F64 acos))) (hw : hw_oracle (F64 acos)) (g : gcode) (a : axis4) :
  run_command cfg hw (Some g) m = (m', es, Ok tt) -> effective_command g = Some (tx "G92") -> has_coordinates g = false ->
  fin (ax4 a (m_position m)) ->
  es = [] /\ m_position m' = m_position m /\ val (ax4 a (csub (N:=F64 acos) (m_position m') (m_local m'))) = 0.
Proof.
  intros H Et Hco F. destruct (g92_effect acos cfg hw g m m' es H Et) as (E0 & Ep & _).
  exact (conj E0 (conj Ep (g92_origin acos cfg hw g m m' es a H Et Hco F))).
Qed.
Print Assumptions C17_g92_origin.

(** G53 cancels the offset: work coordinates are machine coordinates. *)
Theorem C17_g53_cancels (acos : f64 -> f64) (cfg : config) (P : hw_oracle (F64 acos) -> option gcode -> Prop)
        (m m' : machine (F64 acos)) (es0 es : list (event (F64 acos))) (hw : hw_oracle (F64 acos)) (g : gcode) (a : axis4) :
  history_where P cfg m es0 ->
  run_command cfg hw (Some g) m = (m', es, Ok tt) -> effective_command g = Some (tx "G53") ->
  fin (ax4 a (m_position m)) ->
  es = [] /\ m_position m' = m_position m /\ val (ax4 a (m_local m')) = 0 /\
  val (ax4 a (csub (N:=F64 acos) (m_position m') (m_local m'))) = val (ax4 a (m_position m)).
Proof.
  intros Hh H Et F. destruct (g53_effect acos cfg hw g m m' es H Et) as (E0 & Ep & X). destruct (X a) as [Z W].
  exact (conj E0 (conj Ep (conj Z (W (history_ten acos cfg P m es0 Hh) F)))).
Qed.
Print Assumptions C17_g53_cancels.

Definition prog17 : list string := ["G1X150.123Y50E0.5"; "G92X7.77Z2"; "G20"]%string.
Lemma small_bd (x : f64) (n : Z) : is_finite x && f_le (f_ofZ (-n)) x && f_le x (f_ofZ n) = true -> (0 <= n <= 32768)%Z -> bd 15 x.
Proof.
  intros H Hn. apply andb_prop in H. destruct H as [H H3]. apply andb_prop in H. destruct H as [F H2].
  split; [exact F|]. destruct (f_ofZ_val n ltac:(lia)) as [Fn Vn]. destruct (f_ofZ_val (-n) ltac:(lia)) as [Fm Vm].
  apply f_le_true in H2; [|exact Fm|exact F]. apply f_le_true in H3; [|exact F|exact Fn]. rewrite Vm in H2. rewrite Vn in H3.
  rewrite opp_IZR in H2. assert (IZR n <= 32768) by (apply IZR_le; lia). apply Rabs_le. b2n. lra.
Qed.
Example C17_offsets_ex (acos : f64 -> f64) :
  history_where (N:=F64 acos) Moderate default_config (after0 prog17) (events0 prog17)
  /\ e_small acos (after0 prog17)
  /\ succeeds (run_command default_config (N:=F64 acos) hw_ok (Some (gl "G92X3.1E-1.7")) (after0 prog17)) = true
  /\ succeeds (run_command default_config (N:=F64 acos) hw_ok (Some (gl "G92")) (after0 prog17)) = true
  /\ succeeds (run_command default_config (N:=F64 acos) hw_ok (Some (gl "G53")) (after0 prog17)) = true
  /\ has_coordinates (gl "G92X3.1E-1.7") = true /\ has_coordinates (gl "G92") = false
  /\ words_at_most coord_letters 1000 (gl "G92X3.1E-1.7")
  /\ m_absolute (after0 (N:=F64 acos) prog17) = true
  /\ (forall k, In k coord_letters -> lookup (gl "G1X3.1E-1.7") k = lookup (gl "G92X3.1E-1.7") k).
Proof.
  refine (conj _ (conj _ (conj _ (conj _ (conj _ (conj _ (conj _ (conj _ (conj _ _))))))))).
  - apply moderate_history. vm_compute; reflexivity.
  - split; apply (small_bd _ 10); try lia; vm_compute; reflexivity.
  - vm_compute; reflexivity.
  - vm_compute; reflexivity.
  - vm_compute; reflexivity.
  - vm_compute; reflexivity.
  - vm_compute; reflexivity.
  - apply word_ok_spec. vm_compute; reflexivity.
  - vm_compute; reflexivity.
  - intros k Hk. unfold coord_letters in Hk. cbn [In] in Hk. repeat destruct Hk as [<-|Hk]; try contradiction; vm_compute; reflexivity.
Qed.

(** With a coordinate of 1e30 the move to the coordinates just given by G92 does
    move the machine, from X 100 to X 0. *)
Theorem C17_g92_same_words_no_motion_refuted (acos : f64 -> f64) :
  exists (m m' m2 : machine (F64 acos)) es0 es es2 g g1,
    history default_config m es0 /\ m_absolute m = true /\
    effective_command g = Some (tx "G92") /\ run_command default_config hw_ok (Some g) m = (m', es, Ok tt) /\
    effective_command g1 = Some (tx "G1") /\ (forall k, In k coord_letters -> lookup g1 k = lookup g k) /\
    run_command default_config hw_ok (Some g1) m' = (m2, es2, Ok tt) /\
    val (qx (m_position m)) = 100 /\ val (qx (m_position m2)) = 0.
Proof.
  set (m := after0 (N:=F64 acos) ["G1X100"]%string).
  set (r := run_command default_config hw_ok (Some (gl "G92X1000000000000000000000000000000")) m).
  set (r2 := run_command default_config hw_ok (Some (gl "G1X1000000000000000000000000000000")) (state_of r)).
  exists m, (state_of r), (state_of r2), (events0 ["G1X100"]%string), (events_of r), (events_of r2),
    (gl "G92X1000000000000000000000000000000"), (gl "G1X1000000000000000000000000000000").
  split; [apply history0; exact I|]. split; [vm_compute; reflexivity|]. split; [vm_compute; reflexivity|].
  split; [apply succeeds_run; vm_compute; reflexivity|]. split; [vm_compute; reflexivity|].
  split. { intros k Hk. unfold coord_letters in Hk. cbn [In] in Hk. repeat destruct Hk as [<-|Hk]; try contradiction; vm_compute; reflexivity. }
  split; [apply succeeds_run; vm_compute; reflexivity|].
  split; [apply (shows_val _ 100)|apply (shows_val _ 0)]; try lia; vm_compute; reflexivity.
Qed.
Print Assumptions C17_g92_same_words_no_motion_refuted.

(* ---------- C18 ---------- *)
(** C18. G20 selects inches, G21, M2 and M30 millimetres, initially millimetres,
    nothing else changes it; so one of both always holds. *)
Theorem C18_unit_mode (acos : f64 -> f64) (cfg : config) (P : hw_oracle (F64 acos) -> option gcode -> Prop)
        (m m' : machine (F64 acos)) (es0 es : list (event (F64 acos))) (hw : hw_oracle (F64 acos)) (g : gcode) (r : res unit) (u : R) :
  history_where P cfg m es0 -> unit_factor acos m u -> run_command cfg hw (Some g) m = (m', es, r) ->
  unit_factor acos (init_machine cfg) 1 /\
  (r = Ok tt -> effective_command g = Some (tx "G20") -> unit_factor acos m' (254 / 10)) /\
  (r = Ok tt -> effective_command g = Some (tx "G21") -> unit_factor acos m' 1) /\
  ((forall t, effective_command g = Some t -> ~ In t (words ["G20"; "G21"; "M2"; "M30"]%string)) -> unit_factor acos m' u) /\
  (unit_factor acos m' 1 \/ unit_factor acos m' (254 / 10)).
Proof.
  intros Hh U H. split; [left; auto|].
  split. { intros -> E. right. split; [|reflexivity]. exact (proj1 (proj2 (proj2 (proj2 (mode_commands cfg hw g m m' es "G20" H E)))) eq_refl). }
  split. { intros -> E. left. split; [|reflexivity]. exact (proj1 (proj2 (proj2 (proj2 (proj2 (mode_commands cfg hw g m m' es "G21" H E))))) eq_refl). }
  split. { intros X. unfold unit_factor. rewrite (c12_units cfg hw g m m' es r H X). exact U. }
  destruct (history_units acos cfg (fun _ _ => True) m' (es0 ++ es)) as [X|X]; [|left|right]; unfold unit_factor; auto.
  eapply h_step; [|exact I|exact H]. clear - Hh. induction Hh; [constructor|econstructor; eauto].
Qed.
Print Assumptions C18_unit_mode.

Definition radius_letter (a : axis) : ascii := match a with AX => "I" | AY => "J" | AZ => "K" end%char.
(** Every coordinate and radius word is the binary64 product of the number
    written and the unit factor (itself the double nearest to 1 or 25.4), rounded
    to ten decimals, for numbers up to 2^900. *)
Theorem C18_words_scaled (acos : f64 -> f64) (g : gcode) (m : machine (F64 acos)) (u : R) (c rr : quad (F64 acos))
        (dflt dr : quad (F64 acos)) :
  unit_factor acos m u ->
  get_coordinates g dflt (m_convert m) = Ok c -> get_radius g dr (m_convert m) = Ok rr ->
  forall lit x, LiteralValue lit x -> Rabs x <= bpow radix2 900 ->
  exists y : f64, fin y /\ val y = rd (rd x * rd u) /\
  (forall a, lookup g (letter4 a) = Some lit -> ax4 a c = f_rnd10 y) /\
  (forall a, lookup g (radius_letter a) = Some lit -> ax a rr = f_rnd10 y).
Proof.
  intros U Hc Hr lit x Hx Bx.
  assert (Vu: fin (m_convert m) /\ val (m_convert m) = rd u /\ Rabs (rd u) <= 32).
  { destruct U as [[-> ->]|[-> ->]].
    - destruct one_val as [F V]. rewrite V. rewrite (rd_IZR 1) by lia. split; [exact F|]. split; [reflexivity|]. rewrite Rabs_R1. lra.
    - unfold inch. destruct (ofdec_val false 254 1) as [F V]; [lia| |].
      + apply big_27. unfold sgn. b2n. rewrite Rabs_pos_eq; simpl; lra.
      + split; [exact F|]. rewrite V. unfold sgn. replace (1 * (254 / 10 ^ 1)) with (254 / 10) by (simpl; field).
        split; [reflexivity|]. change 32 with (bpow radix2 5). apply rd_abs_le; [lia|]. rewrite Rabs_pos_eq by lra. simpl. lra. }
  destruct Vu as (Fu & Vu & Bu).
  assert (Bb: Rabs x <= big) by (eapply Rle_trans; [exact Bx|apply bpow_le; lia]).
  assert (G: forall k d, lookup g k = Some lit -> exists y0, get (N:=F64 acos) g k d (m_convert m) = Ok (f_mul y0 (m_convert m)) /\ fin y0 /\ val y0 = rd x).
  { intros k d Hl. apply (get_value acos g k lit x d (m_convert m) Hl Hx Bb). }
  destruct (LiteralValue_decimal _ _ Hx) as (s & n & dd & Hd & Hn & Ex).
  exists (f_mul (f_ofdec s n dd) (m_convert m)).
  assert (G2: forall k d, lookup g k = Some lit -> get (N:=F64 acos) g k d (m_convert m) = Ok (f_mul (f_ofdec s n dd) (m_convert m))).
  { intros k d Hl. unfold get. rewrite Hl, Hd. reflexivity. }
  destruct (ofdec_val s n dd Hn) as [F0 V0]; [now rewrite <- Ex|]. rewrite <- Ex in V0.
  destruct (f_mul_val (f_ofdec s n dd) (m_convert m) F0 Fu) as [F V].
  { rewrite V0, Vu, Rabs_mult. apply Rle_trans with (bpow radix2 900 * bpow radix2 5).
    - apply Rmult_le_compat; auto using Rabs_pos. apply rd_abs_le; [lia|exact Bx].
    - rewrite <- bpow_plus. apply bpow_le. lia. }
  split; [exact F|]. split; [now rewrite V, V0, Vu|].
  split; intros a Hl.
  - destruct (get_coordinates_axis acos _ _ _ _ a Hc) as (y & Hy & ->). rewrite (G2 _ _ Hl) in Hy. now injection Hy as <-.
  - unfold get_radius in Hr.
    destruct (get g "I" (qx dr) (m_convert m)) as [i|] eqn:Hi; [|discriminate Hr]. cbn [rbind] in Hr.
    destruct (get g "J" (qy dr) (m_convert m)) as [j|] eqn:Hj; [|discriminate Hr]. cbn [rbind] in Hr.
    destruct (get g "K" (qz dr) (m_convert m)) as [k|] eqn:Hk; [|discriminate Hr]. cbn [rbind] in Hr. injection Hr as <-.
    destruct a; cbn [radius_letter] in Hl; rewrite (G2 _ _ Hl) in *;
      [injection Hi as <-|injection Hj as <-|injection Hk as <-]; reflexivity.
Qed.
Print Assumptions C18_words_scaled.

(** So it is (number written) * (unit factor) within 1e-9 for numbers up to 1000. *)
Theorem C18_words_scaled_close (acos : f64 -> f64) (g : gcode) (m : machine (F64 acos)) (u : R) (c rr : quad (F64 acos))
        (dflt dr : quad (F64 acos)) :
  unit_factor acos m u ->
  get_coordinates g dflt (m_convert m) = Ok c -> get_radius g dr (m_convert m) = Ok rr ->
  forall lit x, LiteralValue lit x -> Rabs x <= 1000 ->
  (forall a, lookup g (letter4 a) = Some lit -> fin (ax4 a c) /\ Rabs (val (ax4 a c) - x * u) <= / 1000000000) /\
  (forall a, lookup g (radius_letter a) = Some lit -> fin (ax a rr) /\ Rabs (val (ax a rr) - x * u) <= / 1000000000).
Proof.
  intros U Hc Hr lit x Hx Bx.
  assert (K: forall y : f64, fin y -> Rabs (val y - x * u) <= bpow radix2 (-37) -> fin (f_rnd10 y) /\ Rabs (val (f_rnd10 y) - x * u) <= / 1000000000).
  { intros y Fy Ey. destruct (unit_factor_close acos m u U) as (_ & _ & Bu).
    assert (Bxu: Rabs (x * u) <= 26000).
    { rewrite Rabs_mult, (Rabs_pos_eq u) by lra. apply Rle_trans with (1000 * 26); [|lra].
      apply Rmult_le_compat; auto using Rabs_pos; lra. }
    assert (By: bd 15 y).
    { split; [exact Fy|]. replace (val y) with ((val y - x * u) + x * u) by ring. eapply Rle_trans; [apply Rabs_triang|]. b2n. lra. }
    destruct (rnd10_dec y By) as (k & Dk & Sk & ->). split; [apply Dk|].
    assert (Ed := dec_err _ _ Dk (small15_small _ Sk)). assert (Ck := dec10_close (val y)).
    set (q := val (f_rnd10 y)) in *. clearbody q. apply Rabs_le_inv in Ed, Ck, Ey. apply Rabs_le. unfold e10 in *. b2n. lra. }
  split; intros a Hl.
  - destruct (get_coordinates_axis acos _ _ _ _ a Hc) as (y & Hy & ->).
    destruct (word_close acos g (letter4 a) lit x (ax4 a dflt) m u U Hl Hx Bx) as (y' & Hy' & Fy & Ey).
    rewrite Hy' in Hy. injection Hy as <-. auto.
  - unfold get_radius in Hr.
    destruct (get g "I" (qx dr) (m_convert m)) as [i|] eqn:Hi; [|discriminate Hr]. cbn [rbind] in Hr.
    destruct (get g "J" (qy dr) (m_convert m)) as [j|] eqn:Hj; [|discriminate Hr]. cbn [rbind] in Hr.
    destruct (get g "K" (qz dr) (m_convert m)) as [k|] eqn:Hk; [|discriminate Hr]. cbn [rbind] in Hr. injection Hr as <-.
    destruct a; cbn [radius_letter] in Hl;
      [destruct (word_close acos g "I" lit x (qx dr) m u U Hl Hx Bx) as (y' & Hy' & Fy & Ey); rewrite Hy' in Hi; injection Hi as <-
      |destruct (word_close acos g "J" lit x (qy dr) m u U Hl Hx Bx) as (y' & Hy' & Fy & Ey); rewrite Hy' in Hj; injection Hj as <-
      |destruct (word_close acos g "K" lit x (qz dr) m u U Hl Hx Bx) as (y' & Hy' & Fy & Ey); rewrite Hy' in Hk; injection Hk as <-];
      exact (K y' Fy Ey).
Qed.
Print Assumptions C18_words_scaled_close.

(** The feed word is not scaled: in any unit mode the feed stored is the double
    nearest to the number written. *)
Theorem C18_feed_not_scaled (acos : f64 -> f64) (cfg : config) (m m' : machine (F64 acos)) (es : list (event (F64 acos)))
        (hw : hw_oracle (F64 acos)) (g : gcode) (lit : text) (x : R) :
  run_command cfg hw (Some g) m = (m', es, Ok tt) ->
  lookup g "F" = Some lit -> LiteralValue lit x -> Rabs x <= big ->
  fin (m_velocity m') /\ val (m_velocity m') = rd x.
Proof.
  intros H Hl Hx Bx. destruct (feed_after_success cfg hw g m m' es H) as (v & Hv & -> & _).
  destruct (get_value acos g "F" lit x (m_velocity m) (f_ofZ 1) Hl Hx Bx) as (y & Hg & Fy & Vy).
  change (get (N:=F64 acos) g "F" (m_velocity m) (f_ofZ 1) = Ok v) in Hv. rewrite Hg in Hv. injection Hv as <-.
  destruct one_val as [F1 V1]. assert (E: val y * val (f_ofZ 1) = val y) by (rewrite V1; ring).
  destruct (f_mul_val y (f_ofZ 1) Fy F1) as [F V].
  - rewrite E, Vy. apply rd_abs_le; [lia|exact Bx].
  - split; [exact F|]. change (val (f_mul y (f_ofZ 1)) = rd x). rewrite V, E, Vy. apply rd_idem.
Qed.
Print Assumptions C18_feed_not_scaled.
Example C18_units_ex (acos : f64 -> f64) :
  effective_command (gl "G20") = Some (tx "G20")
  /\ succeeds (run_command default_config (N:=F64 acos) hw_ok (Some (gl "G20F300")) (after0 prog16)) = true
  /\ LiteralValue (tx "-2.5") (-(25 / 10))
  /\ lookup (gl "G2X1I-2.5F300") "I" = Some (tx "-2.5")
  /\ lookup (gl "G2X1I-2.5F300") "F" = Some (tx "300").
Proof.
  refine (conj _ (conj _ (conj _ (conj _ _)))); try (vm_compute; reflexivity).
  destruct (decimal_LiteralValue (tx "-2.5") true 25 1 eq_refl) as [_ H].
  replace (- (25 / 10)) with (sgn true * (25 / 10 ^ 1)) by (unfold sgn; simpl; lra). exact H.
Qed.

(* ---------- C20 ---------- *)
(** C20. A successful G28 homes exactly the named axes, all three if none is
    named: their positions are 0, the others (and E) are unchanged; all motion is
    waited for, and only then the end-stop calibration is run, for exactly these
    axes, and it answered True. Missing: histories with arcs whose radius words
    exceed 600. *)
Theorem C20_homing_partial (acos : f64 -> f64) (cfg : config) (P : hw_oracle (F64 acos) -> option gcode -> Prop)
        (m m' : machine (F64 acos)) (es0 es : list (event (F64 acos))) (hw : hw_oracle (F64 acos)) (g : gcode) :
  good_cfg cfg -> (forall hw gc, P hw gc -> small_radius gc) -> history_where P cfg m es0 ->
  effective_command g = Some (tx "G28") -> run_command cfg hw (Some g) m = (m', es, Ok tt) ->
  let is_named a := lookup g (axis_letter a) <> None in
  exists (sel : axis -> bool) moves,
    (forall a, sel a = true <-> is_named a \/ (forall b, ~ is_named b)) /\
    (forall a, sel a = true -> val (ax a (m_position m')) = 0) /\
    (forall a, sel a = false -> val (ax a (m_position m')) = val (ax a (m_position m))) /\
    (fin (qe (m_position m)) -> val (qe (m_position m')) = val (qe (m_position m))) /\
    es = moves ++ [EJoin; ECalibrate (sel AX) (sel AY) (sel AZ)] /\
    Forall (fun e => exists gl, e = EMove (GLinear gl)) moves /\
    hw (moves ++ [EJoin]) (ECalibrate (sel AX) (sel AY) (sel AZ)) = HReturn true.
Proof.
  intros Hc HP Hh Et H. exact (homing acos cfg Hc m hw g m' es (history_on_table acos cfg Hc P m es0 HP Hh)
    (history_ten acos cfg P m es0 Hh) Et H).
Qed.
Print Assumptions C20_homing_partial.

(** Calibration that answers False, or raises, makes G28 fail. *)
Theorem C20_calibration_failure (acos : f64 -> f64) (cfg : config) (m m' : machine (F64 acos)) (es : list (event (F64 acos)))
        (hw : hw_oracle (F64 acos)) (g : gcode) (r : res unit) :
  effective_command g = Some (tx "G28") -> (forall l x y z, hw l (ECalibrate x y z) <> HReturn true) ->
  run_command cfg hw (Some g) m = (m', es, r) -> exists e, r = Raise e.
Proof. exact (homing_failure acos cfg m hw g m' es r). Qed.
Print Assumptions C20_calibration_failure.
Definition hw_no_end_stops {N : PyNum} : hw_oracle N :=
  fun _ ev => match ev with ECalibrate _ _ _ => HReturn false | _ => HReturn true end.
Example C20_homing_ex (acos : f64 -> f64) :
  history_where (N:=F64 acos) Moderate default_config (after0 prog17) (events0 prog17)
  /\ succeeds (run_command default_config (N:=F64 acos) hw_ok (Some (gl "G28X0Z0")) (after0 prog17)) = true
  /\ effective_command (gl "G28X0Z0") = Some (tx "G28")
  /\ (forall l x y z, hw_no_end_stops (N:=F64 acos) l (ECalibrate x y z) <> HReturn true)
  /\ result_of (run_command default_config (N:=F64 acos) hw_no_end_stops (Some (gl "G28X0Z0")) (after0 prog17))
     = Raise (GMachineException "failed to calibrate").
Proof.
  refine (conj _ (conj _ (conj _ (conj _ _)))).
  - apply moderate_history. vm_compute; reflexivity.
  - vm_compute; reflexivity.
  - vm_compute; reflexivity.
  - intros; discriminate.
  - vm_compute; reflexivity.
Qed.
