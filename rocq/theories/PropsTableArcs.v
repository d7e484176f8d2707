(** Circles keep to the table in binary64 (C10, C81); programs with arcs end where they are
    told to (C80). Every theorem is followed by its assumptions and by an Example in which
    its hypotheses hold. *)
From Coq Require Import String Ascii ZArith Bool Reals Lra Lia List.
From Flocq Require Import Core BinarySingleNaN.
From Verif Require Import PyBase PyNum ArcExact PyFloatFacts Config Coordinates Pulses PulseSpec GCode GCodeSpec WordFacts GMachine GMachineProofs MachineFacts MachineRel MachineHist MachineFloat Decimal MachinePos MachineArc MachineWork ArcSpec LinearGen LinearTravel ArcRun ArcMake ArcFloat ArcGrid ArcNet ArcAngle ArcFloatNet ArcFloatEnd ArcMachine MachineMoves MachineArcMoves LineAnswers TextDrive TableDrive TableArcs ExampleBase PropsPosition PropsAnswers PropsArc PropsArcEnd PropsArcFloat PropsArcMoves.
From Verif Require Import Dma DmaGpio DmaSpec DmaGpioProofs Hal HalSpec MoveNew HalDrive PropsMoves PropsHal PropsDrive.
From Verif Require Import GMachine MainLoop MainSpec MainProofs LineAnswers PropsText PropsTable.
From Coq Require Import List.
From Flocq Require Import Core.
Import ListNotations.
Local Open Scope Z_scope.

(* ---------- C10 ---------- *)
(** C10 in binary64: any arc on the grid of an even plane whose start and radius survive the
    conversions (C35), from the position (qa, qb, qc) in steps. If the circle around its
    centre with the radius of the generator is on the table, and both ends of the third
    axis, then the motors are on the table at every moment. *)
Theorem C10_inside_float_partial (acos : f64 -> f64) cfg (delta radius : quad (F64 acos)) pl rot (v : F64 acos) (g : circular_gen (F64 acos)) p sa sb ea eb jc qa qb qc l j :
  good_cfg cfg -> make_circular cfg delta radius pl rot v = Ok g -> float_arc cfg pl delta radius p sa sb ea eb jc ->
  len_steps sa sb <= 1048576 -> (forall n, n = sa \/ n = sb \/ n = len_steps sa sb -> Ztrunc (back p n) = n) ->
  let pc := axis_c pl (ppm cfg) in let T := table_quad cfg in let R := len_steps sa sb in
  Zceil (back pc (Z.abs jc)) = Z.abs jc ->
  0 <= qa - sa - R -> qa - sa + R <= axis_a pl T * p -> 0 <= qb - sb - R -> qb - sb + R <= axis_b pl T * p ->
  0 <= qc <= axis_c pl T * pc -> 0 <= qc + jc <= axis_c pl T * pc ->
  completes cfg (GCircular g) l ->
  0 <= qa + travel cfg (motor_a pl) (firstn j l) <= axis_a pl T * p /\ 0 <= qb + travel cfg (motor_b pl) (firstn j l) <= axis_b pl T * p /\
  0 <= qc + travel cfg (motor_c pl) (firstn j l) <= axis_c pl T * pc.
Proof.
  intros Hc Hg G Far W pc T R Wc A1 A2 B1 B2 C1 C2 Hl.
  destruct (completes_items _ _ _ Hl) as [i Ei]. destruct (items_firstn cfg (GCircular g) i j) as [k Ek]. rewrite Ei in Ek.
  assert (Wi := float_within acos cfg Hc delta radius pl rot v g Hg p sa sb ea eb jc G Far (W _ (or_introl eq_refl)) (W _ (or_intror (or_introl eq_refl))) (W _ (or_intror (or_intror eq_refl))) k).
  cbv zeta in Wi. rewrite <- Ek in Wi. fold R in Wi.
  assert (T3 := float_third_within acos cfg Hc delta radius pl rot v g Hg p sa sb ea eb jc G l j Wc Hl). lia.
Qed.
Print Assumptions C10_inside_float_partial.

(** C10 in binary64 for the full circles of [_move_circular], from any position on the table:
    accepted, they keep to the table at every moment and come back. Missing: planes with
    different steps per mm, radii that do not survive the conversions, tables of more than
    2^21 steps; for other arcs the property is false (C10_refuted). *)
Theorem C10_circle_float_partial (acos : f64 -> f64) cfg hw (delta radius : quad (F64 acos)) (v : F64 acos) rot (m : GMachine.machine (F64 acos)) es m' es' :
  orderly_acos acos -> good_cfg cfg -> (forall a, table cfg a * ax a (ppm cfg) <= 2097152) ->
  on_table acos cfg m -> (forall a, dec 0 (ax a delta)) -> bdq acos 14 radius ->
  axis_a (m_plane m) (ppm cfg) = axis_b (m_plane m) (ppm cfg) ->
  (forall rr, round_to_grid cfg radius = Ok rr -> lossless cfg (m_plane m) rr) ->
  move_circular cfg hw delta radius v rot m es = (m', es', Ok tt) ->
  exists g rest, es' = es ++ EMove (GCircular g) :: rest /\
    forall a n l j, nearest_to (ax a (ppm cfg)) n (ax a (m_position m)) -> 0 <= n <= table cfg a * ax a (ppm cfg) -> completes cfg (GCircular g) l ->
      0 <= n + travel cfg (motor_of a) (firstn j l) <= table cfg a * ax a (ppm cfg) /\ travel cfg (motor_of a) l = 0.
Proof.
  intros Ha Hc Ht Hm Hz Hr He Hll H. apply move_circular_inv in H.
  remember (Ok tt) as r eqn:Er. destruct H as [ce ld g lg Hok|ce ld g lg pp ev s e Hok Ep Hr'|e]; try discriminate Er. clear Er.
  destruct (circle_stays acos cfg Hc Ha delta radius v rot m ce ld g lg Hm Hr Hok Hz Ht He Hll) as ([_ S] & Bk & _).
  exists g. eexists. split; [reflexivity|]. intros a n l j Hn Hi Hl.
  assert (A: at_step acos cfg m a n) by (split; [apply (nearest_dec _ _ _ _ (MachinePos.acfg cfg Hc a)); exact Hn|exact Hi]).
  split.
  - apply (S a n _ A). exact (passes_move acos cfg a (arc_events g lg) [] (GCircular g) _ 0 l j eq_refl (sent_nil _ _ _) Hl).
  - exact (Bk a l Hl).
Qed.
Print Assumptions C10_circle_float_partial.

(* ---------- C81 ---------- *)
(** C81 with circles. As C81_motors_on_table_partial, and G2 and G3 lines that name no X, Y
    and Z (full circles), in planes with equal steps per mm, whose radius survives the
    conversions (see [lossless]). Missing: other arcs, which can leave the table (C10). *)
Theorem C81_circles_partial (acos : f64 -> f64) cfg h base size extra (hw : hw_oracle (F64 acos)) ls bs s a k :
  orderly_acos acos -> good_cfg cfg -> (forall a, table cfg a * ax a (ppm cfg) <= 2097152) ->
  pins_ok h -> NoDup (used_pins h) -> buffer_ok base size -> 0 <= pulse_us h < 2 ^ 26 -> moves_return hw ->
  Forall (line_ok (fun gc => moderate gc /\ circles_only gc /\ lossless_words acos cfg gc)) ls ->
  answered cfg hw (fun l => l) (map Line ls) (session0 cfg) bs s ->
  (forall g, In (EMove (GCircular g)) (s_log s) -> even_plane cfg g) ->
  during acos cfg h base size extra a (s_log s) k ->
  0 <= k <= table cfg a * ax a (ppm cfg).
Proof.
  intros Ha Hc Ht Hp Hd Hb Hu Hw Ho An He D.
  assert (H: history_where (Returns acos (fun gc => moderate gc /\ circles_only gc /\ lossless_words acos cfg gc)) cfg (s_machine s) (s_log s)).
  { apply (lines_history acos cfg hw Hw _ (fun l => l) _ _ _ _ An); [apply Forall_map; exact Ho|constructor]. }
  apply (during_passes acos cfg h base size extra Hp Hd Hb Hu) in D; [|exact (history_made (N:=F64 acos) cfg _ _ _ H)].
  destruct (history_circles acos cfg Hc Ha _ _ _ Ht (fun hw0 gc K => conj (fun l ev e '(ex_intro _ g E) => eq_rect_r (fun ev => hw0 l ev <> HRaise e) (proj1 K l g e) E) (proj2 K)) H He) as [_ S].
  exact (S a 0 k (init_at acos cfg Hc a) D).
Qed.
Print Assumptions C81_circles_partial.
(** With powers of two as steps per mm every radius survives. *)
Theorem C81_circles_power_of_two_partial (acos : f64 -> f64) cfg h base size extra (hw : hw_oracle (F64 acos)) ls bs s a k :
  orderly_acos acos -> good_cfg cfg -> (forall a, exists n, 0 <= n /\ ax a (ppm cfg) = 2 ^ n) -> (forall a, table cfg a * ax a (ppm cfg) <= 2097152) ->
  pins_ok h -> NoDup (used_pins h) -> buffer_ok base size -> 0 <= pulse_us h < 2 ^ 26 -> moves_return hw ->
  Forall (line_ok (fun gc => moderate gc /\ circles_only gc)) ls ->
  answered cfg hw (fun l => l) (map Line ls) (session0 cfg) bs s ->
  (forall g, In (EMove (GCircular g)) (s_log s) -> even_plane cfg g) ->
  during acos cfg h base size extra a (s_log s) k ->
  0 <= k <= table cfg a * ax a (ppm cfg).
Proof.
  intros Ha Hc H2 Ht Hp Hd Hb Hu Hw Ho. apply (C81_circles_partial acos cfg h base size extra hw ls bs s a k Ha Hc Ht Hp Hd Hb Hu Hw).
  revert Ho. apply Forall_impl. intros l H gc E. destruct (H gc E) as [H3 H4]. split; [exact H3|]. split; [exact H4|]. destruct gc as [g|]; [|exact I].
  right. intros u pl radius rr _ _ _ _. destruct (H2 (pa_ pl)) as (n & Hn & En). rewrite <- axis_a_ax in En. exact (lossless_pow2 cfg pl rr n Hc Hn En).
Qed.
Print Assumptions C81_circles_power_of_two_partial.

(* ---------- C80 ---------- *)
(** C80 with arcs and extruder: the lines have coordinates of at most 1000 and radius words
    of at most 600, and all arcs that are performed are [faithful] (C82). Missing: other
    arcs, after which it is false (C82_drift_refuted); the other modes. *)
Theorem C80_with_arcs_partial (acos : f64 -> f64) cfg h base size extra (hw : hw_oracle (F64 acos)) ls last bs s g a lit x k :
  orderly_acos acos -> good_cfg cfg -> pins_ok h -> NoDup (used_pins h) -> buffer_ok base size -> 0 <= pulse_us h < 2 ^ 26 -> calm hw ->
  Forall (line_ok moderate) (ls ++ [last]) -> Forall keeps_modes ls ->
  answered cfg hw (fun l => l) (map Line (ls ++ [last])) (session0 cfg) (bs ++ [true]) s ->
  (forall g, In (EMove (GCircular g)) (s_log s) -> faithful acos cfg g) ->
  parse_line last = Ok (Some g) -> effective_command g = Some (tx "G0") \/ effective_command g = Some (tx "G1") ->
  lookup g (axis_letter a) = Some lit -> LiteralValue lit x ->
  played acos cfg h base size extra a (s_log s) k ->
  (Rabs (IZR k - x * IZR (ax a (ppm cfg))) <= / 2 + IZR (ax a (ppm cfg)) / 500000000)%R.
Proof.
  intros Hac Hc Hp Hd Hb Hu Hw Ho Hk Ha Hf Ep Ec L V Pl.
  assert (Mr: moves_return hw) by (intros l gg e; apply Hw).
  rewrite map_app in Ha. cbn [map] in Ha. apply answered_last in Ha. destruct Ha as (bs1 & b & s1 & Eb & A1 & D). apply app_inj_tail in Eb. destruct Eb as [<- <-].
  assert (Fm: forall Q : text -> Prop, Forall Q ls -> Forall (fun i => match i with Line l => Q l | Err _ => True end) (map Line ls)) by (intros Q F; apply Forall_map; exact F).
  apply Forall_app in Ho. destruct Ho as [Ho Hl]. apply Forall_inv in Hl.
  assert (H1: history_where (Returns acos moderate) cfg (s_machine s1) (s_log s1)) by (apply (lines_history acos cfg hw Mr _ _ _ _ _ _ A1 (Fm _ Ho)); constructor).
  assert (H2: history_where (Returns acos moderate) cfg (s_machine s) (s_log s)) by exact (line_ok_history acos cfg hw Mr _ _ _ _ _ Hl H1 D).
  destruct (modes_session acos cfg hw (fun l => l) _ _ _ _ Hw A1 (Fm _ Hk) (modes0 acos cfg)) as (Ab & Lo & Un).
  apply do_line_inv in D. destruct D as (g' & m' & es & r0 & D & Em & El & Hr).
  destruct D as [(Ep' & D)|(e & Ep' & _)]; [|congruence]. rewrite Ep in Ep'. injection Ep' as <-.
  destruct r0 as [[]|e]; [|destruct (caught e); destruct Hr as [Hr _]; discriminate Hr]. clear Hr.
  assert (H3: history_where Moderate cfg (s_machine s1) (s_log s1)).
  { clear - H1. induction H1 as [|m es hw0 gc m' es' r _ IH Hgc Hr]; [constructor|]. eapply h_step; [exact IH|exact (proj2 Hgc)|exact Hr]. }
  assert (T := C14_absolute_move_partial acos cfg (s_machine s1) m' (s_log s1) es (hw_now hw s1) g a 1 Hc H3 (Hl _ Ep) (or_introl (conj Un eq_refl)) Ab Ec D).
  destruct T as [_ T]. specialize (T lit x L V). rewrite Lo, Rmult_1_r in T. rewrite <- Em in T.
  replace (val (ax a (coords0 (N:=F64 acos)))) with 0%R in T by (destruct a; reflexivity). rewrite Rplus_0_l in T.
  assert (Nr: nearest_to (ax a (ppm cfg)) k (ax a (m_position (s_machine s)))).
  { apply (C82_position_with_arcs_partial acos cfg (Returns acos moderate) _ (s_log s) a k Hac Hc); [|exact H2|exact Hf|].
    - intros hw0 gc [M O]. split; [exact M|exact (moderate_radius _ O)].
    - exact (C72_history acos cfg h base size extra _ _ _ a k Hp Hd Hb Hu H2 Pl). }
  apply (nearest_steps _ _ (ax a (m_position (s_machine s)))); auto.
  - apply Hc.
  - exact (returns_position acos cfg moderate _ _ a Hc moderate_radius H2).
Qed.
Print Assumptions C80_with_arcs_partial.

(* ---------- tests for the examples ---------- *)
Section Tests.
Variable cfg : config.
Definition plan_l (l : list (item LX)) : bool := match plan default_hal 0 0 l with Ok rs => short_b rs | Raise _ => false end.
Fixpoint alone (n : nat) (x : Hal.machine LX) : Hal.machine LX := match n with O => x | S n => alone n (mstep default_hal 8192 65536 false x) end.
Lemma alone_in_time n x0 : forall x, reach_in_time default_hal 8192 65536 false x0 x -> reach_in_time default_hal 8192 65536 false x0 (alone n x).
Proof. induction n as [|n IH]; intros x R; [exact R|]. cbn [alone]. apply IH. now constructor. Qed.
Definition moved_l (l : list (item LX)) : Hal.machine LX := alone 1500 (begin_move default_hal l None dma0 stopped).
Definition move_l (l : list (item LX)) : bool := plan_l l && match m_pc (x_move (moved_l l)) with MDone => true | _ => false end.
Lemma move_l_spec l : move_l l = true -> (forall rs, plan default_hal 0 0 l = Ok rs -> short_pauses rs) /\
  reach_in_time default_hal 8192 65536 false (begin_move default_hal l None dma0 stopped) (moved_l l) /\ m_pc (x_move (moved_l l)) = MDone.
Proof.
  unfold move_l. intros H. apply andb_prop in H. destruct H as [H1 H2]. split; [|split; [apply alone_in_time; constructor|destruct (m_pc (x_move (moved_l l))); discriminate H2 || reflexivity]].
  unfold plan_l in H1. intros rs E. rewrite E in H1. now apply short_b_spec.
Qed.
Definition played_l (a : axis) (es : list (GMachine.event LX)) : option Z :=
  fold_right (fun ev r => match ev, r with
    | EMove g, Some s => match run_gen cfg 200 g with Finished l => if move_l l then Some (travel cfg (motor_of a) l + s) else None | _ => None end
    | _, _ => r end) (Some 0) es.
Lemma played_l_spec a es s : all_made cfg (init_machine cfg) es (init_machine cfg) ->
  played_l a es = Some s -> played line_acos cfg default_hal 8192 65536 false a es s.
Proof.
  intros M. revert s. induction M as [|ev es M _ IH]; intros s H.
  - injection H as <-. constructor.
  - cbn [played_l fold_right] in H. fold (played_l a es) in H. destruct ev; try (apply played_other; [discriminate|apply IH; exact H]).
    destruct (played_l a es) as [s'|]; [|discriminate]. destruct (run_gen cfg 200 g) as [l| |] eqn:E; [|discriminate H|discriminate H].
    destruct (move_l l) eqn:B; [|discriminate]. injection H as <-. apply move_l_spec in B. destruct B as (S & R & D).
    destruct (C72_drivers line_acos cfg default_hal 8192 65536 false g l dma0 stopped (moved_l l)) as (rest & RM & Q); try assumption;
      [exists 200%nat; exact E|exact default_pins|exact default_distinct|repeat split; lia|cbn; lia|].
    replace (travel (N:=LX) cfg (motor_of a) l) with
      (invert (ax a (inverted cfg)) (driven (ax a (step_pin default_hal)) (ax a (dir_pin default_hal)) (seen 0 (x_done (moved_l l) ++ rest)))).
    2: { rewrite <- !qat_motor_of. change (num LX) with f64 in *. rewrite Q. unfold travel, invert. reflexivity. }
    eapply played_move; [exists 200%nat; exact E|exact S|exact R|exact D|exact RM|apply IH; reflexivity].
Qed.
(** After [n] signals of the event number [i]. *)
Definition during_l (a : axis) (es : list (GMachine.event LX)) (i n : nat) : option Z :=
  match nth_error es i with
  | Some (EMove g) =>
      match played_l a (firstn i es), run_gen cfg 200 g with
      | Some s1, Finished l =>
          if move_l l then
            match plan default_hal 0 0 l with
            | Ok rs => Some (s1 + invert (ax a (inverted cfg)) (driven (ax a (step_pin default_hal)) (ax a (dir_pin default_hal)) (firstn n (asked 0 rs))))
            | Raise _ => None
            end
          else None
      | _, _ => None
      end
  | _ => None
  end.
Lemma during_l_spec a es i n k : all_made cfg (init_machine cfg) es (init_machine cfg) ->
  during_l a es i n = Some k -> during line_acos cfg default_hal 8192 65536 false a es k.
Proof.
  intros M H. unfold during_l in H. destruct (nth_error es i) as [ev|] eqn:En; [|discriminate H]. destruct ev; try discriminate H.
  apply nth_error_split in En. destruct En as (es1 & es2 & -> & Li).
  assert (F: firstn i (es1 ++ EMove g :: es2) = es1) by (rewrite <- Li, firstn_app, Nat.sub_diag, firstn_all; cbn [firstn]; apply app_nil_r).
  rewrite F in H. destruct (played_l a es1) as [s1|] eqn:P1; [|discriminate H]. destruct (run_gen cfg 200 g) as [l| |] eqn:E; [|discriminate H|discriminate H].
  destruct (move_l l) eqn:B; [|discriminate H]. destruct (plan default_hal 0 0 l) as [rs|] eqn:PL; [|discriminate H]. injection H as <-.
  apply move_l_spec in B. destruct B as (S & R & D).
  assert (BO: buffer_ok 8192 65536) by (repeat split; lia).
  destruct (move_program default_hal 8192 65536 false (proj1 BO) l None dma0 stopped (moved_l l) R D) as (rs' & PL' & _ & _ & rest & RM & Q).
  rewrite PL in PL'. injection PL' as <-.
  rewrite <- (Q BO (plan_sane_short default_hal default_pins l ltac:(cbn; lia) 0 0 rs PL (S rs PL))).
  eapply during_move; [reflexivity| |exists 200%nat; exact E|exact S|exact R|exact D|exact RM].
  apply played_l_spec; [|exact P1]. apply Forall_app in M. apply M.
Qed.
End Tests.

(** A double is the nearest to n / p, and n survives. *)
Definition near_b (p n : Z) (x : f64) : bool := match f_div (f_ofZ n) (f_ofZ p) with Ok y => is_finite x && f_eq x y | _ => false end.
Definition back_b (p n : Z) : bool := match f_div (f_ofZ n) (f_ofZ p) with Ok y => f_eq (f_mul y (f_ofZ p)) (f_ofZ n) | _ => false end.
Lemma div_near p n : 0 < p <= 1000 -> Z.abs n <= 65536 * p -> exists y, f_div (f_ofZ n) (f_ofZ p) = Ok y /\ fin y /\ val y = rd (IZR n / IZR p) /\ (Rabs (val y) <= 65536)%R.
Proof.
  intros Hp Hn. destruct (f_ofZ_val n ltac:(lia)) as [Fn Vn]. destruct (f_ofZ_val p ltac:(lia)) as [Fp Vp].
  assert (P0: (0 < IZR p)%R) by (apply (IZR_lt 0); lia).
  assert (B: (Rabs (IZR n / IZR p) <= bpow radix2 16)%R).
  { unfold Rdiv. rewrite Rabs_mult, Rabs_inv, (Rabs_pos_eq (IZR p)) by lra. apply Rmult_le_reg_r with (IZR p); [exact P0|]. rewrite Rmult_assoc, Rinv_l, Rmult_1_r by lra.
    rewrite <- abs_IZR. change (bpow radix2 16) with (IZR 65536). rewrite <- mult_IZR. now apply IZR_le. }
  destruct (f_div_val (f_ofZ n) (f_ofZ p) Fn Fp) as (y & E & F & V); [rewrite Vp; lra|rewrite Vn, Vp; eapply bd_big; [exact B|lia]|].
  rewrite Vn, Vp in V. exists y. split; [exact E|]. split; [exact F|]. split; [exact V|]. rewrite V. change 65536%R with (bpow radix2 16). apply rd_abs_le; [lia|exact B].
Qed.
Lemma near_b_spec p n x : 0 < p <= 1000 -> Z.abs n <= 65536 * p -> near_b p n x = true -> nearest_to p n x.
Proof.
  intros Hp Hn H. unfold near_b in H. destruct (div_near p n Hp Hn) as (y & E & F & V & _). rewrite E in H. apply andb_prop in H. destruct H as [H1 H2].
  split; [exact H1|]. rewrite <- V. now apply f_eq_true.
Qed.
Lemma back_b_spec p n : 0 < p <= 1000 -> Z.abs n <= 65536 * p -> back_b p n = true -> Ztrunc (back p n) = n.
Proof.
  intros Hp Hn H. unfold back_b in H. destruct (div_near p n Hp Hn) as (y & E & F & V & B). rewrite E in H.
  destruct (f_ofZ_val p ltac:(lia)) as [Fp Vp]. destruct (f_ofZ_val n ltac:(lia)) as [Fn Vn].
  assert (P0: (0 < IZR p <= 1000)%R) by (split; [apply (IZR_lt 0)|apply IZR_le]; lia).
  assert (Bm: (Rabs (val y * val (f_ofZ p)) <= bpow radix2 30)%R).
  { rewrite Rabs_mult, Vp, (Rabs_pos_eq (IZR p)) by lra. change (bpow radix2 30) with 1073741824%R. assert (Q := Rabs_pos (val y)). nra. }
  destruct (f_mul_val y (f_ofZ p) F Fp) as [Fm Vm]; [eapply bd_big; [exact Bm|lia]|]. apply f_eq_true in H; [|exact Fm|exact Fn].
  rewrite Vm, Vn, Vp, V in H. unfold back. rewrite H. apply Ztrunc_IZR.
Qed.
Lemma len_one n : len_steps n 0 = Z.abs n.
Proof.
  unfold len_steps. replace (n * n + 0 * 0) with (Z.abs n * Z.abs n) by lia. rewrite mult_IZR, sqrt_square by (apply (IZR_le 0); lia). apply Zrnd_IZR. apply valid_rnd_N.
Qed.
Lemma lossless_x cfg rr n : good_cfg cfg -> Z.abs n <= 65536 * qx (ppm cfg) -> qy (ppm cfg) = qx (ppm cfg) ->
  near_b (qx (ppm cfg)) n (qx rr) = true -> near_b (qx (ppm cfg)) 0 (qy rr) = true -> back_b (qx (ppm cfg)) n && back_b (qx (ppm cfg)) (- n) = true -> lossless cfg PlaneXY rr.
Proof.
  intros Hc Hn Ey H1 H2 H3 sa sb. cbn [axis_a axis_b]. assert (A := MachinePos.acfg cfg Hc AX). cbn [ax] in A. assert (Hp := proj1 A). assert (Hs := step_mul _ _ A). set (q := qx (ppm cfg)) in *.
  intros S1 S2 B1 B2. apply near_b_spec in H1; [|exact Hp|exact Hn]. apply near_b_spec in H2; [|exact Hp|lia].
  assert (U: forall i j x, nearest_to q i x -> nearest_to q j x -> Z.abs i <= 65536 * q -> Z.abs j <= 65536 * q -> i = j).
  { intros i j x X1 X2 Y1 Y2. exact (nearest_fun cfg Hc AX i j x X1 X2 Y1 Y2). }
  assert (Ea := U _ _ _ S1 H1 ltac:(lia) Hn). assert (Eb := U _ _ _ S2 H2 ltac:(lia) ltac:(lia)). replace sa with (- n) by lia. replace sb with 0 by lia.
  apply andb_prop in H3. destruct H3 as [H3 H4].
  assert (Z0: Ztrunc (back q 0) = 0) by (unfold back, Rdiv; rewrite Rmult_0_l, rd_0, Rmult_0_l, rd_0; apply (Ztrunc_IZR 0)).
  rewrite len_one. intros k [->|[->| ->]]; [apply back_b_spec; auto; lia|exact Z0|]. destruct (Z.abs_eq_or_opp (- n)) as [-> | ->]; [|rewrite Z.opp_involutive]; apply back_b_spec; auto; lia.
Qed.
(** The words of a line: no axis, and the centre [n1] steps along X in mm, [n2] in inches. *)
Definition circle_line (cfg : config) (n1 n2 : Z) (line : text) : bool :=
  match parse_line line with
  | Ok (Some g) =>
      match lookup g "X", lookup g "Y", lookup g "Z" with
      | None, None, None =>
          forallb (fun un : f64 * Z => match rbind (get_radius (N:=LX) g coords0 (fst un)) (round_to_grid (N:=LX) cfg) with
                   | Ok rr => near_b (qx (ppm cfg)) (snd un) (qx rr) && near_b (qx (ppm cfg)) 0 (qy rr) && (back_b (qx (ppm cfg)) (snd un) && back_b (qx (ppm cfg)) (- snd un))
                   | _ => false end) [(f_ofZ 1, n1); (inch, n2)]
      | _, _, _ => false
      end
  | _ => false
  end.
Definition modest_line (line : text) : bool :=
  match parse_line line with Ok (Some g) => forallb (word_ok 1000 g) coord_letters && forallb (word_ok 600 g) radius_letters | _ => true end.
Lemma modest_line_spec line : modest_line line = true -> line_ok moderate line.
Proof.
  unfold modest_line. intros H gc E. rewrite E in H. destruct gc as [g|]; [|split; [exact I|left; exact I]].
  apply andb_prop in H. destruct H as [H1 H2]. split; [now apply word_ok_spec|]. right. now apply word_ok_spec.
Qed.
Definition fine_line (cfg : config) (n1 n2 : Z) (line : text) : bool :=
  modest_line line && (without_b ["G2"; "G3"]%string line || circle_line cfg n1 n2 line).

Lemma fine_line_spec cfg n1 n2 line : good_cfg cfg -> qy (ppm cfg) = qx (ppm cfg) -> qz (ppm cfg) <> qx (ppm cfg) -> Z.abs n1 <= 65536 * qx (ppm cfg) -> Z.abs n2 <= 65536 * qx (ppm cfg) ->
  fine_line cfg n1 n2 line = true -> line_ok (fun gc => moderate gc /\ circles_only gc /\ lossless_words line_acos cfg gc) line.
Proof.
  intros Hc Ey Ez B1 B2 H gc E. unfold fine_line in H. apply andb_prop in H. destruct H as [H1 H2]. split; [exact (modest_line_spec _ H1 gc E)|].
  destruct gc as [g|]; [|split; exact I]. apply orb_prop in H2. destruct H2 as [H2|H2].
  - apply without_b_spec in H2. assert (Na: no_arc (Some g)).
    { cbn [no_arc]. destruct (effective_command g) as [t|] eqn:Et; [|split; discriminate]. specialize (H2 g t E Et). split; intros X; injection X as ->; apply H2; cbn; auto. }
    split; left; exact Na.
  - unfold circle_line in H2. rewrite E in H2. destruct (lookup g "X") eqn:LX0; [discriminate H2|]. destruct (lookup g "Y") eqn:LY0; [discriminate H2|]. destruct (lookup g "Z") eqn:LZ0; [discriminate H2|].
    split; [right; auto|]. right. intros u pl radius rr Hu He Er Err.
    assert (Pl: pl = PlaneXY) by (destruct pl; cbn [axis_a axis_b] in He; [reflexivity|congruence|congruence]). subst pl.
    cbn [forallb fst snd] in H2. rewrite !andb_true_iff in H2. destruct H2 as (H2 & H3 & _).
    destruct Hu as [->| ->].
    + rewrite Er in H2. cbn [rbind] in H2. rewrite Err in H2. rewrite !andb_true_iff in H2. destruct H2 as ((X1 & X2) & X3 & X4).
      apply (lossless_x cfg rr n1); auto. now rewrite X3, X4.
    + rewrite Er in H3. cbn [rbind] in H3. rewrite Err in H3. rewrite !andb_true_iff in H3. destruct H3 as ((X1 & X2) & X3 & X4).
      apply (lossless_x cfg rr n2); auto. now rewrite X3, X4.
Qed.
Definition session81c : list text := map tx ["G1 X0.1 Y0.1 F300"; "G2 I0.05"; "G3 I-0.5"; "G1 X.07"]%string.
Definition fine_any (cfg : config) (ns : list (Z * Z)) (line : text) : bool := existsb (fun n => (Z.abs (fst n) <=? 65536) && (Z.abs (snd n) <=? 65536) && fine_line cfg (fst n) (snd n) line) ns.
Lemma fine_any_spec cfg ns ls : good_cfg cfg -> qy (ppm cfg) = qx (ppm cfg) -> qz (ppm cfg) <> qx (ppm cfg) -> forallb (fine_any cfg ns) ls = true ->
  Forall (line_ok (fun gc => moderate gc /\ circles_only gc /\ lossless_words line_acos cfg gc)) ls.
Proof.
  intros Hc Ey Ez H. apply Forall_forall. intros l I. rewrite forallb_forall in H. specialize (H l I). apply existsb_exists in H. destruct H as ((n1 & n2) & _ & H). cbn [fst snd] in H.
  rewrite !andb_true_iff, !Z.leb_le in H. destruct H as ((B1 & B2) & H). assert (Hp := proj1 (MachinePos.acfg cfg Hc AX)). cbn [ax] in Hp.
  apply (fine_line_spec cfg n1 n2); auto; nia.
Qed.
(** Everything about a run that is computed: answers, even planes, the moment [n] of the
    event [i] for the axis X, the place of X at the end. *)
Definition ran81 (cfg : config) (ls : list text) (bs : list bool) (i n : nat) (k e : Z) : bool :=
  match run_lines cfg (N:=LX) hw_ok ls (session0 cfg) with
  | Some (bs', s) => arcs_all (fun g => even_plane_b cfg g) (s_log s) && existsb (fun ev => match ev with EMove (GCircular _) => true | _ => false end) (s_log s) &&
                     (if list_eq_dec bool_dec bs' bs then true else false) &&
                     match during_l cfg AX (s_log s) i n with Some k' => k' =? k | None => false end && match played_l cfg AX (s_log s) with Some k' => k' =? e | None => false end
  | None => false end.
Lemma ran81_spec cfg ls bs i n k e : Forall (line_ok moderate) ls -> ran81 cfg ls bs i n k e = true ->
  exists s, answered cfg (N:=LX) hw_ok (fun l => l) (map Line ls) (session0 cfg) bs s /\ (exists g, In (EMove (GCircular g)) (s_log s)) /\
    (forall g, In (EMove (GCircular g)) (s_log s) -> even_plane cfg g) /\
    during line_acos cfg default_hal 8192 65536 false AX (s_log s) k /\ played line_acos cfg default_hal 8192 65536 false AX (s_log s) e.
Proof.
  unfold ran81. intros Ho T. destruct (run_lines cfg (N:=LX) hw_ok ls (session0 cfg)) as [[bs' s]|] eqn:R; [|discriminate T]. rewrite !andb_true_iff in T. destruct T as ((((T1 & T2) & T3) & T4) & T5).
  destruct (list_eq_dec bool_dec bs' bs) as [->|]; [|discriminate T3]. apply run_lines_spec in R. exists s. split; [exact R|].
  assert (M: all_made cfg (init_machine cfg) (s_log s) (init_machine cfg)).
  { apply (history_made (N:=LX) cfg (Returns line_acos moderate) (s_machine s)). apply (lines_history line_acos cfg hw_ok (fun _ _ _ H => ltac:(discriminate H)) _ (fun l => l) _ _ _ _ R); [apply Forall_map; exact Ho|constructor]. }
  split; [apply existsb_exists in T2; destruct T2 as (ev & I & E); destruct ev; try discriminate E; destruct g; try discriminate E; eexists; exact I|].
  split; [intros g I; apply (arcs_all_spec _ _ _ T1) in I; apply Z.eqb_eq; exact I|]. split.
  - destruct (during_l cfg AX (s_log s) i n) as [k'|] eqn:E; [|discriminate T4]. apply Z.eqb_eq in T4. subst k'. exact (during_l_spec cfg AX (s_log s) i n k M E).
  - destruct (played_l cfg AX (s_log s)) as [k'|] eqn:E; [|discriminate T5]. apply Z.eqb_eq in T5. subst k'. exact (played_l_spec cfg AX (s_log s) e M E).
Qed.
Lemma fine81 : forallb (fine_any default_config [(5, 127); (-50, -1270)]) session81c = true. Proof. vm_compute. reflexivity. Qed.
Lemma done81 : ran81 default_config session81c [true; true; false; true] 1 30 19 7 = true. Proof. vm_compute. reflexivity. Qed.
Lemma fine_moderate cfg ls : Forall (line_ok (fun gc => moderate gc /\ circles_only gc /\ lossless_words line_acos cfg gc)) ls -> Forall (line_ok moderate) ls.
Proof. apply Forall_impl. intros l H gc E. exact (proj1 (H gc E)). Qed.
(** The second circle would leave the table and is refused; after thirty signals of the
    first one X is at 19 of its steps. *)
Example C81_circles_ex :
  orderly_acos line_acos /\ good_cfg default_config /\ (forall a, table default_config a * ax a (ppm default_config) <= 2097152) /\
  pins_ok default_hal /\ NoDup (used_pins default_hal) /\ buffer_ok 8192 65536 /\ 0 <= pulse_us default_hal < 2 ^ 26 /\ moves_return (N:=LX) hw_ok /\
  Forall (line_ok (fun gc => moderate gc /\ circles_only gc /\ lossless_words line_acos default_config gc)) session81c /\
  exists s, answered default_config (N:=LX) hw_ok (fun l => l) (map Line session81c) (session0 default_config) [true; true; false; true] s /\
    (exists g, In (EMove (GCircular g)) (s_log s)) /\ (forall g, In (EMove (GCircular g)) (s_log s) -> even_plane default_config g) /\
    during line_acos default_config default_hal 8192 65536 false AX (s_log s) 19.
Proof.
  assert (F := fine_any_spec default_config _ _ default_good eq_refl ltac:(discriminate) fine81).
  split; [exact line_acos_orderly|]. split; [exact default_good|]. split; [intros []; cbn; lia|]. split; [exact default_pins|]. split; [exact default_distinct|]. split; [repeat split; lia|]. split; [cbn; lia|]. split; [intros ? ? ? ?; discriminate|].
  split; [exact F|]. destruct (ran81_spec _ _ _ _ _ _ _ (fine_moderate _ _ F) done81) as (s & A & G & E & D & _). exists s. auto.
Qed.
(** 64 steps per mm: the circle has a radius of 6 steps. *)
Definition session81p : list text := map tx ["G1 X0.25 Y0.25 F300"; "G2 I0.1"; "G1 X.125"]%string.
Definition lone_line (line : text) : bool :=
  modest_line line && (without_b ["G2"; "G3"]%string line || match parse_line line with Ok (Some g) => match lookup g "X", lookup g "Y", lookup g "Z" with None, None, None => true | _, _, _ => false end | _ => false end).
Lemma lone_line_spec line : lone_line line = true -> line_ok (fun gc => moderate gc /\ circles_only gc) line.
Proof.
  unfold lone_line. intros H gc E. apply andb_prop in H. destruct H as [H1 H2]. split; [exact (modest_line_spec _ H1 gc E)|]. destruct gc as [g|]; [|exact I]. apply orb_prop in H2. destruct H2 as [H2|H2].
  - left. apply without_b_spec in H2. cbn [no_arc]. destruct (effective_command g) as [t|] eqn:Et; [|split; discriminate]. specialize (H2 g t E Et). split; intros X; injection X as ->; apply H2; cbn; auto.
  - right. rewrite E in H2. destruct (lookup g "X"); [discriminate H2|]. destruct (lookup g "Y"); [discriminate H2|]. destruct (lookup g "Z"); [discriminate H2|]. auto.
Qed.
Lemma lone81 : forallb lone_line session81p = true. Proof. vm_compute. reflexivity. Qed.
Lemma done81p : ran81 cfg512 session81p [true; true; true] 1 50 28 8 = true. Proof. vm_compute. reflexivity. Qed.
Example C81_circles_power_of_two_ex :
  orderly_acos line_acos /\ good_cfg cfg512 /\ (forall a, exists n, 0 <= n /\ ax a (ppm cfg512) = 2 ^ n) /\ (forall a, table cfg512 a * ax a (ppm cfg512) <= 2097152) /\
  pins_ok default_hal /\ NoDup (used_pins default_hal) /\ buffer_ok 8192 65536 /\ 0 <= pulse_us default_hal < 2 ^ 26 /\ moves_return (N:=LX) hw_ok /\
  Forall (line_ok (fun gc => moderate gc /\ circles_only gc)) session81p /\
  exists s, answered cfg512 (N:=LX) hw_ok (fun l => l) (map Line session81p) (session0 cfg512) [true; true; true] s /\
    (exists g, In (EMove (GCircular g)) (s_log s)) /\ (forall g, In (EMove (GCircular g)) (s_log s) -> even_plane cfg512 g) /\
    during line_acos cfg512 default_hal 8192 65536 false AX (s_log s) 28.
Proof.
  assert (F: Forall (line_ok (fun gc => moderate gc /\ circles_only gc)) session81p).
  { apply Forall_forall. intros l I. apply lone_line_spec. assert (X := lone81). rewrite forallb_forall in X. auto. }
  split; [exact line_acos_orderly|]. split; [exact cfg512_good|]. split; [intros []; [exists 6|exists 6|exists 9]; split; try reflexivity; lia|].
  split; [intros []; cbn; lia|]. split; [exact default_pins|]. split; [exact default_distinct|]. split; [repeat split; lia|]. split; [cbn; lia|]. split; [intros ? ? ? ?; discriminate|].
  split; [exact F|].
  assert (F': Forall (line_ok moderate) session81p) by (revert F; apply Forall_impl; intros l H gc E; exact (proj1 (H gc E))).
  destruct (ran81_spec _ _ _ _ _ _ _ F' done81p) as (s & A & G & E & D & _). exists s. auto.
Qed.
(** After the circle the last line moves X to 7 steps. *)
Example C80_with_arcs_ex :
  orderly_acos line_acos /\ good_cfg default_config /\ pins_ok default_hal /\ NoDup (used_pins default_hal) /\ buffer_ok 8192 65536 /\ 0 <= pulse_us default_hal < 2 ^ 26 /\ calm (N:=LX) hw_ok /\
  Forall (line_ok moderate) (removelast session81c ++ [tx "G1 X.07"]) /\ Forall keeps_modes (removelast session81c) /\
  exists s g lit, answered default_config (N:=LX) hw_ok (fun l => l) (map Line (removelast session81c ++ [tx "G1 X.07"])) (session0 default_config) ([true; true; false] ++ [true]) s /\
    (exists g, In (EMove (GCircular g)) (s_log s)) /\ (forall g, In (EMove (GCircular g)) (s_log s) -> faithful line_acos default_config g) /\
    parse_line (tx "G1 X.07") = Ok (Some g) /\ effective_command g = Some (tx "G1") /\ lookup g (axis_letter AX) = Some lit /\ LiteralValue lit (7 / 100) /\
    played line_acos default_config default_hal 8192 65536 false AX (s_log s) 7.
Proof.
  assert (F := fine_any_spec default_config _ _ default_good eq_refl ltac:(discriminate) fine81).
  split; [exact line_acos_orderly|]. split; [exact default_good|]. split; [exact default_pins|]. split; [exact default_distinct|]. split; [repeat split; lia|]. split; [cbn; lia|]. split; [intros ? ? ?; discriminate|].
  change (removelast session81c ++ [tx "G1 X.07"]) with session81c. change ([true; true; false] ++ [true]) with [true; true; false; true].
  split; [exact (fine_moderate _ _ F)|]. split; [apply Forall_forall; intros l I; apply keeps_b_spec; revert l I; apply forallb_forall; vm_compute; reflexivity|].
  destruct (ran81_spec _ _ _ _ _ _ _ (fine_moderate _ _ F) done81) as (s & A & G & E & _ & D). exists s, (match parse_line (tx "G1 X.07") with Ok (Some g) => g | _ => [] end), (tx ".07").
  split; [exact A|]. split; [exact G|]. split.
  { apply (history_circles_faithful line_acos default_config default_good line_acos_orderly (Returns line_acos (fun gc => moderate gc /\ circles_only gc /\ lossless_words line_acos default_config gc)) (s_machine s) (s_log s)).
    - intros []; cbn; lia.
    - intros hw gc [_ H]. exact H.
    - apply (lines_history line_acos default_config hw_ok (fun _ _ _ H => ltac:(discriminate H)) _ (fun l => l) _ _ _ _ A); [apply Forall_map; exact F|constructor].
    - exact E. }
  split; [vm_compute; reflexivity|]. split; [vm_compute; reflexivity|]. split; [vm_compute; reflexivity|]. split; [|exact D].
  assert (X: decimal_of (tx ".07") = Some (false, 7%Z, 2%nat)) by (vm_compute; reflexivity).
  destruct (decimal_LiteralValue _ _ _ _ X) as [_ V]. replace (7 / 100)%R with (sgn false * (7 / 10 ^ 2))%R by (unfold sgn; field). exact V.
Qed.
(** From (3, 4) to (4, 3) around a centre at (17, 16), rising by 2 mm, on cfg512. *)
Example C10_inside_float_ex : exists g l, good_cfg cfg512 /\ make_circular cfg512 small_delta PropsArcFloat.small_radius PlaneXY CW (f_ofZ 600 : LX) = Ok g /\
  float_arc cfg512 PlaneXY small_delta PropsArcFloat.small_radius 64 192 256 256 192 1024 /\ len_steps 192 256 = 320 /\
  (forall n, n = 192 \/ n = 256 \/ n = len_steps 192 256 -> Ztrunc (back 64 n) = n) /\ Zceil (back 512 (Z.abs 1024)) = Z.abs 1024 /\
  0 <= 1280 - 192 - 320 /\ 1280 - 192 + 320 <= 200 * 64 /\ 0 <= 1280 - 256 - 320 /\ 1280 - 256 + 320 <= 200 * 64 /\
  completes cfg512 (GCircular g) l.
Proof.
  destruct C35_power_of_two_ex as (g & l & E & Hl & _). exists g, l. split; [exact cfg512_good|]. split; [exact E|].
  assert (L: len_steps 192 256 = 320%Z) by (unfold len_steps; replace (IZR (192 * 192 + 256 * 256)) with (320 * 320)%R by (vm_compute; lra || lra); rewrite sqrt_square by lra; apply Zrnd_IZR; apply valid_rnd_N).
  split. { split; [reflexivity|reflexivity|exact (whole_mm 64 (-3) ltac:(lia) ltac:(lia))|exact (whole_mm 64 (-4) ltac:(lia) ltac:(lia))|exact (whole_mm 64 1 ltac:(lia) ltac:(lia))|exact (whole_mm 64 (-1) ltac:(lia) ltac:(lia))|exact (whole_mm 512 2 ltac:(lia) ltac:(lia))|cbn; lia]. }
  split; [exact L|]. split; [|split; [|repeat (split; [lia|]); exact Hl]].
  - rewrite L. intros n H. rewrite (back_pow2 64 6 n) by (try reflexivity; lia). apply Ztrunc_IZR.
  - change (Z.abs 1024) with 1024. rewrite (back_pow2 512 9 1024) by (try reflexivity; lia). apply (Zceil_IZR 1024).
Qed.
(** From (0.1, 0.1), a circle with the radius 0.05 on the machine of config.py. *)
Definition radius10 : quad LX := Quad (f_ofdec false 5 2) (f_ofZ 0) (f_ofZ 0) (f_ofZ 0).
Definition ran10 : GMachine.machine LX * list (GMachine.event LX) * res unit :=
  move_circular default_config hw_ok (coords0 : quad LX) radius10 (f_ofZ 300 : LX) CW (after0 (N:=LX) ["G1X0.1Y0.1"]%string) [].
Example C10_circle_float_ex :
  orderly_acos line_acos /\ good_cfg default_config /\ (forall a, table default_config a * ax a (ppm default_config) <= 2097152) /\
  on_table line_acos default_config (after0 (N:=LX) ["G1X0.1Y0.1"]%string) /\ (forall a, dec 0 (ax a (coords0 : quad LX))) /\ bdq line_acos 14 radius10 /\
  axis_a PlaneXY (ppm default_config) = axis_b PlaneXY (ppm default_config) /\ m_plane (after0 (N:=LX) ["G1X0.1Y0.1"]%string) = PlaneXY /\
  (forall rr, round_to_grid default_config radius10 = Ok rr -> lossless default_config PlaneXY rr) /\
  move_circular default_config hw_ok (coords0 : quad LX) radius10 (f_ofZ 300 : LX) CW (after0 (N:=LX) ["G1X0.1Y0.1"]%string) [] = (state_of ran10, events_of ran10, Ok tt).
Proof.
  split; [exact line_acos_orderly|]. split; [exact default_good|]. split; [intros []; cbn; lia|]. split.
  { apply (history_on_table line_acos default_config default_good Moderate _ (events0 (N:=LX) ["G1X0.1Y0.1"]%string) (fun hw gc (K : moderate gc) => moderate_radius _ K)).
    apply moderate_history. vm_compute. reflexivity. }
  split; [intros []; exact dec_0|]. split.
  { assert (F5: bd 14 (f_ofdec false 5 2)).
    { assert (X: near_b 100 5 (f_ofdec false 5 2) = true) by (vm_compute; reflexivity). apply near_b_spec in X; [|lia|lia]. destruct X as [F V]. split; [exact F|]. rewrite V. apply rd_abs_le; [lia|].
      change (bpow radix2 14) with 16384%R. apply Rabs_le. lra. }
    intros []; [exact F5|apply bd_zero|apply bd_zero]. }
  split; [reflexivity|]. split; [vm_compute; reflexivity|]. split.
  - intros rr E. assert (T: match round_to_grid (N:=LX) default_config radius10 with Ok rr => near_b 100 5 (qx rr) && near_b 100 0 (qy rr) && (back_b 100 5 && back_b 100 (- 5)) | _ => false end = true) by (vm_compute; reflexivity).
    rewrite E in T. rewrite !andb_true_iff in T. destruct T as ((X1 & X2) & X3 & X4). apply (lossless_x default_config rr 5 default_good); [cbn; lia|reflexivity|exact X1|exact X2|]. apply andb_true_intro. split; [exact X3|exact X4].
  - assert (T: match result_of ran10 with Ok _ => true | Raise _ => false end = true) by (vm_compute; reflexivity).
    fold ran10. unfold state_of, events_of, result_of in *. clear - T. destruct ran10 as [[m es] [[]|]]; [reflexivity|discriminate T].
Qed.
