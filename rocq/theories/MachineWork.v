(** Work coordinates: absolute moves, G92/G53, units and homing over binary64
    (C14, C17, C18, C20). *)
From Coq Require Import String Ascii ZArith Bool Reals Lra Lia List.
From Flocq Require Import Core BinarySingleNaN.
From Verif Require Import PyBase PyNum PyFloatFacts Config Coordinates Pulses GCode GCodeSpec WordFacts GMachine GMachineProofs MachineFacts MachineRel MachineHist MachineFloat Decimal MachinePos MachineArc.
From Coq Require Import List.
From Flocq Require Import Core.
Import ListNotations.
Local Open Scope R_scope.

(** |k / 10^10| <= 2^15. *)
Definition small15 (k : Z) : Prop := (Z.abs k <= 32768 * 10000000000)%Z.
Lemma small15_small k : small15 k -> small k. Proof. unfold small15, small. lia. Qed.

(** A finite number that is equal to its ten-decimals rounding. *)
Definition ten (x : f64) : Prop := f_rnd10 x = x.
Lemma ten_rnd10 x : ten (f_rnd10 x). Proof. apply f_rnd10_idem. Qed.
Lemma dec10_int_bound x e : (0 <= e)%Z -> Rabs x <= bpow radix2 e -> (Z.abs (dec10 x) <= 2 ^ e * 10000000000)%Z.
Proof.
  intros He H. rewrite <- (IZR_Zpower radix2) in H by lia. change (IZR (radix2 ^ e)) with (IZR (2 ^ e)) in H.
  apply Rabs_le_inv in H. destruct H as [H1 H2].
  assert (G1 := dec10_ge x (- 2 ^ e) ltac:(rewrite opp_IZR; lra)).
  assert (G2 := dec10_ge (- x) (- 2 ^ e) ltac:(rewrite opp_IZR; lra)). rewrite dec10_opp in G2. lia.
Qed.
Lemma ten_dec x : ten x -> bd 15 x -> exists k, dec k x /\ small15 k.
Proof.
  intros T [F B]. exists (dec10 (val x)). split.
  - unfold ten in T. assert (D := dec_close_inv x F). now rewrite T in D.
  - unfold small15. change 32768%Z with (2 ^ 15)%Z. apply dec10_int_bound; [lia|exact B].
Qed.
Lemma rnd10_dec x : bd 15 x -> exists k, dec k (f_rnd10 x) /\ small15 k /\ k = dec10 (val x).
Proof.
  intros [F B]. exists (dec10 (val x)). split; [now apply dec_close_inv|]. split; auto.
  unfold small15. change 32768%Z with (2 ^ 15)%Z. apply dec10_int_bound; [lia|exact B].
Qed.

(** Displacement of an absolute move along one axis. *)
Definition abs_delta (c loc pos : f64) : f64 := f_rnd10 (f_sub (f_rnd10 (f_add c loc)) pos).
Lemma abs_delta_dec k l kc c loc pos :
  dec k pos -> dec l loc -> dec kc c -> small15 k -> small15 l -> small15 kc ->
  dec (kc + l - k) (abs_delta c loc pos).
Proof.
  intros Dk Dl Dc Sk Sl Sc. unfold abs_delta. unfold small15 in *.
  apply dec_sub; auto; [|unfold small; lia|unfold small; lia]. apply dec_add; auto; unfold small; lia.
Qed.
Lemma work_dec k l pos loc : dec k pos -> dec l loc -> small15 k -> small15 l ->
  dec (k - l) (f_rnd10 (f_sub pos loc)).
Proof. intros. unfold small15 in *. apply dec_sub; auto; unfold small; lia. Qed.
(** The axis is not named. *)
Lemma abs_delta_keep k l loc pos : dec k pos -> dec l loc -> small15 k -> small15 l -> small15 (k - l) ->
  dec 0 (abs_delta (f_rnd10 (f_rnd10 (f_sub pos loc))) loc pos).
Proof.
  intros Dk Dl Sk Sl Skl. replace 0%Z with (k - l + l - k)%Z by ring.
  apply abs_delta_dec; auto. rewrite f_rnd10_idem. now apply work_dec.
Qed.
Lemma abs_delta_keep' k l loc pos : dec k pos -> dec l loc -> small15 k -> small15 l ->
  dec 0 (abs_delta (f_rnd10 (f_rnd10 (f_sub pos loc))) loc pos).
Proof.
  intros Dk Dl Sk Sl. assert (Dw := work_dec _ _ _ _ Dk Dl Sk Sl). rewrite f_rnd10_idem.
  unfold abs_delta. replace 0%Z with (k - l + l - k)%Z by ring. unfold small15 in *.
  apply dec_sub; auto; [|unfold small; lia|unfold small; lia]. apply dec_add; auto; unfold small; lia.
Qed.

Section W.
Variable acos : f64 -> f64.
Notation N := (F64 acos).
Variable cfg : config.
Hypothesis Hcfg : good_cfg cfg.
Notation p a := (ax a (ppm cfg)).
Notation t a := (table cfg a).
Notation acfg := (acfg cfg Hcfg).
Notation at_step := (at_step acos cfg).
Notation on_table := (on_table acos cfg).
Notation units_ok := (units_ok acos).

(** Coordinate words of at most 1000, radius words of arcs of at most 600. *)
Definition coord_letters : list ascii := ["X"; "Y"; "Z"; "E"]%char.
Definition moderate (gc : option gcode) : Prop :=
  match gc with None => True | Some g => words_at_most coord_letters 1000 g end /\ small_radius gc.
Lemma moderate_radius gc : moderate gc -> small_radius gc.
Proof. apply proj2. Qed.

(** All four axes, for the work frame. *)
Inductive axis4 := XYZ (a : axis) | AE.
Definition ax4 {A} (a : axis4) (q : quad A) : A := match a with XYZ a => ax a q | AE => qe q end.
Definition letter4 (a : axis4) : ascii := match a with XYZ a => axis_letter a | AE => "E"%char end.
Lemma letter4_in a : In (letter4 a) coord_letters.
Proof. destruct a as [[]|]; simpl; auto. Qed.

Lemma get_coordinates_axis g (dflt c : quad N) mu a : get_coordinates g dflt mu = Ok c ->
  exists y, get (N:=N) g (letter4 a) (ax4 a dflt) mu = Ok y /\ ax4 a c = f_rnd10 y.
Proof.
  unfold get_coordinates. intros H.
  destruct (get g "X" _ _) as [x|] eqn:Ex; [|discriminate]. cbn [rbind] in H.
  destruct (get g "Y" _ _) as [y|] eqn:Ey; [|discriminate]. cbn [rbind] in H.
  destruct (get g "Z" _ _) as [z|] eqn:Ez; [|discriminate]. cbn [rbind] in H.
  destruct (get g "E" _ _) as [e|] eqn:Ee; [|discriminate]. cbn [rbind] in H. injection H as <-.
  destruct a as [[]|]; eexists; (split; [eassumption|reflexivity]).
Qed.

Lemma ax4_cadd a (x y : quad N) : ax4 a (cadd x y) = f_rnd10 (f_add (ax4 a x) (ax4 a y)).
Proof. now destruct a as [[]|]. Qed.
Lemma ax4_csub a (x y : quad N) : ax4 a (csub x y) = f_rnd10 (f_sub (ax4 a x) (ax4 a y)).
Proof. now destruct a as [[]|]. Qed.

(** A coordinate read from a line. *)
Lemma coordinate_read g m (dflt c : quad N) a : words_at_most coord_letters 1000 g -> units_ok m ->
  get_coordinates g dflt (m_convert m) = Ok c ->
  (lookup g (letter4 a) = None /\ ax4 a c = f_rnd10 (ax4 a dflt)) \/
  (exists k, dec k (ax4 a c) /\ (Z.abs k <= 26000 * 10000000000)%Z).
Proof.
  intros Hw U H. destruct (get_coordinates_axis _ _ _ _ a H) as (y & Hy & E).
  apply (get_scaled acos coord_letters 1000) in Hy; auto; [|lia|apply letter4_in].
  destruct Hy as [[H1 ->]|[F B]]; [left; auto|right]. exists (dec10 (val y)). split.
  - rewrite E. now apply dec_close_inv.
  - apply Rabs_le_inv in B. change (1000 * 26)%Z with 26000%Z in B. destruct B as [B1 B2].
    assert (G1 := dec10_ge (val y) (-26000) ltac:(lra)).
    assert (G2 := dec10_ge (- val y) (-26000) ltac:(lra)). rewrite dec10_opp in G2. lia.
Qed.

(** Axis [a] of position and offset are ten-decimals numbers of moderate size. *)
Definition tame (m : machine N) (a : axis4) : Prop :=
  exists k l, dec k (ax4 a (m_position m)) /\ dec l (ax4 a (m_local m)) /\ small15 k /\ small15 l.

Lemma at_step_dec m a n : at_step m a n -> dec (n * step (p a)) (ax a (m_position m)) /\ (Z.abs (n * step (p a)) <= 4096 * 10000000000)%Z.
Proof.
  intros [D I]. split; auto. assert (E := step_mul _ _ (acfg a)). assert (S := inside_small _ _ (acfg a) _ I).
  destruct (acfg a) as (Hp & _). rewrite Z.abs_mul, (Z.abs_eq (step (p a))) by nia.
  rewrite <- E. nia.
Qed.

(* ---------- the offset over histories ---------- *)
Definition offset_ok (m : machine N) : Prop :=
  forall a, exists l, dec l (ax a (m_local m)) /\ (Z.abs l <= 30200 * 10000000000)%Z.

Lemma offset_zero m : m_local m = coords0 -> offset_ok m.
Proof.
  intros E a. exists 0%Z. rewrite E. split; [|lia].
  assert (E2: ax a (coords0 (N:=N)) = f_rnd10 (f_ofZ 0)) by (now destruct a). rewrite E2.
  apply dec_rnd10; [exact dec_0|unfold small; lia].
Qed.

Lemma exec_offset hw g c d rr v m l m' l' r :
  exec_cmd cfg hw g c d rr v m l = (m', l', r) -> words_at_most coord_letters 1000 g -> units_ok m ->
  on_table m -> offset_ok m -> offset_ok m'.
Proof.
  intros H Hw U Ht Ho. destruct (writes_local c) eqn:W.
  - destruct c; try discriminate W; cbn [exec_cmd] in H.
    + apply modify_inv in H. destruct H as (-> & _). now apply offset_zero.
    + apply bind_inv in H. destruct H as [(e & H & _)|(mm & m1 & l1 & H & H2)];
        apply gets_inv in H; destruct H as (-> & -> & H); auto. injection H as ->.
      destruct (has_coordinates g).
      * apply bind_inv in H2. destruct H2 as [(e & H & _)|(c & m1 & l1 & H & H2)];
          apply lift_inv in H; destruct H as (-> & -> & Hc); auto. symmetry in Hc.
        apply modify_inv in H2. destruct H2 as (-> & _). intros a. cbn [m_local set_local m_position].
        destruct (Ht a) as (n & Hn). destruct (at_step_dec _ _ _ Hn) as [Dn Sn].
        destruct (Ho a) as (l0 & Dl & Sl). rewrite ax_csub.
        destruct (coordinate_read g m _ c (XYZ a) Hw U Hc) as [(_ & E)|(k & Dk & Sk)]; cbn [ax4] in *.
        -- exists l0. split; [|exact Sl]. rewrite E, ax_csub, f_rnd10_idem.
           replace l0 with (n * step (p a) - (n * step (p a) - l0))%Z by ring.
           apply dec_sub; auto; [|unfold small; lia|unfold small; lia]. apply dec_sub; auto; unfold small; lia.
        -- exists (n * step (p a) - k)%Z. split; [|lia]. apply dec_sub; auto; unfold small; lia.
      * apply modify_inv in H2. destruct H2 as (-> & _). intros a. cbn [m_local set_local].
        destruct (Ht a) as (n & Hn). destruct (at_step_dec _ _ _ Hn) as [Dn Sn]. eexists. split; [exact Dn|lia].
    + apply modify_inv in H. destruct H as (-> & _). now apply offset_zero.
  - unfold offset_ok. rewrite (frame_local cfg hw g c d rr v W _ _ _ _ _ H). exact Ho.
Qed.
Lemma history_offset (P : hw_oracle N -> option gcode -> Prop) m es :
  (forall hw gc, P hw gc -> moderate gc) ->
  history_where P cfg m es -> offset_ok m.
Proof.
  intros HP H. induction H as [|m es hw gc m' es' r H IH Hgc Hr]; [now apply offset_zero|].
  assert (U := history_units acos cfg _ _ _ H).
  assert (Ht: on_table m) by (apply (history_on_table acos cfg Hcfg P m es); auto; intros; eapply moderate_radius, HP; eauto).
  apply HP in Hgc. unfold run_command in Hr. destruct gc as [g|].
  - apply do_command_inv in Hr. destruct Hr; auto.
    assert (X := exec_offset _ _ _ _ _ _ _ _ _ _ _ H6 (proj1 Hgc) U Ht IH). destruct r; exact X.
  - apply ret_inv in Hr. now destruct Hr as (-> & _).
Qed.
Lemma history_tame (P : hw_oracle N -> option gcode -> Prop) m es a :
  (forall hw gc, P hw gc -> moderate gc) -> history_where P cfg m es -> tame m (XYZ a).
Proof.
  intros HP H. destruct (history_offset P m es HP H a) as (l & Dl & Sl).
  destruct (history_on_table acos cfg Hcfg P m es (fun hw gc Hh => moderate_radius gc (HP hw gc Hh)) H a) as (n & Hn).
  destruct (at_step_dec _ _ _ Hn) as [Dn Sn]. exists (n * step (p a))%Z, l. unfold small15. repeat split; try apply Dn; try apply Dl; lia.
Qed.

(* ---------- absolute moves ---------- *)
Lemma command_delta_abs g m (delta : quad N) a : m_absolute m = true -> command_delta g m = Ok delta ->
  exists c, get_coordinates g (csub (m_position m) (m_local m)) (m_convert m) = Ok c /\
    ax4 a delta = abs_delta (ax4 a c) (ax4 a (m_local m)) (ax4 a (m_position m)).
Proof.
  unfold command_delta. intros -> H.
  destruct (get_coordinates g _ _) as [c|] eqn:E; [|discriminate]. cbn [rbind] in H. injection H as <-.
  exists c. split; auto. rewrite ax4_csub, ax4_cadd. reflexivity.
Qed.

(** An axis that is not named has a zero displacement. *)
Lemma unnamed_delta g m delta a : m_absolute m = true -> command_delta g m = Ok delta ->
  tame m a -> lookup g (letter4 a) = None -> dec 0 (ax4 a delta).
Proof.
  intros Ha H (k & l & Dk & Dl & Sk & Sl) Hl.
  destruct (command_delta_abs g m delta a Ha H) as (c & Hc & E). rewrite E.
  destruct (get_coordinates_axis _ _ _ _ a Hc) as (y & Hy & Ec). rewrite Ec.
  rewrite get_missing in Hy by exact Hl. injection Hy as <-. rewrite ax4_csub.
  now apply (abs_delta_keep' k l).
Qed.

(** The unit factor as a real number. *)
Definition unit_factor (m : machine N) (u : R) : Prop :=
  (m_convert m = f_ofZ 1 /\ u = 1) \/ (m_convert m = inch /\ u = 254 / 10).
Lemma unit_factor_ok m u : unit_factor m u -> units_ok m.
Proof. unfold unit_factor, MachineArc.units_ok. tauto. Qed.
Lemma unit_factor_close m u : unit_factor m u -> fin (m_convert m) /\ Rabs (val (m_convert m) - u) <= bpow radix2 (-49) /\ 0 <= u <= 26.
Proof.
  intros [[-> ->]|[-> ->]].
  - destruct one_val as [F V]. split; [exact F|]. rewrite V. split; [|lra].
    replace (1 - 1) with 0 by ring. rewrite Rabs_R0. apply bpow_ge_0.
  - destruct inch_val as [F _]. split; [exact F|]. split; [|lra].
    unfold inch. destruct (ofdec_val false 254 1) as [_ V]; [lia| |].
    + apply big_27. unfold sgn. b2n. rewrite Rabs_pos_eq; simpl; lra.
    + rewrite V. unfold sgn. replace (1 * (254 / 10 ^ 1)) with (254 / 10) by (simpl; field).
      apply (rd_error _ 5); [lia|]. rewrite Rabs_pos_eq by lra. simpl. lra.
Qed.

(** A coordinate word: the number read is the number written times the unit. *)
Lemma word_close g k lit x (dflt : N) m u : unit_factor m u ->
  lookup g k = Some lit -> LiteralValue lit x -> Rabs x <= 1000 ->
  exists y : N, get (N:=N) g k dflt (m_convert m) = Ok y /\ fin y /\ Rabs (val y - x * u) <= bpow radix2 (-37).
Proof.
  intros U Hl Hv Hx. destruct (unit_factor_close m u U) as (Fc & Ec & Bu).
  assert (Bc: Rabs (val (m_convert m)) <= 26).
  { destruct (units_val acos m (unit_factor_ok _ _ U)) as [_ B]. rewrite Rabs_pos_eq; lra. }
  assert (Hb: Rabs x <= big) by (apply big_27; b2n; lra).
  destruct (get_value acos g k lit x dflt (m_convert m) Hl Hv Hb) as (y & Hg & Fy & Vy).
  assert (Ey := rd_error x 10 ltac:(lia) ltac:(simpl; lra)). rewrite <- Vy in Ey. change (10 - 54)%Z with (-44)%Z in Ey.
  assert (By: Rabs (val y) <= 1000).
  { rewrite Vy, <- rd_abs, <- (rd_IZR 1000) by lia. now apply rd_le. }
  assert (Bm: Rabs (val y * val (m_convert m)) <= 26000).
  { rewrite Rabs_mult. apply Rle_trans with (1000 * 26); [|lra]. apply Rmult_le_compat; auto using Rabs_pos. }
  destruct (f_mul_val y (m_convert m) Fy Fc) as [F V]; [apply big_27; b2n; lra|].
  exists (f_mul y (m_convert m)). split; [exact Hg|]. split; [exact F|]. rewrite V.
  assert (Er := rd_error (val y * val (m_convert m)) 15 ltac:(lia) ltac:(b2n; lra)). change (15 - 54)%Z with (-39)%Z in Er.
  set (q := rd (val y * val (m_convert m))) in *. clearbody q.
  replace (q - x * u) with ((q - val y * val (m_convert m)) + ((val y - x) * val (m_convert m) + x * (val (m_convert m) - u))) by ring.
  assert (T1: Rabs ((val y - x) * val (m_convert m)) <= bpow radix2 (-44) * 26).
  { rewrite Rabs_mult. apply Rmult_le_compat; auto using Rabs_pos. }
  assert (T2: Rabs (x * (val (m_convert m) - u)) <= 1000 * bpow radix2 (-49)).
  { rewrite Rabs_mult. apply Rmult_le_compat; auto using Rabs_pos. }
  eapply Rle_trans; [apply Rabs_triang|]. eapply Rle_trans; [apply Rplus_le_compat_l, Rabs_triang|].
  change (bpow radix2 (-39)) with (/ 549755813888) in *. change (bpow radix2 (-44)) with (/ 17592186044416) in *.
  change (bpow radix2 (-49)) with (/ 562949953421312) in *. b2n. lra.
Qed.

(** A straight move: where an axis ends. *)
Lemma move_linear_axis (m : machine N) (d : quad N) v hw l m' l' a n :
  move_linear cfg hw d v m l = (m', l', Ok tt) -> at_step m a n -> bd 16 (ax a d) ->
  exists j, at_step m' a (n + j) /\
    Rabs (IZR j - val (ax a d) * IZR (p a)) <= / 2 + IZR (p a) * bpow radix2 (-35) /\
    (dec 0 (ax a d) -> j = 0%Z).
Proof.
  intros H Hn [F B]. assert (Hp := proj1 (acfg a)). assert (Hs := step_mul _ _ (acfg a)).
  assert (Hs0: (0 < step (p a))%Z) by nia.
  assert (K: forall d0, round_to_grid cfg d = Ok d0 -> exists j, dec (j * step (p a)) (ax a d0) /\ (Z.abs j <= 131072 * p a)%Z /\
     Rabs (IZR j - val (ax a d) * IZR (p a)) <= / 2 + IZR (p a) * bpow radix2 (-35) /\ (dec 0 (ax a d) -> j = 0%Z)).
  { intros d0 Hr. destruct (round_axes acos cfg Hcfg _ _ Hr a) as (b & y & Gb & Hy & E).
    destruct (round1_val acos (p a) Hp b Gb _ F B) as (j & E1 & E2 & E3 & U). rewrite E1 in Hy. injection Hy as <-.
    exists j. rewrite E. split; [apply (grid_mul (p a) Hp b Gb _ Hs); auto|]. split; [exact E3|]. split; [exact E2|].
    intros D0. apply U. apply dec_zero_val in D0. rewrite D0, Rmult_0_l, Rminus_0_r, Rabs_R0. lra. }
  apply move_linear_inv in H. inversion H; subst; clear H.
  - destruct (K _ H0) as (j & Dj & Sj & Ej & Zj). exists j. split; [|auto].
    assert (Z: f_eq (ax a d0) (f_ofZ 0) = true).
    { unfold is_zero in H1. cbn [eqb F64 zero ofZ] in H1. destruct a; cbn [ax]; destruct (f_eq (qx d0) _), (f_eq (qy d0) _), (f_eq (qz d0) _); auto; discriminate. }
    apply f_eq_zero in Z; [|apply Dj].
    apply (dec_val_0 _ _ Dj) in Z; [|apply (step_small (p a) Hp); auto; lia].
    assert (j = 0)%Z by nia. subst j. now rewrite Z.add_0_r.
  - destruct (K _ H0) as (j & Dj & Sj & Ej & Zj). exists j. split; [|auto].
    destruct (linear_axis acos cfg Hcfg m d d0 a n Hn H0 H2) as (j' & Dj' & Sj' & Hm').
    assert (E2: (j' * step (p a) = j * step (p a))%Z).
    { eapply dec_fun; eauto; apply (step_small (p a) Hp); auto; lia. }
    assert (j' = j) by nia. now subst j'.
Qed.

Lemma exec_linear hw g c (d : quad N) rr v m l m' l' :
  c = G0 \/ c = G1 -> exec_cmd cfg hw g c d rr v m l = (m', l', Ok tt) ->
  exists v', move_linear cfg hw d v' m l = (m', l', Ok tt).
Proof.
  intros [->| ->] H; cbn [exec_cmd] in H; [|eauto].
  apply bind_inv in H. destruct H as [(e & _ & H)|(vl & m1 & l1 & H & H2)]; [discriminate|].
  apply lift_inv in H. destruct H as (-> & -> & _). eauto.
Qed.
Lemma linear_words t0 c : t0 = tx "G0" \/ t0 = tx "G1" -> assoc_text t0 command_table = Some c -> c = G0 \/ c = G1.
Proof. intros [->| ->] H; vm_compute in H; injection H as <-; auto. Qed.

Lemma success_linear hw g (m : machine N) m' es t0 :
  run_command cfg hw (Some g) m = (m', es, Ok tt) -> effective_command g = Some t0 -> t0 = tx "G0" \/ t0 = tx "G1" ->
  exists delta v m1, command_delta g m = Ok delta /\ move_linear cfg hw delta v m [] = (m1, es, Ok tt) /\ m_position m' = m_position m1.
Proof.
  intros H Et Hw. unfold run_command in H. apply do_command_inv in H. inversion H; subst; try congruence.
  rewrite H4 in Et. injection Et as <-.
  destruct (exec_linear hw g c delta radius v m [] m1 es (linear_words _ _ Hw H5) H6) as (v' & Hv).
  exists delta, v', m1. auto.
Qed.

Lemma absolute_move (P : hw_oracle N -> option gcode -> Prop) m es0 hw g m' es a u :
  (forall hw gc, P hw gc -> moderate gc) -> history_where P cfg m es0 -> moderate (Some g) ->
  unit_factor m u -> m_absolute m = true ->
  effective_command g = Some (tx "G0") \/ effective_command g = Some (tx "G1") ->
  run_command cfg hw (Some g) m = (m', es, Ok tt) ->
  (lookup g (axis_letter a) = None -> val (ax a (m_position m')) = val (ax a (m_position m))) /\
  (forall lit x, lookup g (axis_letter a) = Some lit -> LiteralValue lit x ->
     Rabs (val (ax a (m_position m')) - (val (ax a (m_local m)) + x * u)) <= / (2 * IZR (p a)) + / 1000000000).
Proof.
  intros HP Hh Hg U Habs Hc Hr.
  assert (Ht: on_table m) by (apply (history_on_table acos cfg Hcfg P m es0); auto; intros; eapply moderate_radius, HP; eauto).
  destruct (history_offset P m es0 HP Hh a) as (l & Dl & Sl).
  destruct (Ht a) as (n & Hn). destruct (at_step_dec m a n Hn) as [Dn Sn].
  assert (Tm: tame m (XYZ a)) by (eapply history_tame; eauto).
  destruct (effective_command g) as [t0|] eqn:Et; [|destruct Hc; discriminate].
  destruct (success_linear hw g m m' es t0 Hr Et ltac:(destruct Hc as [E|E]; injection E as ->; auto))
    as (delta & v & m1 & Hd & Hm & E1).
  assert (Hp := proj1 (acfg a)). assert (Hs := step_mul _ _ (acfg a)). assert (Pp := p_pos (p a) Hp).
  rewrite E1. clear E1.
  split.
  - intros Hl. assert (D0 := unnamed_delta g m delta (XYZ a) Habs Hd Tm Hl). cbn [ax4] in D0.
    destruct (move_linear_axis m delta v hw [] m1 es a n Hm Hn) as (j & Hj & _ & Hz).
    { split; [apply D0|]. rewrite (dec_zero_val _ D0), Rabs_R0. apply bpow_ge_0. }
    rewrite (Hz D0), Z.add_0_r in Hj. destruct Hj as [Dj _]. now rewrite (proj2 Dj), (proj2 Dn).
  - intros lit x Hl Hx. assert (Bx := proj1 Hg _ _ _ (letter4_in (XYZ a)) Hl Hx).
    destruct (command_delta_abs g m delta (XYZ a) Habs Hd) as (c & Hco & Ed). cbn [ax4] in Ed.
    destruct (get_coordinates_axis _ _ _ _ (XYZ a) Hco) as (y & Hy & Ec). cbn [ax4 letter4] in Hy, Ec.
    destruct (word_close g (axis_letter a) lit x (ax a (csub (m_position m) (m_local m))) m u U Hl Hx Bx) as (y' & Hy' & Fy & Ey).
    rewrite Hy' in Hy. injection Hy as ->.
    destruct (unit_factor_close m u U) as (_ & _ & Bu).
    assert (Bxu: Rabs (x * u) <= 26000).
    { rewrite Rabs_mult, (Rabs_pos_eq u) by lra. apply Rle_trans with (1000 * 26); [|lra].
      apply Rmult_le_compat; auto using Rabs_pos; lra. }
    assert (Byv: Rabs (val y) <= 26001).
    { replace (val y) with ((val y - x * u) + x * u) by ring. eapply Rle_trans; [apply Rabs_triang|]. b2n. lra. }
    set (kc := dec10 (val y)).
    assert (Skc: (Z.abs kc <= 26001 * 10000000000)%Z).
    { apply Rabs_le_inv in Byv. assert (G1 := dec10_ge (val y) (-26001) ltac:(lra)).
      assert (G2 := dec10_ge (- val y) (-26001) ltac:(lra)). rewrite dec10_opp in G2. unfold kc. lia. }
    assert (Dc: dec kc (ax a c)) by (rewrite Ec; now apply dec_close_inv).
    assert (Ckc := dec10_close (val y)). fold kc in Ckc.
    assert (Dd: dec (kc + l - n * step (p a)) (ax a delta)).
    { rewrite Ed. apply abs_delta_dec; auto; unfold small15; lia. }
    set (k := (n * step (p a))%Z) in *.
    assert (Sd: small (kc + l - k)) by (unfold small; lia).
    assert (Ed2 := dec_err _ _ Dd Sd).
    assert (Bd: bd 16 (ax a delta)).
    { split; [apply Dd|]. rewrite (proj2 Dd). apply rd_abs_le; [lia|].
      unfold Rdiv. rewrite Rabs_mult, (Rabs_pos_eq (/ e10)), <- abs_IZR by (unfold e10; lra).
      apply Rmult_le_reg_r with e10; [unfold e10; lra|]. rewrite Rmult_assoc, Rinv_l, Rmult_1_r by (unfold e10; lra).
      b2n. change e10 with (IZR 10000000000). rewrite <- mult_IZR. apply IZR_le. lia. }
    destruct (move_linear_axis m delta v hw [] m1 es a n Hm Hn Bd) as (j & Hj & Ej & _).
    destruct (at_step_dec m1 a _ Hj) as [Dj Sj].
    assert (Ej2 := dec_err _ _ Dj ltac:(unfold small; lia)). rewrite (step_R (p a) Hp _ Hs) in Ej2.
    assert (El := dec_err _ _ Dl ltac:(unfold small; lia)).
    assert (Ek: IZR k / e10 = IZR n / IZR (p a)) by (unfold k; apply (step_R (p a) Hp _ Hs)).
    assert (Ej3: Rabs (IZR j / IZR (p a) - val (ax a delta)) <= / (2 * IZR (p a)) + bpow radix2 (-35)).
    { replace (IZR j / IZR (p a) - val (ax a delta)) with ((IZR j - val (ax a delta) * IZR (p a)) * / IZR (p a)) by (field; lra).
      rewrite Rabs_mult, (Rabs_pos_eq (/ IZR (p a))) by (left; now apply Rinv_0_lt_compat).
      apply Rle_trans with ((/ 2 + IZR (p a) * bpow radix2 (-35)) * / IZR (p a)).
      - apply Rmult_le_compat_r; [left; now apply Rinv_0_lt_compat|exact Ej].
      - right. field. lra. }
    rewrite plus_IZR, minus_IZR in *. rewrite plus_IZR in Ed2.
    set (P1 := val (ax a (m_position m1))) in *. set (L := val (ax a (m_local m))) in *.
    set (D := val (ax a delta)) in *. set (Y := val y) in *.
    assert (Ed3: Rabs (D - (IZR kc / e10 + IZR l / e10 - IZR n / IZR (p a))) <= bpow radix2 (-37)).
    { rewrite <- Ek. replace (IZR kc / e10 + IZR l / e10 - IZR k / e10) with ((IZR kc + IZR l - IZR k) / e10) by (unfold Rdiv; ring). exact Ed2. }
    assert (Ej4: Rabs (P1 - (IZR n / IZR (p a) + IZR j / IZR (p a))) <= bpow radix2 (-37)).
    { replace (IZR n / IZR (p a) + IZR j / IZR (p a)) with ((IZR n + IZR j) / IZR (p a)) by (unfold Rdiv; ring). exact Ej2. }
    clear - Ed3 Ej4 Ej3 El Ckc Ey.
    apply Rabs_le_inv in Ed3, Ej4, Ej3, El, Ckc, Ey. apply Rabs_le. unfold e10 in *. b2n. lra.
Qed.
End W.
