(** Machine properties that need binary64: feed rate, spindle power, heater
    targets, unit factor (C13, C18, C24, C25). *)
From Coq Require Import String Ascii ZArith Bool Reals Lra Lia List.
From Flocq Require Import Core BinarySingleNaN.
From Verif Require Import PyBase PyNum PyFloatFacts Config Coordinates Pulses GCode GCodeSpec WordFacts GMachine GMachineProofs MachineFacts MachineRel MachineHist.
From Coq Require Import List.
From Flocq Require Import Core.
Import ListNotations.
Local Open Scope R_scope.

(** Sorting of doubles into finite, infinite and NaN. *)
Lemma ratio_pos_not_nan s n d : is_nan (f_ratio_pos s n d) = false.
Proof.
  unfold f_ratio_pos. rewrite is_nan_SF2B.
  generalize (Bdiv_correct_aux prec64 emax64 prec64_gt_0 prec64_lt_emax mode_NE s n 0 false d 0).
  destruct (SpecFloat.SFdiv_core_binary prec64 emax64 (Zpos n) 0 (Zpos d) 0) as [[mz ez] lz].
  set (z := binary_round_aux _ _ _ _ _ _ _). cbv zeta. intros [_ H].
  destruct Rlt_bool in H.
  - destruct H as (_ & H & _). destruct z; auto; discriminate.
  - rewrite H. unfold binary_overflow. now destruct overflow_to_inf.
Qed.
Lemma ofdec_not_nan s n d : is_nan (f_ofdec s n d) = false.
Proof. unfold f_ofdec, f_ratio. destruct n; auto. apply ratio_pos_not_nan. Qed.

Lemma not_nan_cases (x : f64) : is_nan x = false -> fin x \/ exists s, x = B754_infinity s.
Proof. destruct x; simpl; intros H; try discriminate; eauto; left; reflexivity. Qed.

Lemma f_le_inf x y : is_nan x = false -> is_nan y = false -> f_lt x y = false -> f_le y x = true.
Proof.
  intros Hx Hy H.
  assert (HB: f_lt x y = match Bcompare x y with Some Lt => true | _ => false end) by reflexivity.
  assert (HC: f_le y x = match Bcompare y x with Some Lt => true | Some Eq => true | _ => false end).
  { unfold f_le, Bleb, SpecFloat.SFleb. change (SpecFloat.SFcompare (B2SF y) (B2SF x)) with (Bcompare y x).
    destruct (Bcompare y x) as [[]|]; reflexivity. }
  rewrite HB in H. rewrite HC, (Bcompare_swap _ _ x y).
  assert (Hn: Bcompare x y <> None).
  { destruct x as [sx|sx| |sx mx ex Bx]; try discriminate; destruct y as [sy|sy| |sy my ey By]; try discriminate.
    all: try (destruct sx; discriminate). all: try (destruct sy; discriminate).
  }
  destruct (Bcompare x y) as [[]|]; auto; discriminate.
Qed.

Lemma f_lt_nan_r x : f_lt x B754_nan = false. Proof. now destruct x as [[]|[]| |[]]. Qed.
Lemma inf_not_between (s : bool) (a b : f64) : fin a -> fin b ->
  f_lt (B754_infinity s) a = false -> f_lt b (B754_infinity s) = false -> False.
Proof. destruct a as [[]|[]| |[]], b as [[]|[]| |[]]; intros Ha Hb; try discriminate; destruct s; discriminate. Qed.
Lemma fin_between (x a b : f64) : is_nan x = false -> fin a -> fin b ->
  f_lt x a = false -> f_lt b x = false -> fin x /\ val a <= val x <= val b.
Proof.
  intros Hn Ha Hb H1 H2. destruct (not_nan_cases x Hn) as [Hf|(s & ->)].
  - split; auto. apply f_lt_false in H1; auto. apply f_lt_false in H2; auto.
  - exfalso. eapply (inf_not_between s a b); eauto.
Qed.

Lemma fin_not_nan (x : f64) : fin x -> is_nan x = false.
Proof. now destruct x. Qed.
Lemma mul_not_nan (x y : f64) : is_nan x = false -> fin y -> is_zero_f y = false -> is_nan (f_mul x y) = false.
Proof.
  intros Hx Hy Hz. destruct x as [sx|sx| |sx mx ex Bx]; try discriminate.
  - now destruct y as [sy|sy| |sy my ey By].
  - now destruct y as [sy|sy| |sy my ey By].
  - assert (H := Bmult_correct prec64 emax64 _ _ mode_NE (B754_finite sx mx ex Bx) y).
    unfold f_mul. destruct Rlt_bool in H.
    + destruct H as (_ & H & _). unfold fin in Hy. rewrite Hy in H. exact (fin_not_nan _ H).
    + rewrite <- is_nan_SF_B2SF, H. unfold binary_overflow. now destruct overflow_to_inf.
Qed.
Lemma ofZ_not_nan n : is_nan (f_ofZ n) = false.
Proof. apply is_nan_binary_normalize. Qed.

Section M.
Variable acos : f64 -> f64.
Notation N := (F64 acos).
Variable cfg : config.

Lemma get_cases (g : gcode) k (d mu y : N) : get (N:=N) g k d mu = Ok y ->
  (lookup g k = None /\ y = d) \/
  (exists lit s n dec, lookup g k = Some lit /\ decimal_of lit = Some (s, n, dec) /\ y = f_mul (f_ofdec s n dec) mu).
Proof.
  unfold get. destruct (lookup g k) as [lit|]; [|intros H; injection H as <-; auto].
  destruct (decimal_of lit) as [[[s n] dec]|] eqn:E; [|discriminate].
  intros H. injection H as <-. right. exists lit, s, n, dec. auto.
Qed.
Lemma one_fin : fin (f_ofZ 1) /\ is_zero_f (f_ofZ 1) = false.
Proof. split; reflexivity. Qed.
Lemma get1_not_nan g k (d y : N) : is_nan d = false -> get (N:=N) g k d (f_ofZ 1) = Ok y -> is_nan y = false.
Proof.
  intros Hd H. apply get_cases in H. destruct H as [(_ & ->)|(lit & s & n & dec & _ & _ & ->)]; auto.
  apply mul_not_nan; [apply ofdec_not_nan|apply one_fin|apply one_fin].
Qed.

(* ---------- C13: feed ---------- *)
Definition feed_ok (m : machine N) : Prop := f_le (f_ofZ (min_velocity_min cfg)) (m_velocity m) = true.
Definition small_int (z : Z) : Prop := (Z.abs z <= 2 ^ 53)%Z.

Lemma f_le_not_nan a b : f_le a b = true -> is_nan a = false /\ is_nan b = false.
Proof. destruct a as [[]|[]| |[]], b as [[]|[]| |[]]; intros H; auto; discriminate. Qed.

Lemma feed_floor P m es :
  small_int (min_velocity_min cfg) -> small_int (quad_min (max_velocity_min cfg)) ->
  (min_velocity_min cfg <= quad_min (max_velocity_min cfg))%Z ->
  history_where (N:=N) P cfg m es -> feed_ok m.
Proof.
  intros S1 S2 Hle H. induction H as [|m es hw gc m' es' r H IH HP Hr].
  - unfold feed_ok, init_machine, reset. cbn [m_velocity F64 ofZ].
    destruct (f_ofZ_val _ S1) as [F1 V1], (f_ofZ_val _ S2) as [F2 V2].
    apply f_le_true; auto. rewrite V1, V2. now apply IZR_le.
  - unfold feed_ok in *. destruct gc as [g|]; [|rewrite no_command_line in Hr; injection Hr as <- _ _; exact IH].
    destruct r as [[]|e].
    + apply feed_after_success in Hr. destruct Hr as (v & Hg & -> & Hlt).
      apply f_le_inf; auto; [|apply ofZ_not_nan].
      eapply get1_not_nan; [|exact Hg]. now apply f_le_not_nan in IH.
    + apply feed_after_failure in Hr. now rewrite Hr.
Qed.

(* ---------- C24: spindle ---------- *)
Definition rpm_ok (m : machine N) : Prop := is_nan (m_spindle_rpm m) = false.
Definition percent_ok (p : f64) : Prop := fin p /\ 0 <= val p <= 100.
Definition spindle_rel (m : machine N) (es : list (event N)) (m' : machine N) : Prop :=
  rpm_ok m -> rpm_ok m' /\ forall p, In (ESpindle p) es -> percent_ok p.
Lemma spr_refl m : spindle_rel m [] m. Proof. split; auto. intros p []. Qed.
Lemma spr_trans m1 e1 m2 e2 m3 : spindle_rel m1 e1 m2 -> spindle_rel m2 e2 m3 -> spindle_rel m1 (e1 ++ e2) m3.
Proof.
  intros H1 H2 H. destruct (H1 H) as [K1 L1]. destruct (H2 K1) as [K2 L2]. split; auto.
  intros p Hp. apply in_app_or in Hp. destruct Hp; auto.
Qed.
Ltac spr_side := let H := fresh in let p := fresh in let Hp := fresh in intros H; split; [exact H|intros p Hp; simpl in Hp; repeat destruct Hp as [Hp|Hp]; try discriminate; contradiction].
Lemma spr_linear hw d v : linear_steps cfg hw spindle_rel d v.
Proof. intros m d' g Hd Hz Hb Hg Hf. split; [|intros _]; spr_side. Qed.
Lemma spr_arc hw d rr v rot : arc_steps cfg hw spindle_rel d rr v rot.
Proof.
  intros m ce ld g lg H. split; [destruct lg; spr_side|].
  intros p ev s E _ Hok. split; auto. intros q Hin. exfalso.
  assert (Hin2: In (ESpindle q) (arc_events g lg)).
  { rewrite E. apply in_app_or in Hin. apply in_or_app. destruct Hin as [Hin|[Hin|[]]]; auto. right. now left. }
  destruct lg; simpl in Hin2; repeat destruct Hin2 as [Hin2|Hin2]; try discriminate; contradiction.
Qed.

Definition spindle_cfg : Prop := (0 < spindle_max_rpm cfg <= 2 ^ 40)%Z.
Lemma percent_in_range s p : spindle_cfg ->
  is_nan s = false -> f_lt s (f_ofZ 0) = false -> f_lt (f_ofZ (spindle_max_rpm cfg)) s = false ->
  f_div (f_mul (f_ofZ 100) s) (f_ofZ (spindle_max_rpm cfg)) = Ok p -> percent_ok p.
Proof.
  intros Hc Hn H0 H1 Hp. unfold spindle_cfg in Hc.
  assert (S: small_int (spindle_max_rpm cfg)).
  { unfold small_int. apply Z.le_trans with (2 ^ 40)%Z; [lia|]. vm_compute. discriminate. }
  destruct (f_ofZ_val _ S) as [FM VM]. assert (S0: (Z.abs 0 <= 2 ^ 53)%Z) by (vm_compute; discriminate).
  destruct (f_ofZ_val 0 S0) as [F0 V0].
  destruct (f_ofZ_val 100) as [F100 V100]; [vm_compute; discriminate|].
  destruct (fin_between s _ _ Hn F0 FM H0 H1) as [Fs Hs]. rewrite V0, VM in Hs.
  assert (M0: 0 < IZR (spindle_max_rpm cfg)) by (apply IZR_lt; lia).
  assert (MB: IZR (100 * spindle_max_rpm cfg) <= bpow radix2 1000).
  { apply Rle_trans with (bpow radix2 53); [|apply bpow_le; lia].
    rewrite <- (IZR_Zpower radix2) by lia. apply IZR_le. apply Z.le_trans with (100 * 2 ^ 40)%Z; [lia|].
    vm_compute. discriminate. }
  assert (B1: 0 <= val (f_ofZ 100) * val s <= IZR (100 * spindle_max_rpm cfg)).
  { rewrite V100, mult_IZR. split; [apply Rmult_le_pos; lra|apply Rmult_le_compat_l; lra]. }
  destruct (f_mul_val _ _ F100 Fs) as (Fm & Vm); [rewrite Rabs_pos_eq; [unfold big; lra|lra]|].
  assert (B2: 0 <= val (f_mul (f_ofZ 100) s) <= IZR (100 * spindle_max_rpm cfg)).
  { rewrite Vm. split; [rewrite <- rd_0; apply rd_le; lra|].
    rewrite <- (rd_IZR (100 * spindle_max_rpm cfg)); [apply rd_le; lra|].
    rewrite Z.abs_eq by lia. apply Z.le_trans with (100 * 2 ^ 40)%Z; [lia|]. vm_compute. discriminate. }
  assert (B3: 0 <= val (f_mul (f_ofZ 100) s) / val (f_ofZ (spindle_max_rpm cfg)) <= 100).
  { rewrite VM. split; [apply Rmult_le_pos; [lra|left; now apply Rinv_0_lt_compat]|].
    apply Rmult_le_reg_r with (IZR (spindle_max_rpm cfg)); auto. unfold Rdiv.
    rewrite Rmult_assoc, Rinv_l by lra. rewrite mult_IZR in B2. lra. }
  destruct (f_div_val _ _ Fm FM) as (q & Eq & Fq & Vq).
  { rewrite VM. lra. }
  { rewrite Rabs_pos_eq by lra. apply Rle_trans with 100; [lra|]. unfold big.
    apply Rle_trans with (bpow radix2 7); [simpl; lra|apply bpow_le; lia]. }
  rewrite Eq in Hp. injection Hp as <-. split; auto. rewrite Vq.
  split; [rewrite <- rd_0; apply rd_le; lra|].
  rewrite <- (rd_IZR 100) by (vm_compute; discriminate). apply rd_le. lra.
Qed.

Lemma spr_spindle hw s : spindle_cfg -> is_nan s = false ->
  f_lt s (f_ofZ 0) = false -> f_lt (f_ofZ (spindle_max_rpm cfg)) s = false ->
  rel spindle_rel (spindle (N:=N) cfg hw s).
Proof.
  intros Hc Hn H0 H1 m l m' l' r H. unfold spindle in H. minv.
  all: rewrite <- ?app_assoc; eexists; (split; [reflexivity|]); simpl.
  all: intros Hok; split; auto; intros p Hp; simpl in Hp; repeat destruct Hp as [Hp|Hp]; try discriminate; try contradiction.
  all: injection Hp as <-; apply (percent_in_range s); auto; first [assumption | symmetry; assumption].
Qed.
Lemma spr_exec hw g c d rr v : spindle_cfg -> rel spindle_rel (exec_cmd (N:=N) cfg hw g c d rr v).
Proof.
  intros Hc.
  destruct c as [| | | | | | | | | | | | | | | | | | |h w| | | | | | |].
  16: { cbn [exec_cmd]. intros m l m' l' r H. minv; try (exists []; rewrite app_nil_r; split; [reflexivity|apply spr_refl]).
        - match goal with Hs : spindle _ _ _ _ _ = _ |- _ => revert Hs end. intros Hs.
          match goal with Eg : Ok ?a = get _ _ _ _ |- _ => rename a into sp; assert (Hnan: rpm_ok m -> is_nan sp = false) by (intros Hok; eapply get1_not_nan; [exact Hok|symmetry; exact Eg]) end.
          apply orb_false_iff in F. destruct F as [F1 F2].
          destruct (is_nan sp) eqn:En.
          + unfold spindle in Hs. minv; rewrite <- ?app_assoc; eexists; (split; [reflexivity|]); intros Hok; apply Hnan in Hok; discriminate.
          + eapply spr_spindle in Hs; eauto. 
        - match goal with Hs : spindle _ _ _ _ _ = _ |- _ => revert Hs end. intros Hs.
          match goal with Eg : Ok ?a = get _ _ _ _ |- _ => rename a into sp; assert (Hnan: rpm_ok m -> is_nan sp = false) by (intros Hok; eapply get1_not_nan; [exact Hok|symmetry; exact Eg]) end.
          apply orb_false_iff in F. destruct F as [F1 F2].
          destruct (is_nan sp) eqn:En.
          + unfold spindle in Hs. minv; rewrite <- ?app_assoc; eexists; (split; [reflexivity|]); intros Hok; apply Hnan in Hok; discriminate.
          + eapply spr_spindle in Hs; eauto. destruct Hs as (es & -> & HR).
            exists es. split; auto. intros Hok. split; [exact En|]. now apply HR. }
  16: { cbn [exec_cmd]. apply spr_spindle; auto. apply f_lt_false; [|reflexivity|].
        - apply f_ofZ_val. unfold spindle_cfg in Hc. apply Z.le_trans with (2 ^ 40)%Z; [lia|vm_compute; discriminate].
        - assert (S: small_int (spindle_max_rpm cfg)).
          { unfold spindle_cfg in Hc. unfold small_int. apply Z.le_trans with (2 ^ 40)%Z; [lia|vm_compute; discriminate]. }
          rewrite (proj2 (f_ofZ_val _ S)). change (val (zero (N:=N))) with 0. apply IZR_le. unfold spindle_cfg in Hc. lia. }
  all: cbn [exec_cmd]; unfold heat, fan;
  repeat first
    [ apply rel_lift; exact spr_refl | apply rel_ret; exact spr_refl | apply rel_throw; exact spr_refl
    | apply rel_gets; exact spr_refl | apply rel_fail_if; exact spr_refl
    | apply rel_move_linear; [exact spr_refl|] | apply rel_move_circular; [exact spr_refl|]
    | apply rel_safe_zero; [exact spr_refl|exact spr_trans|]
    | apply rel_call; intros ? | apply rel_measure; intros ? | apply rel_measure_opt; intros ?
    | apply rel_modify; intros ?
    | apply rel_bind; [exact spr_trans| |intros ?]
    | match goal with |- rel _ (match ?x with _ => _ end) => destruct x end ];
  try apply spr_linear; try apply spr_arc; try spr_side.
  all: try (intros; apply spr_linear).
  intros _. split; [reflexivity|intros p []].
Qed.
Lemma history_percent P m es p : spindle_cfg ->
  history_where (N:=N) P cfg m es -> In (ESpindle p) es -> percent_ok p.
Proof.
  intros Hc H. apply (history_rel P cfg spindle_rel spr_refl spr_trans) in H.
  - apply H. apply ofZ_not_nan.
  - intros hw gc _. apply (rel_do_command _ _ _ spr_refl spr_trans); [intros; spr_side|]. intros. now apply spr_exec.
Qed.

(* ---------- C25: heater targets ---------- *)
Definition heater_max (h : heater_id) : Z :=
  match h with HeaterExtruder => extruder_max_t cfg | HeaterBed => bed_max_t cfg end.
Lemma checked_target_range h t : small_int (min_t cfg) -> small_int (heater_max h) ->
  checked_target (N:=N) cfg h t -> fin t /\ IZR (min_t cfg) <= val t <= IZR (heater_max h).
Proof.
  intros S1 S2 (Hb & Hz & g & d & Hh & Hg).
  assert (Hn: is_nan t = false).
  { apply get_cases in Hg. destruct Hg as [(Hl & _)|(lit & s & n & dec & _ & _ & ->)].
    - exfalso. clear -Hh Hl. induction g as [|[k v] r IH]; [discriminate|]. simpl in *.
      destruct (Ascii.eqb k "S"); [discriminate|]. auto.
    - apply mul_not_nan; [apply ofdec_not_nan|apply one_fin|apply one_fin]. }
  unfold bad_temperature in Hb. rewrite Hz in Hb. cbn [negb] in Hb. rewrite andb_true_r in Hb.
  apply orb_false_iff in Hb. destruct Hb as [Hb1 Hb2].
  destruct (f_ofZ_val _ S1) as [F1 V1], (f_ofZ_val _ S2) as [F2 V2]. rewrite <- V1, <- V2.
  apply fin_between; auto. destruct h; exact Hb1.
Qed.
End M.
