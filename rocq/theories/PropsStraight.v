(** Property C69: straight moves to points on the table are executed
    (cnc/gmachine.py with cnc/pulses.py), over binary64. *)
From Coq Require Import String Ascii ZArith Bool Reals Lra Lia List.
From Flocq Require Import Core BinarySingleNaN.
From Verif Require Import PyBase PyNum PyFloatFacts Config Coordinates Pulses PulseSpec GCode GCodeSpec WordFacts GMachine MachineFacts MachineHist MachineFloat Decimal MachinePos MachineArc MachineWork LinearFloat LinearFloatRun LinearFloatLimit StraightRun ExampleBase PropsPosition PropsLinFloat.
From Coq Require Import List.
From Flocq Require Import Core.
Import ListNotations.
Local Open Scope R_scope.

(** After any history of moderate commands, a G0 or G1 whose words are numbers, whose
    feed is not below the minimum and whose end is on the table succeeds if the
    hardware does, and the generator that it hands to the hardware emits all its
    items without raising. *)
Theorem C69_straight_executed (acos : f64 -> f64) (cfg : config) (m : machine (F64 acos)) (es0 : list (event (F64 acos)))
        (hw : hw_oracle (F64 acos)) (g : gcode) (u : R) :
  good_cfg cfg -> lin_cfg cfg -> sec_limits cfg -> auto_velocity cfg = true ->
  (1 <= min_velocity_min cfg <= quad_min (max_velocity_min cfg))%Z ->
  history_where Moderate cfg m es0 -> moderate (Some g) -> readable g -> unit_factor acos m u ->
  effective_command g = Some (tx "G0") \/ effective_command g = Some (tx "G1") ->
  bounded acos m AE -> reachable acos cfg m g u -> feed_usable acos cfg m g -> never_fails_on (is_move acos) hw ->
  exists m' es, run_command cfg hw (Some g) m = (m', es, Ok tt) /\
    (forall gen, In (EMove gen) es -> exists lg d v its, gen = GLinear lg /\ emits (N:=F64 acos) cfg d v lg its).
Proof. intros Hc Hl Hs Ha Hm. exact (straight_runs acos cfg Hc Hl Hs Ha Moderate m es0 hw g u (fun _ _ H => H) Hm). Qed.
Print Assumptions C69_straight_executed.

Definition prog69 : list string := ["G1X150.123Y50E20F1200"; "G92X7.77E0"]%string.
Definition line69 : string := "G0X30.5Z100E-3".
Definition between (x : f64) (lo hi : Z) : bool := is_finite x && f_le (f_ofZ lo) x && f_le x (f_ofZ hi).
Lemma between_spec x lo hi : between x lo hi = true -> (Z.abs lo <= 2 ^ 53)%Z -> (Z.abs hi <= 2 ^ 53)%Z -> fin x /\ IZR lo <= val x <= IZR hi.
Proof.
  unfold between. intros H Hl Hh. apply andb_prop in H. destruct H as [H H2]. apply andb_prop in H. destruct H as [F H1].
  destruct (f_ofZ_val lo Hl) as [Fl Vl]. destruct (f_ofZ_val hi Hh) as [Fh Vh]. split; [exact F|]. rewrite <- Vl, <- Vh. split; [apply (f_le_true _ _ Fl F); exact H1|apply (f_le_true _ _ F Fh); exact H2].
Qed.
Example C69_straight_executed_ex (acos : f64 -> f64) :
  good_cfg default_config /\ lin_cfg default_config /\ sec_limits default_config /\ auto_velocity default_config = true /\
  (1 <= min_velocity_min default_config <= quad_min (max_velocity_min default_config))%Z /\
  history_where (N:=F64 acos) Moderate default_config (after0 prog69) (events0 prog69) /\ moderate (Some (gl line69)) /\ readable (gl line69) /\
  unit_factor acos (after0 prog69) 1 /\ effective_command (gl line69) = Some (tx "G0") /\
  bounded acos (after0 prog69) AE /\ reachable acos default_config (after0 prog69) (gl line69) 1 /\
  feed_usable acos default_config (after0 prog69) (gl line69) /\ never_fails_on (N:=F64 acos) (is_move acos) hw_ok.
Proof.
  assert (Hh: history_where (N:=F64 acos) Moderate default_config (after0 prog69) (events0 prog69)) by (apply moderate_history; vm_compute; reflexivity).
  set (m := after0 (N:=F64 acos) prog69) in *.
  destruct (between_spec (qx (m_local m)) 142 143 ltac:(vm_compute; reflexivity) ltac:(lia) ltac:(lia)) as [_ Lx].
  destruct (between_spec (qz (m_local m)) 0 0 ltac:(vm_compute; reflexivity) ltac:(lia) ltac:(lia)) as [_ Lz].
  destruct (between_spec (qe (m_local m)) 19 21 ltac:(vm_compute; reflexivity) ltac:(lia) ltac:(lia)) as [Fe Le].
  destruct (between_spec (qe (m_position m)) 19 21 ltac:(vm_compute; reflexivity) ltac:(lia) ltac:(lia)) as [Fp Lp].
  destruct (between_spec (m_velocity m) 1 2000 ltac:(vm_compute; reflexivity) ltac:(lia) ltac:(lia)) as [Fv Lv].
  assert (Ab: m_absolute m = true) by (vm_compute; reflexivity).
  assert (Lt: forall k lit x, lookup (gl line69) k = Some lit -> LiteralValue lit x ->
    (k = "G"%char /\ x = 0) \/ (k = "X"%char /\ x = 305 / 10) \/ (k = "Z"%char /\ x = 100) \/ (k = "E"%char /\ x = -3)).
  { intros k lit x L V. destruct (LiteralValue_decimal _ _ V) as (s & n & d & E & _ & ->).
    change (gl line69) with [("G"%char, tx "0"); ("X"%char, tx "30.5"); ("Z"%char, tx "100"); ("E"%char, tx "-3")] in L. cbn [lookup] in L.
    destruct (Ascii.eqb "G" k) eqn:K1; [apply Ascii.eqb_eq in K1; subst k; injection L as <-; vm_compute in E; injection E as <- <- <-; left; split; [reflexivity|cbn; field]|].
    destruct (Ascii.eqb "X" k) eqn:K2; [apply Ascii.eqb_eq in K2; subst k; injection L as <-; vm_compute in E; injection E as <- <- <-; right; left; split; [reflexivity|cbn; field]|].
    destruct (Ascii.eqb "Z" k) eqn:K3; [apply Ascii.eqb_eq in K3; subst k; injection L as <-; vm_compute in E; injection E as <- <- <-; right; right; left; split; [reflexivity|cbn; field]|].
    destruct (Ascii.eqb "E" k) eqn:K4; [apply Ascii.eqb_eq in K4; subst k; injection L as <-; vm_compute in E; injection E as <- <- <-; right; right; right; split; [reflexivity|cbn; field]|].
    discriminate L. }
  refine (conj default_good (conj default_lin (conj default_sec (conj eq_refl (conj _ (conj Hh (conj _ (conj _ (conj _ (conj _ (conj _ (conj _ (conj _ _))))))))))))).
  - vm_compute. split; discriminate.
  - apply moderate_b_spec. vm_compute; reflexivity.
  - intros k lit _ L. destruct (decimal_of lit) as [[[s n] d]|] eqn:E.
    + destruct (decimal_LiteralValue _ _ _ _ E) as [_ V]. exists (sgn s * (IZR n / 10 ^ d)). split; [exact V|].
      assert (Q: Rabs (sgn s * (IZR n / 10 ^ d)) <= 1000).
      { apply Rabs_le. destruct (Lt _ _ _ L V) as [[_ ->]|[[_ ->]|[[_ ->]|[_ ->]]]]; lra. }
      eapply Rle_trans; [exact Q|]. apply Rle_trans with (bpow radix2 10); [change (bpow radix2 10) with 1024; lra|apply bpow_le; lia].
    + exfalso. change (gl line69) with [("G"%char, tx "0"); ("X"%char, tx "30.5"); ("Z"%char, tx "100"); ("E"%char, tx "-3")] in L. cbn [lookup] in L.
      repeat (destruct (Ascii.eqb _ k); [injection L as <-; vm_compute in E; discriminate E|]). discriminate L.
  - left. split; [|reflexivity]. assert (U := history_units acos default_config _ _ _ Hh).
    destruct U as [U|U]; [exact U|]. exfalso.
    assert (E: f_eq (m_convert m) (f_ofZ 1) = true) by (vm_compute; reflexivity).
    rewrite U in E. vm_compute in E. discriminate E.
  - vm_compute; reflexivity.
  - cbn [bounded ax4]. unfold bounded. cbn [ax4]. unfold bd. change (bpow radix2 15) with 32768. repeat split; try assumption; apply Rabs_le; lra.
  - split.
    + intros a lit x L V. unfold origin. rewrite Ab. destruct (Lt _ _ _ L V) as [[K ->]|[[K ->]|[[K ->]|[K ->]]]]; destruct a; try discriminate K; cbn [ax4 ax axis_letter table default_config] in *; change (num (F64 acos)) with f64 in *; simpl (IZR _); lra.
    + intros lit x L V. unfold origin. rewrite Ab. cbn [ax4]. destruct (Lt _ _ _ L V) as [[K ->]|[[K ->]|[[K ->]|[K ->]]]]; try discriminate K. change (num (F64 acos)) with f64 in *. apply Rabs_le. lra.
  - split.
    + intros lit x L V. destruct (Lt _ _ _ L V) as [[K _]|[[K _]|[[K _]|[K _]]]]; discriminate K.
    + split; [exact Fv|]. eapply Rle_trans; [apply Lv|]. apply Rle_trans with (bpow radix2 11); [change (bpow radix2 11) with 2048; lra|apply bpow_le; lia].
  - intros l ev e _. discriminate.
Qed.
