(** Lines of numbers are answered (C28): no exception escapes from a line whose words
    are numbers of moderate size and which is not an arc, if the hardware raises
    none. *)
From Coq Require Import String Ascii ZArith Bool Reals Lra Lia List Psatz.
From Flocq Require Import Core BinarySingleNaN.
From Verif Require Import PyBase PyNum PyFloatFacts Config Coordinates Pulses PulseSpec GCode GCodeSpec WordFacts GMachine GMachineProofs MachineFacts MachineRel MachineHist MachineFloat Decimal MachinePos MachineArc MachineWork FloatRel LinearLaw LinearFloat LinearFloatRun LinearFloatLimit StraightRun MainLoop MainSpec MainProofs.
From Coq Require Import List.
From Flocq Require Import Core.
Import ListNotations.
Local Open Scope R_scope.

(** Every word of the line is a number, of at most 2^60. *)
Definition numbers (g : gcode) : Prop := forall k lit, lookup g k = Some lit -> exists x, LiteralValue lit x /\ Rabs x <= bpow radix2 60.
(** The line does not name the extruder. *)
Definition no_extruder (g : gcode) : Prop := lookup g "E"%char = None.
(** Hardware that raises nothing. *)
Definition calm {N : PyNum} (hw : hw_oracle N) : Prop := forall l ev e, hw l ev <> HRaise e.

Section A.
Variable acos : f64 -> f64.
Notation N := (F64 acos).
Variable cfg : config.
Hypothesis Hcfg : good_cfg cfg.
Hypothesis Hlin : lin_cfg cfg.
Hypothesis Hsec : sec_limits cfg.
Hypothesis Hauto : auto_velocity cfg = true.
Hypothesis Hmin : (1 <= min_velocity_min cfg <= quad_min (max_velocity_min cfg))%Z.
Hypothesis Hspin : (0 < spindle_max_rpm cfg <= 2 ^ 53)%Z.
Variable hw : hw_oracle N.
Hypothesis Hhw : calm hw.
Notation p a := (ax a (ppm cfg)).
Notation t a := (table cfg a).
Notation acfg := (acfg cfg Hcfg).
Notation at_step := (at_step acos cfg).
Notation on_table := (on_table acos cfg).

Definition fine {A} (r : res A) : Prop := match r with Ok _ => True | Raise e => caught e = true end.

(** The state between lines; with [b] the extruder has never moved. *)
Record settled (b : bool) (m : machine N) : Prop := {
  st_table : on_table m;
  st_extruder : b = true -> dec 0 (qe (m_position m)) /\ dec 0 (qe (m_local m));
  st_feed : fin (m_velocity m) /\ val (m_velocity m) <= bpow radix2 60
}.
Definition safe_at {A} (b : bool) (m : machine N) (c : M N A) : Prop :=
  forall l m' l' r, c m l = (m', l', r) -> settled b m -> fine r /\ settled b m'.
Definition safe {A} (b : bool) (c : M N A) : Prop := forall m, safe_at b m c.

Lemma safe_ret {A} b (a : A) : safe b (ret a).
Proof. intros m l m' l' r H I. apply ret_inv in H. destruct H as (-> & -> & ->). split; [exact Logic.I|exact I]. Qed.
Lemma safe_lift {A} b (x : res A) : fine x -> safe b (lift x).
Proof. intros F m l m' l' r H I. apply lift_inv in H. destruct H as (-> & -> & ->). split; assumption. Qed.
Lemma safe_throw {A} b s : safe b (throw (A:=A) (GMachineException s)).
Proof. intros m l m' l' r H I. apply throw_inv in H. destruct H as (-> & -> & ->). split; [reflexivity|exact I]. Qed.
Lemma safe_fail b x s : safe b (fail_if x s).
Proof. unfold fail_if. destruct x; [apply safe_throw|apply safe_ret]. Qed.
Lemma safe_call b ev : safe b (call hw ev).
Proof.
  intros m l m' l' r H I. unfold call in H. destruct (hw l ev) as [x|e] eqn:E; [|exfalso; exact (Hhw _ _ _ E)].
  injection H as <- <- <-. split; [exact Logic.I|exact I].
Qed.
Lemma safe_measure b h : safe b (measure_or_fail hw h).
Proof.
  intros m l m' l' r H I. unfold measure_or_fail, call in H. destruct (hw l (EMeasure h)) as [x|e] eqn:E; [|exfalso; exact (Hhw _ _ _ E)].
  injection H as <- <- <-. split; [exact Logic.I|exact I].
Qed.
Lemma safe_measure_opt b h : safe b (measure_opt hw h).
Proof.
  intros m l m' l' r H I. unfold measure_opt, call in H. destruct (hw l (EMeasure h)) as [x|e] eqn:E; [|exfalso; exact (Hhw _ _ _ E)].
  injection H as <- <- <-. split; [exact Logic.I|exact I].
Qed.
Lemma safe_modify b m f : (settled b m -> settled b (f m)) -> safe_at b m (modify f).
Proof. intros F l m' l' r H I. apply modify_inv in H. destruct H as (-> & -> & ->). split; [exact Logic.I|auto]. Qed.
Lemma safe_bind_at {A B} b m (c : M N A) (k : A -> M N B) : safe_at b m c -> (forall a, safe b (k a)) -> safe_at b m (bind c k).
Proof.
  intros H1 H2 l m' l' r H I. apply bind_inv in H. destruct H as [(e & H & ->)|(a & m1 & l1 & Ha & Hb)].
  - exact (H1 _ _ _ _ H I).
  - destruct (H1 _ _ _ _ Ha I) as [_ I1]. exact (H2 a _ _ _ _ _ Hb I1).
Qed.
Lemma safe_bind {A B} b (c : M N A) (k : A -> M N B) : safe b c -> (forall a, safe b (k a)) -> safe b (bind c k).
Proof. intros H1 H2 m. apply safe_bind_at; auto. Qed.
Lemma safe_gets {B} b m (k : machine N -> M N B) : safe_at b m (k m) -> safe_at b m (bind gets k).
Proof.
  intros H l m' l' r E. apply bind_inv in E. destruct E as [(e & E & _)|(a & m1 & l1 & Ha & Hb)].
  - apply gets_inv in E. destruct E as (_ & _ & E). discriminate.
  - apply gets_inv in Ha. destruct Ha as (-> & -> & E). injection E as ->. exact (H _ _ _ _ Hb).
Qed.
Lemma safe_lift_bind {A B} b m (x : res A) (k : A -> M N B) : fine x -> (forall a, x = Ok a -> safe_at b m (k a)) -> safe_at b m (bind (lift x) k).
Proof.
  intros F H l m' l' r E I. apply bind_inv in E. destruct E as [(e & E & ->)|(a & m1 & l1 & Ha & Hb)].
  - apply lift_inv in E. destruct E as (-> & -> & E). subst x. split; [exact F|exact I].
  - apply lift_inv in Ha. destruct Ha as (-> & -> & E). exact (H a (eq_sym E) _ _ _ _ Hb I).
Qed.

Lemma safe_throw_bind {A B} b m s (k : A -> M N B) : safe_at b m (bind (throw (GMachineException s)) k).
Proof. intros l m' l' r H I. unfold bind, throw in H. injection H as <- <- <-. split; [reflexivity|exact I]. Qed.
Lemma safe_ret_bind {A B} b m a (k : A -> M N B) : safe_at b m (k a) -> safe_at b m (bind (ret a) k).
Proof. intros K. exact K. Qed.
Lemma safe_then {A} b m (c : M N A) (f : machine N -> machine N) : safe_at b m c -> (forall m, settled b m -> settled b (f m)) -> safe_at b m (bind c (fun _ => modify f)).
Proof. intros K F. apply safe_bind_at; [exact K|]. intros _ m1. apply safe_modify, F. Qed.

(* ---------- straight moves ---------- *)
Lemma settled_moved b m (d d0 : quad N) : round_to_grid cfg d = Ok d0 -> in_box cfg (cadd (m_position m) d0) = true ->
  (b = true -> dec 0 (qe d0)) -> settled b m -> settled b (set_position m (cadd (m_position m) d0)).
Proof.
  intros Er Eb E0 [Ht He Hf]. split; [| |exact Hf].
  - intros a. destruct (Ht a) as (n & Hn). destruct (linear_axis acos cfg Hcfg m d d0 a n Hn Er Eb) as (j & _ & _ & H). eauto.
  - intros B. destruct (He B) as [E1 E2]. split; [|exact E2]. cbn [m_position set_position].
    exact (dec_add 0 0 _ _ E1 (E0 B) ltac:(unfold small; lia) ltac:(unfold small; lia)).
Qed.
Lemma grid_zero (x y : f64) j m : gridded (qat m (ppm cfg)) x y j -> val x = 0 -> dec 0 y.
Proof.
  intros G Z. destruct (gridded_val cfg Hlin m _ _ _ G) as [F _]. split; [exact F|]. destruct G as (b & Hb & -> & _ & _ & Zj). rewrite (Zj Z).
  destruct (f_ofZ_val 0) as [F0 V0]; [lia|].
  destruct (f_mul_val (f_ofZ 0) b F0 (proj1 Hb)) as [Fm Vm]; [rewrite V0, Rmult_0_l, Rabs_R0; apply big_27; b2n; lra|]. rewrite V0, Rmult_0_l, rd_0 in Vm.
  rewrite (proj2 (dec_close_inv _ Fm)), Vm. unfold dec10. rewrite Rmult_0_l. change 0 with (IZR 0) at 1. rewrite ZnearestE_IZR. reflexivity.
Qed.
Lemma move_safe b m (d : quad f64) (v : f64) : (forall mo, bd 16 (qat mo d)) -> Rabs (val (qe d)) <= 4000 -> (b = true -> val (qe d) = 0) ->
  fin v -> 1 <= val v <= bpow radix2 60 -> safe_at b m (move_linear (N:=N) cfg hw d v).
Proof.
  intros Bd Be E0 Fv Bv l m' l' r H I. destruct (grid_round acos cfg Hlin d Bd) as (d0 & Er & G). change (quad (num N)) with (quad f64) in d0.
  assert (Z0: b = true -> dec 0 (qe d0)) by (intros B; destruct (G ME) as (j & Gj); exact (grid_zero _ _ _ ME Gj (E0 B))).
  assert (K: fine r).
  { destruct (in_box cfg (cadd (N:=N) (m_position m) d0)) eqn:Eb.
    - destruct I as [Ht _ _]. destruct (Ht AX) as (nx & Ax). destruct (Ht AY) as (ny & Ay). destruct (Ht AZ) as (nz & Az).
      set (n := fun a => match a with AX => nx | AY => ny | AZ => nz end). assert (An: forall a, at_step m a (n a)) by (intros []; assumption).
      destruct (move_runs_box acos cfg Hcfg Hlin Hsec Hauto hw m d v l n) as (m1 & es & E & _); auto.
      + intros l0 ev e _. apply Hhw.
      + intros d1 a Er1. assert (E: Ok d1 = Ok d0) by exact (eq_trans (eq_sym Er1) Er). injection E as ->.
        destruct (linear_axis acos cfg Hcfg m d d0 a (n a) (An a) Er Eb) as (j & Dj & _ & Hj). exists j. split; [exact Dj|apply Hj].
      + assert (X: (m1, l ++ es, @Ok unit tt) = (m', l', r)) by exact (eq_trans (eq_sym E) H). injection X as _ _ <-. exact Logic.I.
    - unfold move_linear in H. unfold bind at 1, lift at 1 in H. change (num N) with f64 in *. rewrite Er in H. destruct (is_zero (N:=N) d0).
      + apply ret_inv in H. destruct H as (_ & _ & ->). exact Logic.I.
      + unfold check_delta in H. unfold bind at 1 in H. unfold bind at 1 in H. unfold gets at 1, fail_if in H.
        change (is_in_aabb (N:=N) (cadd (N:=N) (m_position m) d0) coords0 (table_corner cfg)) with (in_box cfg (cadd (N:=N) (m_position m) d0)) in H.
        rewrite Eb in H. cbn [negb throw] in H. injection H as _ _ <-. reflexivity. }
  split; [exact K|]. apply move_linear_inv in H. destruct H as [d1 _ _|d1 g b1 E1 _ Eb _ _ _| |]; auto.
  assert (E: Ok d1 = Ok d0) by exact (eq_trans (eq_sym E1) Er). injection E as ->. now apply (settled_moved b m d d0).
Qed.

(* ---------- words ---------- *)
Lemma numbers_readable g : numbers g -> readable g.
Proof. intros H k lit _ L. exact (H k lit L). Qed.
Lemma get_number g k (d mu : N) : numbers g -> fine (get (N:=N) g k d mu).
Proof.
  intros R. destruct (lookup g k) as [lit|] eqn:L; [|now rewrite get_missing]. destruct (R k lit L) as (x & V & B).
  destruct (get_value acos g k lit x d mu L V) as (y & E & _); [eapply Rle_trans; [exact B|apply bpow_le; lia]|now rewrite E].
Qed.
Lemma spindle_div (s : f64) : fine (f_div (f_mul (f_ofZ 100) s) (f_ofZ (spindle_max_rpm cfg))).
Proof.
  unfold f_div. destruct (f_ofZ_val (spindle_max_rpm cfg)) as [F V]; [lia|].
  destruct (is_zero_f (f_ofZ (spindle_max_rpm cfg))) eqn:Z; [|exact Logic.I]. exfalso.
  destruct (f_ofZ (spindle_max_rpm cfg)) as [s0|s0| |s0 mx ex Hx]; try discriminate Z. cbn in V. apply eq_IZR in V. lia.
Qed.

Ltac go :=
  repeat first
    [ apply safe_ret | apply safe_fail | apply safe_throw | apply safe_call | apply safe_measure | apply safe_measure_opt
    | apply safe_lift; first [now apply get_number|apply spindle_div]
    | apply safe_bind; [|intros ?]
    | match goal with
      | |- safe _ (if ?b then _ else _) => destruct b
      | |- safe _ (match ?x with _ => _ end) => destruct x
      end ].
Lemma settled_same b (m m' : machine N) : m_position m' = m_position m -> m_local m' = m_local m -> m_velocity m' = m_velocity m -> settled b m -> settled b m'.
Proof. intros E1 E2 E3 [A B C]. split; [intros a; destruct (A a) as (n & H); exists n; unfold MachinePos.at_step; rewrite E1; exact H| |]; rewrite ?E1, ?E2, ?E3; auto. Qed.
Ltac same := intros ?; apply safe_modify; apply settled_same; reflexivity.
Lemma safe_spindle b s : safe b (spindle (N:=N) cfg hw s).
Proof. unfold spindle. apply safe_bind; [apply safe_call|intros _]. apply safe_bind; [apply safe_lift, spindle_div|intros ?]. go. Qed.
Lemma safe_fan b x : safe b (fan (N:=N) hw x).
Proof. unfold fan. go. same. Qed.
Lemma safe_heat b h x w : safe b (heat (N:=N) cfg hw h x w).
Proof.
  unfold heat. apply safe_bind; [apply safe_measure|intros _]. intros m. apply safe_gets. apply safe_bind_at; [destruct (heater_target m h)|intros _].
  - apply safe_bind_at; [apply safe_call|intros _]. same.
  - apply safe_ret.
  - destruct (_ =? _)%num; [apply safe_ret|]. apply safe_bind; [destruct h; [destruct (auto_fan cfg); [apply safe_fan|]|]; apply safe_ret|intros _].
    apply safe_bind; [apply safe_call|intros _]. apply safe_bind; [same|intros _]. go.
Qed.

Lemma table_pos m a : on_table m -> fin (ax a (m_position m)) /\ 0 <= val (ax a (m_position m)) <= 4096.
Proof.
  intros Ht. destruct (Ht a) as (n & Hn). destruct (at_step_dec acos cfg Hcfg _ _ _ Hn) as [[F V] S]. split; [exact F|].
  assert (P0: 0 <= IZR (n * step (p a)) / e10 <= 4096).
  { apply IZR_le in S. rewrite abs_IZR, (mult_IZR 4096) in S. assert (0 <= IZR (n * step (p a))).
    { apply IZR_le. destruct Hn as [_ I0]. unfold inside in I0. destruct (acfg a) as (Hp & _). assert (Hs := step_mul _ _ (acfg a)). nia. }
    rewrite Rabs_pos_eq in S by assumption. unfold e10. lra. }
  rewrite V. rewrite <- (rd_IZR 0) at 1 by lia. rewrite <- (rd_IZR 4096) by lia. split; apply rd_le; apply P0.
Qed.
Lemma neg_bd m a : on_table m -> bd 16 (f_rnd10 (Bopp (ax a (m_position m)))).
Proof.
  intros Ht. destruct (Ht a) as (n & Hn). destruct (at_step_dec acos cfg Hcfg _ _ _ Hn) as [D S].
  assert (D' := dec_rnd10 _ _ (dec_opp _ _ D) ltac:(unfold small; lia)). split; [apply D'|]. rewrite (proj2 D'). apply rd_abs_le; [lia|].
  apply IZR_le in S. rewrite abs_IZR, (mult_IZR 4096) in S. rewrite opp_IZR. unfold Rdiv. rewrite Rabs_mult, Rabs_Ropp, (Rabs_pos_eq (/ e10)) by (unfold e10; lra).
  unfold e10. change (bpow radix2 16) with 65536. lra.
Qed.
Lemma zero_dec : dec 0 (f_rnd10 (f_ofZ 0)).
Proof. apply dec_rnd10; [exact dec_0|unfold small; lia]. Qed.
Lemma zero_bd : bd 16 (f_rnd10 (f_ofZ 0)).
Proof. split; [apply zero_dec|]. rewrite (dec_zero_val _ zero_dec), Rabs_R0. apply bpow_ge_0. Qed.
Lemma max_ok (mo : motor) : fin (f_ofZ (qat mo (max_velocity_min cfg))) /\ 1 <= val (f_ofZ (qat mo (max_velocity_min cfg))) <= bpow radix2 60.
Proof.
  destruct (Hsec mo) as (a & E & B). destruct (f_ofZ_val (qat mo (max_velocity_min cfg))) as [F V]; [rewrite E; lia|]. split; [exact F|]. rewrite V, E.
  split; [apply (IZR_le 1); lia|]. apply Rle_trans with (bpow radix2 16); [change (bpow radix2 16) with (IZR 65536); apply IZR_le; lia|apply bpow_le; lia].
Qed.
Lemma home_safe b (x y z : bool) : safe b (safe_zero (N:=N) cfg hw x y z).
Proof.
  intros m. unfold safe_zero. apply safe_gets.
  assert (Q: forall (m : machine N) a c e v, settled b m -> (a = f_rnd10 (f_ofZ 0) \/ a = f_rnd10 (Bopp (qx (m_position m)))) -> (c = f_rnd10 (f_ofZ 0) \/ c = f_rnd10 (Bopp (qy (m_position m)))) ->
    (e = f_rnd10 (f_ofZ 0) \/ e = f_rnd10 (Bopp (qz (m_position m)))) -> fin v -> 1 <= val v <= bpow radix2 60 -> safe_at b m (move_linear (N:=N) cfg hw (Quad a c e (f_rnd10 (f_ofZ 0))) v)).
  { intros m0 a c e v I Ha Hc He Fv Bv. apply move_safe; auto.
    - assert (Ht := st_table b m0 I). intros []; cbn [qat].
      + destruct Ha as [Hq|Hq]; subst; [apply zero_bd|exact (neg_bd m0 AX Ht)].
      + destruct Hc as [Hq|Hq]; subst; [apply zero_bd|exact (neg_bd m0 AY Ht)].
      + destruct He as [Hq|Hq]; subst; [apply zero_bd|exact (neg_bd m0 AZ Ht)].
      + apply zero_bd.
    - cbn [qe]. rewrite (dec_zero_val _ zero_dec), Rabs_R0. lra. }
  assert (Vx := max_ok MX). assert (Vy := max_ok MY). assert (Vz := max_ok MZ).
  assert (Vxy: fin (f_ofZ (Z.min (qx (max_velocity_min cfg)) (qy (max_velocity_min cfg)))) /\ 1 <= val (f_ofZ (Z.min (qx (max_velocity_min cfg)) (qy (max_velocity_min cfg)))) <= bpow radix2 60).
  { cbn [qat] in *. destruct (Z.min_spec (qx (max_velocity_min cfg)) (qy (max_velocity_min cfg))) as [[_ E]|[_ E]]; rewrite E; assumption. }
  apply safe_bind_at.
  - intros l m' l' r H I. revert l m' l' r H I.
    assert (W: forall c : M N unit, (settled b m -> safe_at b m c) -> safe_at b m c) by (intros c K l m' l' r H I; exact (K I _ _ _ _ H I)).
    apply W. intros I. destruct (x && negb y); [|destruct (y && negb x); [|destruct (x && y); [|apply safe_ret]]]; (apply Q; [exact I|tauto|tauto|tauto|try apply Vx; apply Vxy|try apply Vx; apply Vxy]).
  - intros _. destruct z; [|apply safe_ret]. intros m0. apply safe_gets. intros l m' l' r H I. revert l m' l' r H I.
    assert (W: forall c : M N unit, (settled b m0 -> safe_at b m0 c) -> safe_at b m0 c) by (intros c K l m' l' r H I; exact (K I _ _ _ _ H I)).
    apply W. intros I. apply Q; [exact I|tauto|tauto|tauto|apply Vz|apply Vz].
Qed.

(* ---------- commands ---------- *)
Lemma offset_safe b m g : numbers g -> (b = true -> no_extruder g) ->
  safe_at b m (bind gets (fun m => if has_coordinates g then
      bind (lift (get_coordinates g (csub (m_position m) (m_local m)) (m_convert m))) (fun c => modify (fun m => set_local m (csub (m_position m) c)))
    else modify (fun m => set_local m (m_position m))) : M N unit).
Proof.
  intros R Ne. apply safe_gets. destruct (has_coordinates g).
  - apply safe_lift_bind.
    + destruct (coordinates_readable acos g (csub (m_position m) (m_local m)) (m_convert m) (numbers_readable g R)) as (c & ->). exact I.
    + intros c Ec. apply safe_modify. intros [A B C]. split; [exact A| |exact C]. intros Eb. destruct (B Eb) as [B1 B2]. split; [exact B1|]. cbn [m_local set_local].
      destruct (get_coordinates_axis acos _ _ _ _ AE Ec) as (y & Hy & Ey). cbn [ax4 letter4] in *. rewrite get_missing in Hy by exact (Ne Eb). injection Hy as <-.
      assert (D0: dec 0 (qe (csub (N:=N) (m_position m) (m_local m)))) by exact (dec_sub 0 0 _ _ B1 B2 ltac:(unfold small; lia) ltac:(unfold small; lia)).
      assert (D1 := dec_rnd10 _ _ D0 ltac:(unfold small; lia)). assert (D2: dec 0 (qe c)) by exact (eq_ind_r (dec 0) D1 Ey).
      exact (dec_sub 0 0 _ _ B1 D2 ltac:(unfold small; lia) ltac:(unfold small; lia)).
  - apply safe_modify. intros [A B C]. split; [exact A| |exact C]. intros Eb. destruct (B Eb) as [B1 B2]. split; exact B1.
Qed.
Lemma quad_min_ok : fin (f_ofZ (quad_min (max_velocity_min cfg))) /\ val (f_ofZ (quad_min (max_velocity_min cfg))) <= bpow radix2 60.
Proof.
  assert (B: (1 <= quad_min (max_velocity_min cfg) <= 60000)%Z). { split; [lia|]. destruct (Hsec MX) as (a & Ea & Ba). cbn [qat] in Ea. unfold quad_min. lia. }
  destruct (f_ofZ_val (quad_min (max_velocity_min cfg))) as [F V]; [lia|]. split; [exact F|]. rewrite V.
  apply Rle_trans with (bpow radix2 16); [change (bpow radix2 16) with (IZR 65536); apply IZR_le; lia|apply bpow_le; lia].
Qed.
Lemma reset_settled b m : settled b m -> settled b (reset (N:=N) cfg m).
Proof.
  intros [A B _]. split; [exact A| |exact quad_min_ok]. intros Eb. split; [apply (B Eb)|]. exact zero_dec.
Qed.
Lemma coarse_bd x : coarse x -> bd 16 x. Proof. intros (F & _ & B). split; assumption. Qed.
Lemma exec_safe b m g c (d rr : quad f64) (v : f64) : numbers g -> (b = true -> no_extruder g) -> is_arc c = false ->
  (forall mo, coarse (qat mo d)) -> Rabs (val (qe d)) <= 4000 -> (b = true -> val (qe d) = 0) -> fin v -> 1 <= val v <= bpow radix2 60 ->
  safe_at b m (exec_cmd (N:=N) cfg hw g c d rr v).
Proof.
  intros R Ne Na Co Be E0 Fv Bv. assert (Bd: forall mo, bd 16 (qat mo d)) by (intros mo; apply coarse_bd, Co).
  destruct c; try discriminate Na; cbn [exec_cmd].
  - destruct (rapid_ok acos cfg Hsec d Co) as (vl & Evl & Bvl). apply safe_lift_bind; [replace (rapid_velocity (N:=N) cfg d) with (Ok vl) by (symmetry; exact Evl); exact I|].
    intros v' Ev'. assert (E: Ok v' = Ok vl) by exact (eq_trans (eq_sym Ev') Evl). injection E as ->.
    destruct (f_ofZ_val vl) as [Fl Vl]; [lia|]. apply move_safe; auto. change (1 <= val (f_ofZ vl) <= bpow radix2 60). rewrite Vl. destruct Bvl as [b1 b2]. apply IZR_le in b1, b2. split; [exact b1|].
    eapply Rle_trans; [exact b2|]. apply Rle_trans with (bpow radix2 16); [change (bpow radix2 16) with 65536; lra|apply bpow_le; lia].
  - apply move_safe; auto.
  - revert m. change (safe b (let! _ <- fail_if (negb (has g "P")) "P is not specified"; let! p <- lift (get (N:=N) g "P" zero (ofZ 1)); fail_if (ltb p zero) "bad delay" ;; call hw EJoin ;; call hw (ESleep p) ;; ret tt)). go.
  - apply safe_modify, settled_same; reflexivity.
  - apply safe_modify, settled_same; reflexivity.
  - apply safe_modify, settled_same; reflexivity.
  - apply safe_modify, settled_same; reflexivity.
  - apply safe_modify, settled_same; reflexivity.
  - destruct (if negb _ then _ else _) as [[x y] z]. apply safe_bind_at; [apply home_safe|intros _]. go.
  - apply safe_modify. intros [A B C]. split; [exact A| |exact C]. intros Eb. split; [apply (B Eb)|exact zero_dec].
  - apply safe_modify, settled_same; reflexivity.
  - apply safe_modify, settled_same; reflexivity.
  - apply offset_safe; assumption.
  - apply safe_gets. apply safe_bind_at; [apply safe_lift; now apply get_number|intros s]. apply safe_bind; [apply safe_fail|intros _]. apply safe_bind; [apply safe_spindle|intros _]. same.
  - apply safe_spindle.
  - apply safe_modify. apply reset_settled.
  - apply safe_bind_at; [apply safe_call|intros _; apply safe_ret].
  - apply safe_bind_at; [apply safe_fail|intros _]. apply safe_bind; [apply safe_lift; now apply get_number|intros x]. apply safe_bind; [apply safe_fail|intros _]. apply safe_heat.
  - apply safe_bind_at; [apply safe_measure_opt|intros e]. apply safe_bind; [apply safe_measure_opt|intros e2]. apply safe_fail.
  - apply safe_bind_at; [apply safe_lift; now apply get_number|intros s]. apply safe_fan.
  - apply safe_fan.
  - apply safe_bind_at; [apply safe_call|intros _; apply safe_ret].
  - apply safe_bind_at; [apply safe_call|intros _]. go.
  - apply safe_gets. apply safe_fail.
  - apply safe_gets. apply safe_fail.
Qed.

(* ---------- lines ---------- *)
Lemma feed_read g (m : machine N) (v : f64) : numbers g -> fin (m_velocity m) /\ val (m_velocity m) <= bpow radix2 60 -> get (N:=N) g "F" (m_velocity m) (f_ofZ 1) = Ok v ->
  fin v /\ val v <= bpow radix2 60.
Proof.
  intros R [Fm Bm] E. destruct (lookup g "F") as [lit|] eqn:L.
  - destruct (R "F"%char lit L) as (x & V & B).
    destruct (get_value acos g "F" lit x (m_velocity m) (f_ofZ 1) L V) as (y & E' & Fy & Vy); [eapply Rle_trans; [exact B|apply bpow_le; lia]|].
    rewrite E' in E. injection E as <-. destruct one_val as [F1 V1].
    assert (By: Rabs (val y) <= bpow radix2 60) by (rewrite Vy; apply rd_abs_le; [lia|exact B]).
    destruct (f_mul_val y (f_ofZ 1) Fy F1) as [Fz Vz]. { rewrite V1, Rmult_1_r. eapply Rle_trans; [exact By|apply bpow_le; lia]. }
    rewrite V1, Rmult_1_r, rd_val in Vz. change (mul (p:=N) y (f_ofZ 1)) with (f_mul y (f_ofZ 1)). split; [exact Fz|]. eapply Rle_trans; [right; exact Vz|]. eapply Rle_trans; [apply Rle_abs|exact By].
  - rewrite get_missing in E by exact L. injection E as <-. split; assumption.
Qed.

(** A line after a history of moderate lines. *)
Lemma line_safe (P : hw_oracle N -> option gcode -> Prop) b m es0 g u l m' l' r :
  (forall hw gc, P hw gc -> moderate gc) -> history_where P cfg m es0 -> moderate (Some g) -> numbers g -> no_arc (Some g) ->
  unit_factor acos m u -> (b = true -> no_extruder g) -> bounded acos m AE ->
  (forall lit x, lookup g "E" = Some lit -> LiteralValue lit x -> Rabs (origin acos m AE + x * u - val (qe (m_position m))) <= 3999) ->
  settled b m -> do_command cfg hw (Some g) m l = (m', l', r) -> fine r /\ settled b m'.
Proof.
  intros HP Hh Hg R Na U Ne Be Xe Hs H.
  assert (R' := numbers_readable g R).
  destruct (delta_readable acos g m R') as (delta & Ed). destruct (radius_readable acos g (coords0 (N:=N)) (m_convert m) R') as (rr & Er).
  assert (Bd4: forall a, bounded acos m a).
  { intros [a|]; [|exact Be]. destruct (history_tame acos cfg Hcfg P m es0 a HP Hh) as (k & l0 & Dk & Dl & Sk & Sl). cbn [ax4] in *.
    assert (Q: forall z y, dec z y -> small15 z -> bd 15 y).
    { intros z y [F V] S. split; [exact F|]. rewrite V. apply rd_abs_le; [lia|]. unfold small15 in S. apply IZR_le in S. rewrite mult_IZR, abs_IZR in S.
      unfold Rdiv. rewrite Rabs_mult, (Rabs_pos_eq (/ e10)) by (unfold e10; lra). change (bpow radix2 15) with 32768. unfold e10. lra. }
    split; [eapply Q; eauto|eapply Q; eauto]. }
  assert (DN: forall a, exists y, ax4 a delta = f_rnd10 y /\ fin y /\ (lookup g (letter4 a) = None -> Rabs (val (ax4 a delta)) <= / 1000000000) /\
    (forall lit x, lookup g (letter4 a) = Some lit -> LiteralValue lit x -> Rabs (val (ax4 a delta) - (origin acos m a + x * u - val (ax4 a (m_position m)))) <= / 1000000000))
    by (intros a; apply (delta_near acos g m delta a u); auto; apply Hg).
  assert (DE: Rabs (val (qe delta)) <= 4000).
  { destruct (DN AE) as (y & _ & _ & C0 & C). cbn [ax4 letter4] in *. change (num N) with f64 in *. destruct (lookup g "E") as [lit|] eqn:L; [|eapply Rle_trans; [apply C0; reflexivity|lra]].
    destruct (R _ _ L) as (x & V & _). specialize (C lit x eq_refl V). assert (B := Xe lit x eq_refl V). change (num N) with f64 in *.
    set (w := origin acos m AE + x * u - val (qe (m_position m))) in *. clearbody w. apply Rabs_le_inv in C, B. apply Rabs_le. lra. }
  assert (DA: forall a, Rabs (val (ax a delta)) <= 65536).
  { intros a. destruct (DN (XYZ a)) as (y & _ & _ & C0 & C). cbn [ax4 letter4] in *. destruct (lookup g (axis_letter a)) as [lit|] eqn:L; [|eapply Rle_trans; [apply C0; reflexivity|lra]].
    destruct (R _ _ L) as (x & V & _). specialize (C lit x eq_refl V). assert (Bx := proj1 Hg (axis_letter a) lit x (letter4_in (XYZ a)) L V).
    destruct (unit_factor_close acos m u U) as (_ & _ & Bu). assert (Bxu: Rabs (x * u) <= 26000).
    { rewrite Rabs_mult. apply Rle_trans with (1000 * 26); [|lra]. apply Rmult_le_compat; auto using Rabs_pos. rewrite Rabs_pos_eq; lra. }
    destruct (table_pos m a (st_table b m Hs)) as [_ Bp]. destruct (Bd4 (XYZ a)) as [_ [_ Bl]]. cbn [ax4] in Bl. change (bpow radix2 15) with 32768 in Bl.
    assert (Bo: Rabs (origin acos m (XYZ a)) <= 32768). { unfold origin. cbn [ax4]. destruct (m_absolute m); [exact Bl|]. change (num N) with f64 in *. apply Rabs_le. lra. }
    change (num N) with f64 in *. set (o := origin acos m (XYZ a)) in *. clearbody o. set (D := val (ax a delta)) in *. clearbody D. set (q := val (ax a (m_position m))) in *. clearbody q. set (w := x * u) in *. clearbody w.
    apply Rabs_le_inv in C, Bo, Bxu. apply Rabs_le. lra. }
  assert (Co: forall mo, coarse (qat mo delta)).
  { assert (Q: forall a, Rabs (val (ax4 a delta)) <= 65536 -> coarse (ax4 a delta)).
    { intros a B. destruct (DN a) as (y & E & Fy & _). revert B. rewrite E. now apply rnd_coarse. }
    intros mo. destruct mo; [apply (Q (XYZ AX)), (DA AX)|apply (Q (XYZ AY)), (DA AY)|apply (Q (XYZ AZ)), (DA AZ)|apply (Q AE)]. eapply Rle_trans; [exact DE|lra]. }
  assert (D0: b = true -> val (qe delta) = 0).
  { intros Eb. assert (L := Ne Eb). destruct (st_extruder b m Hs Eb) as [E1 E2].
    assert (T: tame acos m AE) by (exists 0%Z, 0%Z; repeat split; try apply E1; try apply E2; unfold small15; lia).
    destruct (m_absolute m) eqn:Ab; [exact (dec_zero_val _ (unnamed_delta acos g m delta AE Ab Ed T L))|].
    unfold command_delta in Ed. rewrite Ab in Ed. destruct (get_coordinates_axis acos _ _ _ _ AE Ed) as (y & Hy & Ec). cbn [ax4 letter4] in *. rewrite get_missing in Hy by exact L. injection Hy as <-.
    rewrite Ec. apply dec_zero_val. apply dec_rnd10; [exact zero_dec|unfold small; lia]. }
  assert (S: safe_at b m (do_command cfg hw (Some g))); [|exact (S _ _ _ _ H Hs)].
  unfold do_command. apply safe_gets. apply safe_lift_bind; [rewrite Ed; exact I|]. intros d Ed'. rewrite Ed in Ed'. injection Ed' as <-.
  apply safe_lift_bind; [now apply get_number|]. intros v Ev. destruct (feed_read g m v R (st_feed b m Hs) Ev) as [Fv Bv].
  apply safe_lift_bind; [rewrite Er; exact I|]. intros r0 Er'. rewrite Er in Er'. injection Er' as <-. change (num N) with f64 in *.
  destruct (f_ofZ_val (min_velocity_min cfg)) as [F0 V0]. { assert (quad_min (max_velocity_min cfg) <= 60000)%Z; [|lia]. destruct (Hsec MX) as (a & Ea & Ba). cbn [qat] in Ea. unfold quad_min. lia. }
  unfold fail_if. cbn [ltb F64 ofZ]. destruct (f_lt v (f_ofZ (min_velocity_min cfg))) eqn:Lt.
  - apply safe_throw_bind.
  - apply safe_ret_bind. apply f_lt_false in Lt; auto. rewrite V0 in Lt. assert (M1 := IZR_le _ _ (proj1 Hmin)).
    apply safe_then.
    + destruct (effective_command g) as [t0|] eqn:Ec; [|apply safe_ret]. destruct (assoc_text t0 command_table) as [c|] eqn:Ea; [|apply safe_throw].
      apply exec_safe; auto; [exact (no_arc_cmd g t0 c Na Ec Ea)|lra].
    + intros m1 I1. destruct I1 as [A B _]. split; [exact A|exact B|]. split; [exact Fv|exact Bv].
Qed.
End A.

(** Coordinates of at most 1000, no word that is not a number, no arc, no extruder. *)
Definition ordinary (g : gcode) : Prop := words_at_most coord_letters 1000 g /\ numbers g /\ no_arc (Some g) /\ no_extruder g.
Definition ordinary_line (line : text) : Prop := match parse_line line with Ok (Some g) => ordinary g | _ => True end.

Section S.
Variable acos : f64 -> f64.
Notation N := (F64 acos).
Variable cfg : config.
Hypothesis Hcfg : good_cfg cfg.
Hypothesis Hlin : lin_cfg cfg.
Hypothesis Hsec : sec_limits cfg.
Hypothesis Hauto : auto_velocity cfg = true.
Hypothesis Hmin : (1 <= min_velocity_min cfg <= quad_min (max_velocity_min cfg))%Z.
Hypothesis Hspin : (0 < spindle_max_rpm cfg <= 2 ^ 53)%Z.

Lemma line_answered_ok (P : hw_oracle N -> option gcode -> Prop) (hw : hw_oracle N) (m : machine N) es0 g u :
  (forall hw gc, P hw gc -> moderate gc) -> history_where P cfg m es0 -> calm hw -> moderate (Some g) -> numbers g -> no_arc (Some g) ->
  unit_factor acos m u -> bounded acos m AE ->
  (forall lit x, lookup g "E" = Some lit -> LiteralValue lit x -> Rabs (origin acos m AE + x * u - val (qe (m_position m))) <= 3999) ->
  fin (m_velocity m) -> val (m_velocity m) <= bpow radix2 60 ->
  exists m' es r, run_command cfg hw (Some g) m = (m', es, r) /\ fine r.
Proof.
  intros HP Hh Hc Hg R Na U Be Xe Fv Bv. destruct (run_command cfg hw (Some g) m) as [[m' es] r] eqn:E. exists m', es, r. split; [reflexivity|].
  refine (proj1 (line_safe acos cfg Hcfg Hlin Hsec Hauto Hmin Hspin hw Hc P false m es0 g u [] m' es r HP Hh Hg R Na U _ Be Xe _ E)); [discriminate|].
  split; [|discriminate|split; assumption].
  apply (history_on_table acos cfg Hcfg P m es0); auto. intros hw0 gc H. now apply moderate_radius, (HP hw0).
Qed.

Definition Ordinary : hw_oracle N -> option gcode -> Prop := fun _ gc => match gc with Some g => ordinary g | None => True end.
Lemma Ordinary_moderate hw gc : Ordinary hw gc -> moderate gc.
Proof. destruct gc as [g|]; [|intros _; split; [exact I|left; exact I]]. intros (W & _ & Na & _). split; [exact W|left; exact Na]. Qed.

Variable hw : hw_oracle N.
Hypothesis Hhw : calm hw.
Definition good (s : session N) : Prop := history_where Ordinary cfg (s_machine s) (s_log s) /\ settled acos cfg true (s_machine s).
Lemma good0 : good (session0 cfg).
Proof.
  split; [constructor|]. split.
  - apply init_on_table; exact Hcfg.
  - intros _. split; exact zero_dec.
  - apply quad_min_ok; assumption.
Qed.
Lemma good_line line s s' r : ordinary_line line -> good s -> do_line cfg hw line s = (s', r) ->
  exists b, r = Ok b /\ s_out s' = s_out s ++ [b] /\ good s'.
Proof.
  intros O [Hh Hs] H. apply do_line_inv in H. destruct H as (g & m' & es & r0 & H & Em & El & Hr).
  assert (K: fine r0 /\ good s').
  { unfold good. rewrite Em, El. destruct H as [(Ep & H)|(e & _ & Ce & -> & -> & ->)].
    - unfold ordinary_line in O. rewrite Ep in O. assert (Hh': history_where Ordinary cfg m' (s_log s ++ es)) by (eapply h_step; [exact Hh| |exact H]; destruct g; exact O).
      destruct g as [g|].
      + assert (U: exists u, unit_factor acos (s_machine s) u). { destruct (history_units acos cfg _ _ _ Hh) as [U|U]; eexists; [left|right]; (split; [exact U|reflexivity]). }
        destruct U as (u & U). destruct O as (W & R & Na & Ne). destruct (st_extruder acos cfg true _ Hs eq_refl) as [E1 E2].
        assert (B0: forall x, dec 0 x -> bd 15 x). { intros x D. split; [apply D|]. rewrite (dec_zero_val _ D), Rabs_R0. apply bpow_ge_0. }
        assert (C: calm (hw_now hw s)) by (intros l ev e; apply Hhw).
        destruct (line_safe acos cfg Hcfg Hlin Hsec Hauto Hmin Hspin (hw_now hw s) C Ordinary true (s_machine s) (s_log s) g u [] m' es r0 Ordinary_moderate Hh) as [F I]; auto.
        * split; [exact W|left; exact Na].
        * split; [exact (B0 _ E1)|exact (B0 _ E2)].
        * intros lit x L. unfold no_extruder in Ne. congruence.
      + rewrite no_command_line in H. injection H as <- <- <-. split; [exact I|]. split; [exact Hh'|exact Hs].
    - split; [exact Ce|]. rewrite app_nil_r. split; assumption. }
  destruct K as [F G]. destruct r0 as [[]|e].
  - exists true. destruct Hr as [-> ->]. auto.
  - cbn [fine] in F. rewrite F in Hr. exists false. destruct Hr as [-> ->]. auto.
Qed.
Lemma good_program f ls s : Forall (fun l => ordinary_line (f l)) ls -> good s ->
  exists bs s', answered cfg hw f (map Line ls) s bs s' /\ s_out s' = s_out s ++ bs /\ good s'.
Proof.
  revert s. induction ls as [|l r IH]; intros s O G.
  - exists [], s. split; [constructor|]. rewrite app_nil_r. auto.
  - apply Forall_cons_iff in O. destruct O as [O Or]. destruct (do_line cfg hw (f l) s) as [s1 r1] eqn:E.
    destruct (good_line _ _ _ _ O G E) as (b & -> & E1 & G1). destruct (IH s1 Or G1) as (bs & s' & A & E2 & G2).
    exists (b :: bs), s'. split; [econstructor; eauto|]. split; [|exact G2]. rewrite E2, E1, <- app_assoc. reflexivity.
Qed.
Lemma good_file ls s : Forall (fun l => ordinary_line (strip l)) ls -> good s -> exists s', file_loop cfg hw (map Line ls) s = (s', Ok tt).
Proof.
  revert s. induction ls as [|l r IH]; intros s O G; cbn [map file_loop]; [eauto|].
  apply Forall_cons_iff in O. destruct O as [O Or]. destruct (do_line cfg hw (strip l) s) as [s1 r1] eqn:E.
  destruct (good_line _ _ _ _ O G E) as (b & -> & E1 & G1). destruct b; [now apply IH|eauto].
Qed.
Lemma calm_quiet : quiet_end hw.
Proof. intros l ev e H. exfalso. exact (Hhw _ _ _ H). Qed.
Lemma good_main ls : Forall (fun l => ordinary_line (strip l)) ls ->
  exists s', main cfg hw (File (map Line ls)) (session0 cfg) = (s', Some (Ok tt)) /\ all_off (s_log s').
Proof.
  intros O. destruct (good_file ls (session0 cfg) O good0) as (s1 & E).
  apply (main_all_off acos cfg hw (File (map Line ls)) s1 (Ok tt)); auto; [exact calm_quiet|]. cbn [body]. rewrite E. reflexivity.
Qed.
End S.
