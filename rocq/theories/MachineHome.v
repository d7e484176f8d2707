(** Work offset, relative moves and homing over binary64 (C15, C17, C20). *)
From Coq Require Import String Ascii ZArith Bool Reals Lra Lia List.
From Flocq Require Import Core BinarySingleNaN.
From Verif Require Import PyBase PyNum PyFloatFacts Config Coordinates Pulses GCode GCodeSpec GCodeProofs WordFacts GMachine GMachineProofs MachineFacts MachineRel MachineHist MachineFloat Decimal MachinePos MachineArc MachineWork.
From Coq Require Import List.
From Flocq Require Import Core.
Import ListNotations.
Local Open Scope R_scope.

Lemma dec0_intro x : fin x -> val x = 0 -> dec 0 x.
Proof. intros F V. split; auto. unfold Rdiv. now rewrite Rmult_0_l, rd_0. Qed.
Lemma add_zero_val x z : fin x -> fin z -> val z = 0 -> fin (f_add x z) /\ val (f_add x z) = val x.
Proof.
  intros Fx Fz Vz. destruct z as [sz|sz| |sz mz ez Bz]; try discriminate Fz.
  - destruct x as [sx|sx| |sx mx ex Bx]; try discriminate Fx; cbn; [destruct (Bool.eqb sx sz)|]; auto.
  - exfalso. apply (F2R_neq_0 radix2 (Float radix2 (SpecFloat.cond_Zopp sz (Zpos mz)) ez)); [|exact Vz]. simpl. destruct sz; discriminate.
Qed.
Lemma rnd10_same x y : fin x -> fin y -> val x = val y -> val (f_rnd10 x) = val (f_rnd10 y).
Proof.
  intros Fx Fy E. destruct (f_rnd10_val x Fx) as (_ & -> & _). destruct (f_rnd10_val y Fy) as (_ & -> & _). now rewrite E.
Qed.

Section H.
Variable acos : f64 -> f64.
Notation N := (F64 acos).
Variable cfg : config.
Hypothesis Hcfg : good_cfg cfg.
Notation p a := (ax a (ppm cfg)).
Notation t a := (table cfg a).
Notation acfg := (acfg cfg Hcfg).
Notation at_step := (at_step acos cfg).
Notation on_table := (on_table acos cfg).
Notation units_ok := (units_ok acos).
Notation tame := (tame acos).

(** A zero displacement stays zero on the motor grid. *)
Lemma round1_zero q x : (0 < q <= 1000)%Z -> dec 0 x ->
  exists b y, f_div (f_ofZ 1) (f_ofZ q) = Ok b /\ round1 (N:=N) x b = Ok y /\ dec 0 (f_rnd10 y).
Proof.
  intros Hq D. destruct (base_ok q Hq) as (b & Eb & Gb). exists b.
  assert (V := dec_zero_val _ D). destruct (round1_val acos q Hq b Gb x (proj1 D)) as (n & E & _ & _ & U).
  { rewrite V, Rabs_R0. apply bpow_ge_0. }
  assert (n = 0)%Z by (apply U; rewrite V, Rmult_0_l, Rminus_0_r, Rabs_R0; lra). subst n.
  exists (f_mul (f_ofZ 0) b). split; auto. split; auto. apply dec_rnd10; [|unfold small; lia].
  destruct (f_mul_val (f_ofZ 0) b) as [F W]; [reflexivity|apply Gb| |].
  - change (val (f_ofZ 0)) with 0. rewrite Rmult_0_l, Rabs_R0. apply bpow_ge_0.
  - apply dec0_intro; auto. rewrite W. change (val (f_ofZ 0)) with 0. now rewrite Rmult_0_l, rd_0.
Qed.
Lemma round_zero (d : quad N) : (forall a, dec 0 (ax4 a d)) ->
  exists d', round_to_grid cfg d = Ok d' /\ is_zero d' = true.
Proof.
  intros D.
  destruct (round1_zero (qx (ppm cfg)) (qx d) (proj1 (acfg AX)) (D (XYZ AX))) as (bx & x & Bx & Ex & Dx).
  destruct (round1_zero (qy (ppm cfg)) (qy d) (proj1 (acfg AY)) (D (XYZ AY))) as (by_ & y & By & Ey & Dy).
  destruct (round1_zero (qz (ppm cfg)) (qz d) (proj1 (acfg AZ)) (D (XYZ AZ))) as (bz & z & Bz & Ez & Dz).
  destruct (round1_zero (qe (ppm cfg)) (qe d) (proj2 Hcfg) (D AE)) as (be & e & Be & Ee & De).
  assert (G: grid (N:=N) cfg = Ok (Quad bx by_ bz be)).
  { unfold grid. cbn [F64 div ofZ num]. rewrite Bx; cbn [rbind]. rewrite By; cbn [rbind]. rewrite Bz; cbn [rbind]. rewrite Be; reflexivity. }
  unfold round_to_grid. rewrite G. cbn [rbind]. unfold Coordinates.round. cbn [qx qy qz qe].
  rewrite Ex; cbn [rbind]. rewrite Ey; cbn [rbind]. rewrite Ez; cbn [rbind]. rewrite Ee; cbn [rbind].
  eexists. split; [reflexivity|]. unfold is_zero, coords. cbn [qx qy qz qe F64 eqb zero ofZ rnd10 num].
  assert (K: forall x, dec 0 x -> f_eq x (f_ofZ 0) = true) by (intros w W; apply f_eq_zero; [apply W|now apply dec_zero_val]).
  now rewrite (K _ Dx), (K _ Dy), (K _ Dz), (K _ De).
Qed.
Lemma move_zero hw (d : quad N) v m l : (forall a, dec 0 (ax4 a d)) -> move_linear cfg hw d v m l = (m, l, Ok tt).
Proof.
  intros D. destruct (round_zero d D) as (d' & E & Z). unfold move_linear, bind, lift. rewrite E. now rewrite Z.
Qed.

(* ---------- all coordinates are ten-decimals numbers ---------- *)
Definition all_ten (q : quad N) : Prop := forall a, ten (ax4 a q).
Lemma coords_ten x y z e : all_ten (coords (N:=N) x y z e).
Proof. intros [[]|]; apply ten_rnd10. Qed.
Definition ten_state (m : machine N) : Prop := all_ten (m_position m) /\ all_ten (m_local m).

Lemma linear_ten hw d v m l m' l' r : move_linear cfg hw d v m l = (m', l', r) -> ten_state m -> ten_state m'.
Proof.
  intros H T. apply move_linear_inv in H. destruct H; auto. split; [apply coords_ten|apply T].
Qed.
Lemma circular_ten hw d rr v rot m l m' l' r : move_circular cfg hw d rr v rot m l = (m', l', r) -> ten_state m -> ten_state m'.
Proof.
  intros H T. apply move_circular_inv in H. destruct H; auto. split; [apply coords_ten|apply T].
Qed.
Lemma safe_zero_ten hw x y z m l m' l' r : safe_zero cfg hw x y z m l = (m', l', r) -> ten_state m -> ten_state m'.
Proof.
  intros H Ht. unfold safe_zero in H. apply bind_inv in H. destruct H as [(e & H & _)|(mm & m1 & l1 & H & H2)];
    apply gets_inv in H; destruct H as (-> & -> & H); auto. injection H as ->.
  apply bind_inv in H2.
  assert (K: forall d v1 m l m' l' r, move_linear cfg hw d v1 m l = (m', l', r) -> ten_state m -> ten_state m')
    by (intros; eapply linear_ten; eauto).
  destruct H2 as [(e & H & _)|(u & m1 & l1 & H & H2)].
  - destruct (x && negb y), (y && negb x), (x && y); eauto; apply ret_inv in H; now destruct H as (-> & _).
  - assert (Ht1: ten_state m1).
    { destruct (x && negb y), (y && negb x), (x && y); eauto; apply ret_inv in H; now destruct H as (-> & _). }
    destruct z.
    + apply bind_inv in H2. destruct H2 as [(e & H2 & _)|(mm & m2 & l2 & H2 & H3)];
        apply gets_inv in H2; destruct H2 as (-> & -> & H2); auto. eauto.
    + apply ret_inv in H2. now destruct H2 as (-> & _).
Qed.
Lemma exec_ten hw g c d rr v m l m' l' r : exec_cmd cfg hw g c d rr v m l = (m', l', r) -> ten_state m -> ten_state m'.
Proof.
  intros H T. destruct (writes_position c) eqn:Wp; [|destruct (writes_local c) eqn:Wl].
  - destruct c; try discriminate Wp; cbn [exec_cmd] in H.
    + apply bind_inv in H. destruct H as [(e & H & _)|(vl & m1 & l1 & H & H2)];
        apply lift_inv in H; destruct H as (-> & -> & _); auto. eapply linear_ten; eauto.
    + eapply linear_ten; eauto.
    + eapply circular_ten; eauto.
    + eapply circular_ten; eauto.
    + match type of H with (match ?c with pair _ _ => _ end) _ _ = _ => destruct c as [[x y] z] end.
      apply bind_inv in H. destruct H as [(e & H & _)|(u & m1 & l1 & H & H2)]; apply safe_zero_ten in H; auto.
      apply bind_inv in H2. destruct H2 as [(e & H2 & _)|(b & m2 & l2 & H2 & H3)];
        apply call_inv in H2; destruct H2 as (-> & _); auto.
      apply bind_inv in H3. destruct H3 as [(e & H3 & _)|(b' & m3 & l3 & H3 & H4)];
        apply call_inv in H3; destruct H3 as (-> & _); auto.
      apply fail_if_inv in H4. now destruct H4 as (-> & _).
  - assert (Ep: m_position m' = m_position m) by (eapply frame_position; eauto).
    split; [rewrite Ep; apply T|]. destruct c; try discriminate Wl; cbn [exec_cmd] in H.
    + apply modify_inv in H. destruct H as (-> & _). apply coords_ten.
    + apply bind_inv in H. destruct H as [(e & H & _)|(mm & m1 & l1 & H & H2)];
        apply gets_inv in H; destruct H as (-> & -> & H); [apply T|]. injection H as ->.
      destruct (has_coordinates g).
      * apply bind_inv in H2. destruct H2 as [(e & H & _)|(cc & m1 & l1 & H & H2)];
          apply lift_inv in H; destruct H as (-> & -> & Hc); [apply T|].
        apply modify_inv in H2. destruct H2 as (-> & _). apply coords_ten.
      * apply modify_inv in H2. destruct H2 as (-> & _). apply T.
    + apply modify_inv in H. destruct H as (-> & _). apply coords_ten.
  - unfold ten_state. rewrite (frame_position cfg hw g c d rr v Wp _ _ _ _ _ H), (frame_local cfg hw g c d rr v Wl _ _ _ _ _ H). exact T.
Qed.
Lemma history_ten (P : hw_oracle N -> option gcode -> Prop) m es : history_where P cfg m es -> ten_state m.
Proof.
  intros H. induction H as [|m es hw gc m' es' r H IH Hgc Hr]; [split; apply coords_ten|].
  unfold run_command in Hr. destruct gc as [g|].
  - apply do_command_inv in Hr. destruct Hr; auto. assert (X := exec_ten _ _ _ _ _ _ _ _ _ _ _ H6 IH). destruct r; exact X.
  - apply ret_inv in Hr. now destruct Hr as (-> & _).
Qed.
Lemma history_tame4 (P : hw_oracle N -> option gcode -> Prop) m es :
  (forall hw gc, P hw gc -> moderate gc) -> history_where P cfg m es ->
  bd 15 (qe (m_position m)) -> bd 15 (qe (m_local m)) -> forall a, tame m a.
Proof.
  intros HP H Bp Bl [a|]; [eapply history_tame; eauto|].
  destruct (history_ten P m es H) as [Tp Tl].
  destruct (ten_dec _ (Tp AE) Bp) as (k & Dk & Sk). destruct (ten_dec _ (Tl AE) Bl) as (l & Dl & Sl).
  exists k, l. auto.
Qed.

(* ---------- G92 ---------- *)
Lemma success_exec hw g (m m' : machine N) es t0 c :
  run_command cfg hw (Some g) m = (m', es, Ok tt) -> effective_command g = Some t0 -> assoc_text t0 command_table = Some c ->
  exists delta rr v m1, command_delta g m = Ok delta /\ exec_cmd cfg hw g c delta rr v m [] = (m1, es, Ok tt) /\ m' = set_velocity m1 v /\
    ltb v (ofZ (min_velocity_min cfg)) = false.
Proof.
  intros H Et Hc. unfold run_command in H. apply do_command_inv in H. inversion H; subst; try congruence.
  rewrite H4 in Et. injection Et as <-. rewrite H5 in Hc. injection Hc as <-. exists delta, radius, v, m1. auto.
Qed.

(** The work coordinates of the current point, as the code computes them
    (cnc/gmachine.py:322). *)
Definition work (m : machine N) : quad N := csub (m_position m) (m_local m).

Lemma g92_effect hw g (m m' : machine N) es :
  run_command cfg hw (Some g) m = (m', es, Ok tt) -> effective_command g = Some (tx "G92") ->
  es = [] /\ m_position m' = m_position m /\ m_absolute m' = m_absolute m /\ m_convert m' = m_convert m /\
  (has_coordinates g = false -> m_local m' = m_position m) /\
  (has_coordinates g = true -> exists c, get_coordinates g (work m) (m_convert m) = Ok c /\ m_local m' = csub (m_position m) c).
Proof.
  intros H Et. destruct (success_exec hw g m m' es _ G92 H Et eq_refl) as (delta & rr & v & m1 & _ & Hx & -> & _).
  cbn [exec_cmd] in Hx. apply bind_inv in Hx. destruct Hx as [(e & Hx & ?)|(mm & m2 & l2 & Hx & H2)]; [discriminate|].
  apply gets_inv in Hx. destruct Hx as (-> & -> & Hx). injection Hx as ->.
  destruct (has_coordinates g).
  - apply bind_inv in H2. destruct H2 as [(e & Hx & ?)|(c & m2 & l2 & Hx & H2)]; [discriminate|].
    apply lift_inv in Hx. destruct Hx as (-> & -> & Hc). apply modify_inv in H2. destruct H2 as (-> & -> & _).
    repeat split; auto; [discriminate|]. intros _. exists c. auto.
  - apply modify_inv in H2. destruct H2 as (-> & -> & _). repeat split; auto. discriminate.
Qed.

(** After G92, an axis: its offset and its displacement for the same words. *)
Lemma g92_offset g (m m' : machine N) c a : get_coordinates g (work m) (m_convert m) = Ok c ->
  m_local m' = csub (m_position m) c -> words_at_most coord_letters 1000 g -> units_ok m -> tame m a ->
  exists k kc, dec k (ax4 a (m_position m)) /\ dec kc (ax4 a c) /\ dec (k - kc) (ax4 a (m_local m')) /\
    small15 k /\ (Z.abs kc <= 65536 * 10000000000)%Z /\
    (lookup g (letter4 a) = None -> exists l, dec l (ax4 a (m_local m)) /\ kc = (k - l)%Z /\ small15 l) /\
    (lookup g (letter4 a) <> None -> small15 kc).
Proof.
  intros Hc Hl Hw U (k & l & Dk & Dl & Sk & Sl).
  assert (E: exists kc, dec kc (ax4 a c) /\ (Z.abs kc <= 65536 * 10000000000)%Z /\
     (lookup g (letter4 a) = None -> kc = (k - l)%Z) /\ (lookup g (letter4 a) <> None -> small15 kc)).
  { destruct (get_coordinates_axis acos _ _ _ _ a Hc) as (y & Hy & E).
    destruct (lookup g (letter4 a)) as [lit|] eqn:El.
    - destruct (coordinate_read acos g m _ c a Hw U Hc) as [(E2 & _)|(kc & Dc & Sc)]; [congruence|].
      exists kc. split; auto. split; [lia|]. split; [discriminate|]. intros _. unfold small15. lia.
    - rewrite get_missing in Hy by exact El. injection Hy as <-. exists (k - l)%Z. unfold small15 in *.
      split; [|split; [lia|split; [auto|congruence]]].
      rewrite E. unfold work. rewrite (ax4_csub acos), f_rnd10_idem. now apply work_dec. }
  destruct E as (kc & Dc & Sc & En & Es). exists k, kc. split; [exact Dk|]. split; [exact Dc|].
  split. { rewrite Hl, (ax4_csub acos). unfold small15 in Sk. apply dec_sub; auto; unfold small; lia. }
  split; [exact Sk|]. split; [exact Sc|]. split; [|exact Es]. intros Hn. exists l. auto.
Qed.

Lemma has_get g g1 k lit (d d' mu : N) : lookup g k = Some lit -> lookup g1 k = Some lit ->
  get (N:=N) g k d mu = get (N:=N) g1 k d' mu.
Proof. unfold get. now intros -> ->. Qed.

(** G92 makes the named coordinates those of the current point. *)
Lemma g92_then_move hw g (m m' : machine N) es g1 delta :
  run_command cfg hw (Some g) m = (m', es, Ok tt) -> effective_command g = Some (tx "G92") -> has_coordinates g = true ->
  words_at_most coord_letters 1000 g -> units_ok m -> (forall a, tame m a) ->
  m_absolute m = true -> (forall a, lookup g1 (letter4 a) = lookup g (letter4 a)) ->
  command_delta g1 m' = Ok delta -> forall a, dec 0 (ax4 a delta).
Proof.
  intros H Et Hc Hw U T Ha Hs Hd a.
  destruct (g92_effect hw g m m' es H Et) as (_ & Ep & Ea & Ec & _ & Hl). destruct (Hl Hc) as (c & Hco & El).
  destruct (g92_offset g m m' c a Hco El Hw U (T a)) as (k & kc & Dk & Dc & Dl & Sk & Sc & Hn & Hs15).
  rewrite Ha in Ea.
  destruct (command_delta_abs acos g1 m' delta a Ea Hd) as (c1 & Hc1 & E). rewrite E, Ep.
  destruct (get_coordinates_axis acos _ _ _ _ a Hc1) as (y & Hy & E1).
  destruct (get_coordinates_axis acos _ _ _ _ a Hco) as (y0 & Hy0 & E0).
  replace 0%Z with (kc + (k - kc) - k)%Z by ring. unfold abs_delta, small15 in *.
  assert (D1: dec kc (ax4 a c1)).
  { rewrite E1. destruct (lookup g (letter4 a)) as [lit|] eqn:Elk.
    - rewrite (has_get g g1 (letter4 a) lit (ax4 a (work m)) (ax4 a (csub (m_position m') (m_local m')))) in Hy0; auto.
      2: now rewrite Hs.
      rewrite Ec in Hy. rewrite Hy in Hy0. injection Hy0 as <-. rewrite <- E0. exact Dc.
    - rewrite get_missing in Hy by (now rewrite Hs). injection Hy as <-.
      rewrite (ax4_csub acos), f_rnd10_idem, Ep. replace kc with (k - (k - kc))%Z by ring.
      apply dec_sub; auto; [unfold small; lia|]. unfold small; lia. }
  apply dec_sub; auto; [|unfold small; lia|unfold small; lia]. apply dec_add; auto; unfold small; lia.
Qed.

(** Displacements of zero: G0 and G1 succeed without any action. *)
Lemma zero_val_form (x : f64) : dec 0 x -> exists s, x = B754_zero s.
Proof.
  intros D. assert (V := dec_zero_val _ D). destruct D as [F _]. destruct x as [s|s| |s mx ex B]; try discriminate F; [eauto|].
  exfalso. apply (F2R_neq_0 radix2 (Float radix2 (SpecFloat.cond_Zopp s (Zpos mx)) ex)); [|exact V]. simpl. destruct s; discriminate.
Qed.
Lemma rapid_zero (d : quad N) : (forall a, dec 0 (ax4 a d)) -> rapid_velocity cfg d = Ok (quad_max (max_velocity_min cfg)).
Proof.
  intros D. destruct d as [x y z e].
  destruct (zero_val_form x (D (XYZ AX))) as (s1 & ->). destruct (zero_val_form y (D (XYZ AY))) as (s2 & ->).
  destruct (zero_val_form z (D (XYZ AZ))) as (s3 & ->). destruct (zero_val_form e (D AE)) as (s4 & ->).
  unfold rapid_velocity.
  replace (Coordinates.length (Quad (A:=N) (B754_zero s1) (B754_zero s2) (B754_zero s3) (B754_zero s4))) with (Ok (A:=N) (f_ofZ 0))
    by (destruct s1, s2, s3, s4; reflexivity).
  cbn [rbind]. reflexivity.
Qed.
Lemma exec_zero hw g c (d rr : quad N) v m l : c = G0 \/ c = G1 -> (forall a, dec 0 (ax4 a d)) ->
  exec_cmd cfg hw g c d rr v m l = (m, l, Ok tt).
Proof.
  intros [->| ->] D; cbn [exec_cmd]; [|now apply move_zero].
  rewrite (rapid_zero d D). unfold bind, lift. now apply move_zero.
Qed.
Lemma zero_command hw g (m : machine N) m2 es2 r t0 :
  effective_command g = Some t0 -> t0 = tx "G0" \/ t0 = tx "G1" ->
  (forall delta, command_delta g m = Ok delta -> forall a, dec 0 (ax4 a delta)) ->
  run_command cfg hw (Some g) m = (m2, es2, r) -> es2 = [] /\ m_position m2 = m_position m.
Proof.
  intros Et Hw Hd H. unfold run_command in H. apply do_command_inv in H. inversion H; subst; auto.
  assert (t0 = t) by congruence. subst t0. assert (Hc := linear_words _ _ Hw H5).
  rewrite (exec_zero hw g c delta radius v m [] Hc (Hd _ H0)) in H6. injection H6 as <- <- <-. auto.
Qed.

Lemma get_ok_all g (d : quad N) mu : (forall a, exists y, get (N:=N) g (letter4 a) (ax4 a d) mu = Ok y) ->
  exists c, get_coordinates g d mu = Ok c.
Proof.
  intros H. unfold get_coordinates.
  destruct (H (XYZ AX)) as (x & Hx). destruct (H (XYZ AY)) as (y & Hy). destruct (H (XYZ AZ)) as (z & Hz). destruct (H AE) as (e & He).
  cbn [letter4 axis_letter ax4 ax] in *. rewrite Hx; cbn [rbind]. rewrite Hy; cbn [rbind]. rewrite Hz; cbn [rbind]. rewrite He; cbn [rbind]. eauto.
Qed.

(** G92, then an absolute straight move with the same coordinate words. *)
Lemma g92_noop hw g (m m' : machine N) es hw1 g1 m2 es2 r :
  run_command cfg hw (Some g) m = (m', es, Ok tt) -> effective_command g = Some (tx "G92") -> has_coordinates g = true ->
  words_at_most coord_letters 1000 g -> units_ok m -> (forall a, tame m a) ->
  m_absolute m = true -> (forall a, lookup g1 (letter4 a) = lookup g (letter4 a)) ->
  effective_command g1 = Some (tx "G0") \/ effective_command g1 = Some (tx "G1") ->
  run_command cfg hw1 (Some g1) m' = (m2, es2, r) ->
  es2 = [] /\ m_position m2 = m_position m' /\
  ((forall k, In k ["F"; "I"; "J"; "K"]%char -> lookup g1 k = None) -> r = Ok tt).
Proof.
  intros H Et Hc Hw U T Ha Hs Hg1 H1.
  assert (D := fun delta => g92_then_move hw g m m' es g1 delta H Et Hc Hw U T Ha Hs).
  destruct (effective_command g1) as [t1|] eqn:E1; [|destruct Hg1; discriminate].
  assert (Hw1: t1 = tx "G0" \/ t1 = tx "G1") by (destruct Hg1 as [E|E]; injection E as ->; auto).
  destruct (zero_command hw1 g1 m' m2 es2 r t1 E1 Hw1 D H1) as [A B]. split; [exact A|]. split; [exact B|].
  intros Hk. destruct (success_exec hw g m m' es _ G92 H Et eq_refl) as (delta0 & rr & v & m1 & Hd0 & _ & Em & Hv).
  destruct (g92_effect hw g m m' es H Et) as (_ & _ & Ea & Ec & _ & Hl). destruct (Hl Hc) as (c & Hco & El).
  unfold run_command, do_command in H1. unfold bind, gets, lift in H1.
  assert (Hd1: exists delta, command_delta g1 m' = Ok delta).
  { unfold command_delta. rewrite Ea, Ha.
    assert (Gk: exists c1, get_coordinates (N:=N) g1 (csub (m_position m') (m_local m')) (m_convert m') = Ok c1).
    2: { destruct Gk as (c1 & ->). cbn [rbind]. eauto. }
    apply get_ok_all. intros a. destruct (get_coordinates_axis acos _ _ _ _ a Hco) as (y & Hy & _). rewrite Ec.
    destruct (lookup g (letter4 a)) as [lit|] eqn:Elk.
    - exists y. rewrite <- Hy. symmetry. apply (has_get g g1 (letter4 a) lit); auto. now rewrite Hs.
    - rewrite get_missing by (now rewrite Hs). eauto. }
  destruct Hd1 as (delta & Hd1). rewrite Hd1 in H1.
  rewrite get_missing in H1 by (apply Hk; simpl; auto).
  unfold get_radius in H1. rewrite !get_missing in H1 by (apply Hk; simpl; auto). cbn [rbind] in H1.
  assert (Hmv: m_velocity m' = v) by (rewrite Em; reflexivity). rewrite Hmv, Hv in H1. unfold fail_if, ret in H1.
  rewrite E1 in H1.
  assert (Hct: exists c1, assoc_text t1 command_table = Some c1 /\ (c1 = G0 \/ c1 = G1)).
  { destruct Hw1 as [->| ->]; [exists G0|exists G1]; split; auto; reflexivity. }
  destruct Hct as (c1 & Hc1 & Hc2). rewrite Hc1 in H1.
  rewrite (exec_zero hw1 g1 c1 delta _ v m' [] Hc2 (D _ Hd1)) in H1. unfold modify in H1. now injection H1 as <- <- <-.
Qed.

(** Work coordinates after G92. *)
Lemma g92_work hw g (m m' : machine N) es a u :
  run_command cfg hw (Some g) m = (m', es, Ok tt) -> effective_command g = Some (tx "G92") -> has_coordinates g = true ->
  words_at_most coord_letters 1000 g -> unit_factor acos m u -> tame m a ->
  (lookup g (letter4 a) = None -> val (ax4 a (work m')) = val (ax4 a (work m))) /\
  (forall lit x, lookup g (letter4 a) = Some lit -> LiteralValue lit x -> Rabs (val (ax4 a (work m')) - x * u) <= / 1000000000).
Proof.
  intros H Et Hc Hw U T. assert (U' := unit_factor_ok acos _ _ U).
  destruct (g92_effect hw g m m' es H Et) as (_ & Ep & _ & _ & _ & Hl). destruct (Hl Hc) as (c & Hco & El).
  destruct (g92_offset g m m' c a Hco El Hw U' T) as (k & kc & Dk & Dc & Dl & Sk & Sc & Hn & Hs15).
  assert (Dw: dec kc (ax4 a (work m'))).
  { unfold work. rewrite (ax4_csub acos), Ep. replace kc with (k - (k - kc))%Z by ring. unfold small15 in Sk.
    apply dec_sub; auto; unfold small; lia. }
  split.
  - intros Hno. destruct (Hn Hno) as (l & Dlo & -> & Sl).
    assert (Dw0: dec (k - l) (ax4 a (work m))) by (unfold work; rewrite (ax4_csub acos); apply work_dec; auto).
    rewrite (proj2 Dw), (proj2 Dw0). reflexivity.
  - intros lit x Hlit Hx. assert (Bx := Hw _ _ _ (letter4_in a) Hlit Hx).
    destruct (get_coordinates_axis acos _ _ _ _ a Hco) as (y & Hy & Ec).
    destruct (word_close acos g (letter4 a) lit x (ax4 a (work m)) m u U Hlit Hx Bx) as (y' & Hy' & Fy & Ey).
    rewrite Hy' in Hy. injection Hy as ->.
    assert (Sk2: small kc) by (unfold small; lia).
    assert (Dy: dec (dec10 (val y)) (ax4 a c)) by (rewrite Ec; now apply dec_close_inv).
    assert (Ed := dec_err _ _ Dc Sk2). assert (Ev: val (ax4 a (work m')) = val (ax4 a c)) by (now rewrite (proj2 Dw), (proj2 Dc)).
    assert (Hb: (Z.abs (dec10 (val y)) <= 2 ^ 15 * 10000000000)%Z).
    { apply dec10_int_bound; [lia|]. destruct (unit_factor_close acos m u U) as (_ & _ & Bu).
      assert (Bxu: Rabs (x * u) <= 26000).
      { rewrite Rabs_mult, (Rabs_pos_eq u) by lra. apply Rle_trans with (1000 * 26); [|lra].
        apply Rmult_le_compat; auto using Rabs_pos; lra. }
      replace (val y) with ((val y - x * u) + x * u) by ring. eapply Rle_trans; [apply Rabs_triang|]. b2n. lra. }
    assert (E: kc = dec10 (val y)) by (apply (dec_fun _ _ (ax4 a c) Dc Dy); unfold small; lia).
    assert (Ckc := dec10_close (val y)). rewrite <- E in Ckc. rewrite Ev. set (q := val (ax4 a c)) in *. clearbody q.
    apply Rabs_le_inv in Ed, Ckc, Ey. apply Rabs_le. unfold e10 in *. b2n. lra.
Qed.

Lemma g92_origin hw g (m m' : machine N) es a :
  run_command cfg hw (Some g) m = (m', es, Ok tt) -> effective_command g = Some (tx "G92") -> has_coordinates g = false ->
  fin (ax4 a (m_position m)) -> val (ax4 a (work m')) = 0.
Proof.
  intros H Et Hc F. destruct (g92_effect hw g m m' es H Et) as (_ & Ep & _ & _ & Hl & _). specialize (Hl Hc).
  unfold work. rewrite (ax4_csub acos), Ep, Hl.
  destruct (f_sub_val (ax4 a (m_position m)) (ax4 a (m_position m)) F F) as [Fs Vs].
  { rewrite Rminus_diag_eq, Rabs_R0 by reflexivity. apply bpow_ge_0. }
  rewrite Rminus_diag_eq in Vs by reflexivity. rewrite rd_0 in Vs.
  apply dec_zero_val, dec_rnd10; [now apply dec0_intro|unfold small; lia].
Qed.

Lemma g53_effect hw g (m m' : machine N) es :
  run_command cfg hw (Some g) m = (m', es, Ok tt) -> effective_command g = Some (tx "G53") ->
  es = [] /\ m_position m' = m_position m /\
  forall a, val (ax4 a (m_local m')) = 0 /\ (ten_state m -> fin (ax4 a (m_position m)) -> val (ax4 a (work m')) = val (ax4 a (m_position m))).
Proof.
  intros H Et. destruct (success_exec hw g m m' es _ G53 H Et eq_refl) as (delta & rr & v & m1 & _ & Hx & -> & _).
  cbn [exec_cmd] in Hx. apply modify_inv in Hx. destruct Hx as (-> & -> & _). split; auto. split; auto.
  intros a. assert (E: dec 0 (ax4 a (coords0 (N:=N)))).
  { assert (E2: ax4 a (coords0 (N:=N)) = f_rnd10 (f_ofZ 0)) by (now destruct a as [[]|]). rewrite E2.
    apply dec_rnd10; [exact dec_0|unfold small; lia]. }
  split. { exact (dec_zero_val _ E). }
  intros [Tp _] F. unfold work. rewrite (ax4_csub acos). cbn [m_position m_local set_velocity set_local].
  destruct (zero_val_form _ E) as (s & ->). specialize (Tp a). unfold ten in Tp. rewrite <- Tp at 2.
  destruct (add_zero_val (ax4 a (m_position m)) (B754_zero (negb s)) F eq_refl eq_refl) as [Fa Va].
  assert (Es: val (f_sub (ax4 a (m_position m)) (B754_zero s)) = val (ax4 a (m_position m)) /\ fin (f_sub (ax4 a (m_position m)) (B754_zero s))).
  { destruct (ax4 a (m_position m)) as [sx|sx| |sx mx ex Bx]; try discriminate F; cbn; auto. }
  apply rnd10_same; tauto.
Qed.

Lemma zero_coord : dec (0 * 1) (f_rnd10 (f_ofZ 0)).
Proof. apply dec_rnd10; [exact dec_0|unfold small; lia]. Qed.

(* ---------- relative moves ---------- *)
Lemma relative_move (m : machine N) hw g m' es a u :
  on_table m -> words_at_most coord_letters 1000 g -> unit_factor acos m u -> m_absolute m = false ->
  effective_command g = Some (tx "G0") \/ effective_command g = Some (tx "G1") ->
  run_command cfg hw (Some g) m = (m', es, Ok tt) ->
  (lookup g (axis_letter a) = None -> val (ax a (m_position m')) = val (ax a (m_position m))) /\
  (forall lit x, lookup g (axis_letter a) = Some lit -> LiteralValue lit x ->
     Rabs (val (ax a (m_position m')) - (val (ax a (m_position m)) + x * u)) <= / (2 * IZR (p a)) + / 1000000000).
Proof.
  intros Ht Hg U Hrel Hc Hr.
  destruct (Ht a) as (n & Hn). destruct (at_step_dec acos cfg Hcfg m a n Hn) as [Dn Sn].
  destruct (effective_command g) as [t0|] eqn:Et; [|destruct Hc; discriminate].
  destruct (success_linear acos cfg hw g m m' es t0 Hr Et ltac:(destruct Hc as [E|E]; injection E as ->; auto))
    as (delta & v & m1 & Hd & Hm & E1). unfold command_delta in Hd. rewrite Hrel in Hd.
  destruct (get_coordinates_axis acos _ _ _ _ (XYZ a) Hd) as (y & Hy & Ey). cbn [ax4 letter4] in Hy, Ey.
  assert (Hp := proj1 (acfg a)). assert (Hs := step_mul _ _ (acfg a)). assert (Pp := p_pos (p a) Hp).
  rewrite E1. clear E1. split.
  - intros Hl. rewrite get_missing in Hy by exact Hl. injection Hy as <-.
    assert (D0: dec 0 (ax a delta)).
    { rewrite Ey. assert (E2: dec 0 (ax a (coords0 (N:=N)))) by (destruct a; exact zero_coord).
      apply dec_rnd10; [exact E2|unfold small; lia]. }
    destruct (move_linear_axis acos cfg Hcfg m delta v hw [] m1 es a n Hm Hn) as (j & Hj & _ & Hz).
    { split; [apply D0|]. rewrite (dec_zero_val _ D0), Rabs_R0. apply bpow_ge_0. }
    rewrite (Hz D0), Z.add_0_r in Hj. destruct Hj as [Dj _]. now rewrite (proj2 Dj), (proj2 Dn).
  - intros lit x Hl Hx. assert (Bx := Hg _ _ _ (letter4_in (XYZ a)) Hl Hx).
    destruct (word_close acos g (axis_letter a) lit x (ax a (coords0 (N:=N))) m u U Hl Hx Bx) as (y' & Hy' & Fy & Cy).
    rewrite Hy' in Hy. injection Hy as ->.
    destruct (unit_factor_close acos m u U) as (_ & _ & Bu).
    assert (Bxu: Rabs (x * u) <= 26000).
    { rewrite Rabs_mult, (Rabs_pos_eq u) by lra. apply Rle_trans with (1000 * 26); [|lra].
      apply Rmult_le_compat; auto using Rabs_pos; lra. }
    assert (Byv: Rabs (val y) <= 26001).
    { replace (val y) with ((val y - x * u) + x * u) by ring. eapply Rle_trans; [apply Rabs_triang|]. b2n. lra. }
    set (kc := dec10 (val y)).
    assert (Skc: (Z.abs kc <= 2 ^ 15 * 10000000000)%Z) by (apply dec10_int_bound; [lia|b2n; lra]).
    assert (Dc: dec kc (ax a delta)) by (rewrite Ey; now apply dec_close_inv).
    assert (Ckc := dec10_close (val y)). fold kc in Ckc.
    assert (Ed := dec_err _ _ Dc ltac:(unfold small; lia)).
    assert (Bd: bd 16 (ax a delta)).
    { split; [apply Dc|]. rewrite (proj2 Dc). apply rd_abs_le; [lia|].
      unfold Rdiv. rewrite Rabs_mult, (Rabs_pos_eq (/ e10)), <- abs_IZR by (unfold e10; lra).
      apply Rmult_le_reg_r with e10; [unfold e10; lra|]. rewrite Rmult_assoc, Rinv_l, Rmult_1_r by (unfold e10; lra).
      b2n. change e10 with (IZR 10000000000). rewrite <- mult_IZR. apply IZR_le. lia. }
    destruct (move_linear_axis acos cfg Hcfg m delta v hw [] m1 es a n Hm Hn Bd) as (j & Hj & Ej & _).
    destruct (at_step_dec acos cfg Hcfg m1 a _ Hj) as [Dj Sj].
    assert (Ej2 := dec_err _ _ Dj ltac:(unfold small; lia)). rewrite (step_R (p a) Hp _ Hs) in Ej2.
    assert (En := dec_err _ _ Dn ltac:(unfold small; lia)). rewrite (step_R (p a) Hp _ Hs) in En.
    assert (Ej3: Rabs (IZR j / IZR (p a) - val (ax a delta)) <= / (2 * IZR (p a)) + bpow radix2 (-35)).
    { replace (IZR j / IZR (p a) - val (ax a delta)) with ((IZR j - val (ax a delta) * IZR (p a)) * / IZR (p a)) by (field; lra).
      rewrite Rabs_mult, (Rabs_pos_eq (/ IZR (p a))) by (left; now apply Rinv_0_lt_compat).
      apply Rle_trans with ((/ 2 + IZR (p a) * bpow radix2 (-35)) * / IZR (p a)).
      - apply Rmult_le_compat_r; [left; now apply Rinv_0_lt_compat|exact Ej].
      - right. field. lra. }
    rewrite plus_IZR in Ej2.
    replace ((IZR n + IZR j) / IZR (p a)) with (IZR n / IZR (p a) + IZR j / IZR (p a)) in Ej2 by (unfold Rdiv; ring).
    set (P1 := val (ax a (m_position m1))) in *. set (P0 := val (ax a (m_position m))) in *. set (D := val (ax a delta)) in *.
    clear - Ed En Ej2 Ej3 Ckc Cy.
    apply Rabs_le_inv in Ed, En, Ej2, Ej3, Ckc, Cy. apply Rabs_le. unfold e10 in *. b2n. lra.
Qed.

(* ---------- G28 ---------- *)
(** Which axes G28 homes: those named, all when none is named. *)
Definition named (g : gcode) (a : axis) : Prop := lookup g (axis_letter a) <> None.
Definition homed (g : gcode) (a : axis) : Prop := named g a \/ (forall b, ~ named g b).

Lemma opp_step (m : machine N) a n : at_step m a n -> dec ((- n) * step (p a)) (f_rnd10 (Bopp (ax a (m_position m)))).
Proof.
  intros Hn. destruct (at_step_dec acos cfg Hcfg m a n Hn) as [Dn Sn].
  apply dec_rnd10; [|unfold small; lia]. rewrite Z.mul_opp_l. now apply dec_opp.
Qed.

Lemma linear_e hw (d : quad N) v m l m' l' : move_linear cfg hw d v m l = (m', l', Ok tt) ->
  dec 0 (qe d) -> ten (qe (m_position m)) -> fin (qe (m_position m)) ->
  ten (qe (m_position m')) /\ fin (qe (m_position m')) /\ val (qe (m_position m')) = val (qe (m_position m)).
Proof.
  intros H D0 T F. apply move_linear_inv in H. inversion H; subst; auto.
  cbn [m_position set_position]. unfold cadd, coords. cbn [qe F64 add rnd10 num].
  assert (Z: fin (qe d0) /\ val (qe d0) = 0).
  { unfold round_to_grid in H0. destruct (grid cfg) as [gb|] eqn:Eb; [|discriminate]. cbn [rbind] in H0.
    unfold Coordinates.round in H0.
    destruct (round1 (qx d) (qx gb)) as [x|]; [|discriminate]. cbn [rbind] in H0.
    destruct (round1 (qy d) (qy gb)) as [y|]; [|discriminate]. cbn [rbind] in H0.
    destruct (round1 (qz d) (qz gb)) as [z|]; [|discriminate]. cbn [rbind] in H0.
    destruct (round1_zero (qe (ppm cfg)) (qe d) (proj2 Hcfg) D0) as (be & e & Be & Ee & De).
    assert (Eq: qe gb = be).
    { unfold grid in Eb. cbn [F64 div ofZ num] in Eb.
      destruct (f_div (f_ofZ 1) (f_ofZ (qx (ppm cfg)))); [|discriminate]. cbn [rbind] in Eb.
      destruct (f_div (f_ofZ 1) (f_ofZ (qy (ppm cfg)))); [|discriminate]. cbn [rbind] in Eb.
      destruct (f_div (f_ofZ 1) (f_ofZ (qz (ppm cfg)))); [|discriminate]. cbn [rbind] in Eb.
      rewrite Be in Eb. cbn [rbind] in Eb. now injection Eb as <-. }
    rewrite Eq, Ee in H0. cbn [rbind] in H0. injection H0 as <-. cbn [coords qe]. split; [apply De|now apply dec_zero_val]. }
  destruct Z as [Fz Vz]. destruct (add_zero_val _ _ F Fz Vz) as [Fa Va].
  split; [apply ten_rnd10|]. split. { destruct (f_rnd10_val _ Fa) as (? & _). assumption. }
  rewrite <- T at 2. now apply rnd10_same.
Qed.

(** One move of safe_zero: the selected axes go to zero, the others stay. *)
Lemma zero_move hw (d : quad N) v m l m' l' (sel : axis -> bool) :
  move_linear cfg hw d v m l = (m', l', Ok tt) ->
  (forall a, ax a d = if sel a then f_rnd10 (Bopp (ax a (m_position m))) else f_rnd10 (f_ofZ 0)) -> qe d = f_rnd10 (f_ofZ 0) ->
  (forall a n, at_step m a n -> at_step m' a (if sel a then 0 else n)) /\
  (ten (qe (m_position m)) -> fin (qe (m_position m)) ->
     ten (qe (m_position m')) /\ fin (qe (m_position m')) /\ val (qe (m_position m')) = val (qe (m_position m))).
Proof.
  intros H Hd He. split.
  - intros a n Hn. specialize (Hd a). assert (Hp := proj1 (acfg a)).
    assert (Bn: (Z.abs n <= 4096 * p a)%Z).
    { destruct Hn as [_ I]. assert (S := inside_small _ _ (acfg a) _ I). lia. }
    destruct (sel a).
    + replace 0%Z with (n + - n)%Z by ring. eapply (linear_exact acos cfg Hcfg); eauto; [|lia].
      rewrite Hd. now apply opp_step.
    + rewrite <- (Z.add_0_r n). eapply (linear_exact acos cfg Hcfg); eauto; [|lia].
      rewrite Hd. exact zero_coord.
  - intros T F. eapply linear_e; eauto. rewrite He. exact zero_coord.
Qed.

Definition selected (x y z : bool) (a : axis) : bool := match a with AX => x | AY => y | AZ => z end.
Definition homed_state (sel : axis -> bool) (m m' : machine N) : Prop :=
  (forall a n, at_step m a n -> at_step m' a (if sel a then 0 else n)) /\
  (ten (qe (m_position m)) -> fin (qe (m_position m)) ->
     ten (qe (m_position m')) /\ fin (qe (m_position m')) /\ val (qe (m_position m')) = val (qe (m_position m))).

Lemma moves_linear hw d v (m : machine N) l m' l' r : move_linear cfg hw d v m l = (m', l', r) ->
  exists es, l' = l ++ es /\ Forall (fun e => exists g, e = EMove (GLinear g)) es.
Proof.
  intros H. apply move_linear_inv in H. destruct H; try (exists []; rewrite app_nil_r; auto; fail).
  - eexists. split; [reflexivity|]. repeat constructor. eauto.
  - eexists. split; [reflexivity|]. repeat constructor. eauto.
Qed.

Lemma safe_zero_homes hw x y z (m : machine N) l m' l' :
  safe_zero cfg hw x y z m l = (m', l', Ok tt) -> ten (qe (m_position m)) ->
  homed_state (selected x y z) m m' /\
  exists es, l' = l ++ es /\ Forall (fun e => exists g, e = EMove (GLinear g)) es.
Proof.
  intros H T. unfold safe_zero in H. apply bind_inv in H. destruct H as [(e & H & ?)|(mm & m1 & l1 & H & H2)]; [discriminate|].
  apply gets_inv in H. destruct H as (-> & -> & H). injection H as ->.
  apply bind_inv in H2. destruct H2 as [(e & H & ?)|([] & m1 & l1 & H & H2)]; [discriminate|].
  assert (H1: homed_state (selected x y false) m m1 /\ exists es, l1 = l ++ es /\ Forall (fun e => exists g, e = EMove (GLinear g)) es).
  { destruct x, y; cbn [andb negb] in H.
    - split; [|eapply moves_linear; eauto]. apply (zero_move _ _ _ _ _ _ _ _ H); [intros []; reflexivity|reflexivity].
    - split; [|eapply moves_linear; eauto]. apply (zero_move _ _ _ _ _ _ _ _ H); [intros []; reflexivity|reflexivity].
    - split; [|eapply moves_linear; eauto]. apply (zero_move _ _ _ _ _ _ _ _ H); [intros []; reflexivity|reflexivity].
    - apply ret_inv in H. destruct H as (-> & -> & _). split; [|exists []; rewrite app_nil_r; auto].
      split; [intros []; auto|auto]. }
  clear H. destruct H1 as [[A1 B1] (e1 & -> & F1)].
  destruct z.
  - apply bind_inv in H2. destruct H2 as [(e & H2 & ?)|(mm & m2 & l2 & H2 & H3)]; [discriminate|].
    apply gets_inv in H2. destruct H2 as (-> & -> & H2). injection H2 as ->.
    destruct (zero_move _ _ _ _ _ _ _ (selected false false true) H3) as [A2 B2]; [intros []; reflexivity|reflexivity|].
    destruct (moves_linear _ _ _ _ _ _ _ _ H3) as (e2 & -> & F2). split.
    + split.
      * intros a n Hn. apply A1 in Hn. apply A2 in Hn. destruct a, x, y; exact Hn.
      * intros _ F. destruct (B1 T F) as (T' & F' & V'). rewrite <- V'. now apply B2.
    + exists (e1 ++ e2). rewrite app_assoc. split; auto. now apply Forall_app.
  - apply ret_inv in H2. destruct H2 as (-> & -> & _). split; [split; auto|eauto].
Qed.

Lemma has_named g a : has g (axis_letter a) = true <-> named g a.
Proof. unfold named. rewrite has_lookup. destruct (lookup g (axis_letter a)); split; congruence. Qed.

Lemma homing (m : machine N) hw g m' es :
  on_table m -> ten_state m -> effective_command g = Some (tx "G28") ->
  run_command cfg hw (Some g) m = (m', es, Ok tt) ->
  exists (sel : axis -> bool) moves,
    (forall a, sel a = true <-> homed g a) /\
    (forall a, sel a = true -> val (ax a (m_position m')) = 0) /\
    (forall a, sel a = false -> val (ax a (m_position m')) = val (ax a (m_position m))) /\
    (fin (qe (m_position m)) -> val (qe (m_position m')) = val (qe (m_position m))) /\
    es = moves ++ [EJoin; ECalibrate (sel AX) (sel AY) (sel AZ)] /\
    Forall (fun e => exists gl, e = EMove (GLinear gl)) moves /\
    hw (moves ++ [EJoin]) (ECalibrate (sel AX) (sel AY) (sel AZ)) = HReturn true.
Proof.
  intros Ht T Et H. destruct (success_exec hw g m m' es _ G28 H Et eq_refl) as (delta & rr & v & m1 & _ & Hx & -> & _).
  cbn [exec_cmd] in Hx.
  destruct (if negb (has g "X" || has g "Y" || has g "Z") then _ else _) as [[x y] z] eqn:Es.
  assert (Hsel: forall a, selected x y z a = true <-> homed g a).
  { assert (Nx := has_named g AX). assert (Ny := has_named g AY). assert (Nz := has_named g AZ). cbn [axis_letter] in Nx, Ny, Nz.
    assert (K: (forall b, ~ named g b) <-> ~ named g AX /\ ~ named g AY /\ ~ named g AZ).
    { split; [auto|]. intros (? & ? & ?) []; auto. }
    intros a. unfold homed. rewrite K.
    destruct (has g "X"), (has g "Y"), (has g "Z"); injection Es as <- <- <-; destruct a; cbn [selected]; intuition congruence. }
  apply bind_inv in Hx. destruct Hx as [(e & Hx & ?)|([] & m2 & l2 & Hz & Hx)]; [discriminate|].
  destruct (safe_zero_homes hw x y z m [] m2 l2 Hz (proj1 T AE)) as [[A B] (moves & -> & Fm)].
  apply bind_inv in Hx. destruct Hx as [(e & Hx & ?)|(b1 & m3 & l3 & Hj & Hx)]; [discriminate|].
  apply call_inv in Hj. destruct Hj as (-> & -> & _).
  apply bind_inv in Hx. destruct Hx as [(e & Hx & ?)|(b2 & m4 & l4 & Hc & Hx)]; [discriminate|].
  apply call_inv in Hc. destruct Hc as (-> & -> & [(b & Hb & Eb)|(e & _ & Eb)]); [|discriminate]. injection Eb as <-.
  apply fail_if_inv in Hx. destruct Hx as (-> & -> & [(_ & ?)|(Hb2 & _)]); [discriminate|].
  destruct b2; [|discriminate Hb2].
  assert (Dz: forall a n, at_step m2 a n -> val (ax a (m_position m2)) = rd (IZR (n * step (p a)) / e10)).
  { intros a n Hn. apply Hn. }
  exists (selected x y z), moves. split; [exact Hsel|].
  split. { intros a Hs. destruct (Ht a) as (n & Hn). apply A in Hn. rewrite Hs in Hn.
           cbn [m_position set_velocity]. rewrite (Dz _ _ Hn), Z.mul_0_l. unfold Rdiv. now rewrite Rmult_0_l, rd_0. }
  split. { intros a Hs. destruct (Ht a) as (n & Hn). assert (Hn2 := A _ _ Hn). rewrite Hs in Hn2.
           cbn [m_position set_velocity]. rewrite (Dz _ _ Hn2). symmetry. apply Hn. }
  split. { intros F. apply (B (proj1 T AE) F). }
  split. { rewrite <- !app_assoc. reflexivity. }
  split; [exact Fm|]. exact Hb.
Qed.

(** Calibration that answers no, or fails, is an error. *)
Lemma homing_failure (m : machine N) hw g m' es r :
  effective_command g = Some (tx "G28") -> (forall l x y z, hw l (ECalibrate x y z) <> HReturn true) ->
  run_command cfg hw (Some g) m = (m', es, r) -> exists e, r = Raise e.
Proof.
  intros Et Hn H. destruct r as [[]|e]; [exfalso|eauto].
  destruct (success_exec hw g m m' es _ G28 H Et eq_refl) as (delta & rr & v & m1 & _ & Hx & -> & _).
  cbn [exec_cmd] in Hx.
  destruct (if negb (has g "X" || has g "Y" || has g "Z") then _ else _) as [[x y] z].
  apply bind_inv in Hx. destruct Hx as [(e & Hx & ?)|([] & m2 & l2 & Hz & Hx)]; [discriminate|].
  apply bind_inv in Hx. destruct Hx as [(e & Hx & ?)|(b1 & m3 & l3 & Hj & Hx)]; [discriminate|].
  apply bind_inv in Hx. destruct Hx as [(e & Hx & ?)|(b2 & m4 & l4 & Hc & Hx)]; [discriminate|].
  apply call_inv in Hc. destruct Hc as (-> & -> & [(b & Hb & Eb)|(e & _ & Eb)]); [|discriminate]. injection Eb as <-.
  apply fail_if_inv in Hx. destruct Hx as (-> & -> & [(_ & ?)|(Hb2 & _)]); [discriminate|].
  destruct b2; [|discriminate Hb2]. now apply Hn in Hb.
Qed.

(* ---------- sums of relative moves ---------- *)
(** A relative G0/G1 command, commanding distance x (mm) along axis [a]. *)
Definition commands_distance (m : machine N) (g : gcode) (a : axis) (x : R) : Prop :=
  (effective_command g = Some (tx "G0") \/ effective_command g = Some (tx "G1")) /\
  m_absolute m = false /\ words_at_most coord_letters 1000 g /\
  exists u, unit_factor acos m u /\
    match lookup g (axis_letter a) with
    | None => x = 0
    | Some lit => exists w, LiteralValue lit w /\ x = w * u
    end.
Inductive relative_moves (a : axis) : machine N -> list R -> machine N -> Prop :=
| rm_nil m : relative_moves a m [] m
| rm_cons m g hw m1 es m2 x xs :
    commands_distance m g a x -> run_command cfg hw (Some g) m = (m1, es, Ok tt) ->
    relative_moves a m1 xs m2 -> relative_moves a m (x :: xs) m2.
Definition sum (xs : list R) : R := fold_right Rplus 0 xs.

Lemma linear_success_on_table hw g (m m' : machine N) es :
  effective_command g = Some (tx "G0") \/ effective_command g = Some (tx "G1") ->
  run_command cfg hw (Some g) m = (m', es, Ok tt) -> on_table m -> on_table m'.
Proof.
  intros Hc Hr Ht. destruct (effective_command g) as [t0|] eqn:Et; [|destruct Hc; discriminate].
  destruct (success_linear acos cfg hw g m m' es t0 Hr Et ltac:(destruct Hc as [E|E]; injection E as ->; auto))
    as (delta & v & m1 & Hd & Hm & E1).
  apply (position_on_table acos cfg m1 m' E1). eapply linear_on_table; eauto.
Qed.

Lemma relative_sum a m xs m' : relative_moves a m xs m' -> on_table m ->
  Rabs (val (ax a (m_position m')) - (val (ax a (m_position m)) + sum xs))
    <= INR (List.length xs) * (/ (2 * IZR (p a)) + / 1000000000).
Proof.
  intros H. induction H as [m|m g hw m1 es m2 x xs (Hc & Ha & Hw & u & U & Hx) Hr H IH]; intros Ht.
  - cbn [sum fold_right List.length INR]. rewrite Rplus_0_r, Rminus_diag_eq, Rabs_R0 by reflexivity. lra.
  - specialize (IH (linear_success_on_table _ _ _ _ _ Hc Hr Ht)).
    destruct (relative_move m hw g m1 es a u Ht Hw U Ha Hc Hr) as [K1 K2].
    assert (Pp := p_pos (p a) (proj1 (acfg a))). assert (Pi: 0 < / (2 * IZR (p a))) by (apply Rinv_0_lt_compat; lra).
    assert (E: Rabs (val (ax a (m_position m1)) - (val (ax a (m_position m)) + x)) <= / (2 * IZR (p a)) + / 1000000000).
    { destruct (lookup g (axis_letter a)) as [lit|].
      - destruct Hx as (w & Hw' & ->). now apply (K2 lit).
      - subst x. rewrite (K1 eq_refl), Rplus_0_r, Rminus_diag_eq, Rabs_R0 by reflexivity. lra. }
    cbn [sum fold_right]. fold (sum xs). change (List.length (x :: xs)) with (S (List.length xs)). rewrite S_INR.
    apply Rabs_le_inv in IH, E. apply Rabs_le. lra.
Qed.

(** Distances that are whole numbers of motor steps add up exactly. *)
Lemma relative_whole_step a m g hw m1 es x n j : on_table m -> commands_distance m g a x ->
  run_command cfg hw (Some g) m = (m1, es, Ok tt) -> at_step m a n -> x * IZR (p a) = IZR j -> at_step m1 a (n + j).
Proof.
  intros Ht (Hc & Ha & Hw & u & U & Hx) Hr Hn Hj.
  destruct (effective_command g) as [t0|] eqn:Et; [|destruct Hc; discriminate].
  destruct (success_linear acos cfg hw g m m1 es t0 Hr Et ltac:(destruct Hc as [E|E]; injection E as ->; auto))
    as (delta & v & m2 & Hd & Hm & E1). unfold command_delta in Hd. rewrite Ha in Hd.
  destruct (get_coordinates_axis acos _ _ _ _ (XYZ a) Hd) as (y & Hy & Ey). cbn [ax4 letter4] in Hy, Ey.
  assert (Hp := proj1 (acfg a)). assert (Hs := step_mul _ _ (acfg a)). assert (Pp := p_pos (p a) Hp).
  apply (at_step_position acos cfg m2 m1 a _ E1).
  assert (G: dec (j * step (p a)) (ax a delta) /\ (Z.abs j <= 65536 * p a)%Z).
  { destruct (lookup g (axis_letter a)) as [lit|] eqn:El.
    - destruct Hx as (w & Hlv & ->). assert (Bx := Hw _ _ _ (letter4_in (XYZ a)) El Hlv).
      destruct (word_close acos g (axis_letter a) lit w (ax a (coords0 (N:=N))) m u U El Hlv Bx) as (y' & Hy' & Fy & Cy).
      rewrite Hy' in Hy. injection Hy as ->.
      assert (Ex: w * u = IZR (j * step (p a)) / e10).
      { rewrite (step_R (p a) Hp _ Hs), <- Hj. field. lra. }
      split.
      + rewrite Ey. apply dec_close; auto. rewrite <- Ex. eapply Rle_trans; [exact Cy|apply bpow_le; lia].
      + destruct (unit_factor_close acos m u U) as (_ & _ & Bu).
        assert (Bxu: Rabs (w * u) <= 26000).
        { rewrite Rabs_mult, (Rabs_pos_eq u) by lra. apply Rle_trans with (1000 * 26); [|lra].
          apply Rmult_le_compat; auto using Rabs_pos; lra. }
        apply le_IZR. rewrite abs_IZR, <- Hj, Rabs_mult, (Rabs_pos_eq (IZR (p a))) by lra. rewrite mult_IZR. nra.
    - subst x. rewrite Rmult_0_l in Hj. apply (eq_IZR 0 j) in Hj. subst j. split; [|lia].
      rewrite get_missing in Hy by exact El. injection Hy as <-.
      rewrite Ey. assert (E2: dec 0 (ax a (coords0 (N:=N)))) by (destruct a; exact zero_coord).
      apply dec_rnd10; [exact E2|unfold small; lia]. }
  destruct G as [G1 G2]. exact (linear_exact acos cfg Hcfg m delta v hw [] m2 es a n j Hm Hn G1 G2).
Qed.
Lemma relative_whole a m xs m' : relative_moves a m xs m' -> on_table m ->
  forall n js, at_step m a n -> Forall2 (fun x j => x * IZR (p a) = IZR j) xs js ->
  at_step m' a (n + fold_right Z.add 0%Z js).
Proof.
  intros H. induction H as [m|m g hw m1 es m2 x xs Hc Hr H IH]; intros Ht n js Hn HF.
  - inversion HF; subst. cbn [fold_right]. now rewrite Z.add_0_r.
  - inversion HF as [|x' j xs' js' Hj HF']; subst. cbn [fold_right]. rewrite Z.add_assoc.
    apply IH; auto; [exact (linear_success_on_table _ _ _ _ _ (proj1 Hc) Hr Ht)|]. eapply relative_whole_step; eauto.
Qed.
End H.
