(** The reported position over binary64: it stays on the motor grid, inside the
    table, and follows the pulses of the straight moves exactly
    (C08, C16, C20). *)
From Coq Require Import String Ascii ZArith Bool Reals Lra Lia List.
From Flocq Require Import Core BinarySingleNaN.
From Verif Require Import PyBase PyNum PyFloatFacts Config Coordinates Pulses GCode GCodeSpec WordFacts GMachine GMachineProofs MachineFacts MachineRel MachineHist MachineFloat Decimal.
From Coq Require Import List.
From Flocq Require Import Core.
Import ListNotations.
Local Open Scope R_scope.

(** The axes that have a table limit. *)
Inductive axis := AX | AY | AZ.
Definition ax {A} (a : axis) (q : quad A) : A :=
  match a with AX => qx q | AY => qy q | AZ => qz q end.
Definition table (cfg : config) (a : axis) : Z :=
  match a with AX => table_x cfg | AY => table_y cfg | AZ => table_z cfg end.
Definition axis_letter (a : axis) : ascii :=
  match a with AX => "X" | AY => "Y" | AZ => "Z" end%char.

(** Machines covered: up to 1000 steps per mm, the step a multiple of 1e-10 mm,
    table up to about 4 m. *)
Definition axis_cfg (p t : Z) : Prop := (0 < p <= 1000)%Z /\ (p | 10000000000)%Z /\ (0 <= t <= 4096)%Z.
Definition good_cfg (cfg : config) : Prop :=
  (forall a, axis_cfg (ax a (ppm cfg)) (table cfg a)) /\ (0 < qe (ppm cfg) <= 1000)%Z.

Lemma default_good : good_cfg default_config.
Proof.
  split; [|simpl; lia]. intros []; simpl; (split; [lia|split; [|lia]]).
  - exists 100000000%Z; reflexivity.
  - exists 100000000%Z; reflexivity.
  - exists 25000000%Z; reflexivity.
Qed.

(** x is the double nearest to n / p. *)
Definition nearest_to (p n : Z) (x : f64) : Prop := fin x /\ val x = rd (IZR n / IZR p).

Definition step (p : Z) : Z := (10000000000 / p)%Z.
Lemma step_mul p t : axis_cfg p t -> (p * step p = 10000000000)%Z.
Proof. intros (H & D & _). destruct D as [q Hq]. unfold step. rewrite Hq, Z.div_mul; lia. Qed.
Lemma nearest_dec p t n x : axis_cfg p t -> nearest_to p n x <-> dec (n * step p) x.
Proof.
  intros H. unfold nearest_to, dec. rewrite (step_R p (proj1 H) (step p) (step_mul _ _ H)). tauto.
Qed.

Lemma f_eq_zero x : fin x -> (f_eq x (f_ofZ 0) = true <-> val x = 0).
Proof. intros F. destruct (f_ofZ_val 0) as [F0 V0]; [vm_compute; discriminate|]. rewrite (f_eq_true x _ F F0), V0. tauto. Qed.

Section One.
(** One axis. *)
Variable acos : f64 -> f64.
Notation N := (F64 acos).
Variables p t : Z.
Hypothesis Hc : axis_cfg p t.
Notation s := (step p).
Let Hp := proj1 Hc.
Let Hs := step_mul p t Hc.

Definition inside (n : Z) : Prop := (0 <= n <= t * p)%Z.

Lemma inside_small n : inside n -> (Z.abs n <= 4096 * p)%Z.
Proof. unfold inside. assert (X := Hc). destruct X as (H1 & _ & H2). intros H. nia. Qed.

(** The box test after a displacement rounded to the grid. *)
Lemma axis_moved n x b v y :
  fin b /\ val b = rd (/ IZR p) ->
  dec (n * s) x -> inside n ->
  round1 (N:=N) v b = Ok y ->
  f_lt (f_rnd10 (f_add x (f_rnd10 y))) (f_ofZ 0) = false ->
  f_lt (f_ofZ t) (f_rnd10 (f_add x (f_rnd10 y))) = false ->
  exists j, dec (j * s) (f_rnd10 y) /\ y = f_mul (f_ofZ j) b /\
    dec ((n + j) * s) (f_rnd10 (f_add x (f_rnd10 y))) /\ inside (n + j).
Proof.
  intros Hb Dx Hn Hr H0 Ht. assert (Sn := inside_small n Hn).
  assert (Hspos: (0 < s)%Z) by nia.
  destruct (round1_form acos b v y Hr) as (j & ->). exists j.
  assert (Ht3 := proj2 (proj2 Hc)).
  destruct (f_ofZ_val 0) as [F0 V0]; [vm_compute; discriminate|].
  destruct (f_ofZ_val t) as [Ft Vt]; [lia|].
  destruct (Z_lt_le_dec (Z.abs j) (32768 * p)) as [Hj|Hj].
  - assert (Dj := grid_mul p Hp b Hb s Hs j ltac:(lia)).
    assert (Sj := step_small p Hp s Hs j ltac:(lia)). assert (Sx := step_small p Hp s Hs n ltac:(lia)).
    assert (Da := dec_add _ _ _ _ Dx Dj Sx Sj).
    replace (n * s + j * s)%Z with ((n + j) * s)%Z in Da by ring.
    assert (Sa := step_small p Hp s Hs (n + j) ltac:(lia)).
    split; [exact Dj|]. split; [reflexivity|]. split; [exact Da|].
    apply f_lt_false in H0; [|apply Da|exact F0]. apply f_lt_false in Ht; [|exact Ft|apply Da].
    rewrite V0 in H0. rewrite Vt in Ht.
    apply (dec_ge_0 _ _ Da Sa) in H0. apply (dec_le_int _ _ t Da Sa) in Ht.
    unfold inside. rewrite <- Hs in Ht. nia.
  - exfalso. assert (A := grid_far p Hp b Hb j Hj).
    assert (B: Rabs (val x) <= 4096).
    { destruct Dx as [_ ->]. change 4096 with (bpow radix2 12). apply rd_abs_le; [lia|].
      rewrite (step_R p Hp s Hs n). unfold Rdiv. assert (Pp := p_pos p Hp).
      rewrite Rabs_mult, (Rabs_pos_eq (/ IZR p)), <- abs_IZR by (left; now apply Rinv_0_lt_compat).
      apply Rmult_le_reg_r with (IZR p); [lra|]. rewrite Rmult_assoc, Rinv_l, Rmult_1_r by lra.
      change (bpow radix2 12) with 4096. rewrite <- mult_IZR. now apply IZR_le. }
    assert (A2 := add_atleast _ 4096 13 x _ ltac:(lia) (proj1 Dx) B A ltac:(b2n; lra)).
    apply rnd10_atleast in A2; [|lia]. destruct A2 as [(sg & E)|[F Hv]].
    + rewrite E in H0, Ht. eapply inf_not_between; [exact F0|exact Ft|exact H0|exact Ht].
    + apply f_lt_false in H0; [|exact F|exact F0]. apply f_lt_false in Ht; [|exact Ft|exact F].
      rewrite V0 in H0. rewrite Vt in Ht. rewrite Rabs_pos_eq in Hv by exact H0.
      b2n. destruct Ht3 as [_ Ht3]. apply IZR_le in Ht3. lra.
Qed.

(** The number of pulses, with sign, of the linear generator for that axis. *)
Lemma axis_pulses j d : dec (j * s) d -> (Z.abs j <= 65536 * p)%Z ->
  pulses_of (N:=N) (f_rnd10 (Babs d)) p = Ok (Z.abs j) /\ (f_copysign1 d * Z.abs j = j)%Z.
Proof.
  intros D Hj. assert (Hspos: (0 < s)%Z) by nia. split.
  - unfold pulses_of. cbn [F64 rnd mul ofZ]. apply (pulses_exact p Hp s Hs).
    + apply dec_abs in D. rewrite Z.abs_mul, (Z.abs_eq s) in D by lia.
      apply dec_rnd10; [exact D|]. apply (step_small p Hp s Hs). lia.
    + lia.
  - destruct (Z.eq_dec j 0) as [->|Hz]; [simpl; lia|].
    assert (Sd := step_small p Hp s Hs j ltac:(lia)).
    assert (Hsg: f_copysign1 d = Z.sgn j).
    { assert (G := dec_ge_0 _ _ D Sd).
      assert (Hv0: val d <> 0). { intros E. apply (dec_val_0 _ _ D Sd) in E. nia. }
      unfold f_copysign1. destruct D as [F _].
      destruct d as [sd|sd| |sd md ed Bd]; try discriminate; [simpl in Hv0; lra|].
      simpl Bsign. destruct sd.
      - destruct (Z_le_gt_dec 0 j) as [Hp'|Hp'].
        + assert (0 <= val (B754_finite true md ed Bd)) by (apply G; nia).
          exfalso. apply Rle_not_lt in H. apply H. apply F2R_lt_0. reflexivity.
        + lia.
      - destruct (Z_lt_le_dec j 0) as [Hp'|Hp'].
        + exfalso. assert (0 <= val (B754_finite false md ed Bd)) by (apply F2R_ge_0; simpl; lia).
          apply G in H. nia.
        + lia. }
    rewrite Hsg. rewrite Z.mul_comm. apply Z.abs_sgn.
Qed.
End One.

Section M.
Variable acos : f64 -> f64.
Notation N := (F64 acos).
Variable cfg : config.
Hypothesis Hcfg : good_cfg cfg.
Notation p a := (ax a (ppm cfg)).
Notation t a := (table cfg a).

Lemma acfg a : axis_cfg (p a) (t a). Proof. apply Hcfg. Qed.

(** The axis stands exactly at the n-th grid point, inside the table. *)
Definition at_step (m : machine N) (a : axis) (n : Z) : Prop :=
  dec (n * step (p a)) (ax a (m_position m)) /\ inside (p a) (t a) n.
Definition on_table (m : machine N) : Prop := forall a, exists n, at_step m a n.

Lemma ax_cadd a (x y : quad N) : ax a (cadd x y) = f_rnd10 (f_add (ax a x) (ax a y)).
Proof. now destruct a. Qed.
Lemma ax_csub a (x y : quad N) : ax a (csub x y) = f_rnd10 (f_sub (ax a x) (ax a y)).
Proof. now destruct a. Qed.

Lemma grid_axes (b : quad N) : grid cfg = Ok b -> forall a, fin (ax a b) /\ val (ax a b) = rd (/ IZR (p a)).
Proof.
  intros H a. unfold grid in H. cbn [div F64 ofZ] in H.
  destruct (base_ok (qx (ppm cfg)) (proj1 (acfg AX))) as (bx & Ex & Hx).
  destruct (base_ok (qy (ppm cfg)) (proj1 (acfg AY))) as (by_ & Ey & Hy).
  destruct (base_ok (qz (ppm cfg)) (proj1 (acfg AZ))) as (bz & Ez & Hz).
  rewrite Ex in H; cbn [rbind] in H. rewrite Ey in H; cbn [rbind] in H. rewrite Ez in H; cbn [rbind] in H.
  destruct (f_div (f_ofZ 1) (f_ofZ (qe (ppm cfg)))); [|discriminate]. cbn [rbind] in H.
  injection H as <-. destruct a; assumption.
Qed.
Lemma round_axes (d d' : quad N) : round_to_grid cfg d = Ok d' ->
  forall a, exists b y, (fin b /\ val b = rd (/ IZR (p a))) /\ round1 (N:=N) (ax a d) b = Ok y /\ ax a d' = f_rnd10 y.
Proof.
  unfold round_to_grid. destruct (grid cfg) as [b|] eqn:E; [|discriminate]. cbn [rbind].
  unfold Coordinates.round. intros H a. assert (G := grid_axes b E a). exists (ax a b).
  destruct (round1 (qx d) (qx b)) as [x|] eqn:Ex; [|discriminate]. cbn [rbind] in H.
  destruct (round1 (qy d) (qy b)) as [y|] eqn:Ey; [|discriminate]. cbn [rbind] in H.
  destruct (round1 (qz d) (qz b)) as [z|] eqn:Ez; [|discriminate]. cbn [rbind] in H.
  destruct (round1 (qe d) (qe b)) as [e|] eqn:Ee; [|discriminate]. cbn [rbind] in H.
  injection H as <-. destruct a; eexists; (split; [exact G|split; [eassumption|reflexivity]]).
Qed.

Lemma rnd10_ofZ n : (Z.abs n <= 4096)%Z -> fin (f_rnd10 (f_ofZ n)) /\ val (f_rnd10 (f_ofZ n)) = IZR n.
Proof.
  intros H. assert (D := dec_ofZ n ltac:(unfold small; lia)).
  assert (D2 := dec_rnd10 _ _ D ltac:(unfold small; lia)).
  split; [apply D2|]. rewrite (proj2 D2), <- (proj2 D). apply f_ofZ_val. lia.
Qed.

Lemma sorted_corner a : sorted2 (N:=N) (ax a coords0) (ax a (table_corner cfg)) =
  (f_rnd10 (f_ofZ 0), f_rnd10 (f_ofZ (t a))).
Proof.
  assert (E: ax a (coords0 (N:=N)) = f_rnd10 (f_ofZ 0)) by (now destruct a).
  assert (E2: ax a (table_corner (N:=N) cfg) = f_rnd10 (f_ofZ (t a))) by (now destruct a).
  rewrite E, E2. unfold sorted2. cbn [ltb F64].
  destruct (acfg a) as (_ & _ & Ht).
  destruct (rnd10_ofZ 0) as [F0 V0]; [lia|]. destruct (rnd10_ofZ (t a)) as [Ft Vt]; [lia|].
  assert (H: f_lt (f_rnd10 (f_ofZ (t a))) (f_rnd10 (f_ofZ 0)) = false).
  { apply f_lt_false; auto. rewrite V0, Vt. apply IZR_le. lia. }
  now rewrite H.
Qed.
Lemma in_box_axes (q : quad N) : in_box cfg q = true ->
  forall a, f_lt (ax a q) (f_ofZ 0) = false /\ f_lt (f_ofZ (t a)) (ax a q) = false.
Proof.
  unfold in_box, is_in_aabb. intros H a.
  assert (Sx := sorted_corner AX). assert (Sy := sorted_corner AY). assert (Sz := sorted_corner AZ).
  cbn [ax] in Sx, Sy, Sz. rewrite Sx, Sy, Sz in H. cbn [ltb F64] in H.
  assert (K: f_lt (ax a q) (f_rnd10 (f_ofZ 0)) = false /\ f_lt (f_rnd10 (f_ofZ (t a))) (ax a q) = false).
  { destruct (f_lt (qx q) (f_rnd10 (f_ofZ 0))) eqn:E1; [discriminate|].
    destruct (f_lt (qy q) (f_rnd10 (f_ofZ 0))) eqn:E2; [discriminate|].
    destruct (f_lt (qz q) (f_rnd10 (f_ofZ 0))) eqn:E3; [discriminate|]. cbn [orb] in H.
    destruct (f_lt (f_rnd10 (f_ofZ (t AX))) (qx q)) eqn:E4; [discriminate|].
    destruct (f_lt (f_rnd10 (f_ofZ (t AY))) (qy q)) eqn:E5; [discriminate|].
    destruct (f_lt (f_rnd10 (f_ofZ (t AZ))) (qz q)) eqn:E6; [discriminate|].
    destruct a; auto. }
  destruct K as [K1 K2].
  destruct (acfg a) as (_ & _ & Ht).
  destruct (rnd10_ofZ 0) as [F0 V0]; [lia|]. destruct (rnd10_ofZ (t a)) as [Ft Vt]; [lia|].
  destruct (f_ofZ_val 0) as [G0 W0]; [vm_compute; discriminate|].
  destruct (f_ofZ_val (t a)) as [Gt Wt]; [lia|].
  destruct (is_nan (ax a q)) eqn:En.
  { destruct (ax a q) as [[]|[]| |[]]; try discriminate. split; [now destruct (f_ofZ 0) as [[]|[]| |[]]|apply f_lt_nan_r]. }
  assert (B := fin_between _ _ _ En F0 Ft K1 K2). destruct B as (F & B1 & B2).
  split; apply f_lt_false; auto; lra.
Qed.

(** What a straight move does to one axis. *)
Lemma linear_axis m d d' a n :
  at_step m a n -> round_to_grid cfg d = Ok d' -> in_box cfg (cadd (m_position m) d') = true ->
  exists j, dec (j * step (p a)) (ax a d') /\ (Z.abs j <= 65536 * p a)%Z /\
    at_step (set_position m (cadd (m_position m) d')) a (n + j).
Proof.
  intros [D I] Hr Hb. destruct (round_axes _ _ Hr a) as (b & y & Gb & Hy & E).
  destruct (in_box_axes _ Hb a) as [B1 B2]. rewrite ax_cadd, E in B1, B2.
  destruct (axis_moved acos (p a) (t a) (acfg a) n _ b _ y Gb D I Hy B1 B2) as (j & Dj & _ & Dn & In).
  assert (S1 := inside_small _ _ (acfg a) _ I). assert (S2 := inside_small _ _ (acfg a) _ In).
  exists j. rewrite E. split; [exact Dj|]. split; [lia|]. split; [|exact In].
  cbn [m_position set_position]. rewrite ax_cadd, E. exact Dn.
Qed.

Lemma make_linear_axes (d : quad N) v g a : make_linear cfg d v = Ok g ->
  pulses_of (N:=N) (f_rnd10 (Babs (ax a d))) (p a) = Ok (ax a (l_total g)) /\
  ax a (l_dir g) = f_copysign1 (ax a d) /\ l_delta g = d.
Proof.
  unfold make_linear. intros H.
  repeat match type of H with
  | rbind ?c _ = Ok _ => let E := fresh "E" in destruct c eqn:E; cbn [rbind] in H; [|discriminate H]
  | (match ?c with pair _ _ => _ end) = Ok _ => destruct c
  end.
  injection H as <-. cbn [l_total l_dir l_delta ax]. destruct a; auto.
Qed.

Lemma at_step_position m m' a n : m_position m' = m_position m -> at_step m a n -> at_step m' a n.
Proof. unfold at_step. now intros ->. Qed.

(* ---------- C16 ---------- *)
(** Net number of steps sent to an axis by the straight moves in a list of events. *)
Definition net_move (a : axis) (ev : event N) : Z :=
  match ev with
  | EMove (GLinear g) => (ax a (l_dir g) * ax a (l_total g))%Z
  | _ => 0%Z
  end.
Definition net (a : axis) (es : list (event N)) : Z :=
  fold_right (fun ev s => (net_move a ev + s)%Z) 0%Z es.
Lemma net_app a e1 e2 : net a (e1 ++ e2) = (net a e1 + net a e2)%Z.
Proof. induction e1 as [|ev r IH]; cbn [net fold_right app]; [reflexivity|]. fold (net a (r ++ e2)). rewrite IH. fold (net a r). lia. Qed.

Definition follows (m : machine N) (es : list (event N)) (m' : machine N) : Prop :=
  forall a n, at_step m a n -> at_step m' a (n + net a es).
Lemma follows_refl m : follows m [] m.
Proof. intros a n H. cbn. now rewrite Z.add_0_r. Qed.
Lemma follows_trans m1 e1 m2 e2 m3 : follows m1 e1 m2 -> follows m2 e2 m3 -> follows m1 (e1 ++ e2) m3.
Proof. intros H1 H2 a n H. rewrite net_app, Z.add_assoc. auto. Qed.
Lemma follows_still m es m' : m_position m' = m_position m -> (forall a, net a es = 0%Z) -> follows m es m'.
Proof. intros E Hn a n H. rewrite Hn, Z.add_0_r. eapply at_step_position; eauto. Qed.

Definition is_move (ev : event N) : Prop := exists g, ev = EMove g.
Lemma follows_linear hw d v : never_fails_on is_move hw -> linear_steps cfg hw follows d v.
Proof.
  intros Hn m d' g Hd Hz Hb Hg Hf. split.
  - intros a n H. destruct (linear_axis m d d' a n H Hd Hb) as (j & Dj & Sj & Hm).
    destruct (make_linear_axes d' v g a Hg) as (Hp & Hdir & _).
    destruct (axis_pulses acos (p a) (t a) (acfg a) j _ Dj Sj) as [Hp2 Hs].
    rewrite Hp in Hp2. injection Hp2 as Hp2. cbn [net fold_right net_move]. rewrite Hdir, Hp2, Hs, Z.add_0_r. exact Hm.
  - intros (l & e & He). exfalso. apply (Hn l _ e) in He; [contradiction|]. eexists. reflexivity.
Qed.

Definition is_arc (c : cmd) : bool := match c with G2 | G3 => true | _ => false end.
Ltac exec_rel Hr Ht side :=
  unfold spindle, fan, heat;
  repeat first
    [ apply rel_lift; exact Hr | apply rel_ret; exact Hr | apply rel_throw; exact Hr
    | apply rel_gets; exact Hr | apply rel_fail_if; exact Hr
    | apply rel_move_linear; [exact Hr|]
    | apply rel_safe_zero; [exact Hr|exact Ht|]
    | apply rel_call; intros ? | apply rel_measure; intros ? | apply rel_measure_opt; intros ?
    | apply rel_modify; intros ?
    | apply rel_bind; [exact Ht| |intros ?]
    | match goal with |- rel _ (match ?x with _ => _ end) => destruct x end ];
  try side.
Lemma follows_exec hw g c d rr v : never_fails_on is_move hw -> is_arc c = false ->
  rel follows (exec_cmd cfg hw g c d rr v).
Proof.
  intros Hn Ha. destruct c; try discriminate Ha; simpl;
    exec_rel follows_refl follows_trans ltac:(apply follows_still; reflexivity); try (now apply follows_linear).
  all: intros; now apply follows_linear.
Qed.

Lemma rel_do_command_if hw (R : machine N -> list (event N) -> machine N -> Prop) gc :
  (forall m, R m [] m) -> (forall m1 e1 m2 e2 m3, R m1 e1 m2 -> R m2 e2 m3 -> R m1 (e1 ++ e2) m3) ->
  (forall m v, R m [] (set_velocity m v)) ->
  (forall g t c delta radius v, gc = Some g -> effective_command g = Some t -> assoc_text t command_table = Some c ->
     rel R (exec_cmd cfg hw g c delta radius v)) ->
  rel R (do_command cfg hw gc).
Proof.
  intros Hr Ht Hv Hx m l m' l' r H. destruct gc as [g|].
  2: { apply (rel_ret R Hr tt) in H. exact H. }
  apply do_command_inv in H. destruct H.
  - exists []. rewrite app_nil_r. auto.
  - exists []. rewrite app_nil_r. auto.
  - eapply Hx in H5; eauto. destruct H5 as (es & -> & HR). exists es. split; auto.
    destruct r; auto. rewrite <- (app_nil_r es). eapply Ht; eauto.
Qed.

(** Lines that are not arcs. *)
Definition no_arc (gc : option gcode) : Prop :=
  match gc with
  | None => True
  | Some g => effective_command g <> Some (tx "G2") /\ effective_command g <> Some (tx "G3")
  end.
Lemma no_arc_cmd g t0 c : no_arc (Some g) -> effective_command g = Some t0 -> assoc_text t0 command_table = Some c -> is_arc c = false.
Proof.
  intros [H2 H3] E A. rewrite E in H2, H3. apply assoc_text_In in A.
  unfold command_table in A. cbn [map fst snd In] in A.
  repeat destruct A as [A|A]; try contradiction; injection A as E1 <-; try reflexivity; exfalso; subst t0; tauto.
Qed.

Lemma init_at a : at_step (init_machine cfg) a 0.
Proof.
  split.
  - assert (E: ax a (m_position (init_machine (N:=N) cfg)) = f_rnd10 (f_ofZ 0)) by (now destruct a).
    rewrite E. apply dec_rnd10; [exact dec_0|unfold small; lia].
  - destruct (acfg a) as (H1 & _ & H2). unfold inside. split; [lia|]. nia.
Qed.

Lemma history_follows (P : hw_oracle N -> option gcode -> Prop) m es :
  (forall hw gc, P hw gc -> never_fails_on is_move hw /\ no_arc gc) ->
  history_where P cfg m es -> forall a, at_step m a (net a es).
Proof.
  intros HP H a.
  apply (history_rel P cfg follows follows_refl follows_trans) in H.
  - specialize (H a 0%Z (init_at a)). now rewrite Z.add_0_l in H.
  - intros hw gc Hgc. destruct (HP hw gc Hgc) as [Hn Ha].
    apply rel_do_command_if; [exact follows_refl|exact follows_trans|intros; now apply follows_still|].
    intros g t0 c delta radius v E Et Ec. subst gc. apply follows_exec; auto. eapply no_arc_cmd; eauto.
Qed.

(* ---------- G28 ---------- *)
Lemma axis_kept m (d' : quad N) a n j : at_step m a n -> dec (j * step (p a)) (ax a d') ->
  at_step (set_position m (cadd (m_position m) d')) a (n + j) -> j = 0%Z ->
  val (ax a (cadd (m_position m) d')) = val (ax a (m_position m)).
Proof.
  intros [H _] _ [H2 _] ->. rewrite Z.add_0_r in H2. cbn [m_position set_position] in H2.
  rewrite (proj2 H), (proj2 H2). reflexivity.
Qed.

(** A straight move by exactly j grid steps along an axis. *)
Lemma linear_exact m d v hw l m' l' a n j :
  move_linear cfg hw d v m l = (m', l', Ok tt) ->
  at_step m a n -> dec (j * step (p a)) (ax a d) -> (Z.abs j <= 65536 * p a)%Z -> at_step m' a (n + j).
Proof.
  intros H Hn Dj Sj. assert (Hp := proj1 (acfg a)). assert (Hs := step_mul _ _ (acfg a)).
  apply move_linear_inv in H. inversion H; subst; clear H.
  - destruct (round_axes _ _ H0 a) as (b & y & Gb & Hy & E).
    rewrite (round1_exact acos (p a) Hp b Gb _ Hs j _ Dj Sj) in Hy. injection Hy as <-.
    assert (Dd := grid_mul (p a) Hp b Gb _ Hs j ltac:(lia)). rewrite <- E in Dd.
    assert (Z: f_eq (ax a d0) (f_ofZ 0) = true).
    { unfold is_zero in H1. cbn [eqb F64 zero ofZ] in H1. destruct a; cbn [ax]; destruct (f_eq (qx d0) _), (f_eq (qy d0) _), (f_eq (qz d0) _); auto; discriminate. }
    apply f_eq_zero in Z; [|apply Dd].
    apply (dec_val_0 _ _ Dd) in Z; [|apply (step_small (p a) Hp); auto; lia].
    assert (0 < step (p a))%Z by nia. assert (j = 0)%Z by nia. subst j. now rewrite Z.add_0_r.
  - destruct (linear_axis m d d0 a n Hn H0 H2) as (j' & Dj' & Sj' & Hm').
    destruct (round_axes _ _ H0 a) as (b' & y & Gb & Hy & E).
    rewrite (round1_exact acos (p a) Hp b' Gb _ Hs j _ Dj Sj) in Hy. injection Hy as <-.
    assert (Dd := grid_mul (p a) Hp b' Gb _ Hs j ltac:(lia)). rewrite <- E in Dd.
    assert (E2: (j' * step (p a) = j * step (p a))%Z).
    { eapply dec_fun; eauto; apply (step_small (p a) Hp); auto; lia. }
    assert (0 < step (p a))%Z by nia. assert (j' = j) by nia. now subst j'.
Qed.
End M.
