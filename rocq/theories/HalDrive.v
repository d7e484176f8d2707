(** From the pins back to the motors: what the motor drivers make of the signals of
    hal.move (C72). *)
From Coq Require Import ZArith Bool Reals Lia List.
From Flocq Require Import Core BinarySingleNaN.
From Verif Require Import PyBase PyNum Config Coordinates Pulses PulseSpec GCode GMachine GMachineProofs MachineFacts MachineRel MachineHist MachinePos ArcSpec LinearGen LinearTravel ArcRun MachineMoves Dma DmaGpio DmaSpec DmaGpioProofs Hal HalSpec MoveNew.
From Coq Require Import List.
Import ListNotations.
Local Open Scope Z_scope.

(** A motor driver: a rising edge of the step pin is one step, up if the direction pin is
    low and down if it is high. The state of the direction pin is unknown (0) until it is
    first written. *)
Definition driver (sp dp : Z) (s : Z * Z) (ev : DmaSpec.event) : Z * Z :=
  match ev with
  | Rise _ mask => (if Z.testbit mask dp then -1 else fst s, if Z.testbit mask sp then snd s + fst s else snd s)
  | Fall _ mask => (if Z.testbit mask dp then 1 else fst s, snd s)
  | Strange => s
  end.
(** Steps made by the motor, up minus down. *)
Definition driven (sp dp : Z) (evs : list DmaSpec.event) : Z := snd (fold_left (driver sp dp) evs (0, 0)).

(** Directions are 1 or -1. *)
Definition unit_dirs {N : PyNum} (l : list (item N)) : Prop :=
  Forall (fun it => match it with Pulses.Dir d => forall m, qat m d = 1 \/ qat m d = -1 | Pulses.Pulse _ => True end) l.
(** No pause of 2^26 microseconds (67 seconds) or more. *)
Definition short_pauses (l : list req) : Prop := Forall (fun r => match r with Delay us => us < 2 ^ 26 | _ => True end) l.

Section Drive.
Context {N : PyNum}.
Variable h : hal_config.
Hypothesis Hp : pins_ok h.
Hypothesis Hd : NoDup (used_pins h).

Lemma bit_at p q : 0 <= p -> 0 <= q -> Z.testbit (bit p) q = (p =? q).
Proof.
  intros P Q. unfold bit. rewrite Z.shiftl_spec by exact Q. destruct (Z.eqb_spec p q) as [->|D]; [now rewrite Z.sub_diag|].
  destruct (Z.ltb_spec q p); [apply Z.testbit_neg_r; lia|]. change 1 with (2 ^ 0). rewrite Z.pow2_bits_false by lia. reflexivity.
Qed.
Lemma mask_at pins f q : (forall m, 0 <= qat m pins) -> 0 <= q -> Z.testbit (mask_of pins f) q = existsb (fun m => f m && (qat m pins =? q)) [MX; MY; MZ; ME].
Proof.
  intros P Q. unfold mask_of. cbn [fold_right existsb]. pose proof (P MX) as P1. pose proof (P MY) as P2. pose proof (P MZ) as P3. pose proof (P ME) as P4.
  destruct (f MX), (f MY), (f MZ), (f ME); cbn [andb orb]; rewrite ?Z.lor_spec, ?bit_at, ?Z.testbit_0_l by assumption; rewrite ?orb_false_r; reflexivity.
Qed.
Lemma pins8 : (forall m m', qat m (step_pin h) = qat m' (step_pin h) -> m = m') /\ (forall m m', qat m (dir_pin h) = qat m' (dir_pin h) -> m = m') /\
  (forall m m', qat m (step_pin h) <> qat m' (dir_pin h)).
Proof.
  unfold used_pins, init_pins in Hd. cbn [map fst] in Hd.
  do 8 (apply NoDup_cons_iff in Hd; let N1 := fresh "N" in destruct Hd as [N1 Hd']; clear Hd; rename Hd' into Hd; cbn [In] in N1).
  clear Hd. repeat split; intros [] [] E; cbn [qat] in E; try reflexivity; exfalso; rewrite E in *; tauto.
Qed.
Lemma step_at f m : Z.testbit (mask_of (step_pin h) f) (qat m (step_pin h)) = f m.
Proof.
  destruct pins8 as (A & _ & _). rewrite mask_at; [|intros m'; apply (ok_step h Hp m')|apply (ok_step h Hp m)].
  apply eq_true_iff_eq. rewrite existsb_exists. split.
  - intros (m' & _ & E). apply andb_prop in E. destruct E as [E1 E2]. apply Z.eqb_eq, A in E2. now subst.
  - intros E. exists m. split; [destruct m; cbn; tauto|]. now rewrite E, Z.eqb_refl.
Qed.
Lemma dir_at f m : Z.testbit (mask_of (dir_pin h) f) (qat m (dir_pin h)) = f m.
Proof.
  destruct pins8 as (_ & A & _). rewrite mask_at; [|intros m'; apply (ok_dir h Hp m')|apply (ok_dir h Hp m)].
  apply eq_true_iff_eq. rewrite existsb_exists. split.
  - intros (m' & _ & E). apply andb_prop in E. destruct E as [E1 E2]. apply Z.eqb_eq, A in E2. now subst.
  - intros E. exists m. split; [destruct m; cbn; tauto|]. now rewrite E, Z.eqb_refl.
Qed.
Lemma step_dir f m : Z.testbit (mask_of (step_pin h) f) (qat m (dir_pin h)) = false.
Proof.
  destruct pins8 as (_ & _ & A). rewrite mask_at; [|intros m'; apply (ok_step h Hp m')|apply (ok_dir h Hp m)].
  apply not_true_is_false. rewrite existsb_exists. intros (m' & _ & E). apply andb_prop in E. destruct E as [_ E2]. apply Z.eqb_eq in E2. exact (A _ _ E2).
Qed.
Lemma dir_step f m : Z.testbit (mask_of (dir_pin h) f) (qat m (step_pin h)) = false.
Proof.
  destruct pins8 as (_ & _ & A). rewrite mask_at; [|intros m'; apply (ok_dir h Hp m')|apply (ok_step h Hp m)].
  apply not_true_is_false. rewrite existsb_exists. intros (m' & _ & E). apply andb_prop in E. destruct E as [_ E2]. apply Z.eqb_eq in E2. exact (A _ _ (eq_sym E2)).
Qed.

Notation drv m := (driver (qat m (step_pin h)) (qat m (dir_pin h))).
Lemma drive_rise sp dp t mask s : fold_left (driver sp dp) (rise t mask) s = driver sp dp s (Rise t mask).
Proof. unfold rise. destruct (Z.eqb_spec mask 0) as [->|]; [|reflexivity]. cbn [fold_left driver]. rewrite !Z.testbit_0_l. now destruct s. Qed.
Lemma drive_fall sp dp t mask s : fold_left (driver sp dp) (fall t mask) s = driver sp dp s (Fall t mask).
Proof. unfold fall. destruct (Z.eqb_spec mask 0) as [->|]; [|reflexivity]. cbn [fold_left driver]. rewrite !Z.testbit_0_l. now destruct s. Qed.

Definition walker (m : motor) : Z * Z -> item N -> Z * Z :=
  fun '(d, p) it => match it with Pulses.Dir q => (qat m q, p) | Pulses.Pulse _ => (d, (p + d * step_of m it)) end.

Lemma plan_driven m l : unit_dirs l -> forall k prev rs t s, plan h k prev l = Ok rs ->
  fold_left (drv m) (asked t rs) s = fold_left (walker m) l s.
Proof.
  induction 1 as [|it l U _ IH]; intros k prev rs t s E.
  - injection E as <-. reflexivity.
  - cbn [plan] in E. destruct it as [d|q].
    + cbn [plan_item rbind] in E. destruct (plan h k prev l) as [b|] eqn:EB; [|discriminate]. cbn [rbind] in E. injection E as <-.
      rewrite dir_req_of. cbn [app asked]. rewrite !fold_left_app, drive_rise, drive_fall, (IH _ _ _ _ _ EB). cbn [fold_left]. f_equal.
      cbn [driver walker]. rewrite !dir_at, !dir_step. destruct s as [u p]. cbn [fst snd]. unfold walker. destruct (U m) as [E|E]; rewrite E; reflexivity.
    + destruct (plan_item h k prev (Pulses.Pulse q)) as [[a [k' prev']]|] eqn:EP; [|discriminate]. cbn [rbind] in E.
      destruct (plan h k' prev' l) as [b|] eqn:EB; [|discriminate]. cbn [rbind] in E. injection E as <-.
      cbn [plan_item] in EP. destruct (min_time q) as [mt|]; [|discriminate]. destruct (rnd (mul mt (ofZ 1000000))) as [z|]; [|discriminate]. cbn [rbind] in EP.
      injection EP as <- <- <-. rewrite step_mask_of, <- app_assoc.
      assert (G: forall t, fold_left (drv m) (asked t (DmaGpio.Pulse (mask_of (step_pin h) (moves q)) (pulse_us h) :: b)) s = fold_left (walker m) (Pulses.Pulse q :: l) s).
      { intros t'. cbn [asked]. rewrite !fold_left_app, drive_rise, drive_fall, (IH _ _ _ _ _ EB). cbn [fold_left]. f_equal.
        cbn [driver walker]. rewrite !step_at, !step_dir. destruct s as [u p]. cbn [fst snd]. unfold moves, walker, step_of. destruct (qat m q); f_equal; lia. }
      destruct (z - prev >? 0); cbn [app asked]; apply G.
Qed.
Lemma plan_sane_short (l : list (item N)) : 0 <= pulse_us h < 2 ^ 26 -> forall k prev rs, plan h k prev l = Ok rs -> short_pauses rs -> Forall sane rs.
Proof.
  intros U. induction l as [|it l IH]; intros k prev rs E S.
  - injection E as <-. constructor.
  - cbn [plan] in E. destruct it as [d|q].
    + cbn [plan_item rbind] in E. destruct (plan h k prev l) as [b|] eqn:EB; [|discriminate]. cbn [rbind] in E. injection E as <-. cbn [app] in *. inversion_clear S as [|? ? S1 S2]. constructor; [|eapply IH; eassumption].
      rewrite dir_req_of. split; apply mask_u32; intros m; apply Hp.
    + destruct (plan_item h k prev (Pulses.Pulse q)) as [[a [k' prev']]|] eqn:EP; [|discriminate]. cbn [rbind] in E.
      destruct (plan h k' prev' l) as [b|] eqn:EB; [|discriminate]. cbn [rbind] in E. injection E as <-.
      cbn [plan_item] in EP. destruct (min_time q) as [mt|]; [|discriminate]. destruct (rnd (mul mt (ofZ 1000000))) as [z|]; [|discriminate]. cbn [rbind] in EP.
      injection EP as <- <- <-. unfold short_pauses in S. rewrite !Forall_app in S. destruct S as [[S1 _] S2]. rewrite !Forall_app. split; [split|eapply IH; eassumption].
      * destruct (Z.gtb_spec (z - prev) 0); constructor; [|constructor]. inversion_clear S1 as [|? ? S3 _]. cbn [sane]. lia.
      * constructor; [|constructor]. rewrite step_mask_of. split; [apply mask_u32; intros m; apply Hp|exact U].
Qed.


Lemma remains_det extra mm en r1 r2 : remains extra mm en r1 -> remains extra mm en r2 -> r1 = r2.
Proof. unfold remains. destruct (e_active en); [intros H1 H2; exact (plays_det _ _ _ _ H1 _ H2)|congruence]. Qed.
Lemma drivers base size extra (l : list (item N)) d e x :
  buffer_ok base size -> 0 <= pulse_us h < 2 ^ 26 -> unit_dirs l -> (forall rs, plan h 0 0 l = Ok rs -> short_pauses rs) ->
  reach_in_time h base size extra (begin_move h l None d e) x -> m_pc (x_move x) = MDone ->
  exists rest, remains extra (d_mem (x_dma x)) (x_eng x) rest /\
    forall m, driven (qat m (step_pin h)) (qat m (dir_pin h)) (seen 0 (x_done x ++ rest)) = signed_steps m l.
Proof.
  intros B U D S R PC. destruct (move_program h base size extra (proj1 B) l None d e x R PC) as (rs & PL & _ & _ & rest & RM & Q).
  exists rest. split; [exact RM|]. intros m. rewrite (Q B (plan_sane_short l U 0 0 rs PL (S rs PL))). unfold driven. rewrite (plan_driven m l D 0 0 rs 0 (0, 0) PL). reflexivity.
Qed.
End Drive.

(* ---------- the generators of the code ---------- *)
(** The generator is one of those the constructors return. *)
Definition made {N : PyNum} (cfg : config) (g : gen N) : Prop :=
  match g with
  | GLinear g => exists d v, make_linear cfg d v = Ok g
  | GCircular g => exists d r pl rot v, make_circular cfg d r pl rot v = Ok g
  end.
Section Made.
Context {N : PyNum}.
Hypothesis sign1 : forall x : N, copysign1 x = 1 \/ copysign1 x = -1.
Variable cfg : config.
Notation pm1 z := (z = 1 \/ z = -1).

Lemma made_dirs (g : gen N) : made cfg g ->
  match g with
  | GLinear g => forall m, pm1 (qat m (l_dir g))
  | GCircular g => pm1 (c_dir_a g) /\ pm1 (c_dir_b g) /\ pm1 (c_third_dir g) /\ pm1 (c_e_dir g)
  end.
Proof.
  destruct g as [g|g].
  - intros (d & v & H). unfold make_linear in H.
    repeat match type of H with
    | rbind ?x _ = Ok _ => destruct x as [?|]; cbn [rbind] in H; [|discriminate H]
    | (let '(_, _) := ?x in _) = Ok _ => destruct x
    end. injection H as <-. cbn [l_dir]. intros []; cbn [qat qx qy qz qe]; apply sign1.
  - intros (d & r & pl & rot & v & H). unfold make_circular in H.
    repeat match type of H with
    | rbind ?x _ = Ok _ => let E := fresh "E" in destruct x as [?|] eqn:E; cbn [rbind] in H; [|discriminate H]; clear E
    | (let '(_, _) := start_dirs ?a ?b ?c ?e in _) = Ok _ => let E := fresh "SD" in destruct (start_dirs a b c e) eqn:E
    | (let '(_, _) := ?x in _) = Ok _ => destruct x
    | (let x := _ in _) = Ok _ => cbv zeta in H
    end. injection H as <-. cbn [c_dir_a c_dir_b c_third_dir c_e_dir].
    match type of SD with start_dirs _ _ _ _ = (?x, ?y) => assert (PM: pm1 x /\ pm1 y) end.
    { unfold start_dirs in SD. destruct rot; injection SD as <- <-; split; match goal with |- context [if ?b then _ else _] => destruct b end; auto. }
    destruct PM as [PA PB]. repeat split; try assumption; apply sign1.
Qed.
Lemma from_axes_all {A} pl (a b c e : A) (Q : A -> Prop) : Q a -> Q b -> Q c -> Q e -> forall m, Q (qat m (from_axes pl a b c e)).
Proof. intros ? ? ? ? []; destruct pl; assumption. Qed.
Lemma interp_dirs (g : gen N) i d t : made cfg g -> gen_interp cfg g i = Ok (d, t) -> forall m, pm1 (qat m d).
Proof.
  intros M H. apply made_dirs in M. destruct g as [g|g]; cbn [gen_interp] in H.
  - unfold linear_interp in H. repeat match type of H with rbind ?x _ = Ok _ => destruct x as [?|]; cbn [rbind] in H; [|discriminate H] end. injection H as <- <-. exact M.
  - destruct M as (A & B & C & E). unfold circular_interp in H.
    destruct (circular_a g _ _) as [[da ta]|] eqn:EA; cbn [rbind] in H; [|discriminate H].
    destruct (circular_b g _ _) as [[db tb]|] eqn:EB; cbn [rbind] in H; [|discriminate H].
    repeat match type of H with rbind ?x _ = Ok _ => destruct x as [?|]; cbn [rbind] in H; [|discriminate H] end. injection H as <- <-.
    apply (from_axes_all (c_plane g) da db (c_third_dir g) (c_e_dir g) (fun z => z = 1 \/ z = -1)); try assumption.
    + clear - A EA. unfold circular_a in EA. destruct (c_iterations_a g <=? _); [injection EA as <- <-; exact A|].
      match type of EA with context [circular_helper ?s ?j ?r ?sd ?dd] => pose proof (helper_dir s r dd j A) as HD; pose proof (helper_side s j r sd dd) as HS; destruct (circular_helper s j r sd dd) as [[ap dr] sd'] end.
      cbn [fst] in HS. injection HS as -> ->.
      destruct (div _ _) as [?|]; cbn [rbind] in EA; [|discriminate EA]. destruct (_ =? c_iterations_a g); [injection EA as <- <-; exact HD|].
      repeat match type of EA with rbind ?x _ = Ok _ => destruct x as [?|]; cbn [rbind] in EA; [|discriminate EA] end. injection EA as <- <-. exact HD.
    + clear - B EB. unfold circular_b in EB. destruct (c_iterations_b g <=? _); [injection EB as <- <-; exact B|].
      match type of EB with context [circular_helper ?s ?j ?r ?sd ?dd] => pose proof (helper_dir s r dd j B) as HD; pose proof (helper_side s j r sd dd) as HS; destruct (circular_helper s j r sd dd) as [[ap dr] sd'] end.
      cbn [fst] in HS. injection HS as -> ->.
      destruct (div _ _) as [?|]; cbn [rbind] in EB; [|discriminate EB]. destruct (_ =? c_iterations_b g); [injection EB as <- <-; exact HD|].
      repeat match type of EB with rbind ?x _ = Ok _ => destruct x as [?|]; cbn [rbind] in EB; [|discriminate EB] end. injection EB as <- <-. exact HD.
Qed.
Lemma iterate_dirs (g : gen N) : made cfg g -> forall fuel s l, iterate cfg fuel g s = Finished l -> unit_dirs l.
Proof.
  intros M fuel. induction fuel as [|fuel IH]; intros s l H; [discriminate|]. cbn [iterate] in H.
  destruct (next cfg g s) as [[[it s']|]|] eqn:En; [|injection H as <-; constructor|discriminate].
  destruct (iterate cfg fuel g s') as [l'| |] eqn:Ei; try discriminate. injection H as <-. constructor; [|eapply IH; exact Ei].
  unfold next in En. destruct (gen_interp cfg g (it_i s)) as [[dir t]|] eqn:Eg; cbn [rbind] in En; [|discriminate].
  pose proof (interp_dirs g _ _ _ M Eg) as D. destruct (match it_dir s with None => _ | Some _ => _ end).
  - injection En as <- <-. intros m. rewrite isg_invert. unfold isg. specialize (D m). destruct (qat m (inverted cfg)); lia.
  - destruct (min_time t) as [mt|]; [|discriminate]. destruct (to_accelerated_time _ _ _ _) as [am|]; cbn [rbind] in En; [|discriminate].
    repeat match type of En with context [fire ?a ?b ?c ?e] => destruct (fire a b c e) end. injection En as <- <-. exact I.
Qed.
Lemma completes_dirs (g : gen N) l : made cfg g -> completes cfg g l -> unit_dirs l.
Proof. intros M [fuel H]. unfold run_gen in H. destruct (iter_start cfg g) as [s|]; [|discriminate]. eapply iterate_dirs; eauto. Qed.

(* ---------- the moves of the machine ---------- *)
Definition all_made (m : GMachine.machine N) (es : list (GMachine.event N)) (m' : GMachine.machine N) : Prop := Forall (fun ev => match ev with EMove g => made cfg g | _ => True end) es.
Lemma am_refl m : all_made m [] m. Proof. constructor. Qed.
Lemma am_trans m1 e1 m2 e2 m3 : all_made m1 e1 m2 -> all_made m2 e2 m3 -> all_made m1 (e1 ++ e2) m3.
Proof. intros H1 H2. apply Forall_app. now split. Qed.
Lemma am_linear hw d v : linear_steps cfg hw all_made d v.
Proof. intros m d' g _ _ _ Hg _. split; [|intros _]; (constructor; [|constructor]); cbn [made]; eauto. Qed.
Lemma am_arc hw d rr v rot : MachineRel.arc_steps cfg hw all_made d rr v rot.
Proof.
  intros m ce ld g lg H. assert (F: all_made m (arc_events g lg) m).
  { destruct H as [d' rr' ea eb _ _ _ _ _ Hg _ _ Hlg]. constructor; [cbn [made]; eauto 10|]. destruct lg as [lg|]; [|constructor]. destruct Hlg as (_ & Hl & _). constructor; [cbn [made]; eauto|constructor]. }
  split; [exact F|]. intros p ev s E _. unfold all_made in *. rewrite E in F. apply Forall_app in F. destruct F as [F1 F2]. apply Forall_app. split; [exact F1|]. inversion_clear F2. constructor; [assumption|constructor].
Qed.
Ltac arc_rel Hr Ht side :=
  unfold spindle, fan, heat;
  repeat first
    [ apply rel_lift; exact Hr | apply rel_ret; exact Hr | apply rel_throw; exact Hr
    | apply rel_gets; exact Hr | apply rel_fail_if; exact Hr
    | apply rel_move_linear; [exact Hr|] | apply rel_move_circular; [exact Hr|]
    | apply rel_safe_zero; [exact Hr|exact Ht|]
    | apply rel_call; intros ? | apply rel_measure; intros ? | apply rel_measure_opt; intros ?
    | apply rel_modify; intros ?
    | apply rel_bind; [exact Ht| |intros ?]
    | match goal with |- rel _ (match ?x with _ => _ end) => destruct x end ];
  try side.
Lemma am_exec hw g c d rr v : rel all_made (exec_cmd cfg hw g c d rr v).
Proof.
  destruct c; simpl; arc_rel am_refl am_trans ltac:(first [apply am_linear|apply am_arc|intros; apply am_linear|repeat constructor]).
Qed.
Lemma history_made P m es : history_where P cfg m es -> all_made (init_machine cfg) es m.
Proof.
  intros H. apply (history_rel P cfg all_made am_refl am_trans) in H; [exact H|]. intros hw gc _.
  apply (rel_do_command _ _ _ am_refl am_trans); [intros; constructor|]. intros. apply am_exec.
Qed.
End Made.

(* ---------- histories ---------- *)
Section Played.
Variable acos : f64 -> f64.
Notation N := (F64 acos).
Variables (cfg : config) (h : hal_config) (base size : Z) (extra : bool).

(** The net steps [s] which the driver of the axis [a] makes over the moves of [es], up
    in the direction of growing coordinates: for each move, hal.move is called with the
    items the generator yields, returns, and the engine plays what it has left in the
    buffer; the state of the buffer and the engine before the call is arbitrary. *)
Inductive played (a : axis) : list (GMachine.event N) -> Z -> Prop :=
| played_nil : played a [] 0
| played_other ev es s : (forall g, ev <> EMove g) -> played a es s -> played a (ev :: es) s
| played_move g l d e x rest es s :
    completes cfg g l ->
    (forall rs, plan h 0 0 l = Ok rs -> short_pauses rs) ->
    reach_in_time h base size extra (begin_move h l None d e) x -> m_pc (x_move x) = MDone ->
    remains extra (d_mem (x_dma x)) (x_eng x) rest ->
    played a es s ->
    played a (EMove g :: es)
      (invert (ax a (inverted cfg)) (driven (ax a (step_pin h)) (ax a (dir_pin h)) (seen 0 (x_done x ++ rest))) + s).

Hypothesis Hp : pins_ok h.
Hypothesis Hd : NoDup (used_pins h).
Hypothesis Hb : buffer_ok base size.
Hypothesis Hu : 0 <= pulse_us h < 2 ^ 26.

Lemma played_sent a es s : Forall (fun ev => match ev with EMove g => made (N:=N) cfg g | _ => True end) es -> played a es s -> sent acos cfg a es s.
Proof.
  intros F X. induction X as [|ev es s V _ IH|g l d e x rest es s C S R PC RM _ IH]; inversion_clear F as [|? ? F1 F2].
  - constructor.
  - apply sent_other; auto.
  - assert (U: unit_dirs (N:=N) l). { eapply completes_dirs; [|exact F1|exact C]. intros y. cbn. unfold f_copysign1. destruct (Bsign y); auto. }
    destruct (drivers (N:=N) h Hp Hd base size extra l d e x Hb Hu U S R PC) as (rest' & RM' & Q).
    rewrite (remains_det _ _ _ _ _ RM RM'). rewrite <- !qat_motor_of, Q.
    replace (invert _ _) with (travel (N:=N) cfg (motor_of a) l) by (unfold travel, invert; reflexivity).
    apply sent_move; auto.
Qed.
Lemma history_played (P : hw_oracle N -> option gcode -> Prop) m es a s :
  history_where P cfg m es -> played a es s -> sent acos cfg a es s.
Proof.
  intros H X. eapply played_sent; [|exact X]. apply (history_made (N:=N) cfg P m es H).
Qed.
End Played.
