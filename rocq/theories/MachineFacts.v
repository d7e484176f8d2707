(** Proofs of the machine properties that hold for every number structure:
    C11-C13, C18-C20, C26, C27. *)
From Coq Require Import String Ascii ZArith Bool Lia List.
From Verif Require Import PyBase PyNum Config Coordinates Pulses GCode GMachine GMachineProofs.
From Coq Require Import List.
Import ListNotations.

Section P.
Context {N : PyNum}.
Variable cfg : config.

(** Calls that do not act on the machine: waiting for motors, reading a
    temperature. *)
Definition harmless (ev : event N) : Prop :=
  ev = EJoin \/ exists h, ev = EMeasure h.
(** Hardware on which only temperature measurements can fail. *)
Definition only_sensors_fail (hw : hw_oracle N) : Prop :=
  forall l ev x, hw l ev = HRaise x -> exists h, ev = EMeasure h.

Lemma measure_or_fail_inv (hw : hw_oracle N) h m l m' l' r :
  measure_or_fail hw h m l = (m', l', r) -> m' = m /\ l' = l ++ [EMeasure h].
Proof.
  unfold measure_or_fail. destruct (call hw (EMeasure h) m l) as [[m1 l1] r1] eqn:E.
  apply call_inv in E. destruct E as (-> & -> & _). intros H.
  destruct r1 as [b|[]]; injection H as <- <- <-; auto.
Qed.
Lemma measure_opt_inv (hw : hw_oracle N) h m l m' l' r :
  measure_opt hw h m l = (m', l', r) -> m' = m /\ l' = l ++ [EMeasure h].
Proof.
  unfold measure_opt. destruct (call hw (EMeasure h) m l) as [[m1 l1] r1] eqn:E.
  apply call_inv in E. destruct E as (-> & -> & _). intros H.
  destruct r1 as [b|[]]; injection H as <- <- <-; auto.
Qed.

Ltac minv2 :=
  repeat first [progress minv |
    match goal with
    | H : measure_or_fail _ _ _ _ = _ |- _ => apply measure_or_fail_inv in H; destruct H as (-> & ->)
    | H : measure_opt _ _ _ _ = _ |- _ => apply measure_opt_inv in H; destruct H as (-> & ->)
    | H : (match ?x with _ => _ end) _ _ = _ |- _ => destruct x eqn:?
    | H : spindle _ _ _ _ _ = _ |- _ => unfold spindle in H
    | H : fan _ _ _ _ = _ |- _ => unfold fan in H
    end].

Lemma exec_fail_no_effect hw g c d rr v m l m' l' e :
  only_sensors_fail hw -> c <> G28 ->
  exec_cmd cfg hw g c d rr v m l = (m', l', Raise e) ->
  m' = m /\ exists es, l' = l ++ es /\ Forall harmless es.
Proof.
  intros Hhw Hc H.
  assert (Hnil: m = m /\ exists es, l = l ++ es /\ Forall harmless es).
  { split; auto. exists []. rewrite app_nil_r. auto. }
  assert (Hj: m = m /\ exists es, l ++ [EJoin] = l ++ es /\ Forall harmless es).
  { split; auto. exists [EJoin]. split; auto. repeat constructor. }
  Ltac hwfail Hhw := match goal with Hh : _ _ _ = HRaise _ |- _ => apply Hhw in Hh; destruct Hh; discriminate end.
  Ltac arcfail Hhw :=
    match goal with
    | Hh : _ _ _ = HRaise _, Ha : arc_events _ ?lg = ?p ++ _ :: _ |- _ =>
      exfalso; apply Hhw in Hh; destruct Hh as (h & ->);
      unfold arc_events in Ha; destruct p as [|p0 [|p1 p]], lg; simpl in Ha;
      repeat match goal with
             | E : _ :: _ = _ :: _ |- _ => injection E; clear E; intros
             | E : [] = ?p ++ _ :: _ |- _ => destruct p; discriminate
             | E : [] = _ :: _ |- _ => discriminate E
             end; discriminate
    end.
  destruct c; try congruence; simpl in H.
  - minv; auto. match goal with H : move_linear _ _ _ _ _ _ = _ |- _ => apply move_linear_inv in H; inversion H; subst; auto end. hwfail Hhw.
  - apply move_linear_inv in H. inversion H; subst; auto. hwfail Hhw.
  - apply move_circular_inv in H. inversion H; subst; auto. arcfail Hhw.
  - apply move_circular_inv in H. inversion H; subst; auto. arcfail Hhw.
  - minv2; auto; hwfail Hhw.
  - minv2.
  - minv2.
  - minv2.
  - minv2.
  - minv2.
  - minv2.
  - minv2.
  - minv2.
  - minv2; auto.
  - minv2; auto; hwfail Hhw.
  - minv2; auto; hwfail Hhw.
  - minv2.
  - minv2. hwfail Hhw.
  - unfold heat in H. minv2; auto.
    all: try hwfail Hhw.
    all: split; auto; exists [EMeasure h]; split; auto; constructor; [right; eauto|constructor].
  - minv2; auto.
    all: try hwfail Hhw.
    all: split; auto; rewrite <- ?app_assoc; eexists; (split; [reflexivity|]); simpl; repeat (apply Forall_cons; [right; eexists; reflexivity|]); apply Forall_nil.
  - minv2; auto; hwfail Hhw.
  - minv2; auto; hwfail Hhw.
  - minv2; auto; hwfail Hhw.
  - minv2; auto; hwfail Hhw.
  - minv2; auto.
  - minv2; auto.
Qed.

Lemma rejected_no_effect hw g (m m' : machine N) es e :
  only_sensors_fail hw -> effective_command g <> Some (tx "G28") ->
  run_command cfg hw (Some g) m = (m', es, Raise e) ->
  m' = m /\ Forall harmless es.
Proof.
  intros Hhw Hc H. unfold run_command in H. apply do_command_inv in H.
  remember (Raise e) as r eqn:Er. destruct H; subst; auto; try discriminate.
  assert (c <> G28).
  { intros ->. apply Hc. rewrite H3. f_equal. apply assoc_text_In in H4.
    simpl in H4. repeat destruct H4 as [H4|H4]; try discriminate; try contradiction.
    injection H4 as <-. reflexivity. }
  apply exec_fail_no_effect in H5; auto. destruct H5 as (-> & es' & -> & Hes). simpl. auto.
Qed.

Lemma cmd_eq_M2 (c : cmd) : {c = M2} + {c <> M2}.
Proof. destruct c; (left; reflexivity) || (right; discriminate). Qed.

(* ---------- C12 ---------- *)
Lemma frame_command {X} (f : machine N -> X) (writes : cmd -> bool) (words : list text) hw g (m m' : machine N) es r :
  (forall g c d rr v, writes c = false -> preserves f (exec_cmd cfg hw g c d rr v)) ->
  (forall m v, f (set_velocity m v) = f m) ->
  (forall t c, In (t, c) command_table -> writes c = true -> In t words) ->
  run_command cfg hw (Some g) m = (m', es, r) ->
  (forall t, effective_command g = Some t -> ~ In t words) ->
  f m' = f m.
Proof.
  intros Hp Hv Hw H Hn. unfold run_command in H. apply do_command_inv in H.
  destruct H as [e|delta v radius Hd Hvel Hr Hmin He|delta v radius t c m1 l1 r Hd Hvel Hr Hmin He Ha Hx]; auto.
  assert (writes c = false).
  { destruct (writes c) eqn:E; auto. exfalso. apply assoc_text_In in Ha.
    apply (Hn t He). eapply Hw; eauto. }
  apply (Hp _ _ _ _ _ H) in Hx. destruct r; [rewrite Hv|]; assumption.
Qed.

Ltac words_ok :=
  intros t0 c0 Hin E0; simpl in Hin;
  repeat (destruct Hin as [Hin|Hin]; [injection Hin as <- <-; try discriminate E0; simpl; tauto|]); contradiction.
Ltac by_frame L W Ws :=
  intros H Hn;
  match type of H with run_command _ ?hw ?g ?m = (?m', ?es, ?r) =>
    refine (frame_command _ W Ws hw _ m m' es r (L cfg hw) (fun _ _ => eq_refl) _ H Hn); words_ok
  end.

Definition words (l : list string) : list text := map tx l.
Lemma c12_position hw g (m m' : machine N) es r :
  run_command cfg hw (Some g) m = (m', es, r) ->
  (forall t, effective_command g = Some t -> ~ In t (words ["G0"; "G1"; "G2"; "G3"; "G28"]%string)) ->
  m_position m' = m_position m.
Proof. by_frame (@frame_position N) writes_position (words ["G0"; "G1"; "G2"; "G3"; "G28"]%string). Qed.
Lemma c12_plane hw g (m m' : machine N) es r :
  run_command cfg hw (Some g) m = (m', es, r) ->
  (forall t, effective_command g = Some t -> ~ In t (words ["G17"; "G18"; "G19"; "M2"; "M30"]%string)) ->
  m_plane m' = m_plane m.
Proof. by_frame (@frame_plane N) writes_plane (words ["G17"; "G18"; "G19"; "M2"; "M30"]%string). Qed.
Lemma c12_units hw g (m m' : machine N) es r :
  run_command cfg hw (Some g) m = (m', es, r) ->
  (forall t, effective_command g = Some t -> ~ In t (words ["G20"; "G21"; "M2"; "M30"]%string)) ->
  m_convert m' = m_convert m.
Proof. by_frame (@frame_units N) writes_units (words ["G20"; "G21"; "M2"; "M30"]%string). Qed.
Lemma c12_mode hw g (m m' : machine N) es r :
  run_command cfg hw (Some g) m = (m', es, r) ->
  (forall t, effective_command g = Some t -> ~ In t (words ["G90"; "G91"; "M2"; "M30"]%string)) ->
  m_absolute m' = m_absolute m.
Proof. by_frame (@frame_mode N) writes_mode (words ["G90"; "G91"; "M2"; "M30"]%string). Qed.
Lemma c12_local hw g (m m' : machine N) es r :
  run_command cfg hw (Some g) m = (m', es, r) ->
  (forall t, effective_command g = Some t -> ~ In t (words ["G92"; "G53"; "M2"; "M30"]%string)) ->
  m_local m' = m_local m.
Proof. by_frame (@frame_local N) writes_local (words ["G92"; "G53"; "M2"; "M30"]%string). Qed.
Lemma c12_rpm hw g (m m' : machine N) es r :
  run_command cfg hw (Some g) m = (m', es, r) ->
  (forall t, effective_command g = Some t -> ~ In t (words ["M3"; "M2"; "M30"]%string)) ->
  m_spindle_rpm m' = m_spindle_rpm m.
Proof. by_frame (@frame_rpm N) writes_rpm (words ["M3"; "M2"; "M30"]%string). Qed.
Lemma c12_fan hw g (m m' : machine N) es r :
  run_command cfg hw (Some g) m = (m', es, r) ->
  (forall t, effective_command g = Some t -> ~ In t (words ["M106"; "M107"; "M104"; "M109"]%string)) ->
  m_fan m' = m_fan m.
Proof. by_frame (@frame_fan N) writes_fan (words ["M106"; "M107"; "M104"; "M109"]%string). Qed.
Lemma c12_ext hw g (m m' : machine N) es r :
  run_command cfg hw (Some g) m = (m', es, r) ->
  (forall t, effective_command g = Some t -> ~ In t (words ["M104"; "M109"]%string)) ->
  m_ext m' = m_ext m.
Proof. by_frame (@frame_ext N) writes_ext (words ["M104"; "M109"]%string). Qed.
Lemma c12_bed hw g (m m' : machine N) es r :
  run_command cfg hw (Some g) m = (m', es, r) ->
  (forall t, effective_command g = Some t -> ~ In t (words ["M140"; "M190"]%string)) ->
  m_bed m' = m_bed m.
Proof. by_frame (@frame_bed N) writes_bed (words ["M140"; "M190"]%string). Qed.

(** Mode commands set what they name. *)
Lemma success_exec hw g (m m' : machine N) es t :
  run_command cfg hw (Some g) m = (m', es, Ok tt) -> effective_command g = Some t ->
  exists delta v radius c m1,
    command_delta g m = Ok delta /\ get (N:=N) g "F" (m_velocity m) (ofZ 1) = Ok v /\
    get_radius g coords0 (m_convert m) = Ok radius /\
    ltb v (ofZ (min_velocity_min cfg)) = false /\
    assoc_text t command_table = Some c /\ exec_cmd cfg hw g c delta radius v m [] = (m1, es, Ok tt) /\
    m' = set_velocity m1 v.
Proof.
  intros H Ht. unfold run_command in H. apply do_command_inv in H.
  remember (Ok tt) as r eqn:Er.
  destruct H as [e|delta v radius Hd Hvel Hr Hmin He|delta v radius t' c m1 l1 r Hd Hvel Hr Hmin He Ha Hx];
    try discriminate; try congruence.
  rewrite He in Ht. injection Ht as <-. subst r.
  exists delta, v, radius, c, m1. auto 10.
Qed.

Lemma mode_commands hw g (m m' : machine N) es w :
  run_command cfg hw (Some g) m = (m', es, Ok tt) -> effective_command g = Some (tx w) ->
  (w = "G17"%string -> m_plane m' = PlaneXY) /\ (w = "G18"%string -> m_plane m' = PlaneZX) /\
  (w = "G19"%string -> m_plane m' = PlaneYZ) /\
  (w = "G20"%string -> m_convert m' = ofdec false 254 1) /\ (w = "G21"%string -> m_convert m' = ofZ 1) /\
  (w = "G90"%string -> m_absolute m' = true) /\ (w = "G91"%string -> m_absolute m' = false) /\
  (w = "G53"%string -> m_local m' = coords0).
Proof.
  intros H Ht. destruct (success_exec _ _ _ _ _ _ H Ht) as (delta & v & radius & c & m1 & _ & _ & _ & _ & Hc & Hx & ->).
  repeat split; intros ->; vm_compute in Hc; injection Hc as <-; simpl in Hx; apply modify_inv in Hx;
    destruct Hx as (-> & _); reflexivity.
Qed.

(* ---------- C13 ---------- *)
Lemma feed_after_success hw g (m m' : machine N) es :
  run_command cfg hw (Some g) m = (m', es, Ok tt) ->
  exists v, get (N:=N) g "F" (m_velocity m) (ofZ 1) = Ok v /\ m_velocity m' = v
            /\ ltb v (ofZ (min_velocity_min cfg)) = false.
Proof.
  intros H. unfold run_command in H. apply do_command_inv in H. remember (Ok tt) as r eqn:Er.
  destruct H as [e|delta v radius Hd Hvel Hr Hmin He|delta v radius t' c m1 l1 r Hd Hvel Hr Hmin He Ha Hx];
    try discriminate; subst; exists v; auto.
Qed.
Lemma feed_after_failure hw g (m m' : machine N) es e :
  run_command cfg hw (Some g) m = (m', es, Raise e) -> m_velocity m' = m_velocity m.
Proof.
  intros H. unfold run_command in H. apply do_command_inv in H. remember (Raise e) as r eqn:Er.
  destruct H as [e'|delta v radius Hd Hvel Hr Hmin He|delta v radius t' c m1 l1 r Hd Hvel Hr Hmin He Ha Hx];
    try discriminate; auto.
  subst r. destruct (cmd_eq_M2 c) as [->|Hc].
  - simpl in Hx. apply modify_inv in Hx. destruct Hx as (_ & _ & Hx). discriminate.
  - apply (frame_velocity cfg hw g c delta radius v Hc) in Hx. exact Hx.
Qed.
Lemma feed_too_low hw g (m m' : machine N) es r v :
  get (N:=N) g "F" (m_velocity m) (ofZ 1) = Ok v -> ltb v (ofZ (min_velocity_min cfg)) = true ->
  run_command cfg hw (Some g) m = (m', es, r) ->
  m' = m /\ es = [] /\ exists e, r = Raise e.
Proof.
  intros Hv Hlow H. unfold run_command in H. apply do_command_inv in H.
  destruct H as [e'|delta v' radius Hd Hvel Hr Hmin He|delta v' radius t' c m1 l1 r Hd Hvel Hr Hmin He Ha Hx];
    try congruence. eauto.
Qed.

(* ---------- C19 ---------- *)
Lemma program_end hw g (m m' : machine N) es t :
  run_command cfg hw (Some g) m = (m', es, Ok tt) ->
  effective_command g = Some t -> In t (words ["M2"; "M30"]%string) ->
  m_spindle_rpm m' = m_spindle_rpm (init_machine cfg) /\
  m_local m' = m_local (init_machine (N:=N) cfg) /\
  m_convert m' = m_convert (init_machine (N:=N) cfg) /\
  m_absolute m' = m_absolute (init_machine (N:=N) cfg) /\
  m_plane m' = m_plane (init_machine (N:=N) cfg) /\
  es = [] /\ m_position m' = m_position m /\ m_fan m' = m_fan m /\ m_ext m' = m_ext m /\ m_bed m' = m_bed m.
Proof.
  intros H Ht Hin. destruct (success_exec _ _ _ _ _ _ H Ht) as (delta & v & radius & c & m1 & _ & _ & _ & _ & Hc & Hx & ->).
  assert (c = M2).
  { destruct Hin as [<-|[<-|[]]]; vm_compute in Hc; congruence. }
  subst c. simpl in Hx. apply modify_inv in Hx. destruct Hx as (-> & -> & _). simpl. auto 12.
Qed.

(* ---------- C27 ---------- *)
Lemma unknown_command hw g (m m' : machine N) es r t :
  effective_command g = Some t -> ~ In t (map fst command_table) ->
  run_command cfg hw (Some g) m = (m', es, r) ->
  m' = m /\ es = [] /\ exists e, r = Raise e /\
  (forall delta v radius, command_delta g m = Ok delta -> get (N:=N) g "F" (m_velocity m) (ofZ 1) = Ok v ->
     get_radius g coords0 (m_convert m) = Ok radius -> ltb v (ofZ (min_velocity_min cfg)) = false ->
     e = GMachineException "unknown command").
Proof.
  intros Ht Hn H. apply assoc_text_None in Hn. unfold run_command, do_command in H. rewrite Ht, Hn in H.
  minv; repeat split; auto; eexists; (split; [reflexivity|]); intros; try congruence.
Qed.
Lemma no_command_line hw (m : machine N) : run_command cfg hw None m = (m, [], Ok tt).
Proof. reflexivity. Qed.

Lemma lookup_cons_ne g k l v : l <> k -> lookup ((l, v) :: g) k = lookup g k.
Proof. intros H. simpl. destruct (Ascii.eqb_spec l k); congruence. Qed.
Lemma has_cons_ne g k l v : l <> k -> has ((l, v) :: g) k = has g k.
Proof. intros H. simpl. destruct (Ascii.eqb_spec l k); [congruence|reflexivity]. Qed.
Lemma get_cons_ne g k l v (d mu : N) : l <> k -> get ((l, v) :: g) k d mu = get g k d mu.
Proof. intros H. unfold get. now rewrite lookup_cons_ne. Qed.

Lemma implicit_G1 hw g (m : machine N) :
  lookup g "G" = None -> lookup g "M" = None -> has_coordinates g = true ->
  run_command cfg hw (Some g) m = run_command cfg hw (Some (("G"%char, tx "1") :: g)) m.
Proof.
  intros HG HM Hc. unfold run_command, do_command.
  assert (E1: effective_command g = Some (tx "G1")).
  { unfold effective_command, command. now rewrite HG, HM, Hc. }
  assert (E2: effective_command (("G"%char, tx "1") :: g) = Some (tx "G1")) by reflexivity.
  rewrite E1, E2. change (assoc_text (tx "G1") command_table) with (Some G1). cbv iota beta.
  assert (E3: command_delta (("G"%char, tx "1") :: g) m = command_delta g m).
  { unfold command_delta, get_coordinates. now rewrite !get_cons_ne by discriminate. }
  assert (E4: get_radius (("G"%char, tx "1") :: g) coords0 (m_convert m) = get_radius g coords0 (m_convert m)).
  { unfold get_radius. now rewrite !get_cons_ne by discriminate. }
  cbv [bind gets lift]. rewrite E3, E4. rewrite !get_cons_ne by discriminate. reflexivity.
Qed.

(* ---------- effects of single commands: spindle, heaters, fan ---------- *)
Lemma exec_inv hw g (m m' : machine N) es r t c : effective_command g = Some t -> assoc_text t command_table = Some c ->
  run_command cfg hw (Some g) m = (m', es, r) ->
  (m' = m /\ es = [] /\ exists e, r = Raise e) \/
  (exists delta v radius m1, get (N:=N) g "F" (m_velocity m) (ofZ 1) = Ok v /\
     exec_cmd cfg hw g c delta radius v m [] = (m1, es, r) /\
     m' = match r with Ok _ => set_velocity m1 v | Raise _ => m1 end).
Proof.
  intros Ht Hc H. unfold run_command in H. apply do_command_inv in H.
  destruct H as [e|delta v radius Hd Hvel Hr Hmin He|delta v radius t' c' m1 l1 r Hd Hvel Hr Hmin He Ha Hx].
  - left. eauto.
  - congruence.
  - right. assert (t' = t) by congruence. subst t'. assert (c' = c) by congruence. subst c'.
    exists delta, v, radius, m1. auto.
Qed.

Lemma bad_speed_rejected hw g (m m' : machine N) es r s :
  effective_command g = Some (tx "M3") ->
  get (N:=N) g "S" (m_spindle_rpm m) (ofZ 1) = Ok s ->
  ltb s (ofZ 0) = true \/ ltb (ofZ (spindle_max_rpm cfg)) s = true ->
  run_command cfg hw (Some g) m = (m', es, r) ->
  m' = m /\ es = [] /\ exists e, r = Raise e.
Proof.
  intros Ht Hs Hbad H. destruct (exec_inv _ _ _ _ _ _ _ M3 Ht eq_refl H) as [?|(d & v & rr & m1 & _ & Hx & ->)]; auto.
  simpl in Hx. apply orb_true_iff in Hbad. unfold zero in Hx. minv; eauto; exfalso.
  all: match goal with E : Ok ?a = get _ _ _ _ |- _ => assert (a = s) by congruence; subst a end; congruence.
Qed.
Lemma spindle_commands hw g (m m' : machine N) es :
  run_command cfg hw (Some g) m = (m', es, Ok tt) ->
  (effective_command g = Some (tx "M5") ->
     exists p, div (mul (ofZ 100) (ofZ 0)) (ofZ (spindle_max_rpm cfg)) = Ok p /\ es = [EJoin; ESpindle p]) /\
  (effective_command g = Some (tx "M3") ->
     exists s p, get (N:=N) g "S" (m_spindle_rpm m) (ofZ 1) = Ok s /\
       div (mul (ofZ 100) s) (ofZ (spindle_max_rpm cfg)) = Ok p /\
       es = [EJoin; ESpindle p] /\ m_spindle_rpm m' = s).
Proof.
  intros H. split; intros Ht.
  - destruct (exec_inv _ _ _ _ _ _ _ M5 Ht eq_refl H) as [(_ & _ & e & E)|(d & v & rr & m1 & _ & Hx & ->)]; [discriminate|].
    simpl in Hx. unfold spindle in Hx. minv. eexists. split; [symmetry; eassumption|reflexivity].
  - destruct (exec_inv _ _ _ _ _ _ _ M3 Ht eq_refl H) as [(_ & _ & e & E)|(d & v & rr & m1 & _ & Hx & ->)]; [discriminate|].
    simpl in Hx. unfold spindle in Hx. minv. eexists _, _. repeat split; try (symmetry; eassumption).
Qed.
Lemma release_events hw (m m' : machine N) es :
  release cfg hw m [] = (m', es, Ok tt) ->
  exists p, div (mul (ofZ 100) (ofZ 0)) (ofZ (spindle_max_rpm cfg)) = Ok p /\
    es = [EJoin; ESpindle p]
         ++ (match m_ext m with Some _ => [EHeaterOff HeaterExtruder] | None => [] end)
         ++ (match m_bed m with Some _ => [EHeaterOff HeaterBed] | None => [] end)
         ++ [EFan false; EDeinit].
Proof.
  intros H. unfold release, spindle, fan in H. minv.
  all: eexists; (split; [symmetry; eassumption|]).
  all: repeat match goal with H : (match ?x with _ => _ end) _ _ = _ |- _ => destruct x eqn:?; minv end.
  all: rewrite <- ?app_assoc; reflexivity.
Qed.

Definition heat_words : list (string * (heater_id * bool)) :=
  [("M104", (HeaterExtruder, false)); ("M109", (HeaterExtruder, true));
   ("M140", (HeaterBed, false)); ("M190", (HeaterBed, true))]%string.
Lemma heat_word_cmd w : In w ["M104"; "M109"; "M140"; "M190"]%string ->
  exists wait, assoc_text (tx w) command_table =
    Some (MHeat (if (w =? "M104")%string || (w =? "M109")%string then HeaterExtruder else HeaterBed) wait).
Proof. intros [<-|[<-|[<-|[<-|[]]]]]; eexists; vm_compute; reflexivity. Qed.

Lemma bad_target_rejected hw g (m m' : machine N) es r w :
  effective_command g = Some (tx w) -> In w ["M104"; "M109"; "M140"; "M190"]%string ->
  has g "S" = false \/
  (exists t, get (N:=N) g "S" zero (ofZ 1) = Ok t /\
     (ltb t (ofZ (min_t cfg)) = true \/
      ltb (ofZ (if (w =? "M104")%string || (w =? "M109")%string then extruder_max_t cfg else bed_max_t cfg)) t = true) /\
     eqb t zero = false) ->
  run_command cfg hw (Some g) m = (m', es, r) ->
  m' = m /\ es = [] /\ exists e, r = Raise e.
Proof.
  intros Ht Hw Hbad H. destruct (heat_word_cmd w Hw) as (wait & Hc).
  destruct (exec_inv _ _ _ _ _ _ _ _ Ht Hc H) as [?|(d & v & rr & m1 & _ & Hx & ->)]; auto.
  simpl in Hx. destruct Hbad as [Hs|(t & Hs & Hb & Hz)].
  - rewrite Hs in Hx. minv; eauto. discriminate.
  - rewrite Hs in Hx. minv; eauto.
    exfalso. unfold bad_temperature in F. rewrite Hz in F. cbn [negb] in F. rewrite andb_true_r in F.
    apply orb_false_iff in F. destruct F as [F1 F2].
    destruct Hb as [Hb|Hb]; [congruence|].
    destruct ((w =? "M104")%string || (w =? "M109")%string); congruence.
Qed.

Lemma heat_zero hw h (t : N) wait (m m' : machine N) es r : eqb t zero = true ->
  heat cfg hw h t wait m [] = (m', es, r) -> r = Ok tt ->
  heater_target m' h = None /\ (heater_target m h <> None -> In (EHeaterOff h) es) /\
  (forall t', ~ In (EHeaterOn h t') es).
Proof.
  intros Hz H ->. unfold heat in H. rewrite Hz in H. minv2; try discriminate.
  - destruct h; split; [reflexivity| |reflexivity|]; (split; [intros _; simpl; auto|intros t' Hin; simpl in Hin; repeat destruct Hin as [Hin|Hin]; try discriminate; contradiction]).
  - split; [assumption|]. split; [congruence|]. intros t' Hin; simpl in Hin; repeat destruct Hin as [Hin|Hin]; try discriminate; contradiction.
Qed.
Lemma zero_is_off hw g (m m' : machine N) es w t :
  effective_command g = Some (tx w) -> In w ["M104"; "M109"; "M140"; "M190"]%string ->
  get (N:=N) g "S" zero (ofZ 1) = Ok t -> eqb t zero = true ->
  run_command cfg hw (Some g) m = (m', es, Ok tt) ->
  let h := if (w =? "M104")%string || (w =? "M109")%string then HeaterExtruder else HeaterBed in
  heater_target m' h = None /\ (heater_target m h <> None -> In (EHeaterOff h) es) /\
  (forall t', ~ In (EHeaterOn h t') es).
Proof.
  intros Ht Hw Hg Hz H h. destruct (heat_word_cmd w Hw) as (wait & Hc). fold h in Hc.
  destruct (exec_inv _ _ _ _ _ _ _ _ Ht Hc H) as [(_ & _ & e & E)|(d & v & rr & m1 & _ & Hx & ->)]; [discriminate|].
  simpl in Hx. rewrite Hg in Hx. minv. 
  eapply heat_zero in Hz; [|eassumption|reflexivity]. destruct Hz as (Hz1 & Hz2 & Hz3).
  split; [|split]; auto.
Qed.
Lemma heat_fan hw (t : N) wait (m m' : machine N) es r : eqb t zero = false -> auto_fan cfg = true ->
  heat cfg hw HeaterExtruder t wait m [] = (m', es, r) -> r = Ok tt -> In (EFan true) es /\ m_fan m' = true.
Proof.
  intros Hz Ha H ->. unfold heat in H. rewrite Hz, Ha in H. minv2; try discriminate; simpl; auto 10.
Qed.
Lemma fan_commands hw g (m m' : machine N) es w :
  run_command cfg hw (Some g) m = (m', es, Ok tt) -> effective_command g = Some (tx w) ->
  (w = "M106"%string -> exists s, get (N:=N) g "S" (ofZ 1) (ofZ 1) = Ok s /\
     es = [EFan (negb (eqb s zero))] /\ m_fan m' = negb (eqb s zero)) /\
  (w = "M107"%string -> es = [EFan false] /\ m_fan m' = false) /\
  (In w ["M104"; "M109"]%string -> auto_fan cfg = true ->
     forall t, get (N:=N) g "S" zero (ofZ 1) = Ok t -> eqb t zero = false ->
     In (EFan true) es /\ m_fan m' = true).
Proof.
  intros H Ht. repeat split; intros.
  - subst w. destruct (exec_inv _ _ _ _ _ _ _ M106 Ht eq_refl H) as [(_ & _ & e & E)|(d & v & rr & m1 & _ & Hx & ->)]; [discriminate|].
    simpl in Hx. unfold fan in Hx. minv. eexists. split; [symmetry; eassumption|]. split; reflexivity.
  - subst w. destruct (exec_inv _ _ _ _ _ _ _ M107 Ht eq_refl H) as [(_ & _ & e & E)|(d & v & rr & m1 & _ & Hx & ->)]; [discriminate|].
    simpl in Hx. unfold fan in Hx. minv. reflexivity.
  - subst w. destruct (exec_inv _ _ _ _ _ _ _ M107 Ht eq_refl H) as [(_ & _ & e & E)|(d & v & rr & m1 & _ & Hx & ->)]; [discriminate|].
    simpl in Hx. unfold fan in Hx. minv. reflexivity.
  - assert (Hc: exists wait, assoc_text (tx w) command_table = Some (MHeat HeaterExtruder wait))
      by (destruct H0 as [<-|[<-|[]]]; eexists; vm_compute; reflexivity). destruct Hc as (wait & Hc).
    destruct (exec_inv _ _ _ _ _ _ _ _ Ht Hc H) as [(_ & _ & e & E)|(d & v & rr & m1 & _ & Hx & ->)]; [discriminate|].
    simpl in Hx. rewrite H2 in Hx. minv. eapply heat_fan in H3; [|eassumption|eassumption|reflexivity]. apply H3.
  - assert (Hc: exists wait, assoc_text (tx w) command_table = Some (MHeat HeaterExtruder wait))
      by (destruct H0 as [<-|[<-|[]]]; eexists; vm_compute; reflexivity). destruct Hc as (wait & Hc).
    destruct (exec_inv _ _ _ _ _ _ _ _ Ht Hc H) as [(_ & _ & e & E)|(d & v & rr & m1 & _ & Hx & ->)]; [discriminate|].
    simpl in Hx. rewrite H2 in Hx. minv. eapply heat_fan in H3; [|eassumption|eassumption|reflexivity]. apply H3.
Qed.

Definition all_words : list string :=
  ["G0"; "G1"; "G2"; "G3"; "G4"; "G17"; "G18"; "G19"; "G20"; "G21"; "G28"; "G53"; "G90"; "G91";
   "G92"; "M2"; "M3"; "M5"; "M30"; "M82"; "M83"; "M84"; "M104"; "M105"; "M106"; "M107"; "M109"; "M111";
   "M114"; "M140"; "M190"]%string.
Lemma known_commands t : In t (words all_words) <-> exists c, assoc_text t command_table = Some c.
Proof.
  split.
  - intros H. simpl in H. repeat destruct H as [H|H]; try (subst t; eexists; vm_compute; reflexivity). contradiction.
  - intros (c & H). apply assoc_text_In in H. apply (in_map fst) in H. simpl in H.
    repeat destruct H as [H|H]; try (subst t; simpl; tauto). contradiction.
Qed.
Lemma unknown_command_words hw g (m m' : machine N) es r t :
  effective_command g = Some t -> ~ In t (words all_words) ->
  run_command cfg hw (Some g) m = (m', es, r) ->
  m' = m /\ es = [] /\ exists e, r = Raise e /\
  (forall delta v radius, command_delta g m = Ok delta -> get (N:=N) g "F" (m_velocity m) (ofZ 1) = Ok v ->
     get_radius g coords0 (m_convert m) = Ok radius -> ltb v (ofZ (min_velocity_min cfg)) = false ->
     e = GMachineException "unknown command").
Proof.
  intros Ht Hn. apply (unknown_command hw g m m' es r t Ht). intros Hin. apply Hn. apply known_commands.
  destruct (assoc_text t command_table) eqn:E; [eauto|]. apply assoc_text_None in E. contradiction.
Qed.

End P.
