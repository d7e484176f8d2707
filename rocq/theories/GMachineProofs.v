(** Inversion and frame lemmas about the machine model, for every number
    structure, configuration and hardware behaviour. *)
From Coq Require Import String Ascii ZArith Bool Lia List.
From Verif Require Import PyBase PyNum Config Coordinates Pulses GCode GMachine.
From Coq Require Import List.
Import ListNotations.

Section P.
Context {N : PyNum}.
Variable cfg : config.
Variable hw : hw_oracle N.
Notation mach := (machine N).
Notation evs := (list (event N)).

(* ---------- inversion of the monad ---------- *)
Lemma bind_inv {A B} (c : M N A) (f : A -> M N B) m l m' l' r :
  bind c f m l = (m', l', r) ->
  (exists e, c m l = (m', l', Raise e) /\ r = Raise e) \/
  (exists a m1 l1, c m l = (m1, l1, Ok a) /\ f a m1 l1 = (m', l', r)).
Proof.
  unfold bind. destruct (c m l) as [[m1 l1] [a|e]] eqn:E; intros H.
  - right. eauto.
  - left. injection H as <- <- <-. eauto.
Qed.

Lemma lift_inv {A} (x : res A) m l m' l' r :
  lift (N:=N) x m l = (m', l', r) -> m' = m /\ l' = l /\ r = x.
Proof. unfold lift. intros H. injection H as <- <- <-. auto. Qed.
Lemma ret_inv {A} (x : A) m l m' l' r :
  ret (N:=N) x m l = (m', l', r) -> m' = m /\ l' = l /\ r = Ok x.
Proof. unfold ret. intros H. injection H as <- <- <-. auto. Qed.
Lemma throw_inv {A} e m l m' l' (r : res A) :
  throw (N:=N) e m l = (m', l', r) -> m' = m /\ l' = l /\ r = Raise e.
Proof. unfold throw. intros H. injection H as <- <- <-. auto. Qed.
Lemma gets_inv m l m' l' r :
  gets (N:=N) m l = (m', l', r) -> m' = m /\ l' = l /\ r = Ok m.
Proof. unfold gets. intros H. injection H as <- <- <-. auto. Qed.
Lemma modify_inv f m l m' l' r :
  modify (N:=N) f m l = (m', l', r) -> m' = f m /\ l' = l /\ r = Ok tt.
Proof. unfold modify. intros H. injection H as <- <- <-. auto. Qed.
Lemma fail_if_inv b s m l m' l' r :
  fail_if (N:=N) b s m l = (m', l', r) -> m' = m /\ l' = l /\
    ((b = true /\ r = Raise (GMachineException s)) \/ (b = false /\ r = Ok tt)).
Proof.
  unfold fail_if, throw, ret. destruct b; intros H; injection H as <- <- <-; auto.
Qed.
Lemma call_inv ev m l m' l' r :
  call hw ev m l = (m', l', r) -> m' = m /\ l' = l ++ [ev] /\
    ((exists b, hw l ev = HReturn b /\ r = Ok b) \/ (exists e, hw l ev = HRaise e /\ r = Raise e)).
Proof.
  unfold call. destruct (hw l ev); intros H; injection H as <- <- <-; eauto 8.
Qed.

(* ---------- frames: parts of the state that a computation cannot change ---------- *)
Definition preserves {A X} (f : mach -> X) (c : M N A) : Prop :=
  forall m l m' l' r, c m l = (m', l', r) -> f m' = f m.

Lemma pres_bind {A B X} (f : mach -> X) (c : M N A) (k : A -> M N B) :
  preserves f c -> (forall a, preserves f (k a)) -> preserves f (bind c k).
Proof.
  intros H1 H2 m l m' l' r H. apply bind_inv in H.
  destruct H as [(e & H & _)|(a & m1 & l1 & Ha & Hb)]; [eauto|].
  apply H2 in Hb. apply H1 in Ha. congruence.
Qed.
Lemma pres_lift {A X} (f : mach -> X) (x : res A) : preserves f (lift x).
Proof. intros m l m' l' r H. apply lift_inv in H. destruct H as (-> & _). reflexivity. Qed.
Lemma pres_ret {A X} (f : mach -> X) (x : A) : preserves f (ret x).
Proof. intros m l m' l' r H. apply ret_inv in H. destruct H as (-> & _). reflexivity. Qed.
Lemma pres_throw {A X} (f : mach -> X) e : preserves f (throw (A:=A) e).
Proof. intros m l m' l' r H. apply throw_inv in H. destruct H as (-> & _). reflexivity. Qed.
Lemma pres_gets {X} (f : mach -> X) : preserves f gets.
Proof. intros m l m' l' r H. apply gets_inv in H. destruct H as (-> & _). reflexivity. Qed.
Lemma pres_modify {X} (f : mach -> X) g : (forall m, f (g m) = f m) -> preserves f (modify g).
Proof. intros Hg m l m' l' r H. apply modify_inv in H. destruct H as (-> & _). apply Hg. Qed.
Lemma pres_fail_if {X} (f : mach -> X) b s : preserves f (fail_if b s).
Proof. intros m l m' l' r H. apply fail_if_inv in H. destruct H as (-> & _). reflexivity. Qed.
Lemma pres_call {X} (f : mach -> X) ev : preserves f (call hw ev).
Proof. intros m l m' l' r H. apply call_inv in H. destruct H as (-> & _). reflexivity. Qed.
Lemma pres_measure {X} (f : mach -> X) h : preserves f (measure_or_fail hw h).
Proof.
  intros m l m' l' r H. unfold measure_or_fail in H.
  destruct (call hw (EMeasure h) m l) as [[m1 l1] r1] eqn:E. apply call_inv in E.
  destruct E as (-> & _). destruct r1 as [b|[]]; injection H as <- <- <-; reflexivity.
Qed.
Lemma pres_measure_opt {X} (f : mach -> X) h : preserves f (measure_opt hw h).
Proof.
  intros m l m' l' r H. unfold measure_opt in H.
  destruct (call hw (EMeasure h) m l) as [[m1 l1] r1] eqn:E. apply call_inv in E.
  destruct E as (-> & _). destruct r1 as [b|[]]; injection H as <- <- <-; reflexivity.
Qed.

Ltac pres :=
  repeat first
    [ apply pres_lift | apply pres_ret | apply pres_throw | apply pres_gets
    | apply pres_fail_if | apply pres_call | apply pres_measure | apply pres_measure_opt
    | apply pres_modify; intros ?; reflexivity
    | apply pres_bind; [|intros ?]
    | match goal with |- preserves _ (match ?x with _ => _ end) => destruct x end
    | match goal with |- preserves _ (let '(_, _) := ?x in _) => destruct x end ].

(* ---------- moves ---------- *)
Definition in_box (p : quad N) : bool := is_in_aabb p coords0 (table_corner cfg).

Inductive linear_outcome (delta : quad N) (v : N) (m : mach) (l : evs) : mach -> evs -> res unit -> Prop :=
| lo_noop d : round_to_grid cfg delta = Ok d -> is_zero d = true ->
    linear_outcome delta v m l m l (Ok tt)
| lo_moved d g b : round_to_grid cfg delta = Ok d -> is_zero d = false ->
    in_box (cadd (m_position m) d) = true -> make_linear cfg d v = Ok g ->
    too_fast cfg (gen_max_velocity (GLinear g)) = false ->
    hw l (EMove (GLinear g)) = HReturn b ->
    linear_outcome delta v m l (set_position m (cadd (m_position m) d)) (l ++ [EMove (GLinear g)]) (Ok tt)
| lo_hw d g e : round_to_grid cfg delta = Ok d -> is_zero d = false ->
    in_box (cadd (m_position m) d) = true -> make_linear cfg d v = Ok g ->
    too_fast cfg (gen_max_velocity (GLinear g)) = false ->
    hw l (EMove (GLinear g)) = HRaise e ->
    linear_outcome delta v m l m (l ++ [EMove (GLinear g)]) (Raise e)
| lo_fail e : linear_outcome delta v m l m l (Raise e).

Lemma move_linear_inv delta v m l m' l' r :
  move_linear cfg hw delta v m l = (m', l', r) -> linear_outcome delta v m l m' l' r.
Proof.
  unfold move_linear. intros H. apply bind_inv in H.
  destruct H as [(e & H & ->)|(d & m1 & l1 & H & H2)].
  { apply lift_inv in H. destruct H as (-> & -> & _). apply lo_fail. }
  apply lift_inv in H. destruct H as (-> & -> & Hd). symmetry in Hd.
  destruct (is_zero d) eqn:Ez.
  { apply ret_inv in H2. destruct H2 as (-> & -> & ->). eapply lo_noop; eauto. }
  apply bind_inv in H2. unfold check_delta in H2.
  destruct H2 as [(e & H & ->)|(u & m2 & l2 & H & H2)].
  { apply bind_inv in H. destruct H as [(e' & H & _)|(mm & m3 & l3 & H & H3)].
    - apply gets_inv in H. destruct H as (_ & _ & H). discriminate.
    - apply gets_inv in H. destruct H as (-> & -> & H). apply fail_if_inv in H3.
      destruct H3 as (-> & -> & _). apply lo_fail. }
  apply bind_inv in H. destruct H as [(e' & H & Hc)|(mm & m3 & l3 & H & H3)]; [discriminate|].
  apply gets_inv in H. destruct H as (-> & -> & H). injection H as ->.
  apply fail_if_inv in H3. destruct H3 as (-> & -> & [(_ & H)|(Hbox & _)]); [discriminate|].
  apply negb_false_iff in Hbox.
  apply bind_inv in H2. destruct H2 as [(e & H & ->)|(g & m3 & l3 & H & H2)].
  { apply lift_inv in H. destruct H as (-> & -> & _). apply lo_fail. }
  apply lift_inv in H. destruct H as (-> & -> & Hg). symmetry in Hg.
  apply bind_inv in H2. destruct H2 as [(e & H & ->)|(u2 & m3 & l3 & H & H2)].
  { apply fail_if_inv in H. destruct H as (-> & -> & _). apply lo_fail. }
  apply fail_if_inv in H. destruct H as (-> & -> & [(_ & H)|(Hf & _)]); [discriminate|].
  apply bind_inv in H2. destruct H2 as [(e & H & ->)|(b & m3 & l3 & H & H2)].
  { apply call_inv in H. destruct H as (-> & -> & [(b & _ & H)|(e' & H & E)]); [discriminate|].
    injection E as ->. eapply lo_hw; eauto. }
  apply call_inv in H. destruct H as (-> & -> & [(b' & H & _)|(e' & H & E)]); [|discriminate].
  apply modify_inv in H2. destruct H2 as (-> & -> & ->). eapply lo_moved; eauto.
Qed.

(** What has been checked when an arc is accepted. *)
Inductive circular_ok (delta radius : quad N) (v : N) (rot : rotation) (m : mach)
    (ce ld : quad N) (g : circular_gen N) (lg : option (linear_gen N)) : Prop :=
| Circular_ok d rr ea eb :
  round_to_grid cfg delta = Ok d ->
  round_to_grid cfg radius = Ok rr ->
  in_box (cadd (m_position m) d) = true ->
  adjust_circle (axis_a (m_plane m) d) (axis_b (m_plane m) d)
                (axis_a (m_plane m) rr) (axis_b (m_plane m) rr) rot
                (axis_a (m_plane m) (m_position m)) (axis_b (m_plane m) (m_position m))
                (ofZ (axis_a (m_plane m) (table_quad cfg)))
                (ofZ (axis_b (m_plane m) (table_quad cfg))) = Ok (ea, eb) ->
  round_to_grid cfg (from_axes (m_plane m) ea eb (axis_c (m_plane m) d) (qe d)) = Ok ce ->
  make_circular cfg ce rr (m_plane m) rot v = Ok g ->
  too_fast cfg (gen_max_velocity (GCircular g)) = false ->
  ld = csub d ce ->
  match lg with
  | None => is_zero ld = true
  | Some lg => is_zero ld = false /\ make_linear cfg ld v = Ok lg
               /\ too_fast cfg (gen_max_velocity (GLinear lg)) = false
  end ->
  circular_ok delta radius v rot m ce ld g lg.
Definition arc_events (g : circular_gen N) (lg : option (linear_gen N)) : evs :=
  EMove (GCircular g) :: match lg with Some lg => [EMove (GLinear lg)] | None => [] end.

Inductive circular_outcome (delta radius : quad N) (v : N) (rot : rotation) (m : mach) (l : evs)
  : mach -> evs -> res unit -> Prop :=
| ci_moved ce ld g lg : circular_ok delta radius v rot m ce ld g lg ->
    circular_outcome delta radius v rot m l
      (set_position m (cadd (cadd (m_position m) ce) ld)) (l ++ arc_events g lg) (Ok tt)
| ci_hw ce ld g lg p ev s e : circular_ok delta radius v rot m ce ld g lg ->
    arc_events g lg = p ++ ev :: s -> hw (l ++ p) ev = HRaise e ->
    circular_outcome delta radius v rot m l m (l ++ p ++ [ev]) (Raise e)
| ci_fail e : circular_outcome delta radius v rot m l m l (Raise e).

Lemma move_circular_inv delta radius v rot m l m' l' r :
  move_circular cfg hw delta radius v rot m l = (m', l', r) ->
  circular_outcome delta radius v rot m l m' l' r.
Proof.
  unfold move_circular. intros H.
  apply bind_inv in H. destruct H as [(e & H & ->)|(d & m1 & l1 & H & H2)];
    apply lift_inv in H; [destruct H as (-> & -> & _); apply ci_fail|destruct H as (-> & -> & Hd)].
  symmetry in Hd.
  apply bind_inv in H2. destruct H2 as [(e & H & ->)|(rr & m1 & l1 & H & H2)];
    apply lift_inv in H; [destruct H as (-> & -> & _); apply ci_fail|destruct H as (-> & -> & Hr)].
  symmetry in Hr.
  apply bind_inv in H2. unfold check_delta in H2.
  destruct H2 as [(e & H & ->)|(u & m2 & l2 & H & H2)].
  { apply bind_inv in H. destruct H as [(e' & H & _)|(mm & m3 & l3 & H & H3)].
    - apply gets_inv in H. destruct H as (_ & _ & H). discriminate.
    - apply gets_inv in H. destruct H as (-> & -> & H). apply fail_if_inv in H3.
      destruct H3 as (-> & -> & _). apply ci_fail. }
  apply bind_inv in H. destruct H as [(e' & H & Hc)|(mm & m3 & l3 & H & H3)]; [discriminate|].
  apply gets_inv in H. destruct H as (-> & -> & H). injection H as ->.
  apply fail_if_inv in H3. destruct H3 as (-> & -> & [(_ & H)|(Hbox & _)]); [discriminate|].
  apply negb_false_iff in Hbox.
  apply bind_inv in H2. destruct H2 as [(e & H & _)|(mm & m1 & l1 & H & H2)];
    apply gets_inv in H; destruct H as (-> & -> & H); [discriminate|injection H as ->].
  cbv zeta in H2.
  apply bind_inv in H2. destruct H2 as [(e & H & ->)|([ea eb] & m1 & l1 & H & H2)];
    apply lift_inv in H; [destruct H as (-> & -> & _); apply ci_fail|destruct H as (-> & -> & Ha)].
  symmetry in Ha.
  apply bind_inv in H2. destruct H2 as [(e & H & ->)|(ce & m1 & l1 & H & H2)];
    apply lift_inv in H; [destruct H as (-> & -> & _); apply ci_fail|destruct H as (-> & -> & Hce)].
  symmetry in Hce.
  apply bind_inv in H2. destruct H2 as [(e & H & ->)|(g & m1 & l1 & H & H2)];
    apply lift_inv in H; [destruct H as (-> & -> & _); apply ci_fail|destruct H as (-> & -> & Hg)].
  symmetry in Hg.
  apply bind_inv in H2. destruct H2 as [(e & H & ->)|(u2 & m1 & l1 & H & H2)].
  { apply fail_if_inv in H. destruct H as (-> & -> & _). apply ci_fail. }
  apply fail_if_inv in H. destruct H as (-> & -> & [(_ & H)|(Hf & _)]); [discriminate|].
  set (ld := csub d ce) in *.
  apply bind_inv in H2.
  assert (Hlg: forall m1 l1 r1,
    (if is_zero ld then ret None
     else bind (lift (make_linear cfg ld v)) (fun lg0 =>
            bind (check_velocity cfg (gen_max_velocity (GLinear lg0))) (fun _ => ret (Some lg0)))) m l = (m1, l1, r1) ->
    m1 = m /\ l1 = l /\ (forall lg, r1 = Ok lg ->
      match lg with
           | None => is_zero ld = true
           | Some lg => is_zero ld = false /\ make_linear cfg ld v = Ok lg
                        /\ too_fast cfg (gen_max_velocity (GLinear lg)) = false
           end)).
  { clear H2. intros m1 l1 r1 H. destruct (is_zero ld) eqn:Ez.
    - apply ret_inv in H. destruct H as (-> & -> & ->). repeat split; auto.
      intros lg E. injection E as <-. reflexivity.
    - apply bind_inv in H. destruct H as [(e & H & ->)|(lg0 & m2 & l2 & H & H2)];
        apply lift_inv in H; [destruct H as (-> & -> & _)|destruct H as (-> & -> & Hl)].
      { repeat split; auto. discriminate. }
      apply bind_inv in H2. destruct H2 as [(e & H & ->)|(u4 & m2 & l2 & H & H2)];
        apply fail_if_inv in H; destruct H as (-> & -> & H).
      { repeat split; auto. discriminate. }
      destruct H as [(_ & H)|(Hf2 & _)]; [discriminate|].
      apply ret_inv in H2. destruct H2 as (-> & -> & ->). repeat split; auto.
      intros lg E. injection E as <-. auto. }
  destruct H2 as [(e & H & ->)|(lg & m1 & l1 & H & H2)].
  { apply Hlg in H. destruct H as (-> & -> & _). apply ci_fail. }
  apply Hlg in H. destruct H as (-> & -> & H). specialize (H lg eq_refl). clear Hlg.
  assert (OK: circular_ok delta radius v rot m ce ld g lg).
  { econstructor; eauto. }
  clear Hd Hr Hbox Ha Hce Hg Hf H.
  apply bind_inv in H2. destruct H2 as [(e & H & ->)|(b & m1 & l1 & H & H2)];
    apply call_inv in H; destruct H as (-> & -> & H).
  { destruct H as [(b & _ & H)|(e' & H & E)]; [discriminate|]. injection E as ->.
    apply (ci_hw _ _ _ _ _ _ ce ld g lg [] (EMove (GCircular g)) (tl (arc_events g lg)) e' OK); auto.
    simpl. now rewrite app_nil_r. }
  destruct H as [(b' & Hb & _)|(e' & H & E)]; [|discriminate].
  apply bind_inv in H2. destruct H2 as [(e & H & ->)|(u5 & m1 & l1 & H & H2)].
  - destruct lg as [lg|].
    + apply bind_inv in H. destruct H as [(e' & H & E)|(b2 & m1 & l1 & H & H2)].
      * apply call_inv in H. destruct H as (-> & -> & [(b2 & _ & H)|(e2 & H & E2)]); [discriminate|].
        injection E as ->. injection E2 as ->. rewrite <- app_assoc.
        apply (ci_hw _ _ _ _ _ _ ce ld g (Some lg) [EMove (GCircular g)] (EMove (GLinear lg)) [] e2 OK); auto.
      * apply ret_inv in H2. destruct H2 as (_ & _ & H2). discriminate.
    + apply ret_inv in H. destruct H as (_ & _ & H). discriminate.
  - apply modify_inv in H2. destruct H2 as (-> & -> & ->).
    assert (E: m1 = m /\ l1 = l ++ arc_events g lg).
    { destruct lg as [lg|].
      - apply bind_inv in H. destruct H as [(e' & H & E)|(b2 & m2 & l2 & H & H2)]; [discriminate|].
        apply call_inv in H. destruct H as (-> & -> & _).
        apply ret_inv in H2. destruct H2 as (-> & -> & _). split; auto.
        rewrite <- app_assoc. reflexivity.
      - apply ret_inv in H. destruct H as (-> & -> & _). auto. }
    destruct E as (-> & ->). eapply ci_moved; eauto.
Qed.

(* ---------- what do_command does before and after the command ---------- *)
Inductive command_outcome (g : gcode) (m : mach) (l : evs) : mach -> evs -> res unit -> Prop :=
| cm_fail e : command_outcome g m l m l (Raise e)
| cm_none delta v radius :
    command_delta g m = Ok delta -> get (N:=N) g "F" (m_velocity m) (ofZ 1) = Ok v ->
    get_radius g coords0 (m_convert m) = Ok radius ->
    ltb v (ofZ (min_velocity_min cfg)) = false ->
    effective_command g = None ->
    command_outcome g m l (set_velocity m v) l (Ok tt)
| cm_exec delta v radius t c m1 l1 r :
    command_delta g m = Ok delta -> get (N:=N) g "F" (m_velocity m) (ofZ 1) = Ok v ->
    get_radius g coords0 (m_convert m) = Ok radius ->
    ltb v (ofZ (min_velocity_min cfg)) = false ->
    effective_command g = Some t -> assoc_text t command_table = Some c ->
    exec_cmd cfg hw g c delta radius v m l = (m1, l1, r) ->
    command_outcome g m l (match r with Ok _ => set_velocity m1 v | Raise _ => m1 end) l1 r.

Lemma do_command_inv g m l m' l' r :
  do_command cfg hw (Some g) m l = (m', l', r) -> command_outcome g m l m' l' r.
Proof.
  unfold do_command. intros H.
  apply bind_inv in H. destruct H as [(e & H & ->)|(mm & m1 & l1 & H & H2)];
    apply gets_inv in H; destruct H as (-> & -> & H); [discriminate|injection H as ->].
  apply bind_inv in H2. destruct H2 as [(e & H & ->)|(delta & m1 & l1 & H & H2)];
    apply lift_inv in H; [destruct H as (-> & -> & _); apply cm_fail|destruct H as (-> & -> & Hd)].
  apply bind_inv in H2. destruct H2 as [(e & H & ->)|(v & m1 & l1 & H & H2)];
    apply lift_inv in H; [destruct H as (-> & -> & _); apply cm_fail|destruct H as (-> & -> & Hv)].
  apply bind_inv in H2. destruct H2 as [(e & H & ->)|(radius & m1 & l1 & H & H2)];
    apply lift_inv in H; [destruct H as (-> & -> & _); apply cm_fail|destruct H as (-> & -> & Hr)].
  symmetry in Hd, Hv, Hr.
  apply bind_inv in H2. destruct H2 as [(e & H & ->)|(u2 & m1 & l1 & H & H2)].
  { apply fail_if_inv in H. destruct H as (-> & -> & _). apply cm_fail. }
  apply fail_if_inv in H. destruct H as (-> & -> & [(_ & H)|(Hf & _)]); [discriminate|].
  apply bind_inv in H2. destruct (effective_command g) as [t|] eqn:Et.
  2: { destruct H2 as [(e & H & ->)|(u4 & m1 & l1 & H & H2)]; apply ret_inv in H;
       destruct H as (-> & -> & H); [discriminate|].
       apply modify_inv in H2. destruct H2 as (-> & -> & ->). eapply cm_none; eauto. }
  destruct (assoc_text t command_table) as [c|] eqn:Ec.
  2: { destruct H2 as [(e & H & ->)|(u4 & m1 & l1 & H & H2)]; apply throw_inv in H;
       destruct H as (-> & -> & H); [|discriminate]. apply cm_fail. }
  destruct H2 as [(e & H & ->)|([] & m1 & l1 & H & H2)].
  - exact (cm_exec g m l delta v radius t c m' l' _ Hd Hv Hr Hf Et Ec H).
  - apply modify_inv in H2. destruct H2 as (-> & -> & ->).
    exact (cm_exec g m l delta v radius t c m1 l1 _ Hd Hv Hr Hf Et Ec H).
Qed.

(** Commands that leave a part of the state alone. *)
Lemma pres_move_linear {X} (f : mach -> X) d v :
  (forall m p, f (set_position m p) = f m) -> preserves f (move_linear cfg hw d v).
Proof.
  intros Hf m l m' l' r H. apply move_linear_inv in H. destruct H; auto.
Qed.
Lemma pres_move_circular {X} (f : mach -> X) d rr v rot :
  (forall m p, f (set_position m p) = f m) -> preserves f (move_circular cfg hw d rr v rot).
Proof.
  intros Hf m l m' l' r H. apply move_circular_inv in H. destruct H; auto.
Qed.
Lemma pres_safe_zero {X} (f : mach -> X) x y z :
  (forall m p, f (set_position m p) = f m) -> preserves f (safe_zero cfg hw x y z).
Proof.
  intros Hf. unfold safe_zero. apply pres_bind; [apply pres_gets|intros a].
  apply pres_bind.
  - destruct (x && negb y); [now apply pres_move_linear|].
    destruct (y && negb x); [now apply pres_move_linear|].
    destruct (x && y); [now apply pres_move_linear|apply pres_ret].
  - intros _. destruct z; [|apply pres_ret]. apply pres_bind; [apply pres_gets|intros b].
    now apply pres_move_linear.
Qed.

(** Which command may change which attribute. *)
Definition writes_position (c : cmd) : bool := match c with G0 | G1 | G2 | G3 | G28 => true | _ => false end.
Definition writes_plane (c : cmd) : bool := match c with G17 | G18 | G19 | M2 => true | _ => false end.
Definition writes_units (c : cmd) : bool := match c with G20 | G21 | M2 => true | _ => false end.
Definition writes_mode (c : cmd) : bool := match c with G90 | G91 | M2 => true | _ => false end.
Definition writes_local (c : cmd) : bool := match c with G92 | G53 | M2 => true | _ => false end.
Definition writes_rpm (c : cmd) : bool := match c with M3 | M2 => true | _ => false end.
Definition writes_fan (c : cmd) : bool := match c with M106 | M107 | MHeat HeaterExtruder _ => true | _ => false end.
Definition writes_ext (c : cmd) : bool := match c with MHeat HeaterExtruder _ => true | _ => false end.
Definition writes_bed (c : cmd) : bool := match c with MHeat HeaterBed _ => true | _ => false end.

Ltac pres_cmd :=
  unfold spindle, fan, heat, set_heater;
  repeat first
    [ apply pres_move_linear; intros; reflexivity
    | apply pres_move_circular; intros; reflexivity
    | apply pres_safe_zero; intros; reflexivity
    | progress pres ].

Lemma frame_position g c d rr v : writes_position c = false ->
  preserves m_position (exec_cmd cfg hw g c d rr v).
Proof. intros H. destruct c as [| | | | | | | | | | | | | | | | | | |h w| | | | | | |]; try discriminate H; simpl; pres_cmd. Qed.
Lemma frame_plane g c d rr v : writes_plane c = false ->
  preserves m_plane (exec_cmd cfg hw g c d rr v).
Proof. intros H. destruct c as [| | | | | | | | | | | | | | | | | | |h w| | | | | | |]; try discriminate H; simpl; pres_cmd. Qed.
Lemma frame_units g c d rr v : writes_units c = false ->
  preserves m_convert (exec_cmd cfg hw g c d rr v).
Proof. intros H. destruct c as [| | | | | | | | | | | | | | | | | | |h w| | | | | | |]; try discriminate H; simpl; pres_cmd. Qed.
Lemma frame_mode g c d rr v : writes_mode c = false ->
  preserves m_absolute (exec_cmd cfg hw g c d rr v).
Proof. intros H. destruct c as [| | | | | | | | | | | | | | | | | | |h w| | | | | | |]; try discriminate H; simpl; pres_cmd. Qed.
Lemma frame_local g c d rr v : writes_local c = false ->
  preserves m_local (exec_cmd cfg hw g c d rr v).
Proof. intros H. destruct c as [| | | | | | | | | | | | | | | | | | |h w| | | | | | |]; try discriminate H; simpl; pres_cmd. Qed.
Lemma frame_rpm g c d rr v : writes_rpm c = false ->
  preserves m_spindle_rpm (exec_cmd cfg hw g c d rr v).
Proof. intros H. destruct c as [| | | | | | | | | | | | | | | | | | |h w| | | | | | |]; try discriminate H; simpl; pres_cmd. Qed.
Lemma frame_fan g c d rr v : writes_fan c = false ->
  preserves m_fan (exec_cmd cfg hw g c d rr v).
Proof. intros H. destruct c as [| | | | | | | | | | | | | | | | | | |[] w| | | | | | |]; try discriminate H; simpl; pres_cmd. Qed.
Lemma frame_ext g c d rr v : writes_ext c = false ->
  preserves m_ext (exec_cmd cfg hw g c d rr v).
Proof. intros H. destruct c as [| | | | | | | | | | | | | | | | | | |[] w| | | | | | |]; try discriminate H; simpl; pres_cmd. Qed.
Lemma frame_bed g c d rr v : writes_bed c = false ->
  preserves m_bed (exec_cmd cfg hw g c d rr v).
Proof. intros H. destruct c as [| | | | | | | | | | | | | | | | | | |[] w| | | | | | |]; try discriminate H; simpl; pres_cmd. Qed.
Lemma frame_velocity g c d rr v : c <> M2 ->
  preserves m_velocity (exec_cmd cfg hw g c d rr v).
Proof. intros H. destruct c as [| | | | | | | | | | | | | | | | | | |[] w| | | | | | |]; try congruence; simpl; pres_cmd. Qed.

(* ---------- command words ---------- *)
Lemma assoc_text_In {A} t (l : list (text * A)) a : assoc_text t l = Some a -> In (t, a) l.
Proof.
  induction l as [|[k v] r IH]; simpl; [discriminate|].
  unfold text_eqb. destruct (list_eq_dec ascii_dec t k) as [->|_]; intros H.
  - injection H as ->. auto.
  - auto.
Qed.
Lemma assoc_text_None {A} t (l : list (text * A)) : assoc_text t l = None <-> ~ In t (map fst l).
Proof.
  induction l as [|[k v] r IH]; simpl; [tauto|].
  unfold text_eqb. destruct (list_eq_dec ascii_dec t k) as [->|Hn].
  - split; [discriminate|]. intros H. exfalso. auto.
  - rewrite IH. split; intros H; [intros [E|E]; auto|tauto].
Qed.

End P.

(** Inversion of every monadic equation in the context. *)
Ltac minv1 H :=
  match type of H with
  | bind _ _ _ _ = _ =>
      apply bind_inv in H;
      let e := fresh "e" in let E := fresh "E" in
      let a := fresh "a" in let m1 := fresh "m" in let l1 := fresh "l" in let H2 := fresh "H" in
      destruct H as [(e & H & E)|(a & m1 & l1 & H & H2)]
  | lift _ _ _ = _ => apply lift_inv in H; let E := fresh "E" in destruct H as (-> & -> & E)
  | ret _ _ _ = _ => apply ret_inv in H; let E := fresh "E" in destruct H as (-> & -> & E)
  | throw _ _ _ = _ => apply throw_inv in H; let E := fresh "E" in destruct H as (-> & -> & E)
  | gets _ _ = _ => apply gets_inv in H; let E := fresh "E" in destruct H as (-> & -> & E)
  | modify _ _ _ = _ => apply modify_inv in H; let E := fresh "E" in destruct H as (-> & -> & E)
  | fail_if _ _ _ _ = _ => apply fail_if_inv in H;
      let E := fresh "E" in let F := fresh "F" in destruct H as (-> & -> & [(F & E)|(F & E)])
  | call _ _ _ _ = _ => apply call_inv in H;
      let b := fresh "b" in let F := fresh "F" in let E := fresh "E" in
      destruct H as (-> & -> & [(b & F & E)|(b & F & E)])
  end.
Ltac minv :=
  repeat match goal with
         | E : Ok _ = Raise _ |- _ => discriminate E
         | E : Raise _ = Ok _ |- _ => discriminate E
         | E : Ok ?a = Ok ?b |- _ => injection E as E; try subst
         | E : Raise ?a = Raise ?b |- _ => injection E as E; try subst
         | H : _ _ _ = (_, _, _) |- _ => minv1 H
         end.
