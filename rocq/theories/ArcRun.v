(** The iteration of a circular pulse generator: where the motors are after each
    item. Over any numbers; the circle is walked in whole steps. *)
From Coq Require Import ZArith Bool List Lia.
From Verif Require Import PyBase PyNum Config Coordinates Pulses PulseSpec LinearGen ArcSpec.
From Coq Require Import List.
Import ListNotations.
Local Open Scope Z_scope.

(* ---------- __circular_helper ---------- *)
Definition h_pos (start radius direction i : Z) : Z := fst (fst (circular_helper start i radius false direction)).
Definition h_dir (start radius direction i : Z) : Z := snd (fst (circular_helper start i radius false direction)).

Lemma helper_side start i radius side direction :
  fst (circular_helper start i radius side direction) = (h_pos start radius direction i, h_dir start radius direction i).
Proof.
  unfold h_pos, h_dir, circular_helper.
  repeat match goal with |- context [if ?b then _ else _] => destruct b end; reflexivity.
Qed.

Ltac helper_cases :=
  unfold h_pos, h_dir, circular_helper;
  repeat match goal with |- context [if (?a <? ?b) then _ else _] => destruct (Z.ltb_spec a b) end; cbn [fst snd].

Lemma helper_bound start radius direction i : Z.abs start <= radius -> direction = 1 \/ direction = -1 -> 0 <= i -> direction * start + i <= (6 + direction) * radius ->
  Z.abs (h_pos start radius direction i) <= radius.
Proof. intros Hs [-> | ->] Hi Hr; helper_cases; lia. Qed.
Lemma helper_bound1 start radius direction i : Z.abs start <= radius -> direction = 1 \/ direction = -1 -> 0 <= i -> direction * start + i <= (6 + direction) * radius + 1 ->
  Z.abs (h_pos start radius direction i) <= radius + 1.
Proof. intros Hs [-> | ->] Hi Hr; helper_cases; lia. Qed.
Lemma helper_step start radius direction i : Z.abs start <= radius -> direction = 1 \/ direction = -1 -> 0 <= i ->
  h_pos start radius direction (i + 1) = h_pos start radius direction i + h_dir start radius direction (i + 1).
Proof. intros Hs [-> | ->] Hi; helper_cases; lia. Qed.
Lemma helper_dir start radius direction i : direction = 1 \/ direction = -1 ->
  h_dir start radius direction i = 1 \/ h_dir start radius direction i = -1.
Proof. intros [-> | ->]; helper_cases; lia. Qed.
Lemma helper_0 start radius direction : Z.abs start <= radius -> h_pos start radius direction 0 = start.
Proof. intros Hs; helper_cases; lia. Qed.
Lemma helper_full start radius direction : Z.abs start <= radius -> direction = 1 \/ direction = -1 ->
  h_pos start radius direction (4 * radius) = start.
Proof. intros Hs [-> | ->]; helper_cases; lia. Qed.

Lemma circle_walk (start radius dir : Z) (side : bool) (i : Z) :
  Z.abs start <= radius -> dir = 1 \/ dir = -1 -> 0 <= i <= 4 * radius ->
  let position k := fst (fst (circular_helper start k radius side dir)) in
  let direction k := snd (fst (circular_helper start k radius side dir)) in
  Z.abs (position i) <= radius /\
  (0 < i -> position i - position (i - 1) = direction i /\ Z.abs (direction i) = 1) /\
  position 0 = start /\ position (4 * radius) = start.
Proof.
  intros Hs Hd Hi position direction. unfold position, direction. rewrite !helper_side. cbn [fst snd].
  split; [apply helper_bound; auto; [lia|]; destruct Hd; subst dir; lia|]. split; [|split; [now apply helper_0|now apply helper_full]].
  intros P. replace i with (i - 1 + 1) at 1 by lia. rewrite helper_step by (auto; lia). replace (i - 1 + 1) with i by lia.
  destruct (helper_dir start radius dir i Hd) as [E|E]; rewrite E; lia.
Qed.

(* ---------- the iteration ---------- *)
Section Run.
Context {N : PyNum}.
Variable cfg : config.
Variable g : gen N.
(** Position of each motor after a number of its steps. *)
Variable P : motor -> Z -> Z.

Definition follows : Prop := forall i d t, (forall m, 0 <= qat m i) -> gen_interp cfg g i = Ok (d, t) ->
  forall m x, qat m t = Some x -> qat m d = P m (qat m i + 1) - P m (qat m i).

Definition walk (m : motor) (st : Z * Z) (it : item N) : Z * Z :=
  match it with
  | Dir q => (qat m q, snd st)
  | Pulse _ => (fst st, snd st + fst st * step_of m it)
  end.
Lemma signed_steps_walk m l : signed_steps m l = snd (fold_left (walk m) l (0, 0)).
Proof.
  unfold signed_steps. f_equal. generalize (0, 0). induction l as [|it r IH]; intros st; [reflexivity|].
  cbn [fold_left]. rewrite IH. f_equal. destruct st. now destruct it.
Qed.
Definition isg (m : motor) (x : Z) : Z := if qat m (inverted cfg) then - x else x.
Lemma isg_invert m d : qat m (invert_dirs cfg d) = isg m (qat m d).
Proof. unfold isg. destruct m; cbn [qat invert_dirs qx qy qz qe]; unfold invert; reflexivity. Qed.
Lemma isg_isg m x : isg m (isg m x) = x.
Proof. unfold isg. destruct (qat m (inverted cfg)); lia. Qed.
Lemma travel_isg m (l : list (item N)) : travel cfg m l = isg m (signed_steps m l).
Proof. reflexivity. Qed.

(** State of the motors after the items [l] ~ state of the iterator. *)
Record tracks (l : list (item N)) (s : iter_state N) : Prop := {
  tr_steps : forall m, steps m l = qat m (it_i s);
  tr_dir : forall m, match it_dir s with
                     | None => steps m l = 0
                     | Some d => fst (fold_left (walk m) l (0, 0)) = isg m (qat m d)
                     end;
  tr_pos : forall m, snd (fold_left (walk m) l (0, 0)) = isg m (P m (qat m (it_i s)) - P m 0)
}.

Lemma tracks_start s : iter_start cfg g = Ok s -> tracks [] s.
Proof.
  unfold iter_start. destruct (div _ _) as [c|]; cbn [rbind]; [|discriminate]. intros H. injection H as <-.
  split; intros m; cbn [it_i it_dir].
  - destruct m; reflexivity.
  - reflexivity.
  - unfold isg. destruct m; cbn; destruct (_ : bool); lia.
Qed.
Lemma steps_snoc m (l : list (item N)) it : steps m (l ++ [it]) = steps m l + step_of m it.
Proof. rewrite steps_app. cbn [steps fold_right]. lia. Qed.
Lemma tracks_next l s it s' : follows -> tracks l s -> next cfg g s = Ok (Some (it, s')) -> tracks (l ++ [it]) s'.
Proof.
  intros HF [T1 T2 T3] H. apply next_pulse in H. destruct H as (d & t & Hi & [(_ & E)|[(_ & _ & E)|(Hd & x & am & q & s2 & Hm & Ha & E & Hd' & Hc & Hf)]]).
  - injection E as -> ->. split; intros m; cbn [it_i it_dir].
    + rewrite steps_snoc, T1. cbn [step_of]. lia.
    + rewrite fold_left_app. cbn [fold_left walk fst]. apply isg_invert.
    + rewrite fold_left_app. cbn [fold_left walk snd]. apply T3.
  - discriminate E.
  - injection E as -> ->.
    assert (NN: forall m, 0 <= qat m (it_i s)) by (intros m; rewrite <- T1; apply steps_nonneg).
    assert (X: forall m, qat m (it_i s2) = qat m (it_i s) + step_of m (Pulse q) /\
                         (step_of m (Pulse q) = 0 \/ step_of m (Pulse q) = 1 /\ qat m d = P m (qat m (it_i s) + 1) - P m (qat m (it_i s)))).
    { intros m. specialize (Hf m). apply fire_inv in Hf. cbn [step_of]. destruct Hf as [(-> & -> & _)|(y & Ey & _ & -> & ->)].
      - split; [lia|now left].
      - split; [lia|]. right. split; [reflexivity|]. exact (HF _ _ _ NN Hi m y Ey). }
    split; intros m; destruct (X m) as [X1 X2].
    + rewrite steps_snoc, T1, X1. reflexivity.
    + rewrite Hd', Hd. rewrite fold_left_app. cbn [fold_left walk fst]. specialize (T2 m). rewrite Hd in T2. exact T2.
    + rewrite fold_left_app. cbn [fold_left walk snd]. rewrite T3. specialize (T2 m). rewrite Hd in T2. rewrite T2, X1.
      unfold isg in *. destruct X2 as [->|(-> & ->)]; destruct (qat m (inverted cfg)); rewrite ?Z.add_0_r; lia.
Qed.

(** After any number of items: as many steps as counted, at the position. *)
Lemma items_from_tracks n l s : follows -> tracks l s ->
  exists s', tracks (l ++ items_from cfg g n s) s'.
Proof.
  intros HF. revert l s. induction n as [|n IH]; intros l s T; cbn [items_from].
  - exists s. now rewrite app_nil_r.
  - destruct (next cfg g s) as [[[it s']|]|e] eqn:E; try (exists s; now rewrite app_nil_r).
    destruct (IH (l ++ [it]) s' (tracks_next _ _ _ _ HF T E)) as (s2 & H). exists s2. rewrite <- app_assoc in H. exact H.
Qed.
Lemma items_travel n m : follows -> travel cfg m (items cfg g n) = P m (steps m (items cfg g n)) - P m 0.
Proof.
  intros HF. unfold items. destruct (iter_start cfg g) as [s|e] eqn:E.
  - destruct (items_from_tracks n [] s HF (tracks_start s E)) as (s' & [T1 T2 T3]). cbn [app] in *.
    rewrite travel_isg, signed_steps_walk, T3, isg_isg, T1. reflexivity.
  - unfold travel. cbn. destruct (qat m (inverted cfg)); lia.
Qed.

(** A finished iteration: every motor has made all its steps. *)
Lemma iterate_tracks fuel l0 s l : follows -> tracks l0 s -> iterate cfg fuel g s = Finished l ->
  exists s', tracks (l0 ++ l) s' /\ exists d t, gen_interp cfg g (it_i s') = Ok (d, t) /\ forall m, qat m t = None.
Proof.
  intros HF. revert l0 s l. induction fuel as [|f IH]; intros l0 s l T H; [discriminate H|]. cbn [iterate] in H.
  destruct (next cfg g s) as [[[it s']|]|e] eqn:E; [| |discriminate H].
  - destruct (iterate cfg f g s') as [l'| |] eqn:E2; try discriminate H. injection H as <-.
    destruct (IH (l0 ++ [it]) s' l' (tracks_next _ _ _ _ HF T E) E2) as (s2 & T2 & K). exists s2. rewrite <- app_assoc in T2. split; assumption.
  - injection H as <-. exists s. rewrite app_nil_r. split; [exact T|]. apply next_pulse in E.
    destruct E as (d & t & Hi & [(_ & E)|[(_ & Hn & _)|(_ & x & am & q & s2 & _ & _ & E & _)]]); try discriminate E.
    exists d, t. auto.
Qed.
Lemma completes_travel l : follows -> completes cfg g l ->
  (forall m, travel cfg m l = P m (steps m l) - P m 0) /\
  exists i d t, gen_interp cfg g i = Ok (d, t) /\ forall m, qat m i = steps m l /\ qat m t = None.
Proof.
  intros HF [fuel H]. unfold run_gen in H. destruct (iter_start cfg g) as [s|e] eqn:E; [|discriminate H].
  destruct (iterate_tracks fuel [] s l HF (tracks_start s E) H) as (s' & T & d & t & Hi & Hn). cbn [app] in T. destruct T as [T1 T2 T3].
  split.
  - intros m. rewrite travel_isg, signed_steps_walk, T3, isg_isg, T1. reflexivity.
  - exists (it_i s'), d, t. split; [exact Hi|]. intros m. split; [symmetry; apply T1|apply Hn].
Qed.
End Run.

Section Items.
Context {N : PyNum}.
Lemma iterate_items cfg (g : gen N) fuel s l : iterate cfg fuel g s = Finished l -> items_from cfg g fuel s = l.
Proof.
  revert s l. induction fuel as [|f IH]; intros s l H; [discriminate H|]. cbn [iterate items_from] in *.
  destruct (next cfg g s) as [[[it s']|]|e] eqn:E; [| |discriminate H].
  - destruct (iterate cfg f g s') as [l'| |] eqn:E2; try discriminate H. injection H as <-. f_equal. now apply IH.
  - now injection H.
Qed.
(** All items of a generator that completes. *)
Lemma completes_items cfg (g : gen N) l : completes cfg g l -> exists n, items cfg g n = l.
Proof.
  intros [fuel H]. exists fuel. unfold run_gen, items in *. destruct (iter_start cfg g) as [s|e]; [|discriminate H]. now apply iterate_items.
Qed.
End Items.

(* ---------- axes of a plane ---------- *)
Lemma motor_cases pl m : m = motor_a pl \/ m = motor_b pl \/ m = motor_c pl \/ m = ME.
Proof. destruct pl, m; auto. Qed.
Lemma qat_axis_a {A} pl (q : quad A) : axis_a pl q = qat (motor_a pl) q. Proof. now destruct pl. Qed.
Lemma qat_axis_b {A} pl (q : quad A) : axis_b pl q = qat (motor_b pl) q. Proof. now destruct pl. Qed.
Lemma qat_axis_c {A} pl (q : quad A) : axis_c pl q = qat (motor_c pl) q. Proof. now destruct pl. Qed.
Lemma from_axes_a {A} pl (a b c e : A) : qat (motor_a pl) (from_axes pl a b c e) = a. Proof. now destruct pl. Qed.
Lemma from_axes_b {A} pl (a b c e : A) : qat (motor_b pl) (from_axes pl a b c e) = b. Proof. now destruct pl. Qed.
Lemma from_axes_c {A} pl (a b c e : A) : qat (motor_c pl) (from_axes pl a b c e) = c. Proof. now destruct pl. Qed.
Lemma from_axes_e {A} pl (a b c e : A) : qat ME (from_axes pl a b c e) = e. Proof. now destruct pl. Qed.

(* ---------- circular generators ---------- *)
Section Circ.
Context {N : PyNum}.
Variable cfg : config.
Variable g : circular_gen N.
Let pl := c_plane g.

Record starts_inside : Prop := {
  oc_start_a : Z.abs (c_start_a_pulses g) <= c_radius_a_pulses g;
  oc_start_b : Z.abs (c_start_b_pulses g) <= c_radius_b_pulses g;
  oc_dir_a : c_dir_a g = 1 \/ c_dir_a g = -1;
  oc_dir_b : c_dir_b g = 1 \/ c_dir_b g = -1
}.
Record on_circle : Prop := {
  oc_inside : starts_inside;
  oc_room : room g
}.
Definition pos_a (k : Z) : Z := h_pos (c_start_a_pulses g) (c_radius_a_pulses g) (c_dir_a g) k.
Definition pos_b (k : Z) : Z := h_pos (c_start_b_pulses g) (c_radius_b_pulses g) (c_dir_b g) k.
Definition arc_pos (m : motor) (k : Z) : Z :=
  qat m (from_axes pl (pos_a k) (pos_b k) (c_third_dir g * k) (c_e_dir g * k)).

Lemma circular_interp_inv i d t : circular_interp cfg g i = Ok (d, t) ->
  circular_a g (qat (motor_a pl) i) (qat (motor_a pl) (ppm cfg)) = Ok (qat (motor_a pl) d, qat (motor_a pl) t) /\
  circular_b g (qat (motor_b pl) i) (qat (motor_b pl) (ppm cfg)) = Ok (qat (motor_b pl) d, qat (motor_b pl) t) /\
  circular_linear (qat (motor_c pl) i) (c_iterations_3rd g) (qat (motor_c pl) (ppm cfg)) (c_velocity_3rd g) = Ok (qat (motor_c pl) t) /\
  circular_linear (qe i) (c_iterations_e g) (qe (ppm cfg)) (c_e_velocity g) = Ok (qe t) /\
  qat (motor_c pl) d = c_third_dir g /\ qe d = c_e_dir g.
Proof.
  unfold circular_interp. fold pl. rewrite !qat_axis_a, !qat_axis_b, !qat_axis_c. intros H.
  destruct (circular_a g _ _) as [[da ta]|] eqn:E1; cbn [rbind] in H; [|discriminate].
  destruct (circular_b g _ _) as [[db tb]|] eqn:E2; cbn [rbind] in H; [|discriminate].
  destruct (circular_linear (qat (motor_c pl) i) _ _ _) as [tc|] eqn:E3; cbn [rbind] in H; [|discriminate].
  destruct (circular_linear (qe i) _ _ _) as [te|] eqn:E4; cbn [rbind] in H; [|discriminate].
  injection H as <- <-. rewrite !from_axes_a, !from_axes_b, !from_axes_c.
  change (qe (from_axes pl ta tb tc te)) with (qat ME (from_axes pl ta tb tc te)).
  change (qe (from_axes pl da db (c_third_dir g) (c_e_dir g))) with (qat ME (from_axes pl da db (c_third_dir g) (c_e_dir g))).
  rewrite !from_axes_e. auto 10.
Qed.

Lemma circular_a_inv i p d t : circular_a g i p = Ok (d, t) ->
  match t with
  | None => c_iterations_a g <= i
  | Some _ => i < c_iterations_a g /\ d = h_dir (c_start_a_pulses g) (c_radius_a_pulses g) (c_dir_a g) (i + 1)
  end.
Proof.
  unfold circular_a. destruct (Z.leb_spec (c_iterations_a g) i) as [L|L].
  { intros H. injection H as <- <-. exact L. }
  pose proof (helper_side (c_start_a_pulses g) (i + 1) (c_radius_a_pulses g) (c_side_a g) (c_dir_a g)) as HS.
  destruct (circular_helper _ _ _ _ _) as [[ap dd] sd]. cbn [fst] in HS. injection HS as -> ->.
  intros H. destruct (div _ _) as [a|]; cbn [rbind] in H; [|discriminate].
  destruct (i + 1 =? c_iterations_a g).
  { injection H as <- <-. auto. }
  destruct (sqrtn _) as [b|]; cbn [rbind] in H; [|discriminate].
  destruct (circular_find_time _ _ _) as [x|]; cbn [rbind] in H; [|discriminate]. injection H as <- <-. auto.
Qed.
Lemma circular_b_inv i p d t : circular_b g i p = Ok (d, t) ->
  match t with
  | None => c_iterations_b g <= i
  | Some _ => i < c_iterations_b g /\ d = h_dir (c_start_b_pulses g) (c_radius_b_pulses g) (c_dir_b g) (i + 1)
  end.
Proof.
  unfold circular_b. destruct (Z.leb_spec (c_iterations_b g) i) as [L|L].
  { intros H. injection H as <- <-. exact L. }
  pose proof (helper_side (c_start_b_pulses g) (i + 1) (c_radius_b_pulses g) (c_side_b g) (c_dir_b g)) as HS.
  destruct (circular_helper _ _ _ _ _) as [[ap dd] sd]. cbn [fst] in HS. injection HS as -> ->.
  intros H. destruct (div _ _) as [a|]; cbn [rbind] in H; [|discriminate].
  destruct (i + 1 =? c_iterations_b g).
  { injection H as <- <-. auto. }
  destruct (sqrtn _) as [b|]; cbn [rbind] in H; [|discriminate].
  destruct (circular_find_time _ _ _) as [x|]; cbn [rbind] in H; [|discriminate]. injection H as <- <-. auto.
Qed.
Lemma circular_linear_inv i (tot : N) p v t : circular_linear i tot p v = Ok t ->
  leb tot (ofZ i) = match t with None => true | Some _ => false end.
Proof.
  unfold circular_linear. destruct (leb tot (ofZ i)); intros H.
  - now injection H as <-.
  - destruct (div _ _) as [q|]; cbn [rbind] in H; [|discriminate]. destruct (div _ _) as [q2|]; cbn [rbind] in H; [|discriminate].
    now injection H as <-.
Qed.

Hypothesis OC : starts_inside.

Lemma arc_follows : follows cfg (GCircular g) arc_pos.
Proof.
  destruct OC. intros i d t NN H m x Hx. cbn [gen_interp] in H. apply circular_interp_inv in H. destruct H as (Ha & Hb & Hcc & He & Dc & De).
  unfold arc_pos. destruct (motor_cases pl m) as [->|[->|[->| ->]]].
  - rewrite !from_axes_a. apply circular_a_inv in Ha. rewrite Hx in Ha. destruct Ha as [Hi ->]. unfold pos_a.
    specialize (NN (motor_a pl)). rewrite helper_step by (auto; lia). lia.
  - rewrite !from_axes_b. apply circular_b_inv in Hb. rewrite Hx in Hb. destruct Hb as [Hi ->]. unfold pos_b.
    specialize (NN (motor_b pl)). rewrite helper_step by (auto; lia). lia.
  - rewrite !from_axes_c. rewrite Dc. lia.
  - rewrite !from_axes_e. cbn [qat]. rewrite De. lia.
Qed.

(** The number of steps made on the plane axes never exceeds the iterations. *)
Definition counts (s : iter_state N) : Prop :=
  qat (motor_a pl) (it_i s) <= Z.max 0 (c_iterations_a g) /\ qat (motor_b pl) (it_i s) <= Z.max 0 (c_iterations_b g).
Lemma counts_next s it s' : counts s -> next cfg (GCircular g) s = Ok (Some (it, s')) -> counts s'.
Proof.
  intros [C1 C2] H. apply next_pulse in H. destruct H as (d & t & Hi & [(_ & E)|[(_ & _ & E)|(Hd & x & am & q & s2 & Hm & Ha & E & Hd' & Hc & Hf)]]).
  - injection E as -> ->. split; assumption.
  - discriminate E.
  - injection E as -> ->. cbn [gen_interp] in Hi. apply circular_interp_inv in Hi. destruct Hi as (HA & HB & _).
    apply circular_a_inv in HA. apply circular_b_inv in HB. split.
    + specialize (Hf (motor_a pl)). apply fire_inv in Hf. destruct Hf as [(_ & -> & _)|(y & Ey & _ & _ & ->)]; [exact C1|]. rewrite Ey in HA. lia.
    + specialize (Hf (motor_b pl)). apply fire_inv in Hf. destruct Hf as [(_ & -> & _)|(y & Ey & _ & _ & ->)]; [exact C2|]. rewrite Ey in HB. lia.
Qed.
Lemma items_counts n l s : tracks cfg arc_pos l s -> counts s ->
  exists s', tracks cfg arc_pos (l ++ items_from cfg (GCircular g) n s) s' /\ counts s'.
Proof.
  revert l s. induction n as [|n IH]; intros l s T C; cbn [items_from].
  - exists s. now rewrite app_nil_r.
  - destruct (next cfg (GCircular g) s) as [[[it s']|]|e] eqn:E; try (exists s; now rewrite app_nil_r).
    destruct (IH (l ++ [it]) s' (tracks_next _ _ _ _ _ _ _ arc_follows T E) (counts_next _ _ _ C E)) as (s2 & H). exists s2. rewrite <- app_assoc in H. exact H.
Qed.
Lemma arc_steps n : steps (motor_a pl) (items cfg (GCircular g) n) <= Z.max 0 (c_iterations_a g) /\
                    steps (motor_b pl) (items cfg (GCircular g) n) <= Z.max 0 (c_iterations_b g).
Proof.
  unfold items. destruct (iter_start cfg (GCircular g)) as [s|e] eqn:E; [|cbn; lia].
  assert (C: counts s).
  { unfold iter_start in E. destruct (div _ _) as [c|]; cbn [rbind] in E; [|discriminate]. injection E as <-.
    split; cbn [it_i]; destruct pl; cbn; lia. }
  destruct (items_counts n [] s (tracks_start _ _ _ _ E) C) as (s' & [T _ _] & C1 & C2). cbn [app] in T. rewrite !T. split; assumption.
Qed.

(** Where the plane axes are after any number of items. *)
Lemma arc_travel_a n : let l := items cfg (GCircular g) n in
  c_start_a_pulses g + travel cfg (motor_a pl) l = pos_a (steps (motor_a pl) l) /\ (room g -> Z.abs (pos_a (steps (motor_a pl) l)) <= c_radius_a_pulses g).
Proof.
  intros l. destruct (arc_steps n) as [S _]. fold l in S. pose proof (steps_nonneg (motor_a pl) l).
  unfold l at 1. rewrite (items_travel _ _ _ _ _ arc_follows). fold l. unfold arc_pos. rewrite !from_axes_a. unfold pos_a at 2.
  destruct OC as [A _ D _]. split; [rewrite helper_0 by assumption; lia|]. intros [W _]. apply helper_bound; auto. destruct D as [D|D]; rewrite D in *; lia.
Qed.
Lemma arc_travel_b n : let l := items cfg (GCircular g) n in
  c_start_b_pulses g + travel cfg (motor_b pl) l = pos_b (steps (motor_b pl) l) /\ (room g -> Z.abs (pos_b (steps (motor_b pl) l)) <= c_radius_b_pulses g).
Proof.
  intros l. destruct (arc_steps n) as [_ S]. fold l in S. pose proof (steps_nonneg (motor_b pl) l).
  unfold l at 1. rewrite (items_travel _ _ _ _ _ arc_follows). fold l. unfold arc_pos. rewrite !from_axes_b. unfold pos_b at 2.
  destruct OC as [_ A _ D]. split; [rewrite helper_0 by assumption; lia|]. intros [_ W]. apply helper_bound; auto. destruct D as [D|D]; rewrite D in *; lia.
Qed.

(** From one item to the next an axis moves by at most one step. *)
Lemma items_from_S n s : items_from cfg (GCircular g) (S n) s = items_from cfg (GCircular g) n s \/
  exists it, items_from cfg (GCircular g) (S n) s = items_from cfg (GCircular g) n s ++ [it].
Proof.
  revert s. induction n as [|n IH]; intros s.
  - cbn [items_from]. destruct (next cfg (GCircular g) s) as [[[it s']|]|e]; [right; exists it; reflexivity|now left|now left].
  - cbn [items_from] in *. destruct (next cfg (GCircular g) s) as [[[it s']|]|e]; [|now left|now left].
    destruct (IH s') as [E|(it' & E)]; rewrite E; [now left|right; exists it'; reflexivity].
Qed.
Lemma items_S n : items cfg (GCircular g) (S n) = items cfg (GCircular g) n \/
  exists it, items cfg (GCircular g) (S n) = items cfg (GCircular g) n ++ [it].
Proof. unfold items. destruct (iter_start cfg (GCircular g)) as [s|e]; [apply items_from_S|now left]. Qed.
Lemma step_01 m (it : item N) : step_of m it = 0 \/ step_of m it = 1.
Proof. unfold step_of. destruct it as [q|q]; [now left|]. destruct (qat m q); auto. Qed.
Lemma arc_one_step m n : m = motor_a pl \/ m = motor_b pl ->
  let l := items cfg (GCircular g) n in let l' := items cfg (GCircular g) (S n) in
  Z.abs (travel cfg m l' - travel cfg m l) = steps m l' - steps m l /\ steps m l <= steps m l' <= steps m l + 1.
Proof.
  intros Hm l l'. assert (K: steps m l' = steps m l \/ steps m l' = steps m l + 1).
  { unfold l, l'. destruct (items_S n) as [->|(it & ->)]; [now left|]. rewrite steps_snoc. destruct (step_01 m it); lia. }
  split; [|lia]. unfold l, l'. rewrite !(items_travel _ _ _ _ _ arc_follows). fold l l'.
  destruct K as [K|K]; rewrite K; [lia|]. pose proof (steps_nonneg m l).
  destruct OC. destruct (arc_steps (S n)) as [Sa Sb]. fold l' in Sa, Sb.
  enough (X: arc_pos m (steps m l + 1) = arc_pos m (steps m l) + 1 \/ arc_pos m (steps m l + 1) = arc_pos m (steps m l) - 1) by lia.
  unfold arc_pos. destruct Hm as [-> | ->].
  - rewrite !from_axes_a. unfold pos_a. rewrite helper_step by (auto; lia).
    destruct (helper_dir (c_start_a_pulses g) (c_radius_a_pulses g) (c_dir_a g) (steps (motor_a pl) l + 1)) as [-> | ->]; auto; lia.
  - rewrite !from_axes_b. unfold pos_b. rewrite helper_step by (auto; lia).
    destruct (helper_dir (c_start_b_pulses g) (c_radius_b_pulses g) (c_dir_b g) (steps (motor_b pl) l + 1)) as [-> | ->]; auto; lia.
Qed.

(** A complete arc: all steps of the plane axes have been made. *)
Lemma arc_complete l : completes cfg (GCircular g) l ->
  steps (motor_a pl) l = Z.max 0 (c_iterations_a g) /\ steps (motor_b pl) l = Z.max 0 (c_iterations_b g) /\
  leb (c_iterations_3rd g) (ofZ (steps (motor_c pl) l)) = true /\ leb (c_iterations_e g) (ofZ (steps ME l)) = true.
Proof.
  intros H. destruct (completes_travel _ _ _ _ arc_follows H) as (_ & i & d & t & Hi & Hm). cbn [gen_interp] in Hi.
  apply circular_interp_inv in Hi. destruct Hi as (HA & HB & HC & HE & _). apply circular_a_inv in HA. apply circular_b_inv in HB.
  apply circular_linear_inv in HC. apply circular_linear_inv in HE.
  destruct (completes_items _ _ _ H) as [n <-]. destruct (arc_steps n) as [S1 S2].
  set (l := items cfg (GCircular g) n) in *.
  pose proof (steps_nonneg (motor_a pl) l). pose proof (steps_nonneg (motor_b pl) l).
  destruct (Hm (motor_a pl)) as [I1 T1]. destruct (Hm (motor_b pl)) as [I2 T2]. destruct (Hm (motor_c pl)) as [I3 T3]. destruct (Hm ME) as [I4 T4].
  cbn [qat] in I4, T4. rewrite T1, I1 in HA. rewrite T2, I2 in HB. rewrite T3, I3 in HC. rewrite T4, I4 in HE. repeat split; [lia|lia|exact HC|exact HE].
Qed.
End Circ.

Section Pulses_.
Context {N : PyNum}.
Lemma arc_pulses (cfg : config) (g : circular_gen N) (n : nat) :
  Z.abs (c_start_a_pulses g) <= c_radius_a_pulses g -> Z.abs (c_start_b_pulses g) <= c_radius_b_pulses g ->
  c_dir_a g = 1 \/ c_dir_a g = -1 -> c_dir_b g = 1 \/ c_dir_b g = -1 -> room g ->
  let ma := motor_a (c_plane g) in let mb := motor_b (c_plane g) in
  let l := items cfg (GCircular g) n in let l' := items cfg (GCircular g) (S n) in
  Z.abs (c_start_a_pulses g + travel cfg ma l) <= c_radius_a_pulses g /\
  Z.abs (c_start_b_pulses g + travel cfg mb l) <= c_radius_b_pulses g /\
  forall m, m = ma \/ m = mb ->
    Z.abs (travel cfg m l' - travel cfg m l) = steps m l' - steps m l /\ steps m l <= steps m l' <= steps m l + 1.
Proof.
  intros H1 H2 H3 H4 W ma mb l l'. assert (OC: starts_inside g) by (split; auto).
  destruct (arc_travel_a cfg g OC n) as [A1 A2]. destruct (arc_travel_b cfg g OC n) as [B1 B2].
  unfold l, ma, mb. rewrite A1, B1. split; [exact (A2 W)|]. split; [exact (B2 W)|]. intros m Hm. exact (arc_one_step cfg g OC m n Hm).
Qed.
Lemma arc_within (cfg : config) (g : circular_gen N) (n : nat) : on_circle g ->
  let l := items cfg (GCircular g) n in
  Z.abs (c_start_a_pulses g + travel cfg (motor_a (c_plane g)) l) <= c_radius_a_pulses g /\
  Z.abs (c_start_b_pulses g + travel cfg (motor_b (c_plane g)) l) <= c_radius_b_pulses g.
Proof.
  intros [OC W] l. destruct (arc_travel_a cfg g OC n) as [A1 A2]. destruct (arc_travel_b cfg g OC n) as [B1 B2].
  unfold l. rewrite A1, B1. split; auto.
Qed.
End Pulses_.

(* ---------- completion ---------- *)
Section Completes.
Context {N : PyNum}.
Variable cfg : config.
Variable g : gen N.
Variable n : motor -> Z.
(** Times that can occur. *)
Variable T : N -> Prop.
Variable c : N.
Hypothesis T_lt : forall x, T x -> ltb x x = false.
Hypothesis Hi : forall i, (forall m, 0 <= qat m i <= n m) ->
  exists d t, gen_interp cfg g i = Ok (d, t) /\ forall m x, qat m t = Some x -> qat m i < n m /\ T x.
Hypothesis Ha : forall x, T x -> exists y, to_accelerated_time (gen_acc g) (gen_lin g) c x = Ok y.
Hypothesis Hs : exists s, iter_start cfg g = Ok s /\ it_c s = c.
Hypothesis Hn : forall m, 0 <= n m.

Definition left_ (i : quad Z) : Z := (n MX - qx i) + (n MY - qy i) + (n MZ - qz i) + (n ME - qe i).

Lemma iterate_completes fuel s : it_c s = c -> (forall m, 0 <= qat m (it_i s) <= n m) -> (2 * Z.to_nat (left_ (it_i s)) + 2 <= fuel)%nat ->
  exists l, iterate cfg fuel g s = Finished l.
Proof.
  remember (Z.to_nat (left_ (it_i s))) as w eqn:Ew. revert fuel s Ew. induction w as [w IH] using lt_wf_ind. intros fuel s -> Hc W Hf.
  destruct (Hi _ W) as (d & t & Ei & Ht).
  (* the pulse message, once the direction is set *)
  assert (PULSE: forall f s1, it_c s1 = c -> it_i s1 = it_i s -> it_dir s1 = Some d -> (2 * Z.to_nat (left_ (it_i s)) + 1 <= f)%nat ->
                 exists l, iterate cfg f g s1 = Finished l).
  { intros f s1 C1 I1 D1 F1. destruct f as [|f]; [lia|]. cbn [iterate].
    destruct (next cfg g s1) as [r|e] eqn:En.
    - apply next_pulse in En. rewrite I1, Ei in En. destruct En as (d' & t' & E' & K). injection E' as <- <-.
      destruct K as [(Kd & _)|[(_ & _ & ->)|(_ & x & am & q & s' & Hm & _ & -> & Hd' & Hc' & Hq)]].
      + rewrite D1, quadZ_eqb_refl in Kd. discriminate.
      + exists []. reflexivity.
      + destruct (min_time_some _ _ Hm) as [mm Hmm]. destruct (Ht mm x Hmm) as [_ Tx].
        assert (ST: forall m, qat m (it_i s) <= qat m (it_i s') /\ 0 <= qat m (it_i s') <= n m).
        { intros m. specialize (Hq m). apply fire_inv in Hq. specialize (W m). destruct Hq as [(_ & -> & _)|(y & Ey & _ & _ & ->)]; [lia|].
          destruct (Ht m y Ey). lia. }
        assert (S1: qat mm (it_i s) < qat mm (it_i s')).
        { specialize (Hq mm). rewrite Hmm in Hq. apply fire_inv in Hq. destruct Hq as [(_ & _ & Hl)|(y & _ & _ & _ & ->)]; [|lia].
          specialize (Hl x eq_refl). rewrite (T_lt x Tx) in Hl. discriminate. }
        assert (L: 0 <= left_ (it_i s') < left_ (it_i s)).
        { unfold left_. pose proof (ST MX) as A1. pose proof (ST MY) as A2. pose proof (ST MZ) as A3. pose proof (ST ME) as A4. cbn [qat] in *.
          destruct mm; cbn [qat] in *; lia. }
        destruct (IH (Z.to_nat (left_ (it_i s'))) ltac:(lia) f s' eq_refl) as (l & ->); [congruence|intros m; apply ST|lia|]. eexists. reflexivity.
    - exfalso. unfold next in En. rewrite I1, Ei in En. cbn [rbind] in En. rewrite D1, quadZ_eqb_refl in En. cbn [negb] in En.
      destruct (min_time t) as [x|] eqn:Hm; [|discriminate]. destruct (min_time_some _ _ Hm) as [mm Hmm]. destruct (Ht mm x Hmm) as [_ Tx].
      rewrite C1 in En. destruct (Ha x Tx) as (y & Ey). rewrite Ey in En. cbn [rbind] in En. do 4 destruct (fire _ _ _ _). discriminate. }
  destruct (match it_dir s with None => true | Some d' => negb (quadZ_eqb d d') end) eqn:Ed.
  - destruct fuel as [|f]; [lia|]. cbn [iterate]. unfold next at 1. rewrite Ei. cbn [rbind]. rewrite Ed.
    destruct (PULSE f {| it_i := it_i s; it_dir := Some d; it_c := it_c s |}) as (l & ->); auto; [lia|]. eexists. reflexivity.
  - apply PULSE; auto; [|lia]. destruct (it_dir s) as [d'|]; [|discriminate]. apply negb_false_iff, quadZ_eqb_eq in Ed. now subst.
Qed.
Lemma gen_completes : exists l, completes cfg g l.
Proof.
  destruct Hs as (s & Es & Cs).
  assert (W: forall m, 0 <= qat m (it_i s) <= n m).
  { unfold iter_start in Es. destruct (div _ _) as [c'|]; cbn [rbind] in Es; [|discriminate]. injection Es as <-. intros m.
    specialize (Hn m). destruct m; cbn; lia. }
  destruct (iterate_completes _ s Cs W (le_n _)) as (l & E). exists l. eexists. unfold run_gen. rewrite Es. exact E.
Qed.
End Completes.
