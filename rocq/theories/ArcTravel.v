(** Where the motors are during and after a complete arc, over any numbers. *)
From Coq Require Import ZArith Bool List Lia.
From Verif Require Import PyBase PyNum Config Coordinates Pulses PulseSpec LinearGen ArcSpec ArcRun.
From Coq Require Import List.
Import ListNotations.
Local Open Scope Z_scope.

(** A function growing by at most one takes every value on its way. *)
Lemma every_value (f : nat -> Z) (n : nat) (k : Z) : f 0%nat <= k <= f n -> (forall i, f (S i) <= f i + 1) -> exists i, f i = k.
Proof.
  intros H Hs. induction n as [|n IH]; [exists 0%nat; lia|].
  destruct (Z.eq_dec (f (S n)) k) as [E|E]; [eauto|]. apply IH. specialize (Hs n). lia.
Qed.

Section Travel.
Context {N : PyNum}.
Variable cfg : config.
Variable g : circular_gen N.
Let pl := c_plane g.
Hypothesis OC : starts_inside g.

Lemma every_step m l k : m = motor_a pl \/ m = motor_b pl -> completes cfg (GCircular g) l -> 0 <= k <= steps m l ->
  exists n, steps m (items cfg (GCircular g) n) = k.
Proof.
  intros Hm Hl Hk. destruct (completes_items _ _ _ Hl) as [n En].
  apply (every_value (fun i => steps m (items cfg (GCircular g) i)) n); [|intros i; apply (arc_one_step cfg g OC m i Hm)].
  rewrite En. split; [|lia]. unfold items. destruct (iter_start _ _); cbn; lia.
Qed.
Lemma everywhere_a l k : completes cfg (GCircular g) l -> 0 <= k <= c_iterations_a g ->
  exists n, c_start_a_pulses g + travel cfg (motor_a pl) (items cfg (GCircular g) n) = pos_a g k.
Proof.
  intros Hl Hk. destruct (every_step (motor_a pl) l k) as [n E]; auto.
  { destruct (arc_complete cfg g OC l Hl) as (S1 & _). fold pl in S1. lia. }
  exists n. destruct (arc_travel_a cfg g OC n) as [P _]. fold pl in P. rewrite P, E. reflexivity.
Qed.
Lemma everywhere_b l k : completes cfg (GCircular g) l -> 0 <= k <= c_iterations_b g ->
  exists n, c_start_b_pulses g + travel cfg (motor_b pl) (items cfg (GCircular g) n) = pos_b g k.
Proof.
  intros Hl Hk. destruct (every_step (motor_b pl) l k) as [n E]; auto.
  { destruct (arc_complete cfg g OC l Hl) as (_ & S1 & _). fold pl in S1. lia. }
  exists n. destruct (arc_travel_b cfg g OC n) as [P _]. fold pl in P. rewrite P, E. reflexivity.
Qed.
(** The end of a complete arc. *)
Lemma arc_net l : completes cfg (GCircular g) l -> 0 <= c_iterations_a g -> 0 <= c_iterations_b g ->
  c_start_a_pulses g + travel cfg (motor_a pl) l = pos_a g (c_iterations_a g) /\
  c_start_b_pulses g + travel cfg (motor_b pl) l = pos_b g (c_iterations_b g).
Proof.
  intros Hl Ha Hb. destruct (arc_complete cfg g OC l Hl) as (Sa & Sb & _). destruct (completes_items _ _ _ Hl) as [n En].
  destruct (arc_travel_a cfg g OC n) as [P _]. destruct (arc_travel_b cfg g OC n) as [Q _]. fold pl in P, Q, Sa, Sb. rewrite En in P, Q.
  rewrite P, Q, Sa, Sb. rewrite !Z.max_r by lia. split; reflexivity.
Qed.

(** The third axis and the extruder: one more step than [k] is made only if [k] are
    not enough. *)
Definition counts_c (s : iter_state N) : Prop :=
  (forall k, qat (motor_c pl) (it_i s) = k + 1 -> 0 <= k -> leb (c_iterations_3rd g) (ofZ k) = false) /\
  (forall k, qe (it_i s) = k + 1 -> 0 <= k -> leb (c_iterations_e g) (ofZ k) = false).
Lemma counts_c_next s it s' : counts_c s -> next cfg (GCircular g) s = Ok (Some (it, s')) -> counts_c s'.
Proof.
  intros [C1 C2] H. apply next_pulse in H. destruct H as (d & t & Hi & [(_ & E)|[(_ & _ & E)|(Hd & x & am & q & s2 & Hm & Ha & E & Hd' & Hc & Hf)]]).
  - injection E as -> ->. split; assumption.
  - discriminate E.
  - injection E as -> ->. cbn [gen_interp] in Hi. apply circular_interp_inv in Hi. destruct Hi as (_ & _ & HC & HE & _).
    apply circular_linear_inv in HC. apply circular_linear_inv in HE. split.
    + specialize (Hf (motor_c pl)). apply fire_inv in Hf. destruct Hf as [(_ & -> & _)|(y & Ey & _ & _ & ->)]; [exact C1|]. intros k Hk _.
      unfold pl in *. rewrite Ey in HC. replace k with (qat (motor_c (c_plane g)) (it_i s)) by lia. exact HC.
    + specialize (Hf ME). apply fire_inv in Hf. cbn [qat] in Hf. destruct Hf as [(_ & -> & _)|(y & Ey & _ & _ & ->)]; [exact C2|]. intros k Hk _.
      rewrite Ey in HE. replace k with (qe (it_i s)) by lia. exact HE.
Qed.
Lemma items_counts_c n l s : tracks cfg (arc_pos g) l s -> counts_c s ->
  exists s', tracks cfg (arc_pos g) (l ++ items_from cfg (GCircular g) n s) s' /\ counts_c s'.
Proof.
  revert l s. induction n as [|n IH]; intros l s T C; cbn [items_from].
  - exists s. now rewrite app_nil_r.
  - destruct (next cfg (GCircular g) s) as [[[it s']|]|e] eqn:E; try (exists s; now rewrite app_nil_r).
    destruct (IH (l ++ [it]) s' (tracks_next _ _ _ _ _ _ _ (arc_follows cfg g OC) T E) (counts_c_next _ _ _ C E)) as (s2 & H). exists s2. rewrite <- app_assoc in H. exact H.
Qed.
Lemma arc_third n : let l := items cfg (GCircular g) n in
  (travel cfg (motor_c pl) l = c_third_dir g * steps (motor_c pl) l /\ forall k, steps (motor_c pl) l = k + 1 -> 0 <= k -> leb (c_iterations_3rd g) (ofZ k) = false) /\
  (travel cfg ME l = c_e_dir g * steps ME l /\ forall k, steps ME l = k + 1 -> 0 <= k -> leb (c_iterations_e g) (ofZ k) = false).
Proof.
  intros l. assert (T := items_travel cfg (GCircular g) (arc_pos g) n). fold l in T.
  assert (Tc := T (motor_c pl) (arc_follows cfg g OC)). assert (Te := T ME (arc_follows cfg g OC)). unfold arc_pos in Tc, Te. fold pl in Tc, Te. rewrite !from_axes_c in Tc. rewrite !from_axes_e in Te.
  assert (C: (forall k, steps (motor_c pl) l = k + 1 -> 0 <= k -> leb (c_iterations_3rd g) (ofZ k) = false) /\ (forall k, steps ME l = k + 1 -> 0 <= k -> leb (c_iterations_e g) (ofZ k) = false)).
  { unfold l, items. destruct (iter_start cfg (GCircular g)) as [s|e] eqn:E; [|cbn; split; lia].
    assert (C: counts_c s).
    { unfold iter_start in E. destruct (div _ _) as [c|]; cbn [rbind] in E; [|discriminate]. injection E as <-.
      split; cbn [it_i]; destruct pl; cbn; lia. }
    destruct (items_counts_c n [] s (tracks_start _ _ _ _ E) C) as (s' & [T1 _ _] & C1 & C2). cbn [app] in T1. rewrite !T1. split; assumption. }
  destruct C as [C1 C2]. split; (split; [lia|assumption]).
Qed.
End Travel.
