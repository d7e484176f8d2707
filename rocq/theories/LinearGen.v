(** The iteration of a linear pulse generator, over any numbers in which no
    number is smaller than itself. *)
From Coq Require Import ZArith Bool List Lia.
From Verif Require Import PyBase PyNum Config Coordinates Pulses PulseSpec.
From Coq Require Import List.
Import ListNotations.
Local Open Scope Z_scope.

Section Gen.
Context {N : PyNum}.
Hypothesis ltb_irrefl : forall x : N, ltb x x = false.
Variable cfg : config.

Lemma min_time_some (q : quad (option N)) x : min_time q = Some x -> exists m, qat m q = Some x.
Proof.
  unfold min_time, min_step. intros H.
  destruct (qx q) as [x1|] eqn:E1, (qy q) as [x2|] eqn:E2, (qz q) as [x3|] eqn:E3, (qe q) as [x4|] eqn:E4;
  repeat match goal with H : context [if ?b then _ else _] |- _ => destruct b end;
  try discriminate H; injection H as <-;
  first [exists MX; assumption|exists MY; assumption|exists MZ; assumption|exists ME; assumption].
Qed.
Lemma min_time_none (q : quad (option N)) : min_time q = None <-> forall m, qat m q = None.
Proof.
  unfold min_time, min_step. split.
  - intros H m.
    destruct (qx q) as [x1|] eqn:E1, (qy q) as [x2|] eqn:E2, (qz q) as [x3|] eqn:E3, (qe q) as [x4|] eqn:E4;
    repeat match goal with H : context [if ?b then _ else _] |- _ => destruct b end;
    try discriminate H; destruct m; assumption.
  - intros H. pose proof (H MX) as E1. pose proof (H MY) as E2. pose proof (H MZ) as E3. pose proof (H ME) as E4.
    cbn in *. now rewrite E1, E2, E3, E4.
Qed.

Lemma quadZ_eqb_refl q : quadZ_eqb q q = true.
Proof. unfold quadZ_eqb. now rewrite !Z.eqb_refl. Qed.
Lemma quadZ_eqb_eq p q : quadZ_eqb p q = true -> p = q.
Proof.
  unfold quadZ_eqb. rewrite !andb_true_iff, !Z.eqb_eq. intros (((H1 & H2) & H3) & H4). destruct p, q; cbn in *; congruence.
Qed.

(** One pulse message, for a generator of either class. *)
Lemma next_pulse g (s : iter_state N) r : next cfg g s = Ok r ->
  exists direction t, gen_interp cfg g (it_i s) = Ok (direction, t) /\
  ( ((match it_dir s with None => true | Some d => negb (quadZ_eqb direction d) end) = true /\
     r = Some (Dir (invert_dirs cfg direction), {| it_i := it_i s; it_dir := Some direction; it_c := it_c s |}))
  \/ (it_dir s = Some direction /\ (forall m, qat m t = None) /\ r = None)
  \/ (it_dir s = Some direction /\ exists x am q s',
        min_time t = Some x /\ to_accelerated_time (gen_acc g) (gen_lin g) (it_c s) x = Ok am /\
        r = Some (Pulse q, s') /\ it_dir s' = it_dir s /\ it_c s' = it_c s /\
        forall m, (qat m q, qat m (it_i s')) = fire x am (qat m t) (qat m (it_i s)))).
Proof.
  unfold next. destruct (gen_interp cfg g (it_i s)) as [[direction t]|e] eqn:E; cbn [rbind]; [|discriminate].
  intros H. exists direction, t. split; [reflexivity|].
  destruct (match it_dir s with None => true | Some d => negb (quadZ_eqb direction d) end) eqn:Ed.
  { left. injection H as <-. auto. }
  right. assert (D: it_dir s = Some direction).
  { destruct (it_dir s) as [d|]; [|discriminate]. apply negb_false_iff, quadZ_eqb_eq in Ed. now subst. }
  destruct (min_time t) as [x|] eqn:Em.
  2: { left. injection H as <-. rewrite min_time_none in Em. auto. }
  right. split; [exact D|]. destruct (to_accelerated_time _ _ _ x) as [am|e] eqn:Ea; cbn [rbind] in H; [|discriminate].
  destruct (fire x am (qx t) (qx (it_i s))) as [tx ix] eqn:F1. destruct (fire x am (qy t) (qy (it_i s))) as [ty iy] eqn:F2.
  destruct (fire x am (qz t) (qz (it_i s))) as [tz iz] eqn:F3. destruct (fire x am (qe t) (qe (it_i s))) as [te ie] eqn:F4.
  injection H as <-. eexists x, am, _, _. repeat (split; [first [reflexivity|eassumption]|]).
  intros []; cbn; auto.
Qed.

Lemma fire_inv x am t i q i' : (q, i') = fire (N:=N) x am t i ->
  (q = None /\ i' = i /\ forall y, t = Some y -> ltb x y = true) \/
  (exists y, t = Some y /\ ltb x y = false /\ q = Some am /\ i' = i + 1).
Proof.
  unfold fire. destruct t as [y|].
  - destruct (ltb x y) eqn:E; intros H; injection H as -> ->.
    + left. repeat split. intros y' H. now injection H as <-.
    + right. exists y. auto.
  - intros H. injection H as -> ->. left. repeat split. discriminate.
Qed.

(* ---------- linear ---------- *)
Variable g : linear_gen N.

Definition pending (i : quad Z) : Z :=
  (qx (l_total g) - qx i) + (qy (l_total g) - qy i) + (qz (l_total g) - qz i) + (qe (l_total g) - qe i).
Definition within (i : quad Z) : Prop := forall m, 0 <= qat m i <= qat m (l_total g).

Lemma linear_time_spec i p total v r : linear_time (N:=N) i p total v = Ok r ->
  0 <= i <= total ->
  match r with None => i = total | Some t => i < total /\ exists q, div (ofZ i) (ofZ p) = Ok q /\ div q v = Ok t end.
Proof.
  unfold linear_time. destruct ((total =? 0) || (total <=? i)) eqn:E.
  - intros H. injection H as <-. rewrite orb_true_iff, Z.eqb_eq, Z.leb_le in E. lia.
  - rewrite orb_false_iff, Z.eqb_neq, Z.leb_gt in E.
    destruct (div (ofZ i) (ofZ p)) as [q|e] eqn:E1; cbn [rbind]; [|discriminate].
    destruct (div q v) as [t|e] eqn:E2; cbn [rbind]; [|discriminate]. intros H Hi. injection H as <-. split; [lia|]. eauto.
Qed.

Lemma linear_interp_spec i d t : linear_interp cfg g i = Ok (d, t) ->
  d = l_dir g /\
  forall m, linear_time (qat m i) (qat m (ppm cfg)) (qat m (l_total g)) (qat m (l_vel g)) = Ok (qat m t).
Proof.
  unfold linear_interp. intros H.
  destruct (linear_time (qx i) _ _ _) as [a1|] eqn:E1; cbn [rbind] in H; [|discriminate].
  destruct (linear_time (qy i) _ _ _) as [a2|] eqn:E2; cbn [rbind] in H; [|discriminate].
  destruct (linear_time (qz i) _ _ _) as [a3|] eqn:E3; cbn [rbind] in H; [|discriminate].
  destruct (linear_time (qe i) _ _ _) as [a4|] eqn:E4; cbn [rbind] in H; [|discriminate].
  injection H as <- <-. split; [reflexivity|]. intros []; assumption.
Qed.

(** One step of the iteration after the direction message. *)
Lemma linear_next s r : it_dir s = Some (l_dir g) -> within (it_i s) -> next cfg (GLinear g) s = Ok r ->
  (r = None /\ forall m, qat m (it_i s) = qat m (l_total g)) \/
  (exists q s' am, r = Some (Pulse q, s') /\ it_dir s' = Some (l_dir g) /\ within (it_i s') /\
     pulse_at am (Pulse q) /\ (forall m, qat m (it_i s') = qat m (it_i s) + step_of m (Pulse q)) /\
     pending (it_i s') < pending (it_i s)).
Proof.
  intros Hd Hw H. apply next_pulse in H. destruct H as (d & t & Hi & H). cbn [gen_interp] in Hi.
  apply linear_interp_spec in Hi. destruct Hi as [-> Ht].
  assert (TS: forall m, match qat m t with None => qat m (it_i s) = qat m (l_total g) | Some _ => qat m (it_i s) < qat m (l_total g) end).
  { intros m. specialize (Ht m). apply linear_time_spec in Ht; [|apply Hw]. destruct (qat m t); [apply Ht|exact Ht]. }
  destruct H as [(H & _)|[(_ & Hn & ->)|(_ & x & am & q & s' & Hm & Ha & -> & Hd' & Hc & Hf)]].
  - rewrite Hd, quadZ_eqb_refl in H. discriminate.
  - left. split; [reflexivity|]. intros m. specialize (TS m). now rewrite Hn in TS.
  - right. exists q, s', am. split; [reflexivity|]. split; [congruence|].
    assert (ST: forall m, (step_of m (Pulse q) = 0 \/ step_of m (Pulse q) = 1 /\ qat m (it_i s) < qat m (l_total g) /\ qat m q = Some am)
                          /\ qat m (it_i s') = qat m (it_i s) + step_of m (Pulse q)).
    { intros m. specialize (Hf m). cbn [step_of]. apply fire_inv in Hf. destruct Hf as [(-> & -> & _)|(y & Ey & _ & -> & ->)].
      - split; [now left|lia].
      - split; [|lia]. right. specialize (TS m). rewrite Ey in TS. auto. }
    destruct (min_time_some _ _ Hm) as [mm Hmm].
    assert (SM: step_of mm (Pulse q) = 1 /\ qat mm q = Some am).
    { specialize (Hf mm). rewrite Hmm in Hf. apply fire_inv in Hf. destruct Hf as [(_ & _ & Hl)|(y & _ & _ & E & _)].
      - specialize (Hl x eq_refl). rewrite ltb_irrefl in Hl. discriminate.
      - cbn [step_of]. now rewrite E. }
    split; [|split; [|split]].
    + intros m. destruct (ST m) as [H1 H2]. specialize (Hw m). lia.
    + exists q. split; [reflexivity|]. split; [exists mm; apply SM|]. intros m t' Et.
      specialize (Hf m). apply fire_inv in Hf. destruct Hf as [(E & _)|(y & _ & _ & E & _)]; congruence.
    + intros m. apply ST.
    + unfold pending. pose proof (ST MX) as [A1 B1]. pose proof (ST MY) as [A2 B2]. pose proof (ST MZ) as [A3 B3]. pose proof (ST ME) as [A4 B4].
      cbn [qat] in B1, B2, B3, B4. destruct SM as [SM _]. destruct mm; lia.
Qed.

Definition is_pulse (it : item N) : Prop := exists t, pulse_at t it.

(** The whole iteration. *)
Lemma iterate_linear fuel s : it_dir s = Some (l_dir g) -> within (it_i s) -> (Z.to_nat (pending (it_i s)) < fuel)%nat ->
  match iterate cfg fuel (GLinear g) s with
  | Finished l => (forall m, qat m (it_i s) + steps m l = qat m (l_total g)) /\ Forall is_pulse l
  | Failed l e => (forall m, qat m (it_i s) + steps m l <= qat m (l_total g)) /\ Forall is_pulse l
  | OutOfFuel => False
  end.
Proof.
  revert s. induction fuel as [|f IH]; intros s Hd Hw Hf; [lia|]. cbn [iterate].
  destruct (next cfg (GLinear g) s) as [r|e] eqn:E.
  2: { split; [|constructor]. intros m. cbn. specialize (Hw m). lia. }
  apply linear_next in E; [|assumption|assumption].
  destruct E as [(-> & H)|(q & s' & am & -> & Hd' & Hw' & Hp & Hs & Hq)].
  - split; [|constructor]. intros m. cbn. rewrite H. lia.
  - assert (P0: 0 <= pending (it_i s')).
    { unfold pending. pose proof (Hw' MX). pose proof (Hw' MY). pose proof (Hw' MZ). pose proof (Hw' ME). cbn in *. lia. }
    specialize (IH s' Hd' Hw' ltac:(lia)). destruct (iterate cfg f (GLinear g) s') as [l|l e|]; [| |exact IH].
    + destruct IH as [IH1 IH2]. split; [|constructor; [exists am; exact Hp|exact IH2]]. intros m.
      cbn [steps fold_right]. fold (steps m l). specialize (IH1 m). rewrite Hs in IH1. lia.
    + destruct IH as [IH1 IH2]. split; [|constructor; [exists am; exact Hp|exact IH2]]. intros m.
      cbn [steps fold_right]. fold (steps m l). specialize (IH1 m). rewrite Hs in IH1. lia.
Qed.

Definition zero4 : quad Z := Quad 0 0 0 0.
Lemma run_linear fuel : (forall m, 0 <= qat m (l_total g)) -> (Z.to_nat (pending zero4) + 1 < fuel)%nat ->
  match run_gen cfg fuel (GLinear g) with
  | Finished l => exists l', l = Dir (invert_dirs cfg (l_dir g)) :: l' /\
                    (forall m, steps m l' = qat m (l_total g)) /\ Forall is_pulse l'
  | Failed l e => l = [] \/ exists l', l = Dir (invert_dirs cfg (l_dir g)) :: l' /\
                    (forall m, steps m l' <= qat m (l_total g)) /\ Forall is_pulse l'
  | OutOfFuel => False
  end.
Proof.
  intros Ht Hf. unfold run_gen. destruct (iter_start cfg (GLinear g)) as [s|e] eqn:E; [|now left].
  unfold iter_start in E. destruct (div _ _) as [c|] in E; cbn [rbind] in E; [|discriminate]. injection E as <-.
  destruct fuel as [|f]; [lia|]. cbn [iterate].
  destruct (next cfg (GLinear g) _) as [r|e] eqn:En; [|now left].
  apply next_pulse in En. cbn [it_i it_dir it_c gen_interp] in En. destruct En as (d & t & Hi & [(_ & ->)|[(H & _)|(H & _)]]); try discriminate H.
  apply linear_interp_spec in Hi. destruct Hi as [-> _].
  set (s := {| it_i := _; it_dir := _; it_c := _ |}).
  assert (W: within (it_i s)). { intros m. specialize (Ht m). destruct m; cbn in *; lia. }
  pose proof (iterate_linear f s eq_refl W ltac:(fold zero4; change (it_i s) with zero4; lia)) as K.
  assert (Z0: forall m, qat m (it_i s) = 0) by (intros []; reflexivity).
  destruct (iterate cfg f (GLinear g) s) as [l|l e|]; [| |exact K].
  - exists l. split; [reflexivity|]. split; [|apply K]. intros m. destruct K as [K _]. specialize (K m). rewrite Z0 in K. lia.
  - right. exists l. split; [reflexivity|]. split; [|apply K]. intros m. destruct K as [K _]. specialize (K m). rewrite Z0 in K. lia.
Qed.
End Gen.

(** More fuel does not change a finished iteration. *)
Section Fuel.
Context {N : PyNum}.
Lemma iterate_more cfg f1 f2 (g : gen N) s l : iterate cfg f1 g s = Finished l -> (f1 <= f2)%nat -> iterate cfg f2 g s = Finished l.
Proof.
  revert f2 s l. induction f1 as [|f1 IH]; intros f2 s l H K; [discriminate H|]. destruct f2 as [|f2]; [lia|].
  cbn [iterate] in *. destruct (next cfg g s) as [[[it s']|]|e]; [|exact H|discriminate H].
  destruct (iterate cfg f1 g s') as [l'| |] eqn:E; try discriminate H. rewrite (IH f2 s' l' E) by lia. exact H.
Qed.
Lemma run_gen_det cfg f1 f2 (g : gen N) l1 l2 : run_gen cfg f1 g = Finished l1 -> run_gen cfg f2 g = Finished l2 -> l1 = l2.
Proof.
  unfold run_gen. destruct (iter_start cfg g) as [s|e]; [|discriminate]. intros H1 H2.
  destruct (Nat.le_ge_cases f1 f2) as [K|K].
  - rewrite (iterate_more _ _ _ _ _ _ H1 K) in H2. now injection H2.
  - rewrite (iterate_more _ _ _ _ _ _ H2 K) in H1. now injection H1.
Qed.
End Fuel.
