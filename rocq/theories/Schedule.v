(** The iteration of any pulse generator in exact arithmetic, when the times of the
    steps of each motor increase: the items come in the order of those times. *)
From Coq Require Import ZArith Bool List Lia Reals Lra.
From Verif Require Import PyBase PyNum Config Coordinates Pulses PulseSpec LinearGen LinearReal LinearRun ArcSpec ArcRun.
From Coq Require Import List.
Import ListNotations.
Local Open Scope R_scope.

Section Items.
Context {N : PyNum}.
Lemma items_from_firstn cfg (g : gen N) n k s : (k <= n)%nat -> firstn k (items_from cfg g n s) = items_from cfg g k s.
Proof.
  revert k s. induction n as [|n IH]; intros k s H.
  - replace k with 0%nat by lia. reflexivity.
  - destruct k as [|k]; [reflexivity|]. cbn [items_from]. destruct (next cfg g s) as [[[it s']|]|e]; [cbn [firstn]; f_equal; apply IH; lia|reflexivity|reflexivity].
Qed.
Lemma items_from_length cfg (g : gen N) n s : (length (items_from cfg g n s) <= n)%nat.
Proof. revert s. induction n as [|n IH]; intros s; cbn [items_from]; [cbn; lia|]. destruct (next cfg g s) as [[[it s']|]|e]; cbn [length]; [specialize (IH s')|..]; lia. Qed.
(** A first part of the items of a generator. *)
Lemma items_prefix cfg (g : gen N) n l1 l2 : items cfg g n = l1 ++ l2 -> items cfg g (length l1) = l1.
Proof.
  unfold items. destruct (iter_start cfg g) as [s|e]; intros H.
  - assert (L := items_from_length cfg g n s). rewrite H, app_length in L. rewrite <- (items_from_firstn cfg g n) by lia.
    rewrite H, firstn_app, Nat.sub_diag, firstn_all. cbn [firstn]. apply app_nil_r.
  - destruct l1; [reflexivity|discriminate H].
Qed.
End Items.

Section Schedule.
Variable cfg : config.
Variable g : gen RN.
(** Number of steps of each motor, and their times of uniform movement. *)
Variable n : motor -> Z.
Variable tm : motor -> Z -> R.
Hypothesis Hi : forall i, (forall m, 0 <= qat m i <= n m)%Z ->
  exists d t, gen_interp cfg g i = Ok (d, t) /\ forall m, qat m t = if (qat m i <? n m)%Z then Some (tm m (qat m i) : RN) else None.
Hypothesis mono : forall m i j, (0 <= i)%Z -> (i < j)%Z -> (j < n m)%Z -> tm m i < tm m j.
Hypothesis nonneg : forall m i, (0 <= i < n m)%Z -> 0 <= tm m i.
Hypothesis n_nonneg : forall m, (0 <= n m)%Z.

(** The steps that are due until the time [y], and no others, have been made. *)
Definition due (y : R) (i : motor -> Z) : Prop := forall m, (0 <= i m <= n m)%Z /\
  ((0 < i m)%Z -> tm m (i m - 1) <= y) /\ ((i m < n m)%Z -> y < tm m (i m)).

Inductive timed (c : R) : R -> (motor -> Z) -> list (item RN) -> Prop :=
| td_nil x i : (forall m, i m = n m) -> timed c x i []
| td_dir x i d l : timed c x i l -> timed c x i (Dir d :: l)
| td_pulse x i y (am : R) (q : quad (option RN)) l :
    x < y -> (exists m, (0 <= i m < n m)%Z /\ y = tm m (i m)) ->
    to_accelerated_time (N:=RN) (gen_acc g) (gen_lin g) c y = Ok (am : RN) ->
    (forall m, qat m q = None \/ (qat m q = Some (am : RN) /\ (0 <= i m < n m)%Z /\ y = tm m (i m))) -> (exists m, qat m q = Some (am : RN)) ->
    due y (fun m => i m + step_of (N:=RN) m (Pulse q))%Z ->
    timed c y (fun m => i m + step_of (N:=RN) m (Pulse q))%Z l -> timed c x i (Pulse q :: l).

Lemma timed_ext c x i j l : (forall m, i m = j m) -> timed c x i l -> timed c x j l.
Proof.
  intros E H. revert j E. induction H as [x i H|x i d l H IH|x i y am q l Hxy (m0 & M0) Ha Hq Hm Hd H IH]; intros j E.
  - constructor. intros m. rewrite <- E. apply H.
  - constructor. now apply IH.
  - apply (td_pulse c x j y am q l); auto.
    + exists m0. now rewrite <- E.
    + intros m. rewrite <- E. apply Hq.
    + intros m. rewrite <- E. apply Hd.
    + apply IH. intros m. now rewrite E.
Qed.
Lemma iterate_timed fuel s l x : due x (fun m => qat m (it_i s)) -> iterate cfg fuel g s = Finished l -> timed (it_c s) x (fun m => qat m (it_i s)) l.
Proof.
  revert s l x. induction fuel as [|f IH]; intros s l x D H; [discriminate H|]. cbn [iterate] in H.
  destruct (next cfg g s) as [[[it s']|]|e] eqn:E; [| |discriminate H].
  - destruct (iterate cfg f g s') as [l'| |] eqn:E2; try discriminate H. injection H as <-.
    assert (W: forall m, (0 <= qat m (it_i s) <= n m)%Z) by (intros m; apply D). destruct (Hi _ W) as (d0 & t0 & Ei & Et).
    apply next_pulse in E. destruct E as (d & t & Hi' & K). rewrite Ei in Hi'. injection Hi' as <- <-.
    destruct K as [(_ & K)|[(_ & _ & K)|(Hd & y & am & q & s2 & Hm & Ha & K & Hd' & Hc & Hf)]]; [|discriminate K|]; injection K as -> ->.
    + constructor. exact (IH {| it_i := it_i s; it_dir := _; it_c := it_c s |} l' x D E2).
    + destruct (min_time_some _ _ Hm) as [m0 Hm0]. rewrite Et in Hm0. destruct (Z.ltb_spec (qat m0 (it_i s)) (n m0)) as [L0|L0]; [|discriminate Hm0]. injection Hm0 as Hm0.
      assert (X: forall m, qat m (it_i s2) = (qat m (it_i s) + step_of (N:=RN) m (Pulse q))%Z /\
                 ((qat m q = None /\ step_of (N:=RN) m (Pulse q) = 0%Z /\ ((qat m (it_i s) < n m)%Z -> y < tm m (qat m (it_i s)))) \/
                  (qat m q = Some (am : RN) /\ step_of (N:=RN) m (Pulse q) = 1%Z /\ (qat m (it_i s) < n m)%Z /\ tm m (qat m (it_i s)) = y))).
      { intros m. specialize (Hf m). apply fire_inv in Hf. cbn [step_of]. destruct Hf as [(-> & -> & Hl)|(z & Ez & Hl & -> & ->)].
        - split; [lia|]. left. split; [reflexivity|]. split; [reflexivity|]. intros Lm. rewrite Et in Hl. apply Z.ltb_lt in Lm. rewrite Lm in Hl.
          specialize (Hl _ eq_refl). change (Rltb y (tm m (qat m (it_i s))) = true) in Hl. now apply Rltb_true in Hl.
        - split; [lia|]. right. split; [reflexivity|]. split; [reflexivity|]. assert (Mz := min_time_le _ _ Hm m z Ez).
          change (Rltb y z = false) in Hl. apply Rltb_false in Hl. rewrite Et in Ez. destruct (Z.ltb_spec (qat m (it_i s)) (n m)) as [L|L]; [|discriminate Ez].
          injection Ez as Ez. split; [exact L|]. rewrite Ez. lra. }
      assert (Y: x < y) by (rewrite <- Hm0; apply D; exact L0).
      assert (D': due y (fun m => (qat m (it_i s) + step_of (N:=RN) m (Pulse q))%Z)).
      { intros m. destruct (X m) as [_ [(_ & -> & X2)|(_ & -> & X2 & X3)]]; destruct (D m) as (D1 & D2 & D3).
        - rewrite Z.add_0_r. split; [exact D1|]. split; [|exact X2]. intros P. specialize (D2 P). lra.
        - split; [lia|]. split.
          + intros _. replace (qat m (it_i s) + 1 - 1)%Z with (qat m (it_i s)) by lia. lra.
          + intros L. rewrite <- X3. apply mono; lia. }
      assert (E3: forall m, (qat m (it_i s) + step_of (N:=RN) m (Pulse q))%Z = qat m (it_i s2)) by (intros m; symmetry; apply X).
      apply (td_pulse _ x _ y am q l'); auto.
      * exists m0. split; [specialize (W m0); lia|now symmetry].
      * intros m. destruct (X m) as [_ [(Q & _)|(Q & _ & Q1 & Q2)]]; [left; exact Q|]. right. split; [exact Q|]. split; [split; [apply W|exact Q1]|now symmetry].
      * exists m0. destruct (X m0) as [_ [(_ & _ & Q)|(Q & _)]]; [|exact Q]. specialize (Q L0). lra.
      * apply (timed_ext _ _ (fun m => qat m (it_i s2))); [intros m; now rewrite E3|]. rewrite <- Hc. apply IH; [|exact E2]. intros m. rewrite <- E3. apply D'.
  - injection H as <-. constructor. intros m.
    assert (W: forall m, (0 <= qat m (it_i s) <= n m)%Z) by (intros m'; apply D). destruct (Hi _ W) as (d0 & t0 & Ei & Et).
    apply next_pulse in E. destruct E as (d & t & Hi' & K). rewrite Ei in Hi'. injection Hi' as <- <-.
    destruct K as [(_ & K)|[(_ & K & _)|(_ & y & am & q & s2 & _ & _ & K & _)]]; try discriminate K.
    specialize (K m). rewrite Et in K. destruct (Z.ltb_spec (qat m (it_i s)) (n m)); [discriminate K|]. specialize (W m). lia.
Qed.
Lemma completes_timed l : completes cfg g l -> exists s, iter_start cfg g = Ok s /\ timed (it_c s) (-1) (fun _ => 0%Z) l.
Proof.
  intros [fuel H]. unfold run_gen in H. destruct (iter_start cfg g) as [s|e] eqn:E; [|discriminate H]. exists s. split; [reflexivity|].
  assert (Z0: forall m, qat m (it_i s) = 0%Z).
  { unfold iter_start in E. destruct (div _ _) as [c|]; cbn [rbind] in E; [|discriminate]. injection E as <-. intros []; reflexivity. }
  apply (timed_ext _ _ (fun m => qat m (it_i s))); [exact Z0|]. apply (iterate_timed fuel); [|exact H].
  intros m. rewrite Z0. split; [split; [lia|apply n_nonneg]|]. split; [lia|]. intros L. assert (0 <= tm m 0) by (apply nonneg; lia). lra.
Qed.
Lemma timed_total c x i l : timed c x i l -> forall m, (i m + steps m l = n m)%Z.
Proof.
  intros H. induction H as [x i H|x i d l H IH|x i y am q' l Hxy (m0 & M0) Ha Hq Hm Hd H IH]; intros m.
  - cbn [steps fold_right]. rewrite Z.add_0_r. apply H.
  - apply IH.
  - change (steps m (Pulse q' :: l)) with (step_of (N:=RN) m (Pulse q') + steps m l)%Z. rewrite Z.add_assoc. apply IH.
Qed.
(** The times of the pulses, by their place in the list. *)
Lemma timed_places c x i l : timed c x i l -> exists f : nat -> R,
  (forall l1 q l2, l = l1 ++ Pulse q :: l2 -> due (f (length l1)) (fun m => i m + steps m (l1 ++ [Pulse q]))%Z /\ x < f (length l1) /\
     (exists m k, (0 <= k < n m)%Z /\ f (length l1) = tm m k) /\
     forall m x, qat m q = Some x -> to_accelerated_time (N:=RN) (gen_acc g) (gen_lin g) c (f (length l1)) = Ok x /\
       (0 <= i m + steps m l1 < n m)%Z /\ f (length l1) = tm m (i m + steps m l1)) /\
  (forall l1 q l2 l1' q' l2', l = l1 ++ Pulse q :: l2 -> l = l1' ++ Pulse q' :: l2' -> (length l1 < length l1')%nat -> f (length l1) < f (length l1')).
Proof.
  intros H. induction H as [x i H|x i d l H (f & F1 & F2)|x i y am q' l Hxy (m0 & M0) Ha Hq Hm Hd H (f & F1 & F2)].
  - exists (fun _ => 0). split; intros [|]; discriminate.
  - exists (fun k => match k with O => 0 | S k => f k end). split.
    + intros [|it l1] q l2 E; [discriminate E|]. injection E as <- E. exact (F1 l1 q l2 E).
    + intros [|it l1] q l2 [|it' l1'] q' l2' E E' L; try discriminate. injection E as _ E. injection E' as _ E'. cbn [length] in L |- *.
      apply (F2 l1 q l2 l1' q' l2' E E'). lia.
  - exists (fun k => match k with O => y | S k => f k end). split.
    + intros [|it l1] q l2 E; injection E as <- E.
      * cbn [length]. split; [|split; [exact Hxy|split; [exists m0, (i m0); exact M0|]]]; [|intros m z Ez; destruct (Hq m) as [Q|(Q & Q1 & Q2)]; rewrite Q in Ez; [discriminate Ez|injection Ez as <-; cbn [steps fold_right]; rewrite Z.add_0_r; split; [exact Ha|split; assumption]]]. intros m. specialize (Hd m). cbn [app steps fold_right]. rewrite Z.add_0_r. exact Hd.
      * destruct (F1 l1 q l2 E) as (D & X & Y & Y'). cbn [length]. split; [|split; [lra|split; [exact Y|]]].
        2: { intros m z Ez. destruct (Y' m z Ez) as (Y1 & Y2 & Y3). change (steps m (Pulse q' :: l1)) with (step_of (N:=RN) m (Pulse q') + steps m l1)%Z. rewrite Z.add_assoc. split; [exact Y1|split; assumption]. }
        intros m. specialize (D m). cbn [app].
        change (steps m (Pulse q' :: l1 ++ [Pulse q])) with (step_of (N:=RN) m (Pulse q') + steps m (l1 ++ [Pulse q]))%Z. rewrite Z.add_assoc. exact D.
    + intros [|it l1] q l2 [|it' l1'] q2 l2' E E' L; cbn [length] in L |- *; try lia.
      * injection E' as _ E'. destruct (F1 l1' q2 l2' E') as (_ & X & _). exact X.
      * injection E as _ E. injection E' as _ E'. apply (F2 l1 q l2 l1' q2 l2' E E'). lia.
Qed.
End Schedule.
